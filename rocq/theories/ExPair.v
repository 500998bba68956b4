(** * Programs and their duals *)
From Verif Require Import SpecFile TextPipeline TextP FileP ExParse Examples ExGeneral.
From Verif Require Export ExFile ExAnswers PairP.
Local Open Scope string_scope.
Local Open Scope list_scope.
Local Open Scope Qc_scope.

(** two constraints [X] and [Y] of one kind over two variables [LIM1] and [LIM2], one of which is not positive *)
Definition price_file (name : string) (sense : option direction) (k : relation_kind) (low : string) (c1 c2 x1 y1 x2 y2 bx by_ : Qc) : file := {|
  f_name := name;
  f_sense := sense;
  f_rows := [(None, "WORTH"); (Some k, "X"); (Some k, "Y")];
  f_columns := [Entries "LIM1" [("WORTH", c1); ("X", x1)]; Entries "LIM1" [("Y", y1)]; Entries "LIM2" [("WORTH", c2); ("X", x2)]; Entries "LIM2" [("Y", y2)]];
  f_rhs := [("RHS", [("X", bx); ("Y", by_)])];
  f_ranges := [];
  f_bounds := [(LowerMinusInfinity, "BND", low)]
|}.
Lemma price_ok name sense k low c1 c2 x1 y1 x2 y2 bx by_ : name_okb name = true -> name_okb low = true -> (low = "LIM1" \/ low = "LIM2") -> file_ok (price_file name sense k low c1 c2 x1 y1 x2 y2 bx by_).
Proof.
  intros N NL L. constructor; cbn [price_file f_name f_sense f_rows f_columns f_rhs f_ranges f_bounds].
  - now apply name_okb_ok.
  - intros k0 r H. cbn in H. repeat (destruct H as [H|H]; [injection H as <- <-; split; [now apply name_okb_ok|discriminate]|]). destruct H.
  - cbn. repeat constructor; cbn; intuition discriminate.
  - intros c values H. cbn in H. repeat (destruct H as [H|H]; [first [discriminate H|injection H as <- <-; now apply first_okb_ok]|]). destruct H.
  - cbn. repeat constructor; cbn; intuition discriminate.
  - cbn. repeat constructor; cbn; intuition discriminate.
  - intros g values H. cbn in H. repeat (destruct H as [H|H]; [injection H as <- <-; now apply first_okb_ok|]). destruct H.
  - cbn. repeat constructor; cbn; intuition discriminate.
  - intros g values H. destruct H.
  - cbn. repeat constructor; cbn; intuition discriminate.
  - intros t g c H. cbn in H. repeat (destruct H as [H|H]; [injection H as <- <- <-; split; [now apply name_okb_ok|intros X; exact X]|]). destruct H.
  - exists "WORTH". split; [now left|]. intros c H. cbn in H. repeat (destruct H as [H|H]; [first [discriminate H|now injection H as <-]|]). destruct H.
  - intros c r v H. cbn in H. repeat (destruct H as [H|H]; [injection H as <- <- <-; cbn; tauto|]). destruct H.
  - intros c r v H. cbn in H. repeat (destruct H as [H|H]; [injection H as <- <- <-; cbn; tauto|]). destruct H.
  - intros c r v H. destruct H.
  - intros t g c H. cbn in H. destruct H as [H|[]]; injection H as <- <- <-; cbn; destruct L as [->| ->]; tauto.
Qed.
Lemma price_solvable name sense k low c1 c2 x1 y1 x2 y2 bx by_ : name_okb name = true -> name_okb low = true -> (low = "LIM1" \/ low = "LIM2") -> (forall v, In v [c1; c2; x1; y1; x2; y2] -> v <> 0%Qc) ->
  file_solvable (price_file name sense k low c1 c2 x1 y1 x2 y2 bx by_).
Proof.
  intros N NL L NZ. constructor.
  - exact (file_ok_rules _ (price_ok _ _ _ _ _ _ _ _ _ _ _ _ N NL L)).
  - intros c r v H. apply NZ. cbn in H |- *. repeat (destruct H as [H|H]; [injection H as <- <- <-; tauto|]). destruct H.
  - cbn. repeat constructor; cbn; intuition discriminate.
  - intros g r v H. destruct H.
  - intros t g g' c H. cbn in H. destruct H as [H|[]]; discriminate H.
  - intros c H. exists 0%Qc. split; [|intros _; apply Qcle_refl]. intros t g T. cbn in T. destruct T as [T|[]]; injection T as <- <- <-; apply Qcle_refl.
Qed.
Lemma low_allowed name sense k low c1 c2 x1 y1 x2 y2 bx by_ c x : fallowed (price_file name sense k low c1 c2 x1 y1 x2 y2 bx by_) c x <-> (if String.eqb c low then x <= 0 else 0 <= x).
Proof.
  unfold fallowed. cbn [price_file f_bounds]. destruct (String.eqb_spec c low) as [->|NE]; split.
  - intros [H _]. exact (H LowerMinusInfinity "BND" (or_introl eq_refl)).
  - intros X. split; [|intros H; destruct (H LowerMinusInfinity "BND" (or_introl eq_refl))]. intros t g T. cbn in T. destruct T as [T|[]]; injection T as <- <-; exact X.
  - intros [_ H]. apply H. intros t g T. cbn in T. destruct T as [T|[]]; injection T as _ _ E; now elim NE.
  - intros X. split; [|intros _; exact X]. intros t g T. cbn in T. destruct T as [T|[]]; injection T as _ _ E; now elim NE.
Qed.
Lemma two_allowed name sense cx cy ax ay bx by_ l1 l2 c x : fallowed (two_file name sense cx cy ax ay bx by_ l1 l2) c x <-> 0 <= x.
Proof. unfold fallowed. cbn [two_file f_bounds]. split; [intros [_ H]; apply H; intros t g []|]. intros X. split; [intros t g []|intros _; exact X]. Qed.

(** minimize 4 LIM1 - 2 LIM2 with LIM1 + LIM2 >= 1, LIM1 - LIM2 >= 2, LIM1 >= 0, LIM2 <= 0: its dual is [largest] *)
Definition cheapest : string := "
NAME          CHEAPEST
ROWS
 N  WORTH
 G  X
 G  Y
COLUMNS
    LIM1      WORTH                4   X                    1
    LIM1      Y                    1
    LIM2      WORTH               -2   X                    1
    LIM2      Y                   -1
RHS
    RHS       X                    1   Y                    2
BOUNDS
 MI BND       LIM2
ENDATA
".
Definition cheapest_file : file := price_file "CHEAPEST" None KGreater "LIM2" (q 4 1) (q (-2) 1) (q 1 1) (q 1 1) (q 1 1) (q (-1) 1) (q 1 1) (q 2 1).
(** maximize LIM1 + 2 LIM2 with LIM1 + LIM2 <= -1, -LIM1 + LIM2 <= -1, LIM1 <= 0, LIM2 >= 0: the dual of [no_bound] *)
Definition no_price : string := "
NAME          NOPRICE
OBJSENSE
  MAX
ROWS
 N  WORTH
 L  X
 L  Y
COLUMNS
    LIM1      WORTH                1   X                    1
    LIM1      Y                   -1
    LIM2      WORTH                2   X                    1
    LIM2      Y                    1
RHS
    RHS       X                   -1   Y                   -1
BOUNDS
 MI BND       LIM1
ENDATA
".
Definition no_price_file : file := price_file "NOPRICE" (Some Maximize) KLess "LIM1" (q 1 1) (q 2 1) (q 1 1) (q (-1) 1) (q 1 1) (q 1 1) (q (-1) 1) (q (-1) 1).
Lemma cheapest_ok : file_ok cheapest_file. Proof. apply price_ok; [reflexivity|reflexivity|now right]. Qed.
Lemma no_price_ok : file_ok no_price_file. Proof. apply price_ok; [reflexivity|reflexivity|now left]. Qed.
Lemma cheapest_solvable : file_solvable cheapest_file. Proof. apply price_solvable; [reflexivity|reflexivity|now right|nonzero]. Qed.
Lemma no_price_solvable : file_solvable no_price_file. Proof. apply price_solvable; [reflexivity|reflexivity|now left|nonzero]. Qed.
Lemma cheapest_spelled : spells cheapest cheapest_file.
Proof.
  assert (T : text_of (into_lines cheapest) cheapest) by (apply text_split; vm_compute; reflexivity). exists (into_lines cheapest). split; [|exact T]. clear T.
  exists "          CHEAPEST", [], (firstn 3 (skipn 2 (into_lines cheapest))), (firstn 1 (skipn 1 (into_lines cheapest))), (firstn 4 (skipn 6 (into_lines cheapest))), (firstn 2 (skipn 10 (into_lines cheapest))), [], (firstn 2 (skipn 12 (into_lines cheapest))).
  split; [apply (spaced_split "          CHEAPEST"); reflexivity|].
  split; [vm_compute; exists ""; split; [intros x []|]; reflexivity|].
  split; [vm_compute; repeat (constructor; [dline|]); constructor|].
  split.
  { set (ls := firstn 4 _). vm_compute in ls. subst ls. cbn [cheapest_file price_file f_columns].
    constructor; [split; [now right|]; eexists; split; [constructor; [num false [4%nat] (@None (list nat))|constructor; [num false [1%nat] (@None (list nat))|constructor]]|dline]|].
    constructor; [split; [now left|]; eexists; split; [constructor; [num false [1%nat] (@None (list nat))|constructor]|dline]|].
    constructor; [split; [now right|]; eexists; split; [constructor; [num true [2%nat] (@None (list nat))|constructor; [num false [1%nat] (@None (list nat))|constructor]]|dline]|].
    constructor; [split; [now left|]; eexists; split; [constructor; [num true [1%nat] (@None (list nat))|constructor]|dline]|]. constructor. }
  split.
  { right. set (ls := firstn 2 (skipn 10 _)). vm_compute in ls. subst ls. eexists. split; [reflexivity|]. cbn [cheapest_file price_file f_rhs].
    constructor; [split; [now right|]; eexists; split; [constructor; [num false [1%nat] (@None (list nat))|constructor; [num false [2%nat] (@None (list nat))|constructor]]|dline]|]. constructor. }
  split; [now left|]. split; [|vm_compute; reflexivity].
  right. set (ls := firstn 2 (skipn 12 _)). vm_compute in ls. subst ls. eexists. split; [reflexivity|]. cbn [cheapest_file price_file f_bounds].
  constructor; [eexists; split; [reflexivity|dline]|]. constructor.
Qed.
Lemma no_price_spelled : spells no_price no_price_file.
Proof.
  assert (T : text_of (into_lines no_price) no_price) by (apply text_split; vm_compute; reflexivity). exists (into_lines no_price). split; [|exact T]. clear T.
  exists "          NOPRICE", [], (firstn 3 (skipn 4 (into_lines no_price))), (firstn 3 (skipn 1 (into_lines no_price))), (firstn 4 (skipn 8 (into_lines no_price))), (firstn 2 (skipn 12 (into_lines no_price))), [], (firstn 2 (skipn 14 (into_lines no_price))).
  split; [apply (spaced_split "          NOPRICE"); reflexivity|].
  split; [vm_compute; exists ""; split; [intros x []|]; exists "", "", "MAX"; split; [intros x []|]; split; [intros x []|]; split; [right; now left|reflexivity]|].
  split; [vm_compute; repeat (constructor; [dline|]); constructor|].
  split.
  { set (ls := firstn 4 _). vm_compute in ls. subst ls. cbn [no_price_file price_file f_columns].
    constructor; [split; [now right|]; eexists; split; [constructor; [num false [1%nat] (@None (list nat))|constructor; [num false [1%nat] (@None (list nat))|constructor]]|dline]|].
    constructor; [split; [now left|]; eexists; split; [constructor; [num true [1%nat] (@None (list nat))|constructor]|dline]|].
    constructor; [split; [now right|]; eexists; split; [constructor; [num false [2%nat] (@None (list nat))|constructor; [num false [1%nat] (@None (list nat))|constructor]]|dline]|].
    constructor; [split; [now left|]; eexists; split; [constructor; [num false [1%nat] (@None (list nat))|constructor]|dline]|]. constructor. }
  split.
  { right. set (ls := firstn 2 (skipn 12 _)). vm_compute in ls. subst ls. eexists. split; [reflexivity|]. cbn [no_price_file price_file f_rhs].
    constructor; [split; [now right|]; eexists; split; [constructor; [num true [1%nat] (@None (list nat))|constructor; [num true [1%nat] (@None (list nat))|constructor]]|dline]|]. constructor. }
  split; [now left|]. split; [|vm_compute; reflexivity].
  right. set (ls := firstn 2 (skipn 14 _)). vm_compute in ls. subst ls. eexists. split; [reflexivity|]. cbn [no_price_file price_file f_bounds].
  constructor; [eexists; split; [reflexivity|dline]|]. constructor.
Qed.
Definition cheapest_answer : answer := Solved_to (mk_solution (q 7 1) [("LIM1", q 3 2); ("LIM2", q (-1) 2)]).
Definition largest_answer : answer := Solved_to (mk_solution (q (-7) 1) [("X", q 1 1); ("Y", q 3 1)]).
Lemma pair_answered : answered cheapest_file cheapest_answer /\ answered largest_file largest_answer /\ answered no_bound_file NoBound /\ answered no_price_file NoSolution.
Proof.
  split; [|split; [|split]].
  - apply (from_free _ _ Checked UseLU DescentAlongObjective 40 cheapest cheapest_ok cheapest_spelled). apply text_answer_ok. vm_compute. reflexivity.
  - apply (from_free _ _ Checked UseLU DescentAlongObjective 40 largest largest_ok largest_spelled). apply text_answer_ok. vm_compute. reflexivity.
  - exact (from_free _ _ Checked UseLU DescentAlongObjective 40 no_bound no_bound_ok no_bound_spelled (no_bound_solved _ _ _)).
  - apply (from_free _ _ Checked UseLU DescentAlongObjective 40 no_price no_price_ok no_price_spelled). apply text_answer_ok. vm_compute. reflexivity.
Qed.
Lemma constraint_of f r : is_constraint f r -> In r (constraint_names f). Proof. apply constraint_named. Qed.
Lemma cheapest_dual : dual cheapest_file largest_file.
Proof.
  constructor; try reflexivity.
  - intros r. split; [intros H; cbn in H; destruct H as [<-|[<-|[]]]; exists KGreater; cbn; tauto|]. intros H. apply constraint_of in H. exact H.
  - intros c. split; [intros H; apply constraint_of in H; exact H|]. intros H. cbn in H. destruct H as [<-|[<-|[]]]; [exists KLess|exists KGreater]; cbn; tauto.
  - intros r c H H'. apply constraint_of in H. apply constraint_of in H'. cbn in H, H'. destruct H as [<-|[<-|[]]], H' as [<-|[<-|[]]]; apply Qc_is_canon; vm_compute; reflexivity.
  - intros c H. apply constraint_of in H. cbn in H. left. exists "RHS". destruct H as [<-|[<-|[]]].
    + replace (fcost cheapest_file (only "LIM1")) with (q 4 1) by (apply Qc_is_canon; vm_compute; reflexivity). now left.
    + replace (fcost cheapest_file (only "LIM2")) with (q (-2) 1) by (apply Qc_is_canon; vm_compute; reflexivity). right. now left.
  - intros c H. apply constraint_of in H. cbn in H. left. exists "RHS". destruct H as [<-|[<-|[]]].
    + replace (fcost largest_file (only "X")) with (q 1 1) by (apply Qc_is_canon; vm_compute; reflexivity). now left.
    + replace (fcost largest_file (only "Y")) with (q 2 1) by (apply Qc_is_canon; vm_compute; reflexivity). right. now left.
  - intros k r H y. unfold largest_file. rewrite two_allowed. cbn in H. destruct H as [H|[H|[H|[]]]]; [discriminate H|injection H as <- <-..]; reflexivity.
  - intros k c H x. unfold cheapest_file. rewrite low_allowed. cbn in H. destruct H as [H|[H|[H|[]]]]; [discriminate H|injection H as <- <-..]; reflexivity.
  - intros r v [g []].
  - intros r v [g []].
Qed.
Lemma no_bound_dual : dual no_bound_file no_price_file.
Proof.
  constructor; try reflexivity.
  - intros r. split; [intros H; cbn in H; destruct H as [<-|[<-|[]]]; [exists KLess|exists KGreater]; cbn; tauto|]. intros H. apply constraint_of in H. exact H.
  - intros c. split; [intros H; apply constraint_of in H; exact H|]. intros H. cbn in H. destruct H as [<-|[<-|[]]]; exists KLess; cbn; tauto.
  - intros r c H H'. apply constraint_of in H. apply constraint_of in H'. cbn in H, H'. destruct H as [<-|[<-|[]]], H' as [<-|[<-|[]]]; apply Qc_is_canon; vm_compute; reflexivity.
  - intros c H. apply constraint_of in H. cbn in H. left. exists "RHS". destruct H as [<-|[<-|[]]].
    + replace (fcost no_bound_file (only "X")) with (q (-1) 1) by (apply Qc_is_canon; vm_compute; reflexivity). now left.
    + replace (fcost no_bound_file (only "Y")) with (q (-1) 1) by (apply Qc_is_canon; vm_compute; reflexivity). right. now left.
  - intros c H. apply constraint_of in H. cbn in H. left. exists "RHS". destruct H as [<-|[<-|[]]].
    + replace (fcost no_price_file (only "LIM1")) with (q 1 1) by (apply Qc_is_canon; vm_compute; reflexivity). now left.
    + replace (fcost no_price_file (only "LIM2")) with (q 2 1) by (apply Qc_is_canon; vm_compute; reflexivity). right. now left.
  - intros k r H y. unfold no_price_file. rewrite low_allowed. cbn in H. destruct H as [H|[H|[H|[]]]]; [discriminate H|injection H as <- <-..]; reflexivity.
  - intros k c H x. unfold no_bound_file. rewrite two_allowed. cbn in H. destruct H as [H|[H|[H|[]]]]; [discriminate H|injection H as <- <-..]; reflexivity.
  - intros r v [g []].
  - intros r v [g []].
Qed.
