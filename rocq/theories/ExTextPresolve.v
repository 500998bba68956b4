(** * Files that are solved with presolving *)
From Verif Require Import SpecFile TextPresolve TextPresolveP ExGeneral ExParse TextP FileP ExFile ExFixed.
Local Open Scope string_scope.
Local Open Scope list_scope.

Lemma small_safe b fuel : safe_text b fuel small = true.
Proof. apply (pre_with_decided (parse_free b) small 40); destruct b; vm_compute; reflexivity. Qed.
Lemma small_presolved b r n : presolve_text b r n 40 small = Got (Ok small_answer).
Proof. apply text_answer_ok. destruct b, r, n; vm_compute; reflexivity. Qed.
(** presolving changes the program: a range of values becomes a single inequality *)
Definition ranges (g : general) : list bool := map (fun t => match t with Range _ => true | _ => false end) (g_types g).
Lemma small_changed b : exists m g g', parse_free b small = Got m /\ to_general m = Got g /\ presolve 40 g = Go g' /\ ranges g = [true; false; false] /\ ranges g' = [false; false; false].
Proof.
  assert (H : match parse_free b small with Got m => match to_general m with Got g => match presolve 40 g with Go g' => (ranges g, ranges g') | _ => ([], []) end | _ => ([], []) end | _ => ([], []) end
    = ([true; false; false], [false; false; false])) by (destruct b; vm_compute; reflexivity).
  destruct (parse_free b small) as [m| |]; try discriminate. destruct (to_general m) as [g| |] eqn:G; try discriminate. destruct (presolve 40 g) as [g'| | |] eqn:P; try discriminate.
  injection H as H1 H2. exists m, g, g'. now repeat split.
Qed.
Lemma fixed_sample_safe b fuel : safe_fixed_text b fuel fixed_sample = true.
Proof. apply (pre_with_decided (parse_fixed b) fixed_sample 40); destruct b; vm_compute; reflexivity. Qed.
Lemma fixed_presolved b r n : presolve_fixed_text b r n 40 fixed_sample = Got (Ok fixed_answer).
Proof. apply text_answer_ok. destruct b, r, n; vm_compute; reflexivity. Qed.

(** min -X with X + S >= 1, 0 <= X <= 5 and 0 <= S *)
Definition wrong_text : string := "NAME          WRONG
ROWS
 N  COST
 G  LIM
COLUMNS
    X         COST                -1   LIM                  1
    S         LIM                  1
RHS
    RHS1      LIM                  1
BOUNDS
 UP BND1      X                    5
ENDATA
".
Definition wrong_file : file := {|
  f_name := "WRONG";
  f_sense := None;
  f_rows := [(None, "COST"); (Some KGreater, "LIM")];
  f_columns := [Entries "X" [("COST", q (-1) 1); ("LIM", q 1 1)]; Entries "S" [("LIM", q 1 1)]];
  f_rhs := [("RHS1", [("LIM", q 1 1)])];
  f_ranges := [];
  f_bounds := [(UpperContinuous (q 5 1), "BND1", "X")]
|}.
Lemma wrong_ok : file_ok wrong_file.
Proof.
  constructor; cbn [wrong_file f_name f_sense f_rows f_columns f_rhs f_ranges f_bounds].
  - now apply name_okb_ok.
  - intros k r H. cbn in H. repeat (destruct H as [H|H]; [injection H as <- <-; split; [now apply name_okb_ok|discriminate]|]). destruct H.
  - cbn. repeat constructor; cbn; intuition discriminate.
  - intros c values H. cbn in H. repeat (destruct H as [H|H]; [first [discriminate H|injection H as <- <-; now apply first_okb_ok]|]). destruct H.
  - cbn. repeat constructor; cbn; intuition discriminate.
  - cbn. repeat constructor; cbn; intuition discriminate.
  - intros g values H. cbn in H. repeat (destruct H as [H|H]; [injection H as <- <-; now apply first_okb_ok|]). destruct H.
  - cbn. repeat constructor; cbn; intuition discriminate.
  - intros g values H. cbn in H. repeat (destruct H as [H|H]; [injection H as <- <-; now apply first_okb_ok|]). destruct H.
  - cbn. repeat constructor; cbn; intuition discriminate.
  - intros t g c H. cbn in H. repeat (destruct H as [H|H]; [injection H as <- <- <-; split; [now apply name_okb_ok|intros X; exact X]|]). destruct H.
  - exists "COST". split; [now left|]. intros c H. cbn in H. repeat (destruct H as [H|H]; [first [discriminate H|now injection H as <-]|]). destruct H.
  - intros c r v H. cbn in H. repeat (destruct H as [H|H]; [injection H as <- <- <-; cbn; tauto|]). destruct H.
  - intros c r v H. cbn in H. repeat (destruct H as [H|H]; [injection H as <- <- <-; cbn; tauto|]). destruct H.
  - intros c r v H. cbn in H. repeat (destruct H as [H|H]; [injection H as <- <- <-; cbn; tauto|]). destruct H.
  - intros t g c H. cbn in H. repeat (destruct H as [H|H]; [injection H as <- <- <-; cbn; tauto|]). destruct H.
Qed.
Lemma wrong_spelled : spells wrong_text wrong_file.
Proof.
  assert (T : text_of (into_lines wrong_text) wrong_text) by (apply text_split; vm_compute; reflexivity).
  exists (into_lines wrong_text). split; [|exact T]. clear T.
  exists "          WRONG", [], (firstn 2 (skipn 2 (into_lines wrong_text))), (firstn 1 (skipn 1 (into_lines wrong_text))), (firstn 2 (skipn 5 (into_lines wrong_text))), (firstn 2 (skipn 7 (into_lines wrong_text))),
    [], (firstn 2 (skipn 9 (into_lines wrong_text))).
  split; [apply (spaced_split "          WRONG"); reflexivity|].
  split; [exists ""; split; [intros x []|reflexivity]|].
  split; [vm_compute; repeat (constructor; [dline|]); constructor|].
  split.
  { set (ls := firstn 2 _). vm_compute in ls. subst ls. cbn [wrong_file f_columns].
    constructor; [split; [now right|]; eexists; split; [constructor; [num true [1%nat] (@None (list nat))|constructor; [num false [1%nat] (@None (list nat))|constructor]]|dline]|].
    constructor; [split; [now left|]; eexists; split; [constructor; [num false [1%nat] (@None (list nat))|constructor]|dline]|]. constructor. }
  split.
  { right. set (ls := firstn 2 (skipn 7 _)). vm_compute in ls. subst ls. eexists. split; [reflexivity|]. cbn [wrong_file f_rhs].
    constructor; [split; [now left|]; eexists; split; [constructor; [num false [1%nat] (@None (list nat))|constructor]|dline]|]. constructor. }
  split; [left; now split|].
  split; [|vm_compute; reflexivity].
  right. set (ls := firstn 2 (skipn 9 _)). vm_compute in ls. subst ls. eexists. split; [reflexivity|]. cbn [wrong_file f_bounds].
  constructor; [eexists; split; [eexists; split; [num false [5%nat] (@None (list nat))|reflexivity]|dline]|]. constructor.
Qed.
Lemma wrong_solvable : file_solvable wrong_file.
Proof.
  constructor.
  - exact (file_ok_rules _ wrong_ok).
  - intros c r v H. cbn in H. repeat (destruct H as [H|H]; [injection H as <- <- <-; intros Z; apply qeqb_true in Z; vm_compute in Z; discriminate Z|]). destruct H.
  - cbn. repeat constructor; cbn; intuition discriminate.
  - intros g r v [].
  - intros t g g' c H. cbn in H. destruct H as [H|[]]. discriminate H.
  - intros c H. cbn in H. destruct H as [<-|[<-|[]]].
    + exists 0%Qc. split; [|intros _; apply Qcle_refl]. intros t g T. cbn in T. repeat (destruct T as [T|T]; [first [discriminate T|injection T as <- <-; cbn; discriminate]|]). destruct T.
    + exists 0%Qc. split; [|intros _; apply Qcle_refl]. intros t g T. cbn in T. repeat (destruct T as [T|T]; [first [discriminate T|injection T as <- <-; cbn; discriminate]|]). destruct T.
Qed.
Definition wrong_solution : solution := mk_solution (q (-5) 1) [("X", q 5 1); ("S", q (-4) 1)].
Lemma wrong_presolved b r n : presolve_text b r n 40 wrong_text = Got (Ok (Solved_to wrong_solution)).
Proof. apply text_answer_ok. destruct b, r, n; vm_compute; reflexivity. Qed.
Lemma wrong_infeasible : ~ ffeasible wrong_file (answer_at wrong_solution).
Proof.
  intros [_ H]. specialize (H "S" (or_intror (or_introl eq_refl))). destruct H as [_ H]. assert (L : (0 <= answer_at wrong_solution "S")%Qc); [|vm_compute in L; now elim L].
  apply H. intros t g T. cbn in T. destruct T as [T|[]]. discriminate T.
Qed.
