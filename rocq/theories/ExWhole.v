(** * Examples for whole answers *)
From Verif Require Import SpecWhole SpecFile TextPipeline TextP FileP Pipeline PairP ExParse Examples ExGeneral ExFile.
From Verif Require Export WholeF WholeS.
Local Open Scope string_scope.
Local Open Scope list_scope.
Local Open Scope Qc_scope.

(** goods go from the places [S1] and [S2] to the places [D1] and [D2]; the prices are no whole numbers *)
Definition transport : string := "
NAME          TRANSPORT
ROWS
 N  PRICE
 L  S1
 L  S2
 G  D1
 E  D2
COLUMNS
    X11       PRICE             2.25   S1                   1
    X11       D1                   1
    X12       PRICE              1.5   S1                   1
    X12       D2                   1
    X21       PRICE             3.75   S2                   1
    X21       D1                   1
    X22       PRICE              5.5   S2                   1
    X22       D2                   1
RHS
    RHS       S1                   4   S2                   3
    RHS       D1                   3   D2                   3
BOUNDS
 UP BND       X12                  2
ENDATA
".
Definition transport_file : file := {|
  f_name := "TRANSPORT";
  f_sense := None;
  f_rows := [(None, "PRICE"); (Some KLess, "S1"); (Some KLess, "S2"); (Some KGreater, "D1"); (Some KEqual, "D2")];
  f_columns := [Entries "X11" [("PRICE", q 9 4); ("S1", q 1 1)]; Entries "X11" [("D1", q 1 1)]; Entries "X12" [("PRICE", q 3 2); ("S1", q 1 1)]; Entries "X12" [("D2", q 1 1)];
    Entries "X21" [("PRICE", q 15 4); ("S2", q 1 1)]; Entries "X21" [("D1", q 1 1)]; Entries "X22" [("PRICE", q 11 2); ("S2", q 1 1)]; Entries "X22" [("D2", q 1 1)]];
  f_rhs := [("RHS", [("S1", q 4 1); ("S2", q 3 1)]); ("RHS", [("D1", q 3 1); ("D2", q 3 1)])];
  f_ranges := [];
  f_bounds := [(UpperContinuous (q 2 1), "BND", "X12")]
|}.
Lemma transport_ok : file_ok transport_file.
Proof.
  constructor; cbn [transport_file f_name f_sense f_rows f_columns f_rhs f_ranges f_bounds].
  - now apply name_okb_ok.
  - intros k r H. cbn in H. repeat (destruct H as [H|H]; [injection H as <- <-; split; [now apply name_okb_ok|discriminate]|]). destruct H.
  - cbn. repeat constructor; cbn; intuition discriminate.
  - intros c values H. cbn in H. repeat (destruct H as [H|H]; [first [discriminate H|injection H as <- <-; now apply first_okb_ok]|]). destruct H.
  - cbn. repeat constructor; cbn; intuition discriminate.
  - cbn. repeat constructor; cbn; intuition discriminate.
  - intros g values H. cbn in H. repeat (destruct H as [H|H]; [injection H as <- <-; now apply first_okb_ok|]). destruct H.
  - cbn. repeat constructor; cbn; intuition discriminate.
  - intros g values H. cbn in H. repeat (destruct H as [H|H]; [injection H as <- <-; now apply first_okb_ok|]). destruct H.
  - cbn. repeat constructor; cbn; intuition discriminate.
  - intros t g c H. cbn in H. repeat (destruct H as [H|H]; [injection H as <- <- <-; split; [now apply name_okb_ok|intros X; exact X]|]). destruct H.
  - exists "PRICE". split; [now left|]. intros c H. cbn in H. repeat (destruct H as [H|H]; [first [discriminate H|now injection H as <-]|]). destruct H.
  - intros c r v H. cbn in H. repeat (destruct H as [H|H]; [injection H as <- <- <-; cbn; tauto|]). destruct H.
  - intros c r v H. cbn in H. repeat (destruct H as [H|H]; [injection H as <- <- <-; cbn; tauto|]). destruct H.
  - intros c r v H. cbn in H. repeat (destruct H as [H|H]; [injection H as <- <- <-; cbn; tauto|]). destruct H.
  - intros t g c H. cbn in H. repeat (destruct H as [H|H]; [injection H as <- <- <-; cbn; tauto|]). destruct H.
Qed.
Lemma transport_solvable : file_solvable transport_file.
Proof.
  constructor.
  - exact (file_ok_rules _ transport_ok).
  - intros c r v H. cbn in H. repeat (destruct H as [H|H]; [injection H as <- <- <-; intros X; apply (f_equal this) in X; vm_compute in X; discriminate X|]). destruct H.
  - cbn. repeat constructor; cbn; intuition discriminate.
  - intros g r v H. destruct H.
  - intros t g g' c H. cbn in H. destruct H as [H|[]]; discriminate H.
  - intros c H. exists 0. split; [|intros _; apply Qcle_refl]. intros t g T. cbn in T. destruct T as [T|[]]; injection T as <- <- <-; vm_compute; discriminate.
Qed.
Ltac one_number n := num false [n] (@None (list nat)).
Lemma transport_spelled : spells transport transport_file.
Proof.
  assert (T : text_of (into_lines transport) transport) by (apply text_split; vm_compute; reflexivity). exists (into_lines transport). split; [|exact T]. clear T.
  exists "          TRANSPORT", [], (firstn 5 (skipn 2 (into_lines transport))), (firstn 1 (skipn 1 (into_lines transport))), (firstn 8 (skipn 8 (into_lines transport))), (firstn 3 (skipn 16 (into_lines transport))), [], (firstn 2 (skipn 19 (into_lines transport))).
  split; [apply (spaced_split "          TRANSPORT"); reflexivity|].
  split; [vm_compute; exists ""; split; [intros x []|]; reflexivity|].
  split; [vm_compute; repeat (constructor; [dline|]); constructor|].
  split.
  { set (ls := firstn 8 _). vm_compute in ls. subst ls. cbn [transport_file f_columns].
    constructor; [split; [now right|]; eexists; split; [constructor; [num false [2%nat] (Some [2%nat; 5%nat])|constructor; [one_number 1%nat|constructor]]|dline]|].
    constructor; [split; [now left|]; eexists; split; [constructor; [one_number 1%nat|constructor]|dline]|].
    constructor; [split; [now right|]; eexists; split; [constructor; [num false [1%nat] (Some [5%nat])|constructor; [one_number 1%nat|constructor]]|dline]|].
    constructor; [split; [now left|]; eexists; split; [constructor; [one_number 1%nat|constructor]|dline]|].
    constructor; [split; [now right|]; eexists; split; [constructor; [num false [3%nat] (Some [7%nat; 5%nat])|constructor; [one_number 1%nat|constructor]]|dline]|].
    constructor; [split; [now left|]; eexists; split; [constructor; [one_number 1%nat|constructor]|dline]|].
    constructor; [split; [now right|]; eexists; split; [constructor; [num false [5%nat] (Some [5%nat])|constructor; [one_number 1%nat|constructor]]|dline]|].
    constructor; [split; [now left|]; eexists; split; [constructor; [one_number 1%nat|constructor]|dline]|]. constructor. }
  split.
  { right. set (ls := firstn 3 (skipn 16 _)). vm_compute in ls. subst ls. eexists. split; [reflexivity|]. cbn [transport_file f_rhs].
    constructor; [split; [now right|]; eexists; split; [constructor; [one_number 4%nat|constructor; [one_number 3%nat|constructor]]|dline]|].
    constructor; [split; [now right|]; eexists; split; [constructor; [one_number 3%nat|constructor; [one_number 3%nat|constructor]]|dline]|]. constructor. }
  split; [now left|]. split; [|vm_compute; reflexivity].
  right. set (ls := firstn 2 (skipn 19 _)). vm_compute in ls. subst ls. eexists. split; [reflexivity|]. cbn [transport_file f_bounds].
  constructor; [eexists; split; [eexists; split; [one_number 2%nat|reflexivity]|dline]|]. constructor.
Qed.
Definition from_side (r : string) : bool := String.eqb r "S1" || String.eqb r "S2".
Lemma constraint_listed f r : is_constraint f r -> In r (constraint_names f). Proof. apply constraint_named. Qed.
Ltac number := apply Qc_is_canon; vm_compute; reflexivity.
Lemma transport_network : fnetwork from_side transport_file.
Proof.
  constructor.
  - intros r c R C. apply constraint_listed in R. cbn in R, C. destruct R as [<-|[<-|[<-|[<-|[]]]]], C as [<-|[<-|[<-|[<-|[]]]]]; first [left; number|right; left; number].
  - intros r r' c R R' N C A B. apply constraint_listed in R, R'. cbn in R, R', C.
    destruct R as [<-|[<-|[<-|[<-|[]]]]], R' as [<-|[<-|[<-|[<-|[]]]]]; try (now elim N); destruct C as [<-|[<-|[<-|[<-|[]]]]]; first [elim A; number|elim B; number|number].
Qed.
Lemma whole_z z : whole (q z 1). Proof. exists z. number. Qed.
Lemma transport_whole : fwhole_data transport_file.
Proof.
  constructor.
  - intros r b _ [[g B]|[-> _]]; [|exact whole_0]. cbn in B. repeat (destruct B as [B|B]; [injection B as <- <- <-; apply whole_z|]). destruct B.
  - intros r v _ [g []].
  - intros t g c v [B|[]]. injection B as <- <- <-. intros [= <-]. apply whole_z.
Qed.

(** ** A flow with a variable without bounds *)
Definition ex_stream : general := new_general Minimize 3
  [zcol [(0%nat, 1%Z); (1%nat, (-1)%Z)]; zcol [(0%nat, (-1)%Z); (2%nat, 1%Z)]; zcol [(1%nat, 1%Z); (2%nat, (-1)%Z)]; zcol [(1%nat, 1%Z)]]
  [Equal; Range (zq 3); Less] [zq 1; zq 2; zq 4] [v_ 0 None None; v_ 1 (Some (-2)%Z) (Some 4%Z); mk_var false (q (-1) 7) (Some (zq (-2))) (Some (zq 5)) 0 false; mk_var true (q 1 3) (Some 0) None 0 false] ["x"; "y"; "z"; "w"] 0.
Lemma stream_ok : general_ok ex_stream /\ fresh ex_stream.
Proof. apply new_ok. vm_compute. reflexivity. Qed.
Lemma stream_network : network (fun _ => true) ex_stream.
Proof.
  constructor.
  - intros [|[|[|i]]] [|[|[|[|j]]]] Li Lj; cbn in Li, Lj; try lia; first [left; number|right; left; number|right; right; number].
  - intros [|[|[|i]]] [|[|[|i']]] j Li Li' N Lj; cbn in Li, Li'; try lia; destruct j as [|[|[|[|j]]]]; cbn in Lj; try lia; intros A B; first [elim A; number|elim B; number|number].
Qed.
Lemma whole_zq z : whole (zq z). Proof. exists z. number. Qed.
Lemma stream_whole : whole_data ex_stream.
Proof.
  constructor.
  - intros [|[|[|i]]] L; cbn in L; try lia; apply whole_zq.
  - intros [|[|[|i]]] r L; cbn in L; try lia; intros E; try discriminate E. injection E as <-. apply whole_zq.
  - intros [|[|[|[|j]]]] l L; cbn in L; try lia; intros E; try discriminate E; injection E as <-; first [apply whole_zq|exact whole_0].
  - intros [|[|[|[|j]]]] l L; cbn in L; try lia; intros E; try discriminate E; injection E as <-; apply whole_zq.
Qed.
Definition stream_answer : solution := mk_solution (q (-15) 7) [("x", q (-1) 1); ("y", q (-2) 1); ("z", 1); ("w", 0)].
Lemma stream_solved r n : solve_general r n 60 ex_stream = Ok (Solved_to stream_answer).
Proof. apply answer_is_ok. destruct r, n; vm_compute; reflexivity. Qed.
Definition transport_answer : solution := mk_solution (q 67 4) [("X11", q 2 1); ("X12", q 2 1); ("X21", 1); ("X22", 1)].
Lemma transport_solved b r n : solve_text b r n 60 transport = Got (Ok (Solved_to transport_answer)).
Proof. apply text_answer_ok. destruct b, r, n; vm_compute; reflexivity. Qed.

(** ** Three constraints that cannot be put on two sides: x + y, y + z and x + z are at most one *)
Definition ex_triangle : general := new_general Maximize 3
  [zcol [(0%nat, 1%Z); (2%nat, 1%Z)]; zcol [(0%nat, 1%Z); (1%nat, 1%Z)]; zcol [(1%nat, 1%Z); (2%nat, 1%Z)]]
  [Less; Less; Less] [zq 1; zq 1; zq 1] [v_ 1 (Some 0%Z) None; v_ 1 (Some 0%Z) None; v_ 1 (Some 0%Z) None] ["x"; "y"; "z"] 0.
Lemma triangle_ok : general_ok ex_triangle /\ fresh ex_triangle.
Proof. apply new_ok. vm_compute. reflexivity. Qed.
Lemma triangle_units i j : (i < g_rows ex_triangle)%nat -> (j < nr_vars ex_triangle)%nat -> unit_value (coefficient ex_triangle i j).
Proof. revert i j. intros [|[|[|i]]] [|[|[|j]]] Li Lj; cbn in Li, Lj; try lia; first [left; number|right; left; number]. Qed.
Lemma triangle_whole : whole_data ex_triangle.
Proof.
  constructor.
  - intros [|[|[|i]]] L; cbn in L; try lia; apply whole_zq.
  - intros [|[|[|i]]] r L; cbn in L; try lia; intros E; discriminate E.
  - intros [|[|[|j]]] l L; cbn in L; try lia; intros E; injection E as <-; apply whole_zq.
  - intros [|[|[|j]]] l L; cbn in L; try lia; intros E; discriminate E.
Qed.
Definition triangle_values : list (string * Qc) := [("x", q 1 2); ("y", q 1 2); ("z", q 1 2)].
Lemma half_not_whole : ~ whole (q 1 2).
Proof. rewrite <- wholeb_ok. vm_compute. discriminate. Qed.
Lemma triangle_solved r n : exists s, solve_general r n 60 ex_triangle = Ok (Solved_to s) /\ s_values s = triangle_values.
Proof.
  exists (mk_solution (q (-3) 2) triangle_values). split; [|reflexivity]. apply answer_is_ok. destruct r, n; vm_compute; reflexivity.
Qed.
Lemma triangle_broken : exists g, general_ok g /\ fresh g /\ (forall i j, (i < g_rows g)%nat -> (j < nr_vars g)%nat -> unit_value (coefficient g i j)) /\ whole_data g /\
  forall r n, exists s, solve_general r n 60 g = Ok (Solved_to s) /\ s_values s <> nil /\ forall name v, In (name, v) (s_values s) -> ~ whole v.
Proof.
  exists ex_triangle. split; [exact (proj1 triangle_ok)|]. split; [exact (proj2 triangle_ok)|]. split; [exact triangle_units|]. split; [exact triangle_whole|].
  intros r n. destruct (triangle_solved r n) as (s & E & V). exists s. split; [exact E|]. split; [rewrite V; discriminate|]. intros name v I. rewrite V in I. cbn in I. destruct I as [I|[I|[I|[]]]]; injection I as <- <-; exact half_not_whole.
Qed.
