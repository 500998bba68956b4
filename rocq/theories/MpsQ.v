(** * The statements about numbers and MPS programs *)
From Verif Require Import SpecMps NumberP BoundsP RangesP MpsP ConvertP Examples ExGeneral ExMps Pipeline PipelineP GeneralQ.
Local Open Scope Qc_scope.

Lemma foreign_rejected b c t x : (N_of_ascii c < 128)%N -> In x (list_ascii_of_string (String c t)) -> ~ number_char x -> parse_number b (String c t) = Rejected Syntax.
Proof. intros A H N. apply number_rejected; [assumption|]. intros S. apply N. now apply (shaped_chars (String c t)). Qed.
Lemma non_literals_accepted : forall b, parse_number b "1.+5" = Got (Q2Qc (21 # 20)) /\ parse_number b "-" = Got 0 /\ parse_number b "." = Got 0 /\ parse_number b "+5" = Got (zq 5) /\
  forall l, literal_ok l -> literal_text l <> "1.+5"%string /\ literal_text l <> "-"%string /\ literal_text l <> "."%string /\ literal_text l <> "+5"%string.
Proof.
  intros b. assert (V : forall t q, match parse_number b t with Got v => qeqb v q | _ => false end = true -> parse_number b t = Got q).
  { intros t q. destruct (parse_number b t); [|discriminate|discriminate]. intros E. apply qeqb_true in E. now subst. }
  split; [apply V; destruct b; vm_compute; reflexivity|]. split; [apply V; destruct b; vm_compute; reflexivity|]. split; [apply V; destruct b; vm_compute; reflexivity|].
  split; [apply V; destruct b; vm_compute; reflexivity|]. intros l OK.
  assert (PL : forall t, literal_text l = t -> ~ In "+"%char (list_ascii_of_string t)).
  { intros t <- H. destruct OK as (A & B & _). unfold literal_text, fraction_of in *. rewrite !chars_append in H. destruct l as [mn wh fr]. cbn [lit_minus lit_whole lit_fraction] in *.
    assert (D : forall k, all_digits k -> ~ In "+"%char (list_ascii_of_string (digit_text k))).
    { intros k K I. destruct (digit_text_chars _ _ K I) as (d & L & E). do 10 (destruct d as [|d]; [discriminate|]). lia. }
    apply in_app_or in H. destruct H as [H|H]; [destruct mn; [destruct H as [H|[]]; discriminate|destruct H]|]. apply in_app_or in H. destruct H as [H|H]; [now apply D in H|].
    destruct fr as [f|]; [|destruct H]. cbn in H. destruct H as [H|H]; [discriminate|]. now apply D in H. }
  assert (LN : (1 <= length (lit_whole l ++ fraction_of l))%nat) by (destruct OK as (_ & _ & [N|N] & _); rewrite app_length; [destruct (lit_whole l); [congruence|cbn; lia]|destruct (fraction_of l); [congruence|cbn; lia]]).
  assert (SL : String.length (literal_text l) = ((if lit_minus l then 1 else 0) + length (lit_whole l) + match lit_fraction l with Some f => S (length f) | None => 0 end)%nat).
  { assert (AP : forall a c, String.length (a ++ c) = (String.length a + String.length c)%nat) by (induction a as [|x a IH]; intros c; cbn; [reflexivity|now rewrite IH]).
    unfold literal_text. rewrite !AP, digit_text_length. destruct (lit_minus l), (lit_fraction l); cbn; rewrite ?digit_text_length; lia. }
  assert (HD : literal_text l <> "-"%string /\ literal_text l <> "."%string).
  { split; intros E; rewrite E in SL; cbn in SL; rewrite app_length in LN; unfold fraction_of in LN.
    - destruct OK as (A & _). unfold literal_text in E. destruct (lit_minus l); [destruct (lit_whole l); [|cbn in SL; destruct (lit_fraction l); cbn in SL; lia]; destruct (lit_fraction l); cbn in *; lia|].
      destruct (lit_whole l) as [|d w] eqn:W; [destruct (lit_fraction l) as [[|? ?]|]; cbn in *; lia|]. assert (L : (d < 10)%nat) by (apply A; now left). change (digit_text (d :: w)) with (String (digit_char d) (digit_text w)) in E. cbn [String.append] in E.
      apply (f_equal (fun s => match s with String c _ => digit_of c | EmptyString => None end)) in E. rewrite digit_of_char in E by assumption. discriminate E.
    - destruct OK as (A & _). destruct (lit_fraction l) as [f|] eqn:F; [destruct f; cbn in *; destruct (lit_whole l); cbn in *; destruct (lit_minus l); lia|].
      unfold literal_text in E. rewrite F in E. destruct (lit_minus l); [destruct (lit_whole l); cbn in *; lia|].
      destruct (lit_whole l) as [|d w] eqn:W; [cbn in *; lia|]. assert (L : (d < 10)%nat) by (apply A; now left). change (digit_text (d :: w)) with (String (digit_char d) (digit_text w)) in E. cbn [String.append] in E.
      apply (f_equal (fun s => match s with String c _ => digit_of c | EmptyString => None end)) in E. rewrite digit_of_char in E by assumption. discriminate E. }
  split; [intros E; apply (PL _ E); cbn; tauto|]. split; [apply HD|]. split; [apply HD|]. intros E; apply (PL _ E); cbn; tauto.
Qed.
Lemma empty_crashes : forall b, parse_number b "" = Crashed. Proof. reflexivity. Qed.
(** 0.00000000000000000001: the value and what a wrapping build reads *)
Definition tiny : literal := mk_literal false [0%nat] (Some (repeat 0%nat 19 ++ [1%nat])).
Lemma tiny_wrong : exists v, parse_number Wrapping (literal_text tiny) = Got v /\ v <> literal_value tiny /\ parse_number Checked (literal_text tiny) = Crashed /\
  all_digits (lit_whole tiny) /\ all_digits (fraction_of tiny) /\ (decimal (lit_whole tiny ++ fraction_of tiny) < two64)%Z.
Proof.
  assert (H : match parse_number Wrapping (literal_text tiny) with Got v => negb (qeqb v (literal_value tiny)) | _ => false end = true) by (vm_compute; reflexivity).
  destruct (parse_number Wrapping (literal_text tiny)) as [v| |]; [|discriminate H|discriminate H]. exists v. split; [reflexivity|]. split.
  - apply negb_true_iff in H. now apply qeqb_false in H.
  - split; [vm_compute; reflexivity|]. split; [intros d [<-|[]]; lia|]. split; [|vm_compute; reflexivity]. intros d K. cbn in K. repeat (destruct K as [<-|K]; [lia|]). destruct K.
Qed.
Definition ex_literal : literal := mk_literal true [1%nat; 2%nat] (Some [0%nat; 5%nat; 0%nat]).
Lemma ex_literal_case : literal_ok ex_literal /\ literal_text ex_literal = "-12.050"%string /\ literal_value ex_literal = Q2Qc (-241 # 20).
Proof.
  split; [|split; [reflexivity|apply qeqb_true; vm_compute; reflexivity]]. unfold literal_ok. cbn. repeat split; try (intros d H; repeat (destruct H as [<-|H]; [lia|]); destruct H); try reflexivity. left. discriminate.
Qed.
Lemma ex_shape_rejected : parse_number Checked "12e3" = Rejected Syntax /\ parse_number Checked "1.2.3" = Rejected Syntax /\ parse_number Checked "18446744073709551616" = Rejected Syntax.
Proof. repeat split. Qed.
(** bounds *)
Lemma free_rejected m j t : mps_ok m -> stated m j Free -> stated m j t -> t <> Free -> to_general m = Rejected Inconsistent.
Proof. intros OK A B N. apply (convert_decides m OK). intros [C _]. apply N. now apply (mc_free m C j). Qed.
(** from a program to an answer *)
Lemma solve_read_terminates m g : mps_solvable m -> to_general m = Got g -> exists fuel a, forall fuel', (fuel <= fuel')%nat -> solve_general UseRows FirstProfitable fuel' g = Ok a.
Proof. intros S E. destruct (convert_solvable m g S E) as [OK FR]. now apply fresh_rows_terminates. Qed.
Lemma ex_mps_given : given_range ex_mps 2 (zq (-1)) /\ given_rhs ex_mps 2 (zq 4) /\ given_rhs ex_mps 0 (zq 10) /\ given_rhs ex_mps 0 (zq 8).
Proof. unfold given_range, given_rhs. cbn. tauto. Qed.
Lemma converted_meaning m g : mps_ok m -> to_general m = Got g -> (forall i r, given_range m i r -> exists b, given_rhs m i b) ->
  g_objective g = m_objective m /\ map fst (g_orig g) = map col_name (m_columns m) /\
  (forall x, gfeasible g x <-> mfeasible m x) /\ (forall x, gcost g x = mcost m x).
Proof. intros OK E RA. destruct (converted_rest m g OK E) as (A & _ & _ & B & _ & C). split; [assumption|]. split; [assumption|]. split; [|assumption]. intros x. now apply convert_feasible. Qed.
Lemma converted_sizes m g : mps_ok m -> to_general m = Got g -> g_rows g = length (m_rows m) /\ nr_vars g = length (m_columns m) /\ forall i j, coefficient g i j = mcoefficient m i j.
Proof. intros OK E. destruct (converted_rest m g OK E) as (_ & A & B & _ & C & _). now repeat split. Qed.
