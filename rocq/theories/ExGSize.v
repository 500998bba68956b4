(** * Cases of C58 for general form programs and files *)
From Verif Require Import SpecSize SpecGSize SpecFSize GSizeP ExSize.
From Verif Require Import Examples ExGeneral ExParse ExAnswers Pipeline SolverQ SpecGeneral PipelineP SpecFile TextPipeline ExFixed.
Local Open Scope Qc_scope.

(** min -x - y subject to 2 x + 3 y <= 5 and 3 <= 5 x + 7/2 y <= 6, with x between -1/2 and 4 and y free *)
Definition ex_gsize : general :=
  new_general Minimize 2 [[(0%nat, zq 2); (1%nat, zq 5)]; [(0%nat, zq 3); (1%nat, Q2Qc (7 # 2))]] [Less; Range (zq 3)] [zq 5; zq 6]
    [mk_var false (zq (-1)) (Some (Q2Qc (-1 # 2))) (Some (zq 4)) 0 false; mk_var false (zq (-1)) None None 0 false] ["x"; "y"]%string 0.
Definition gsize_answer : solution := mk_solution (Q2Qc (-27 # 16)) [("x", Q2Qc (1 # 16)); ("y", Q2Qc (13 # 8))]%string.
Definition optb (d : positive) (K : Z) (o : option Qc) : bool := match o with Some x => partsb d K x | None => true end.
Definition gdata_sizeb (d : positive) (K : Z) (g : general) : bool :=
  Z.leb (Zpos d) K && partsb d K (g_fixed g) &&
  forallb (fun j => forallb (fun i => partsb d K (coefficient g i j)) (seq 0 (g_rows g)) && partsb d K (v_cost (var g j)) && optb d K (v_lower (var g j)) && optb d K (v_upper (var g j))) (seq 0 (nr_vars g)) &&
  forallb (fun i => partsb d K (nthq (g_b g) i)) (seq 0 (g_rows g)) &&
  forallb (fun t => match t with Range r => partsb d K r | _ => true end) (g_types g).
Lemma gdata_sizeb_ok d K g : general_ok g -> gdata_sizeb d K g = true -> gdata_size d K g.
Proof.
  unfold gdata_sizeb. intros P E. apply andb_true_iff in E. destruct E as [E E5]. apply andb_true_iff in E. destruct E as [E E4]. apply andb_true_iff in E. destruct E as [E E3].
  apply andb_true_iff in E. destruct E as [E1 E2]. rewrite forallb_forall in E3, E4, E5. apply Z.leb_le in E1.
  assert (V : forall j, (j < nr_vars g)%nat -> (forall i, (i < g_rows g)%nat -> parts d K (coefficient g i j)) /\ parts d K (v_cost (var g j)) /\ optb d K (v_lower (var g j)) = true /\ optb d K (v_upper (var g j)) = true).
  { intros j Lj. specialize (E3 j ltac:(apply in_seq; lia)). apply andb_true_iff in E3. destruct E3 as [E3 U]. apply andb_true_iff in E3. destruct E3 as [E3 L]. apply andb_true_iff in E3. destruct E3 as [E3 C].
    split; [|split; [now apply partsb_ok|now split]]. intros i Li. rewrite forallb_forall in E3. apply partsb_ok, E3. apply in_seq. lia. }
  constructor.
  - exact E1.
  - now apply partsb_ok.
  - intros i j Lj. destruct (Nat.lt_ge_cases i (g_rows g)) as [Li|Li]; [now apply V|]. unfold coefficient. rewrite (SparseP.den_above 0 (g_rows g)); [apply SizeP.parts_0; lia|now apply (gok_sorted _ P)|exact Li].
  - intros i Li. apply partsb_ok, E4. apply in_seq. lia.
  - intros i r Er. unfold row_type in Er. destruct (Nat.lt_ge_cases i (length (g_types g))) as [Li|Li]; [|rewrite nth_overflow in Er by assumption; discriminate].
    specialize (E5 _ (nth_In _ Equal Li)). rewrite Er in E5. now apply partsb_ok.
  - intros j Lj. now apply V.
  - intros j l Lj El. destruct (V j Lj) as (_ & _ & H & _). rewrite El in H. now apply partsb_ok.
  - intros j l Lj El. destruct (V j Lj) as (_ & _ & _ & H). rewrite El in H. now apply partsb_ok.
Qed.
Lemma ex_gsize_ok : general_ok ex_gsize /\ fresh ex_gsize.
Proof. apply new_ok. vm_compute. reflexivity. Qed.
Lemma ex_gsize_data : gdata_size 2 12 ex_gsize.
Proof. apply gdata_sizeb_ok; [exact (proj1 ex_gsize_ok)|]. vm_compute. reflexivity. Qed.
Lemma ex_gsize_solved r n : solve_general r n 30 ex_gsize = Ok (Solved_to gsize_answer).
Proof. apply answer_is_ok. destruct r, n; vm_compute; reflexivity. Qed.

Lemma largest_size : fdata_size 1 4 largest_file.
Proof.
  constructor.
  - lia.
  - intros c r v H. cbn in H. repeat (destruct H as [H|H]; [injection H as <- <- <-; apply partsb_ok; vm_compute; reflexivity|]). destruct H.
  - intros c r v H. cbn in H. repeat (destruct H as [H|H]; [injection H as <- <- <-; apply partsb_ok; vm_compute; reflexivity|]). destruct H.
  - intros c r v H. cbn in H. destruct H.
  - intros t g c v H. cbn in H. destruct H.
Qed.
Lemma fixed_size : fdata_size 2 14 fixed_file.
Proof.
  constructor.
  - lia.
  - intros c r v H. cbn in H. repeat (destruct H as [H|H]; [injection H as <- <- <-; apply partsb_ok; vm_compute; reflexivity|]). destruct H.
  - intros c r v H. cbn in H. repeat (destruct H as [H|H]; [injection H as <- <- <-; apply partsb_ok; vm_compute; reflexivity|]). destruct H.
  - intros c r v H. cbn in H. repeat (destruct H as [H|H]; [injection H as <- <- <-; apply partsb_ok; vm_compute; reflexivity|]). destruct H.
  - intros t g c v H T. cbn [fixed_file f_bounds In] in H. repeat (destruct H as [H|H]; [injection H as <- <- <-; cbn [In] in T; repeat (destruct T as [T|T]; [first [discriminate T|injection T as ->; apply partsb_ok; vm_compute; reflexivity]|]); destruct T|]). destruct H.
Qed.
