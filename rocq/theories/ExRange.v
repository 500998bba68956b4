(** * Examples for column ranges *)
From Verif Require Export RangeR.
Local Open Scope Qc_scope.

(** column_range.rs:43-47 *)
Definition ex_input : input := [[Some 3; Some 3; Some 3]; [None; Some 3; Some 3]; [Some 1; Some 2; Some 3]]%Z.
Definition input_okb (a : input) : bool :=
  Nat.ltb 0 (width a) &&
  forallb (fun j => existsb (fun i => match cell a i j with Some _ => true | None => false end) (seq 0 (height a))) (seq 0 (width a)) &&
  forallb (fun j => forallb (fun i => match cell a i j with Some v => Z.leb 0 v | None => true end) (seq 0 (height a))) (seq 0 (width a)).
Lemma input_okb_ok a : input_okb a = true -> input_ok a.
Proof.
  unfold input_okb. rewrite !andb_true_iff, !forallb_forall, Nat.ltb_lt. intros [[W N] P]. split; [assumption|]. split.
  - intros j L. specialize (N j). rewrite in_seq, existsb_exists in N. destruct N as (i & Hi & E); [lia|]. apply in_seq in Hi.
    destruct (cell a i j) as [v|] eqn:Ec; [|discriminate]. exists i, v. split; [lia|assumption].
  - intros i j v Li Lj E. specialize (P j). rewrite in_seq, forallb_forall in P. specialize (P ltac:(lia) i). rewrite in_seq, E in P. apply Z.leb_le, P. lia.
Qed.
Fixpoint list_eqb (a b : list Qc) : bool :=
  match a, b with [], [] => true | x :: s, y :: t => qeqb x y && list_eqb s t | _, _ => false end.
Lemma list_eqb_ok a : forall b, list_eqb a b = true -> a = b.
Proof. induction a as [|x a IH]; intros [|y b]; cbn; try discriminate; [reflexivity|]. rewrite andb_true_iff. intros [E F]. qb. f_equal; [assumption|now apply IH]. Qed.
Definition shifts_are (r : res (list Qc)) (l : list Qc) : bool := match r with Ok l' => list_eqb l' l | _ => false end.
Lemma shifts_are_ok r l : shifts_are r l = true -> r = Ok l.
Proof. destruct r; cbn; try discriminate. intros E. apply list_eqb_ok in E. now subst. Qed.
Lemma ex_input_ok : input_ok ex_input.
Proof. apply input_okb_ok. vm_compute. reflexivity. Qed.
Lemma ex_input_runs r : column_range r FirstProfitable 100 ex_input = Ok [1; 1; 0].
Proof. apply shifts_are_ok. destruct r; vm_compute; reflexivity. Qed.
(** the sum of the ranges is 3 at first and 2 afterwards *)
Lemma ex_input_ranges : total_range ex_input (fun _ => 0) = zq 3 /\ total_range ex_input (nthq [1; 1; 0]) = zq 2.
Proof. split; apply Qc_is_canon; vm_compute; reflexivity. Qed.

Lemma hole_column : exists a, (forall i, (i < height a)%nat -> exists j v, (j < width a)%nat /\ cell a i j = Some v) /\
  (forall i j v, cell a i j = Some v -> (0 <= v)%Z) /\ forall r n fuel, column_range r n fuel a = Panic.
Proof.
  exists [[Some 1; None]]%Z. split; [|split].
  - intros [|i] L; [exists 0%nat, 1%Z; split; [cbn; lia|reflexivity]|cbn in L; lia].
  - intros [|[|i]] [|[|[|j]]] v; cbn; intros E; try discriminate. now injection E as <-.
  - intros r n fuel. reflexivity.
Qed.
Lemma negative_value : exists a l, (0 < width a)%nat /\ (forall j, (j < width a)%nat -> exists i v, (i < height a)%nat /\ cell a i j = Some v) /\
  (forall r, column_range r FirstProfitable 100 a = Ok l) /\ exists i, (i < height a)%nat /\ nthq l i < 0.
Proof.
  exists [[Some (-3)]; [Some (-4)]]%Z, [zq (-3); 0]. split; [cbn; lia|]. split.
  - intros [|j] L; [exists 0%nat, (-3)%Z; split; [cbn; lia|reflexivity]|cbn in L; lia].
  - split; [intros r; apply shifts_are_ok; destruct r; vm_compute; reflexivity|]. exists 0%nat. split; [cbn; lia|vm_compute; reflexivity].
Qed.
