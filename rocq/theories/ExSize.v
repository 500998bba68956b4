(** * Cases of C58 *)
From Verif Require Import SpecSize SizeP Examples.
Local Open Scope Qc_scope.

(** min -x0 - x1 subject to 2 x0 + 3 x1 <= 5 and 5 x0 + 7/2 x1 <= 6, with slacks x2 and x3 *)
Definition ex_size : provider :=
  plain 2 [[(0%nat, zq 2); (1%nat, zq 5)]; [(0%nat, zq 3); (1%nat, Q2Qc (7 # 2))]; sbasis 0; sbasis 1]
    [zq (-1); zq (-1); 0; 0] [zq 5; zq 6] (PartialInit [(0%nat, 2%nat); (1%nat, 3%nat)]).
Definition size_answer : svec := [(0%nat, Q2Qc (1 # 16)); (1%nat, Q2Qc (13 # 8))].

Definition partsb (d : positive) (K : Z) (x : Qc) : bool :=
  Z.eqb (Zpos d mod Zpos (Qden x)) 0 && Z.leb (Z.abs (Qnum x * (Zpos d / Zpos (Qden x)))) K.
Lemma partsb_ok d K x : partsb d K x = true -> parts d K x.
Proof.
  unfold partsb. intros E. apply andb_true_iff in E. destruct E as [E1 E2]. apply Z.eqb_eq in E1. apply Z.leb_le in E2.
  exists (Qnum x * (Zpos d / Zpos (Qden x)))%Z. split; [|exact E2]. apply Qc_is_canon. rewrite DetQ.this_q. unfold Qeq. cbn [Qnum Qden].
  pose proof (Z.div_mod (Zpos d) (Zpos (Qden x)) ltac:(lia)) as D. rewrite E1 in D. set (c := (Zpos d / Zpos (Qden x))%Z) in *. rewrite D. ring.
Qed.
Definition data_sizeb (d : positive) (K : Z) (p : provider) : bool :=
  Z.leb (Zpos d) K &&
  forallb (fun i => forallb (fun j => partsb d K (den (p_col p j) i)) (seq 0 (p_cols p)) && partsb d K (nthq (p_rhs p) i)) (seq 0 (p_rows p)) &&
  forallb (fun j => partsb d K (p_cost p j)) (seq 0 (p_cols p)).
Lemma data_sizeb_ok d K p : data_sizeb d K p = true -> data_size d K p.
Proof.
  unfold data_sizeb. intros E. apply andb_true_iff in E. destruct E as [E E3]. apply andb_true_iff in E. destruct E as [E1 E2].
  rewrite forallb_forall in E2, E3. split.
  - now apply Z.leb_le.
  - intros i j Li Lj. specialize (E2 i ltac:(apply in_seq; lia)). apply andb_true_iff in E2. destruct E2 as [E2 _]. rewrite forallb_forall in E2. apply partsb_ok, E2. apply in_seq. lia.
  - intros i Li. specialize (E2 i ltac:(apply in_seq; lia)). apply andb_true_iff in E2. now apply partsb_ok.
  - intros j Lj. apply partsb_ok, E3. apply in_seq. lia.
Qed.
Lemma ex_size_ok : provider_ok ex_size.
Proof. apply plain_ok. vm_compute. reflexivity. Qed.
Lemma ex_size_data : data_size 2 12 ex_size.
Proof. apply data_sizeb_ok. vm_compute. reflexivity. Qed.
Lemma ex_size_runs r n : run r n 20 ex_size = Ok (FiniteOptimum size_answer).
Proof. apply result_is_ok. destruct r, n; vm_compute; reflexivity. Qed.
Lemma ex_size_bound : det_bound 2 12 = 288%Z.
Proof. reflexivity. Qed.
Lemma ex_size_state r n : exists k t s, reach (ops r) (rule n (ops r)) ex_size PhaseOne ex_size k t (Some s).
Proof. apply started_reach with 0%nat. destruct r, n; vm_compute; reflexivity. Qed.
