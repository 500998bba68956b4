(** * Concrete problems, used to show that hypotheses can be met and for counterexamples *)
From Verif Require Export Cycle.

Definition zq (z : Z) : Qc := Q2Qc (inject_Z z).
Definition zcol (l : list (nat * Z)) : svec := map (fun '(i, z) => (i, zq z)) l.

(** a provider given by its columns, costs and right hand side *)
Definition plain (m : nat) (cols : list svec) (cost : list Qc) (rhs : list Qc) (init : init_basis) : provider :=
  mk_provider m (length cols) (fun j => nth j cols []) (fun j => nth j cost 0) rhs init
    (fun rm j => sremove (nth j cols []) rm).

Fixpoint fwfb (lo n : nat) (l : svec) : bool :=
  match l with
  | [] => true
  | (i, v) :: t => Nat.leb lo i && Nat.ltb i n && negb (qzero v) && fwfb (S i) n t
  end.
Lemma fwfb_ok n : forall l lo, fwfb lo n l = true -> fwf lo n l.
Proof.
  induction l as [|[i v] l IH]; intros lo H; [exact I|]. cbn [fwfb fwf] in *.
  apply andb_true_iff in H. destruct H as [H H4]. apply andb_true_iff in H. destruct H as [H H3].
  apply andb_true_iff in H. destruct H as [H1 H2].
  apply Nat.leb_le in H1. apply Nat.ltb_lt in H2. apply negb_true_iff in H3. split; [lia|]. split; [now qb|now apply IH].
Qed.
Fixpoint incb (lo : nat) (l : list nat) : bool :=
  match l with [] => true | x :: t => Nat.leb lo x && incb (S x) t end.
Lemma incb_ok : forall l lo, incb lo l = true -> increasing_from lo l.
Proof.
  induction l as [|x l IH]; intros lo H; [exact I|]. cbn in *. apply andb_true_iff in H. destruct H as [H1 H2].
  apply Nat.leb_le in H1. split; [assumption|now apply IH].
Qed.
Definition unitb (c : svec) (r : nat) : bool :=
  match c with [(i, v)] => Nat.eqb i r && qeqb v 1 | _ => false end.
Lemma unitb_ok c r : unitb c r = true -> c = sbasis r.
Proof.
  destruct c as [|[i v] [|]]; cbn; try discriminate. intros H. apply andb_true_iff in H. destruct H as [H1 H2].
  apply Nat.eqb_eq in H1. qb. now subst.
Qed.

Definition plain_okb (m : nat) (cols : list svec) (rhs : list Qc) (init : init_basis) : bool :=
  Nat.eqb (length rhs) m && forallb (fun x => negb (qneg x)) rhs && forallb (fwfb 0 m) cols &&
  match init with
  | NoInit => true
  | PartialInit real => incb 0 (map fst real) &&
      forallb (fun '(r, j) => Nat.ltb r m && Nat.ltb j (length cols) && unitb (nth j cols []) r) real
  | FullInit _ => false
  end.
Lemma plain_ok m cols cost rhs init :
  plain_okb m cols rhs init = true -> provider_ok (plain m cols cost rhs init).
Proof.
  unfold plain_okb. intros H. apply andb_true_iff in H. destruct H as [H H4]. apply andb_true_iff in H. destruct H as [H H3].
  apply andb_true_iff in H. destruct H as [H1 H2]. apply Nat.eqb_eq in H1. rewrite forallb_forall in H2, H3.
  split; cbn.
  - assumption.
  - intros i Li. unfold nthq. specialize (H2 (nth i rhs 0) ltac:(apply nth_In; lia)). apply negb_true_iff in H2. now qb.
  - intros j Lj. apply fwfb_ok. apply H3. now apply nth_In.
  - unfold init_ok. cbn. destruct init as [|real|real]; [exact I| |discriminate].
    apply andb_true_iff in H4. destruct H4 as [H4 H5]. split; [now apply incb_ok|].
    rewrite forallb_forall in H5. intros r j Hj. specialize (H5 (r, j) Hj). cbn in H5.
    apply andb_true_iff in H5. destruct H5 as [H5 H6]. apply andb_true_iff in H5. destruct H5 as [H5 H7].
    apply Nat.ltb_lt in H5, H7. split; [assumption|]. split; [assumption|]. now apply unitb_ok.
  - reflexivity.
Qed.

(** min -x0 - 2 x1, x0 + x1 <= 4, x0 + 3 x1 <= 6, with slacks x2, x3 *)
Definition ex_optimum : provider :=
  plain 2 [zcol [(0%nat, 1%Z); (1%nat, 1%Z)]; zcol [(0%nat, 1%Z); (1%nat, 3%Z)]; sbasis 0; sbasis 1]
    [zq (-1); zq (-2); 0; 0] [zq 4; zq 6] (PartialInit [(0%nat, 2%nat); (1%nat, 3%nat)]).
(** the same without slacks in the first row: x0 + x1 = 4, no initial basis offered *)
Definition ex_equality : provider :=
  plain 2 [zcol [(0%nat, 1%Z); (1%nat, 1%Z)]; zcol [(0%nat, 1%Z); (1%nat, 3%Z)]; sbasis 1]
    [zq (-1); zq (-2); 0] [zq 4; zq 6] NoInit.
(** three rows, the third is the sum of the others *)
Definition ex_redundant : provider :=
  plain 3 [zcol [(0%nat, 1%Z); (1%nat, 1%Z); (2%nat, 2%Z)]; zcol [(0%nat, 1%Z); (1%nat, 3%Z); (2%nat, 4%Z)];
           zcol [(1%nat, 1%Z); (2%nat, 1%Z)]]
    [zq (-1); zq (-2); 0] [zq 4; zq 6; zq 10] NoInit.
(** x0 + x1 = 1, x0 + x1 + x2 + x3 = 0 *)
Definition ex_infeasible : provider :=
  plain 2 [zcol [(0%nat, 1%Z); (1%nat, 1%Z)]; zcol [(0%nat, 1%Z); (1%nat, 1%Z)]; sbasis 1; sbasis 1]
    [zq 1; zq 1; 0; 0] [zq 1; zq 0] NoInit.
(** min -x0, x0 - x1 = 1, x2 = 1 *)
Definition ex_unbounded : provider :=
  plain 2 [sbasis 0; zcol [(0%nat, (-1)%Z)]; sbasis 1] [zq (-1); 0; 0] [zq 1; zq 1] (PartialInit [(0%nat, 0%nat); (1%nat, 2%nat)]).
(** one row: min -x0, x0 + x1 = 1 *)
Definition ex_one_row : provider :=
  plain 1 [sbasis 0; sbasis 0] [zq (-1); 0] [zq 1] (PartialInit [(0%nat, 1%nat)]).

(** min -3 x0 + 2 x1 + x3 subject to
      x0 -  x1 - 2 x2 + x3 <= 0,
    3 x0 - 2 x1 - 3 x2 + x3 <= 0,
   -30 x0 + 25 x1 + 15 x2 + 5 x3 <= 1,
      x0 +  x1 +   x2 + x3 <= 1  with slacks x4, x5, x6, x7 *)
Definition ex_cycle : provider :=
  plain 4 [zcol [(0%nat, 1%Z); (1%nat, 3%Z); (2%nat, (-30)%Z); (3%nat, 1%Z)];
           zcol [(0%nat, (-1)%Z); (1%nat, (-2)%Z); (2%nat, 25%Z); (3%nat, 1%Z)];
           zcol [(0%nat, (-2)%Z); (1%nat, (-3)%Z); (2%nat, 15%Z); (3%nat, 1%Z)];
           zcol [(0%nat, 1%Z); (1%nat, 1%Z); (2%nat, 5%Z); (3%nat, 1%Z)]; sbasis 0; sbasis 1; sbasis 2; sbasis 3]
    [zq (-3); zq 2; 0; zq 1; 0; 0; 0; 0] [0; 0; 1; 1] (PartialInit [(0%nat, 4%nat); (1%nat, 5%nat); (2%nat, 6%nat); (3%nat, 7%nat)]).
(** min -2 x0 + 6 x1 - x2 + 6 x3 subject to
    x0 - 6 x1 - 2 x2 + 6 x3 <= 0,
    (x0 - 4 x1 - x2 + 2 x3) / 2 <= 0  with slacks x4, x5 *)
Definition half : Qc := Q2Qc (1 # 2).
Definition ex_cycle_variable : provider :=
  plain 2 [[(0%nat, 1); (1%nat, half)];
           zcol [(0%nat, (-6)%Z); (1%nat, (-2)%Z)];
           [(0%nat, zq (-2)); (1%nat, - half)];
           zcol [(0%nat, 6%Z); (1%nat, 1%Z)]; sbasis 0; sbasis 1]
    [zq (-2); zq 6; zq (-1); zq 6; 0; 0] [0; 0] (PartialInit [(0%nat, 4%nat); (1%nat, 5%nat)]).

