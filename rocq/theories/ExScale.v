(** * Concrete programs for scaling *)
From Verif Require Import Examples ExGeneral SpecScale ScaleP SearchP PowerP FactorP ScaleRunP ExponentP ScaleQ.
Local Open Scope Qc_scope.

(** ** A factorization for numbers with small prime factors *)
Fixpoint times_in (fuel : nat) (p a : Z) : Z :=
  match fuel with O => 0%Z | S fuel => if (a mod p =? 0)%Z then (1 + times_in fuel p (a / p))%Z else 0%Z end.
Definition small_primes : list Z := [2; 3; 5; 7; 11; 13; 17; 19]%Z.
Definition small (v : Qc) : factorization :=
  if qzero v then [] else
  filter (fun '(_, k) => negb (k =? 0)%Z) (map (fun p => (p, (times_in 20 p (Qnum v) - times_in 20 p (Zpos (Qden v)))%Z)) small_primes).
(** checking *)
Definition primeb (p : Z) : bool := (1 <? p)%Z && forallb (fun d => negb (p mod Z.of_nat d =? 0)%Z) (seq 2 (Z.to_nat p - 2)).
Lemma primeb_ok p : primeb p = true -> prime p.
Proof.
  unfold primeb. intros H. apply andb_true_iff in H. destruct H as [H1 H2]. apply Z.ltb_lt in H1. rewrite forallb_forall in H2. apply prime_alt. split; [assumption|]. intros n N D.
  specialize (H2 (Z.to_nat n)). rewrite Z2Nat.id in H2 by lia. apply Z.mod_divide in D; [|lia]. rewrite D in H2. discriminate H2. apply in_seq. lia.
Qed.
Fixpoint increasingb (a : Z) (l : list Z) : bool := match l with [] => true | x :: t => (a <? x)%Z && increasingb x t end.
Lemma increasingb_ok : forall l a, increasingb a l = true -> zincreasing a l.
Proof. induction l as [|x l IH]; intros a H; [exact I|]. cbn in *. apply andb_true_iff in H. destruct H as [H1 H2]. apply Z.ltb_lt in H1. split; [assumption|now apply IH]. Qed.
Definition prime_factorizationb (l : factorization) (v : Qc) : bool := increasingb 1 (map fst l) && forallb primeb (map fst l) && qeqb (qabs v) (product l).
Lemma prime_factorizationb_ok l v : prime_factorizationb l v = true -> prime_factorization l v.
Proof.
  unfold prime_factorizationb. rewrite !andb_true_iff. intros [[H1 H2] H3]. split; [now apply increasingb_ok|]. split; [|now apply qeqb_true]. intros f k H. rewrite forallb_forall in H2. apply primeb_ok, H2. apply (in_map fst _ _ H).
Qed.
Definition factorizesb (g : general) : bool := forallb (fun v => prime_factorizationb (small v) v) (values g).
Lemma factorizesb_ok g : factorizesb g = true -> forall v, In v (values g) -> prime_factorization (small v) v.
Proof. unfold factorizesb. rewrite forallb_forall. intros H v HV. now apply prime_factorizationb_ok, H. Qed.
Lemma prime_factorizes g : (forall v, In v (values g) -> prime_factorization (small v) v) -> factorizes small g.
Proof. intros H v HV. destruct (H v HV) as [S _]. now apply (increasing_weaken 1). Qed.

(** ** Programs *)
(** the program of `test_scale` (rational/test.rs:220-336) *)
Local Open Scope string_scope.
Definition ex_scale : general :=
  new_general Minimize 4
    [zcol [(0%nat, 11%Z); (1%nat, 4%Z); (2%nat, 7%Z)]; zcol [(0%nat, 2%Z); (1%nat, 6%Z); (2%nat, 14%Z); (3%nat, 11%Z)]]
    [Equal; Less; Greater; Equal] [zq 3; zq 0; zq 21; zq 11]
    [v_ 4 (Some 0%Z) (Some 6%Z); v_ 11 (Some 1%Z) (Some 2%Z)] ["x"; "y"] (zq 16).
(** the program of `test_scale_variable`: min 323 x + 19 y with 5/19 <= x <= 7/19, 11 <= y <= 13, 19 x + 2 y = 3 *)
Definition ex_scale_variable : general :=
  new_general Minimize 1 [zcol [(0%nat, 19%Z)]; zcol [(0%nat, 2%Z)]] [Equal] [zq 3]
    [mk_var false (zq 323) (Some (zq 5 / zq 19)) (Some (zq 7 / zq 19)) 0 false; v_ 19 (Some 11%Z) (Some 13%Z)] ["x"; "y"] 0.
(** min x + y with x - y <= 1, x + y >= 0: no factor *)
Definition ex_unit : general :=
  new_general Minimize 2 [zcol [(0%nat, 1%Z); (1%nat, 1%Z)]; zcol [(0%nat, (-1)%Z); (1%nat, 1%Z)]] [Less; Greater] [zq 1; zq 0]
    [v_ 1 (Some 0%Z) None; v_ 1 (Some 0%Z) None] ["x"; "y"] 0.
(** no variables: 0 <= 2 *)
Definition ex_no_variables : general := new_general Minimize 1 [] [Less] [zq 2] [] [] 0.
(** min 6 x + 10 y with 6 x + 15 y >= 30, 4 x - 10 y <= 20, 3 <= 6 x + y <= 33 (as 33 with range 30): variable factors *)
Definition ex_scale_solve : general :=
  new_general Minimize 3 [zcol [(0%nat, 6%Z); (1%nat, 4%Z); (2%nat, 6%Z)]; zcol [(0%nat, 15%Z); (1%nat, (-10)%Z); (2%nat, 1%Z)]] [Greater; Less; Range (zq 30)] [zq 30; zq 20; zq 33]
    [v_ 6 (Some 0%Z) None; v_ 10 None None] ["x"; "y"] (zq 7).

(** ** The expectations of the tests in the repository *)
Local Open Scope Qc_scope.
Definition scaling_eqb (a b : scaling) : bool :=
  qeqb (sc_cost a) (sc_cost b) && forallb (fun '(x, y) => qeqb x y) (combine (sc_rows a) (sc_rows b)) && forallb (fun '(x, y) => qeqb x y) (combine (sc_cols a) (sc_cols b)) &&
  Nat.eqb (length (sc_rows a)) (length (sc_rows b)) && Nat.eqb (length (sc_cols a)) (length (sc_cols b)).
Lemma qlist_eqb_ok : forall a b, forallb (fun '(x, y) => qeqb x y) (combine a b) = true -> length a = length b -> a = b.
Proof. induction a as [|x a IH]; intros [|y b] H L; try discriminate; [reflexivity|]. cbn in *. apply andb_true_iff in H. destruct H as [H1 H2]. apply qeqb_true in H1. subst y. f_equal. apply IH; [assumption|lia]. Qed.
Lemma scaling_eqb_ok a b : scaling_eqb a b = true -> a = b.
Proof.
  unfold scaling_eqb. rewrite !andb_true_iff. intros [[[[H1 H2] H3] H4] H5]. apply Nat.eqb_eq in H4, H5. destruct a, b. cbn in *. apply qeqb_true in H1. f_equal; [assumption|now apply qlist_eqb_ok|now apply qlist_eqb_ok].
Qed.
Definition found_is (g : general) (sc : scaling) : bool := match scale small 300 g with Ok (_, sc') => scaling_eqb sc' sc | _ => false end.
Lemma found_is_ok g sc : found_is g sc = true -> exists g', scale small 300 g = Ok (g', sc).
Proof. unfold found_is. destruct (scale small 300 g) as [[g' sc']| |]; try discriminate. intros H. apply scaling_eqb_ok in H. subst sc'. now exists g'. Qed.
(** rational/test.rs:287-292 *)
Lemma ex_scale_found : exists g', scale small 300 ex_scale = Ok (g', mk_scaling 1 [1; zq 1 / zq 2; zq 1 / zq 7; zq 1 / zq 11] [1; 1]).
Proof. apply found_is_ok. vm_compute. reflexivity. Qed.
(** `test_scale_variable` *)
Lemma ex_scale_variable_found : exists g', scale small 300 ex_scale_variable = Ok (g', mk_scaling 1 [1] [zq 19; 1]).
Proof. apply found_is_ok. vm_compute. reflexivity. Qed.
(** `test_solve_single_without_b` (rational/test.rs:338-359) *)
Definition ex_factored : factored :=
  mk_factored [2; 3; 7; 11]%Z [None; None; None; None] [Some [(11, 1)]; Some [(2, 2)]]%Z [(None, None); (None, None)] 
   [[(0%nat, []); (1%nat, [(2, 2)%Z]); (2%nat, [(7, 1)%Z])]; [(0%nat, [(2, 1)%Z]); (1%nat, [(2, 1); (3, 1)]%Z); (2%nat, [(2, 1); (7, 1)]%Z); (3%nat, [(11, 1)]%Z)]].
Lemma ex_factored_solved : solve_scaling 100 ex_factored =
  Ok [(11, ((0, [0; 0; 0; -1]), [0; 0])); (7, ((0, [0; 0; -1; 0]), [0; 0])); (3, ((0, [0; 0; 0; 0]), [0; 0])); (2, ((0, [0; -1; 0; 1]), [0; -1]))]%Z.
Proof. vm_compute. reflexivity. Qed.

(** ** Hypotheses that are met *)
Lemma ex_scale_solve_ok : general_ok ex_scale_solve /\ fresh ex_scale_solve. Proof. apply new_ok. vm_compute. reflexivity. Qed.
Lemma ex_scale_variable_ok : general_ok ex_scale_variable /\ fresh ex_scale_variable. Proof. apply new_ok. vm_compute. reflexivity. Qed.
Lemma ex_unit_ok : general_ok ex_unit /\ fresh ex_unit. Proof. apply new_ok. vm_compute. reflexivity. Qed.
Lemma ex_no_variables_ok : general_ok ex_no_variables /\ fresh ex_no_variables. Proof. apply new_ok. vm_compute. reflexivity. Qed.
Lemma ex_scale_solve_factors : forall v, In v (values ex_scale_solve) -> prime_factorization (small v) v.
Proof. apply factorizesb_ok. vm_compute. reflexivity. Qed.
Lemma ex_scale_variable_factors : forall v, In v (values ex_scale_variable) -> prime_factorization (small v) v.
Proof. apply factorizesb_ok. vm_compute. reflexivity. Qed.
Lemma ex_scale_solve_found : exists g', scale small 300 ex_scale_solve = Ok (g', mk_scaling 1 [zq 1 / zq 15; zq 1 / zq 10; zq 1 / zq 3] [zq 2; 1]).
Proof. apply found_is_ok. vm_compute. reflexivity. Qed.
