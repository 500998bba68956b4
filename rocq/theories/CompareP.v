(** * Proofs: comparing solutions *)
From Verif Require Import Compare SpecCompare Qcx.
From Coq Require Import Permutation Lia.
Local Open Scope string_scope.
Local Open Scope list_scope.

Lemma keys_in l name : In name (keys l) <-> In name (map fst l).
Proof. unfold keys. apply nodup_In. Qed.
Lemma keys_nodup l : NoDup (keys l). Proof. apply NoDup_nodup. Qed.
Lemma keys_all l : NoDup (map fst l) -> keys l = map fst l. Proof. apply nodup_fixed_point. Qed.
Lemma same_keys a b : length (keys a) = length (keys b) -> forallb (fun k => if in_dec string_dec k (keys b) then true else false) (keys a) = true -> Permutation (keys a) (keys b).
Proof.
  intros L H. apply NoDup_Permutation_bis; [apply keys_nodup|lia|]. intros k K. rewrite forallb_forall in H. specialize (H k K). now destruct (in_dec string_dec k (keys b)).
Qed.
Lemma keys_test a b : Permutation (keys a) (keys b) -> (Nat.eqb (length (keys a)) (length (keys b)) && forallb (fun k => if in_dec string_dec k (keys b) then true else false) (keys a) = true)%bool.
Proof.
  intros P. apply andb_true_iff. split; [apply Nat.eqb_eq; now apply Permutation_length|]. apply forallb_forall. intros k K. destruct (in_dec string_dec k (keys b)) as [|N]; [reflexivity|]. elim N. now apply (Permutation_in _ P).
Qed.
Lemma values_equal_sym a b : values_equal a b = values_equal b a.
Proof.
  destruct a as [v|], b as [w|]; try reflexivity. cbn. destruct (qeqb v w) eqn:E.
  - apply qeqb_true in E. subst. symmetry. now apply qeqb_true.
  - destruct (qeqb w v) eqn:F; [|reflexivity]. apply qeqb_true in F. subst. apply qeqb_false in E. congruence.
Qed.
(** the comparison in one piece *)
Lemma compare_iff enough s t : is_probably_equal_to enough s t = true <->
  s_objective s = s_objective t /\ length (s_values s) = length (s_values t) /\ Permutation (keys (s_values s)) (keys (s_values t)) /\
  ((length (s_values s) < 10)%nat \/ enough (length (filter (fun name => values_equal (map_get (s_values s) name) (map_get (s_values t) name)) (keys (s_values s)))) (length (s_values s)) = true).
Proof.
  unfold is_probably_equal_to. destruct (qeqb (s_objective s) (s_objective t)) eqn:O; cbn [negb].
  2: { apply qeqb_false in O. split; [discriminate|intros (A & _); contradiction]. }
  apply qeqb_true in O. destruct (Nat.eqb_spec (length (s_values s)) (length (s_values t))) as [L|L]; cbn [negb]; [|split; [discriminate|intros (_ & A & _); contradiction]].
  destruct (Nat.eqb (length (keys (s_values s))) (length (keys (s_values t))) && forallb _ _)%bool eqn:K; cbn [negb].
  2: { split; [discriminate|]. intros (_ & _ & P & _). apply keys_test in P. rewrite P in K. discriminate. }
  apply andb_true_iff in K. destruct K as [K1 K2]. apply Nat.eqb_eq in K1. pose proof (same_keys _ _ K1 K2) as P. destruct (Nat.ltb_spec (length (s_values s)) 10) as [T|T].
  - split; [intros _|reflexivity]. repeat split; try assumption. now left.
  - split; [intros E|intros (_ & _ & _ & [E|E]); [lia|assumption]]. repeat split; try assumption. now right.
Qed.
Lemma filter_perm {A} (f : A -> bool) a b : Permutation a b -> Permutation (filter f a) (filter f b).
Proof. induction 1; cbn; try (destruct (f x)); try (destruct (f y)); eauto using Permutation, perm_swap. Qed.
Lemma compare_sound enough s t : is_probably_equal_to enough s t = true -> s_objective s = s_objective t /\ forall name, In name (map fst (s_values s)) <-> In name (map fst (s_values t)).
Proof.
  intros H. apply compare_iff in H. destruct H as (A & _ & P & _). split; [assumption|]. intros name. rewrite <- !keys_in. split; [apply (Permutation_in _ P)|apply (Permutation_in _ (Permutation_sym P))].
Qed.
Lemma compare_symmetric enough s t : is_probably_equal_to enough s t = is_probably_equal_to enough t s.
Proof.
  assert (H : forall s t, is_probably_equal_to enough s t = true -> is_probably_equal_to enough t s = true).
  { clear. intros s t H. apply compare_iff in H. destruct H as (A & L & P & E). apply compare_iff. split; [now symmetry|]. split; [now symmetry|]. split; [now apply Permutation_sym|]. rewrite <- L. destruct E as [E|E]; [now left|right].
    rewrite <- E. f_equal. rewrite (Permutation_length (filter_perm _ _ _ (Permutation_sym P))). f_equal. apply filter_ext. intros name. apply values_equal_sym. }
  destruct (is_probably_equal_to enough s t) eqn:E; destruct (is_probably_equal_to enough t s) eqn:F; try reflexivity; [apply H in E|apply H in F]; congruence.
Qed.
Lemma map_get_in l name v : NoDup (map fst l) -> In (name, v) l -> map_get l name = Some v.
Proof.
  intros N I. unfold map_get. assert (N' : NoDup (map fst (rev l))) by (rewrite map_rev; now apply NoDup_rev). apply in_rev in I. revert N' I. generalize (rev l). clear. induction l as [|[k w] l IH]; intros N I; [destruct I|]. cbn [find fst].
  cbn [map fst] in N. apply NoDup_cons_iff in N. destruct N as [N1 N2]. destruct I as [I|I].
  - injection I as -> ->. now rewrite String.eqb_refl.
  - destruct (String.eqb_spec k name) as [->|_]; [|now apply IH]. elim N1. now apply (in_map fst) in I.
Qed.
Lemma compare_distinct enough s t : NoDup (map fst (s_values s)) -> NoDup (map fst (s_values t)) -> (10 <= length (s_values s))%nat ->
  is_probably_equal_to enough s t = true <->
  s_objective s = s_objective t /\ Permutation (map fst (s_values s)) (map fst (s_values t)) /\ enough (shared s t) (length (s_values s)) = true.
Proof.
  intros N1 N2 L. rewrite compare_iff, (keys_all _ N1), (keys_all _ N2).
  assert (E : Permutation (map fst (s_values s)) (map fst (s_values t)) -> length (filter (fun name => values_equal (map_get (s_values s) name) (map_get (s_values t) name)) (map fst (s_values s))) = shared s t).
  { intros P. unfold shared. assert (G : forall l, incl l (s_values s) -> length (filter (fun name => values_equal (map_get (s_values s) name) (map_get (s_values t) name)) (map fst l)) =
       length (filter (fun '(name, v) => existsb (fun '(name', w) => String.eqb name name' && qeqb v w)%bool (s_values t)) l)).
    { induction l as [|[k v] l IH]; intros I; [reflexivity|]. cbn [map fst filter]. rewrite (map_get_in _ k v N1) by (apply I; now left).
      assert (K : In k (map fst (s_values t))) by (apply (Permutation_in _ P); apply (in_map fst _ (k, v)); apply I; now left). apply in_map_iff in K. destruct K as ([k' w] & K1 & K2). cbn [fst] in K1. subst k'.
      rewrite (map_get_in _ k w N2 K2). cbn [values_equal].
      assert (X : existsb (fun '(name', w) => String.eqb k name' && qeqb v w)%bool (s_values t) = qeqb v w).
      { destruct (qeqb v w) eqn:Q.
        - apply existsb_exists. exists (k, w). split; [assumption|]. now rewrite String.eqb_refl, Q.
        - destruct (existsb _ (s_values t)) eqn:Y; [|reflexivity]. apply existsb_exists in Y. destruct Y as ([k' w'] & Y1 & Y2). apply andb_true_iff in Y2. destruct Y2 as [Y2 Y3]. apply String.eqb_eq in Y2. subst k'.
          pose proof (map_get_in _ k w N2 K2) as M1. rewrite (map_get_in _ k w' N2 Y1) in M1. injection M1 as ->. congruence. }
      rewrite X. destruct (qeqb v w); cbn [length]; rewrite IH by (intros e Ie; apply I; now right); reflexivity. }
    apply G. apply incl_refl. }
  split.
  - intros (A & _ & P & [X|X]); [lia|]. split; [assumption|]. split; [assumption|]. now rewrite <- E.
  - intros (A & P & X). split; [assumption|]. split; [apply Permutation_length in P; now rewrite !map_length in P|]. split; [assumption|]. right. now rewrite E.
Qed.
Lemma filter_all {A} (f : A -> bool) l : (forall x, In x l -> f x = true) -> filter f l = l.
Proof. induction l as [|x l IH]; intros H; [reflexivity|]. cbn. rewrite (H x) by now left. now rewrite IH by (intros; apply H; now right). Qed.
(** the order of the values does not matter *)
Lemma compare_same enough s t : s_objective s = s_objective t -> Permutation (s_values s) (s_values t) -> NoDup (map fst (s_values s)) -> enough (length (s_values s)) (length (s_values s)) = true ->
  is_probably_equal_to enough s t = true.
Proof.
  intros O P N E. assert (N' : NoDup (map fst (s_values t))) by (apply (Permutation_NoDup (Permutation_map fst P) N)). apply compare_iff. rewrite (keys_all _ N), (keys_all _ N').
  split; [assumption|]. split; [now apply Permutation_length|]. split; [now apply Permutation_map|]. right.
  rewrite filter_all; [now rewrite map_length|]. intros name I. apply in_map_iff in I. destruct I as ([k v] & <- & I). cbn [fst]. rewrite (map_get_in _ k v N I), (map_get_in _ k v N' (Permutation_in _ P I)). cbn. now apply qeqb_true.
Qed.
