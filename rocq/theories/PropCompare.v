(** * Properties of comparing solutions (C47)

    [is_probably_equal_to enough s t] decides with [enough n total] whether [n] equal values of [total] are enough.
    [shared s t] counts the values that are in both solutions, for the same variable (SpecCompare.v). *)
From Verif Require Import Compare SpecCompare CompareP ExCompare.
From Coq Require Import Permutation.

(** Equal solutions have the same objective value and the same variables. *)
Theorem C47_sound : forall enough s t, is_probably_equal_to enough s t = true ->
  s_objective s = s_objective t /\ forall name, In name (map fst (s_values s)) <-> In name (map fst (s_values t)).
Proof. exact compare_sound. Qed.
Print Assumptions C47_sound.
Theorem C47_symmetric : forall enough s t, is_probably_equal_to enough s t = is_probably_equal_to enough t s.
Proof. exact compare_symmetric. Qed.
Print Assumptions C47_symmetric.
(** A solution is equal to itself in any order, if it is enough that all values are equal. *)
Theorem C47_same : forall enough s t, s_objective s = s_objective t -> Permutation (s_values s) (s_values t) -> NoDup (map fst (s_values s)) ->
  enough (length (s_values s)) (length (s_values s)) = true -> is_probably_equal_to enough s t = true.
Proof. exact compare_same. Qed.
Print Assumptions C47_same.
(** From ten variables on, the values in common are counted.  Missing: fewer variables, see the refutation. *)
Theorem C47_counted_partial : forall enough s t, NoDup (map fst (s_values s)) -> NoDup (map fst (s_values t)) -> (10 <= length (s_values s))%nat ->
  is_probably_equal_to enough s t = true <->
  s_objective s = s_objective t /\ Permutation (map fst (s_values s)) (map fst (s_values t)) /\ enough (shared s t) (length (s_values s)) = true.
Proof. exact compare_distinct. Qed.
Print Assumptions C47_counted_partial.
(** With fewer than ten variables the values are not looked at: nothing in common is enough for every threshold. *)
Theorem C47_few_variables_refuted : forall enough, exists s t, NoDup (map fst (s_values s)) /\ shared s t = 0%nat /\ length (s_values s) = 2%nat /\ is_probably_equal_to enough s t = true.
Proof. exact small_values_ignored. Qed.
Print Assumptions C47_few_variables_refuted.
Example C47_counted_case : NoDup (map fst (s_values (ten 0 1))) /\ (10 <= length (s_values (ten 0 1)))%nat /\
  shared (ten 0 1) (ten 1 2) = 8%nat /\ is_probably_equal_to half (ten 0 1) (ten 1 2) = true /\ is_probably_equal_to most (ten 0 1) (ten 1 2) = false.
Proof. exact (conj (proj1 ten_names) (conj (proj2 (proj2 ten_names)) ten_shared)). Qed.
Example C47_same_case : NoDup (map fst (s_values (ten 0 1))) /\ Permutation (s_values (ten 0 1)) (s_values ten_reordered) /\ most (length (s_values (ten 0 1))) (length (s_values (ten 0 1))) = true.
Proof. exact (conj (proj1 ten_names) ten_same). Qed.
