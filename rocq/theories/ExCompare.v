(** * Solutions that are compared *)
From Verif Require Import Compare SpecCompare CompareP Examples.
From Coq Require Import Permutation.
Local Open Scope string_scope.
Local Open Scope list_scope.

Definition ten (a b : Z) : solution := mk_solution (zq 3)
  [("a", zq 1); ("b", zq 2); ("c", zq 3); ("d", zq 4); ("e", zq 5); ("f", zq 6); ("g", zq 7); ("h", zq 8); ("i", zq a); ("j", zq b)].
Definition ten_reordered : solution := mk_solution (zq 3)
  [("j", zq 1); ("a", zq 1); ("b", zq 2); ("c", zq 3); ("d", zq 4); ("e", zq 5); ("f", zq 6); ("g", zq 7); ("h", zq 8); ("i", zq 0)].
(** more than half of the values *)
Definition half (n total : nat) : bool := Nat.ltb total (2 * n).
Definition most (n total : nat) : bool := Nat.ltb (9 * total) (10 * n).
Lemma ten_names : NoDup (map fst (s_values (ten 0 1))) /\ NoDup (map fst (s_values ten_reordered)) /\ (10 <= length (s_values (ten 0 1)))%nat.
Proof. split; [|split; [|cbn; lia]]; cbn; repeat constructor; cbn; intuition discriminate. Qed.
Lemma ten_shared : shared (ten 0 1) (ten 1 2) = 8%nat /\ is_probably_equal_to half (ten 0 1) (ten 1 2) = true /\ is_probably_equal_to most (ten 0 1) (ten 1 2) = false.
Proof. vm_compute. repeat split. Qed.
Lemma ten_same : Permutation (s_values (ten 0 1)) (s_values ten_reordered) /\ most (length (s_values (ten 0 1))) (length (s_values (ten 0 1))) = true.
Proof. split; [|reflexivity]. apply Permutation_sym. unfold ten, ten_reordered, s_values. apply (Permutation_cons_append [_; _; _; _; _; _; _; _; _]). Qed.
Lemma small_values_ignored enough : exists s t, NoDup (map fst (s_values s)) /\ shared s t = 0%nat /\ (length (s_values s) = 2)%nat /\ is_probably_equal_to enough s t = true.
Proof.
  exists (mk_solution (zq 3) [("a", zq 1); ("b", zq 2)]), (mk_solution (zq 3) [("a", zq 2); ("b", zq 1)]). split; [cbn; repeat constructor; cbn; intuition discriminate|]. repeat split.
Qed.
