(** * Rotating a permutation (C15)

    [down] and [up] are defined in SpecRotate.v. *)
From Verif Require Import SpecRotate SolverQ RotateP.

(** `rotate_right_from` never panics, and says what the two directions are after it.  They undo each other if and only if the
    rotation commutes with the permutation. *)
Theorem C15_full_rotate : forall m f i, full_history m f -> (i < m)%nat -> exists f', full_rotate_right_from f i = Ok f' /\
  (forall x, (x < m)%nat -> full_forward f' x = full_forward f (down i m x) /\ full_backward f' x = full_backward f (up i m x)) /\
  ((forall x j, (x < m)%nat -> full_forward f' x = Ok j -> full_backward f' j = Ok x) <->
   forall x j, (x < m)%nat -> full_forward f x = Ok j -> full_forward f (down i m x) = Ok (down i m j)).
Proof. exact full_rotated. Qed.
Print Assumptions C15_full_rotate.
(** So they do if nothing that is rotated has been moved before.  Missing: all permutations, see C15_full_rotate_refuted. *)
Theorem C15_full_rotate_partial : forall m f i f', full_history m f -> (i < m)%nat -> (forall x, (i <= x < m)%nat -> full_forward f x = Ok x) -> full_rotate_right_from f i = Ok f' ->
  forall x j, (x < m)%nat -> full_forward f' x = Ok j -> full_backward f' j = Ok x.
Proof. exact full_rotate_fixed. Qed.
Print Assumptions C15_full_rotate_partial.
(** Two numbers swapped, and the three others rotated. *)
Example C15_full_rotate_case : exists f f', full_history 5 f /\ (forall x, (2 <= x < 5)%nat -> full_forward f x = Ok x) /\ full_rotate_right_from f 2 = Ok f' /\ f_fw f' = [1; 0; 4; 2; 3]%nat /\ f_bw f' = [1; 0; 3; 4; 2]%nat.
Proof.
  exists (full_new [1; 0; 2; 3; 4]%nat), (mk_full [1; 0; 4; 2; 3]%nat [1; 0; 3; 4; 2]%nat). split; [|split; [|split; [reflexivity|split; reflexivity]]].
  - apply fh_new; [reflexivity| |].
    + repeat constructor; cbn; intuition discriminate.
    + cbn. intuition lia.
  - intros x H. assert (E : x = 2%nat \/ x = 3%nat \/ x = 4%nat) by lia. destruct E as [->|[->| ->]]; reflexivity.
Qed.
