(** * The answer does not depend on the bound on the number of steps (C54)

    The model bounds the number of steps by fuel, which the code does not have.  An answer that is found is found with
    every larger bound, so that a text has at most one answer, whatever the text is.  Panics count as answers here. *)
From Verif Require Import TextPipeline TextPresolve ExGeneral ExFile ExTextPresolve FuelP.

Theorem C54_steps : forall parse r n fuel fuel' text a, (fuel <= fuel')%nat ->
  solve_with parse r n fuel text = Got a -> a <> Fuel -> solve_with parse r n fuel' text = Got a.
Proof. exact solve_with_more. Qed.
Print Assumptions C54_steps.
Theorem C54_steps_presolve : forall parse r n fuel fuel' text a, (fuel <= fuel')%nat ->
  presolve_with parse r n fuel text = Got a -> a <> Fuel -> presolve_with parse r n fuel' text = Got a.
Proof. exact presolve_with_more. Qed.
Print Assumptions C54_steps_presolve.
Theorem C54_one_answer : forall parse r n fuel fuel' text a a',
  solve_with parse r n fuel text = Got a -> solve_with parse r n fuel' text = Got a' -> a <> Fuel -> a' <> Fuel -> a = a'.
Proof. exact solve_with_once. Qed.
Print Assumptions C54_one_answer.
Theorem C54_one_answer_presolve : forall parse r n fuel fuel' text a a',
  presolve_with parse r n fuel text = Got a -> presolve_with parse r n fuel' text = Got a' -> a <> Fuel -> a' <> Fuel -> a = a'.
Proof. exact presolve_with_once. Qed.
Print Assumptions C54_one_answer_presolve.

(** An answer within 40 steps, and with any larger bound. *)
Example C54_steps_case : forall b r n more, solve_text b r n (40 + more) small = Got (Ok small_answer).
Proof. exact (fun b r n more => C54_steps (parse_free b) r n 40 (40 + more) small _ (Nat.le_add_r 40 more) (small_solved b r n) ltac:(discriminate)). Qed.
Example C54_steps_presolve_case : forall b r n more, presolve_text b r n (40 + more) small = Got (Ok small_answer).
Proof. exact (fun b r n more => C54_steps_presolve (parse_free b) r n 40 (40 + more) small _ (Nat.le_add_r 40 more) (small_presolved b r n) ltac:(discriminate)). Qed.
(** A bound that is too small gives no answer. *)
Example C54_steps_needed : solve_text Checked UseRows FirstProfitable 0 small = Got Fuel.
Proof. vm_compute. reflexivity. Qed.
