(** * Certificates for the answers about files (C56)

    The specification is SpecFDual.v on top of SpecFile.v: multipliers by name for the rows and columns of a content,
    [fproves_bound], [fproves_infeasible], and directions [fray]. *)
From Verif Require Import ExParse SpecFixed SpecFDual TextPipeline TextSolveP FixedP FDualP ExFile ExAnswers ExFDual.
Local Open Scope string_scope.
Local Open Scope list_scope.

Theorem C56_file_bound_proved : forall f y d v x, fproves_bound f y d v -> ffeasible f x -> better (fsense f) v (fcost f x).
Proof. exact fbound_proved. Qed.
Print Assumptions C56_file_bound_proved.
Theorem C56_file_infeasible_proved : forall f y d x, fproves_infeasible f y d -> ~ ffeasible f x.
Proof. exact finfeasible_proved. Qed.
Print Assumptions C56_file_infeasible_proved.
Theorem C56_file_unbounded_proved : forall f x d, ffeasible f x -> fray f d -> funbounded f.
Proof. exact fray_unbounded. Qed.
Print Assumptions C56_file_unbounded_proved.
(** every optimum of a program that can be written has multipliers that prove it *)
Theorem C56_file_every_optimum : forall f text x, file_ok f -> file_solvable f -> spells text f -> foptimal f x -> exists y d, fproves_bound f y d (fcost f x).
Proof. exact (fun f text x OK FS T => every_optimum_certified (parse_free Checked) f text x FS (text_reads Checked f text OK T)). Qed.
Print Assumptions C56_file_every_optimum.
Theorem C56_file_every_infeasible : forall f text, file_ok f -> file_solvable f -> spells text f -> (forall x, ~ ffeasible f x) -> exists y d, fproves_infeasible f y d.
Proof. exact (fun f text OK FS T => every_infeasible_certified (parse_free Checked) f text FS (text_reads Checked f text OK T)). Qed.
Print Assumptions C56_file_every_infeasible.
Theorem C56_file_every_unbounded : forall f text, file_ok f -> file_solvable f -> spells text f -> funbounded f -> exists d, fray f d.
Proof. exact (fun f text OK FS T => every_unbounded_certified (parse_free Checked) f text FS (text_reads Checked f text OK T)). Qed.
Print Assumptions C56_file_every_unbounded.
(** so the answers about texts have one, for minima and for maxima, in free and in fixed format *)
Theorem C56_text_optimum : forall b f text r n fuel s, file_ok f -> file_solvable f -> spells text f -> solve_text b r n fuel text = Got (Ok (Solved_to s)) ->
  ffeasible f (answer_at s) /\ exists y d, fproves_bound f y d (fcost f (answer_at s)).
Proof. exact (fun b f text r n fuel s OK FS T => with_optimum_certified (parse_free b) f text r n fuel s FS (text_reads b f text OK T)). Qed.
Print Assumptions C56_text_optimum.
Theorem C56_text_infeasible : forall b f text r n fuel, file_ok f -> file_solvable f -> spells text f -> solve_text b r n fuel text = Got (Ok NoSolution) ->
  exists y d, fproves_infeasible f y d.
Proof. exact (fun b f text r n fuel OK FS T => with_none_certified (parse_free b) f text r n fuel FS (text_reads b f text OK T)). Qed.
Print Assumptions C56_text_infeasible.
Theorem C56_text_unbounded : forall b f text r n fuel, file_ok f -> file_solvable f -> spells text f -> solve_text b r n fuel text = Got (Ok NoBound) ->
  exists d, fray f d.
Proof. exact (fun b f text r n fuel OK FS T => with_unbounded_certified (parse_free b) f text r n fuel FS (text_reads b f text OK T)). Qed.
Print Assumptions C56_text_unbounded.
Theorem C56_fixed_optimum : forall b f text r n fuel s, fixed_ok f -> file_solvable f -> fixed_spells text f -> solve_fixed_text b r n fuel text = Got (Ok (Solved_to s)) ->
  ffeasible f (answer_at s) /\ exists y d, fproves_bound f y d (fcost f (answer_at s)).
Proof. exact (fun b f text r n fuel s OK FS T => with_optimum_certified (parse_fixed b) f text r n fuel s FS (fixed_read b f text OK T)). Qed.
Print Assumptions C56_fixed_optimum.
Theorem C56_fixed_infeasible : forall b f text r n fuel, fixed_ok f -> file_solvable f -> fixed_spells text f -> solve_fixed_text b r n fuel text = Got (Ok NoSolution) ->
  exists y d, fproves_infeasible f y d.
Proof. exact (fun b f text r n fuel OK FS T => with_none_certified (parse_fixed b) f text r n fuel FS (fixed_read b f text OK T)). Qed.
Print Assumptions C56_fixed_infeasible.
Theorem C56_fixed_unbounded : forall b f text r n fuel, fixed_ok f -> file_solvable f -> fixed_spells text f -> solve_fixed_text b r n fuel text = Got (Ok NoBound) ->
  exists d, fray f d.
Proof. exact (fun b f text r n fuel OK FS T => with_unbounded_certified (parse_fixed b) f text r n fuel FS (fixed_read b f text OK T)). Qed.
Print Assumptions C56_fixed_unbounded.
Example C56_file_case : forall b r n,
  (file_ok small_file /\ file_solvable small_file /\ spells small small_file /\ solve_text b r n 40 small = Got (Ok small_answer) /\
   fproves_bound small_file (at_name [("LIM2", 1%Qc); ("MYEQN", q (-1) 2)]) (at_name [("YTWO", q 7 2)]) (q 3 1)) /\
  (file_ok largest_file /\ file_solvable largest_file /\ spells largest largest_file /\
   (exists s, solve_text b r n 40 largest = Got (Ok (Solved_to s)) /\ s_values s = [("X", q 1 1); ("Y", q 3 1)]) /\
   fproves_bound largest_file (at_name [("LIM1", q (-3) 2); ("LIM2", q 1 2)]) (at_name []) (q 7 1)) /\
  (file_ok no_point_file /\ file_solvable no_point_file /\ spells no_point no_point_file /\ solve_text b r n 40 no_point = Got (Ok NoSolution) /\
   fproves_infeasible no_point_file (at_name [("LIM1", q (-1) 1); ("LIM2", 1%Qc)]) (at_name [("Y", q 2 1)])) /\
  (file_ok no_bound_file /\ file_solvable no_bound_file /\ spells no_bound no_bound_file /\ solve_text b r n 40 no_bound = Got (Ok NoBound) /\
   fray no_bound_file (at_name [("X", 1%Qc); ("Y", 1%Qc)])).
Proof.
  exact (fun b r n => conj (conj small_ok (conj small_solvable (conj small_spelled (conj (small_solved b r n) small_proof))))
    (conj (conj largest_ok (conj largest_solvable (conj largest_spelled (conj (largest_solved b r n) largest_proof))))
    (conj (conj no_point_ok (conj no_point_solvable (conj no_point_spelled (conj (no_point_solved b r n) no_point_proof))))
    (conj no_bound_ok (conj no_bound_solvable (conj no_bound_spelled (conj (no_bound_solved b r n) no_bound_proof))))))).
Qed.
