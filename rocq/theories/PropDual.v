(** * Properties of the answers and their proofs (C56)

    Every answer has a certificate: multipliers of the constraints that prove that no point has a lower cost, or that
    there is no point, or a direction in which the cost gets lower forever.  [proves_bound], [proves_infeasible] and
    [ray] are defined in SpecDual.v, [gproves_bound], [gproves_infeasible] and [gray] in SpecGDual.v, by sums of products
    only. *)
From Verif Require Import PipelineP SolverQ GeneralQ ExDual.
Local Open Scope Qc_scope.

(** ** What the certificates prove *)
Theorem C56_bound_proved : forall p y v x, proves_bound p y v -> feasible p x -> v <= objective p x.
Proof. exact bound_proved. Qed.
Print Assumptions C56_bound_proved.
Theorem C56_infeasible_proved : forall p y x, proves_infeasible p y -> ~ feasible p x.
Proof. exact infeasible_proved. Qed.
Print Assumptions C56_infeasible_proved.
Theorem C56_unbounded_proved : forall p x d, feasible p x -> ray p d -> unbounded p.
Proof. exact (fun p x d F D => conj (ex_intro _ x F) (ray_unbounded p x d F D)). Qed.
Print Assumptions C56_unbounded_proved.

(** ** Answers of the solver *)
Theorem C56_optimum : forall r n fuel p x, provider_ok p -> run r n fuel p = Ok (FiniteOptimum x) -> exists y, proves_bound p y (objective p (den x)).
Proof. exact run_optimum_certified. Qed.
Print Assumptions C56_optimum.
Theorem C56_infeasible : forall r n fuel p, provider_ok p -> run r n fuel p = Ok Infeasible -> exists y, proves_infeasible p y.
Proof. exact run_infeasible_certified. Qed.
Print Assumptions C56_infeasible.
Theorem C56_unbounded : forall r n fuel p, provider_ok p -> run r n fuel p = Ok Unbounded -> exists d, ray p d.
Proof. exact run_unbounded_certified. Qed.
Print Assumptions C56_unbounded.
(** the multipliers are there when a loop finds no column: they are the numbers of the first row, with the other sign *)
Theorem C56_stopped : forall r n p p' k t s, provider_ok p -> reach (ops r) (rule n (ops r)) p PhaseTwo p' k t (Some s) ->
  simplex_step (ops r) (rule n (ops r)) k t s = Ok (StepNoColumn (ops r) (rule n (ops r))) ->
  proves_bound p' (fun i => - nthq (c_mpi (t_im t)) i) (objective_value t).
Proof. exact (fun r n => stop_phase_two (ops r) (laws r) _ (rule_laws n (ops r) (laws r))). Qed.
Print Assumptions C56_stopped.
Theorem C56_stopped_infeasible : forall r n p p' k t s, provider_ok p -> reach (ops r) (rule n (ops r)) p PhaseOne p' k t (Some s) ->
  simplex_step (ops r) (rule n (ops r)) k t s = Ok (StepNoColumn (ops r) (rule n (ops r))) -> objective_value t <> 0 ->
  proves_infeasible p (fun i => - nthq (c_mpi (t_im t)) i).
Proof. exact (fun r n => stop_phase_one (ops r) (laws r) _ (rule_laws n (ops r) (laws r))). Qed.
Print Assumptions C56_stopped_infeasible.
(** so every problem has a certificate *)
Theorem C56_duality : forall p, provider_ok p -> (forall l, p_init p = FullInit l -> (1 <= p_rows p)%nat) ->
  (exists x y, feasible p x /\ proves_bound p y (objective p x)) \/ (exists y, proves_infeasible p y) \/ (exists x d, feasible p x /\ ray p d).
Proof. exact strong_duality. Qed.
Print Assumptions C56_duality.
Example C56_case : forall r n,
  (provider_ok ex_optimum /\ run r n 20 ex_optimum = Ok (FiniteOptimum [(0%nat, zq 3); (1%nat, zq 1)]) /\
   proves_bound ex_optimum (fun _ => Q2Qc (-1 # 2)) (objective ex_optimum (den [(0%nat, zq 3); (1%nat, zq 1)]))) /\
  (provider_ok ex_infeasible /\ run r n 20 ex_infeasible = Ok Infeasible /\ proves_infeasible ex_infeasible (fun i => if Nat.eqb i 0 then 1 else zq (-1))) /\
  (provider_ok ex_unbounded /\ run r n 20 ex_unbounded = Ok Unbounded /\ ray ex_unbounded (fun j => if Nat.ltb j 2 then 1 else 0)).
Proof. exact ex_certificates. Qed.

(** ** Programs in general form *)
Theorem C56_general_bound_proved : forall g y v x, gproves_bound g y v -> gfeasible g x -> better (g_objective g) v (gcost g x).
Proof. exact gbound_proved. Qed.
Print Assumptions C56_general_bound_proved.
Theorem C56_general_infeasible_proved : forall g y x, gproves_infeasible g y -> ~ gfeasible g x.
Proof. exact ginfeasible_proved. Qed.
Print Assumptions C56_general_infeasible_proved.
Theorem C56_general_unbounded_proved : forall g x d, general_ok g -> gfeasible g x -> gray g d -> gunbounded g.
Proof. exact gray_unbounded. Qed.
Print Assumptions C56_general_unbounded_proved.
(** every optimum has multipliers that prove it, and every program without points, or without bound, has a certificate *)
Theorem C56_every_optimum : forall g x, general_ok g -> goptimal g x -> exists y, gproves_bound g y (gcost g x).
Proof. exact (fun g x OK => goptimal_certified g OK x). Qed.
Print Assumptions C56_every_optimum.
Theorem C56_every_infeasible : forall g, general_ok g -> (forall x, ~ gfeasible g x) -> exists y, gproves_infeasible g y.
Proof. exact ginfeasible_certified. Qed.
Print Assumptions C56_every_infeasible.
Theorem C56_every_unbounded : forall g, general_ok g -> gunbounded g -> exists d, gray g d.
Proof. exact gunbounded_certified. Qed.
Print Assumptions C56_every_unbounded.
(** so the answers have one, for minima and for maxima *)
Theorem C56_general_optimum : forall r n fuel g s, general_ok g -> fresh g -> solve_general r n fuel g = Ok (Solved_to s) ->
  gfeasible g (solution_point s) /\ exists y, gproves_bound g y (gcost g (solution_point s)).
Proof. exact general_certified. Qed.
Print Assumptions C56_general_optimum.
Theorem C56_general_infeasible : forall r n fuel g, general_ok g -> solve_general r n fuel g = Ok NoSolution -> exists y, gproves_infeasible g y.
Proof. exact (fun r n fuel g OK E => ginfeasible_certified g OK (solve_general_infeasible r n fuel g OK E)). Qed.
Print Assumptions C56_general_infeasible.
Theorem C56_general_unbounded : forall r n fuel g, general_ok g -> solve_general r n fuel g = Ok NoBound -> exists d, gray g d.
Proof. exact (fun r n fuel g OK E => gunbounded_certified g OK (solve_general_unbounded r n fuel g OK E)). Qed.
Print Assumptions C56_general_unbounded.
Example C56_general_case : forall r n,
  (general_ok ex_general /\ fresh ex_general /\ solve_general r n 30 ex_general =
     Ok (Solved_to (mk_solution (Q2Qc (1 # 6)) [("x", 1); ("y", Q2Qc (5 # 3)); ("w", Q2Qc (3 # 2))]%string)) /\
   gproves_bound ex_general (nthq [0; Q2Qc (-2 # 3); Q2Qc (1 # 2); 0]) (Q2Qc (1 # 6))) /\
  (general_ok ex_general_infeasible /\ solve_general r n 30 ex_general_infeasible = Ok NoSolution /\ gproves_infeasible ex_general_infeasible (nthq [zq (-1); 0])) /\
  (general_ok ex_general_unbounded /\ solve_general r n 30 ex_general_unbounded = Ok NoBound /\ gray ex_general_unbounded (nthq [1; 1])).
Proof. exact ex_general_certificates. Qed.
