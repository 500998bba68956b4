(** * Vocabulary for the statements about the solver

    Definitions only.  Nothing here is part of the model; these notions are used to state the
    properties in PropSolver.v. *)
From Verif Require Export InvRows Solve Spec.

(** ** The choices a user has *)
(** `Carry<_, LUDecomposition>` or `Carry<_, BasisInverseRows>` *)
Inductive representation := UseLU | UseRows.
Definition ops (r : representation) : BIOps := match r with UseLU => LU | UseRows => BIR end.
(** the four implementations of `PivotRule` *)
Inductive rule_name := FirstProfitable | FirstProfitableWithMemory | DescentAlongVariable | DescentAlongObjective.
Definition rule (n : rule_name) (O : BIOps) : Rule O :=
  match n with
  | FirstProfitable => first_profitable O
  | FirstProfitableWithMemory => first_profitable_memory O
  | DescentAlongVariable => steepest_variable O
  | DescentAlongObjective => steepest_objective O
  end.
(** `solve_relaxation` with a representation and a pivot rule, at most [fuel] turns of each loop *)
Definition run (r : representation) (n : rule_name) (fuel : nat) (p : provider) : res opt_result :=
  solve (ops r) (rule n (ops r)) fuel p.

Local Open Scope Qc_scope.
(** ** The states a run goes through *)
Section Reach.
Variable O : BIOps.
Variable R : Rule O.

(** [reach p ph p' k t s]: a run on [p] can, in phase [ph], be at tableau [t] of kind [k], which
    describes the problem [p'] ([p] itself or [p] without redundant rows).  [s] is the state of the
    pivot rule inside the loop of a phase, [None] while artificial variables are driven out after the
    loop of phase one. *)
Inductive phase := PhaseOne | PhaseTwo.
Inductive reach (p : provider) : phase -> provider -> kind -> tableau O -> option (r_state R) -> Prop :=
| reach_fully t s : p_init p = NoInit ->
    new_fully O p = Ok t -> r_new R (fully p) t = Ok s -> reach p PhaseOne p (fully p) t (Some s)
| reach_partially real t arts s : p_init p = PartialInit real ->
    new_partially O p real = Ok (t, arts) -> r_new R (partially p arts) t = Ok s ->
    reach p PhaseOne p (partially p arts) t (Some s)
| reach_basis pivots c s : p_init p = FullInit pivots ->
    from_basis_pivots O pivots p = Ok c ->
    r_new R (non_artificial p) (mk_tab c (map snd pivots)) = Ok s ->
    reach p PhaseTwo p (non_artificial p) (mk_tab c (map snd pivots)) (Some s)
| reach_step ph p' k t s t' s' : reach p ph p' k t (Some s) ->
    simplex_step O R k t s = Ok (StepPivot O R t' s') -> reach p ph p' k t' (Some s')
| reach_removal p' k t s arts l1 l2 t' rows : reach p PhaseOne p' k t (Some s) ->
    simplex_step O R k t s = Ok (StepNoColumn O R) -> objective_value t = 0 ->
    artificial_basis_columns k t = Ok arts -> arts = l1 ++ l2 ->
    foldM (removal_step O k) l1 (t, []) = Ok (t', rows) -> reach p PhaseOne p' k t' None
| reach_full_rank fuel t a t' s : (forall l, p_init p <> FullInit l) ->
    compute_bfs O R fuel p = Ok (PhaseOneFeasible O RankFull t, a) ->
    tab_from_artificial (t_im t) a (t_cols t) p = Ok t' ->
    r_new R (non_artificial p) t' = Ok s -> reach p PhaseTwo p (non_artificial p) t' (Some s)
| reach_removed_rows fuel rows t a t' s : (forall l, p_init p <> FullInit l) ->
    compute_bfs O R fuel p = Ok (PhaseOneFeasible O (RankDeficient rows) t, a) ->
    tab_from_artificial_remove (t_im t) a (t_cols t) (remove_rows p rows) rows = Ok t' ->
    r_new R (non_artificial (remove_rows p rows)) t' = Ok s ->
    reach p PhaseTwo (remove_rows p rows) (non_artificial (remove_rows p rows)) t' (Some s).
End Reach.

(** ** Consistency of a tableau *)
(** column [r] of the basis matrix is the column of the variable that is basic in row [r] *)
Definition basis_matrix (k : kind) (basis : list nat) : mat := fun i r => den (k_col k (nth r basis 0%nat)) i.

(** The numbers kept for the basis are exact. [N] is the inverse of the basis matrix. *)
Record consistent (O : BIOps) (k : kind) (rhs : list Qc) (t : tableau O) (N : mat) : Prop := {
  cs_size : length (c_basis (t_im t)) = k_rows k /\ length (c_b (t_im t)) = k_rows k /\
            length (c_mpi (t_im t)) = k_rows k;
  cs_columns : forall j, In j (c_basis (t_im t)) -> (j < k_cols k)%nat;
  cs_set : forall j, In j (t_cols t) <-> In j (c_basis (t_im t));
  cs_inverse : is_inverse (k_rows k) N (basis_matrix k (c_basis (t_im t)));
  cs_query : forall a, wfs (k_rows k) a -> exists cc, bi_left O (c_bi (t_im t)) a = Ok cc /\
     forall i, (i < k_rows k)%nat -> den (cci_col O cc) i = sum (k_rows k) (fun l => N i l * den a l);
  cs_b : forall i, (i < k_rows k)%nat -> nthq (c_b (t_im t)) i = sum (k_rows k) (fun l => N i l * nthq rhs l);
  cs_nonneg : forall i, (i < k_rows k)%nat -> 0 <= nthq (c_b (t_im t)) i;
  cs_pi : forall i, (i < k_rows k)%nat ->
     nthq (c_mpi (t_im t)) i = - sum (k_rows k) (fun r => k_cost k (nth r (c_basis (t_im t)) 0%nat) * N r i);
  cs_z : objective_value t = sum (k_rows k) (fun r => k_cost k (nth r (c_basis (t_im t)) 0%nat) * nthq (c_b (t_im t)) r)
}.

(** relative cost of column [j]: [c_j - c_B B^-1 a_j] *)
Definition reduced_cost (k : kind) (basis : list nat) (N : mat) (j : nat) : Qc :=
  k_cost k j - sum (k_rows k) (fun r => k_cost k (nth r basis 0%nat) *
                                 sum (k_rows k) (fun l => N r l * den (k_col k j) l)).

(** ** Histories of a basis inverse *)
Section History.
Variable O : BIOps.
Variable m : nat.
(** [history b cols]: [b] results from `identity` or `invert` and any number of basis changes, and
    [cols] are the columns of the basis at that point. *)
Inductive history : bi O -> list svec -> Prop :=
| h_identity b : bi_identity O m = Ok b -> history b (map sbasis (seq 0 m))
| h_invert b cols : length cols = m -> Forall (wfs m) cols ->
    (exists N, is_inverse m N (fun i j => den (nth j cols []) i)) ->
    bi_invert O cols = Ok b -> history b cols
| h_change b cols a cc r b' w : history b cols -> wfs m a -> bi_left O b a = Ok cc ->
    (r < m)%nat -> den (cci_col O cc) r <> 0 -> bi_change O b r cc = Ok (b', w) ->
    history b' (upd cols r a).

(** all queries return exact products with the matrix [N] *)
Record exact_queries (b : bi O) (N : mat) : Prop := {
  eq_left : forall a, wfs m a -> exists cc, bi_left O b a = Ok cc /\ wfs m (cci_col O cc) /\
     forall i, (i < m)%nat -> den (cci_col O cc) i = sum m (fun l => N i l * den a l);
  eq_right : forall a, wfs m a -> a <> [] -> exists v, bi_right O b a = Ok v /\ wfs m v /\
     forall j, (j < m)%nat -> den v j = sum m (fun l => den a l * N l j);
  eq_elem : forall i a, wfs m a -> (i < m)%nat -> exists e, bi_elem O b i a = Ok e /\
     (match e with Some v => v | None => 0 end) = sum m (fun l => N i l * den a l);
  eq_row : forall i, (i < m)%nat -> exists v, bi_row O b i = Ok v /\ wfs m v /\
     forall j, (j < m)%nat -> den v j = N i j
}.
End History.
