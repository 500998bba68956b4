(** * Scaling: the statements, put together *)
From Verif Require Import SpecScale ScaleP SearchP PowerP FactorP ScaleRunP ExponentP ScaleQ ExScale StandardP StandardQ PipelineP SparseP.
From Verif Require Import PropGeneral.
Local Open Scope Qc_scope.

Theorem found_positive fac fuel g g' sc : general_ok g -> factorizes fac g -> scale fac fuel g = Ok (g', sc) -> positive_scaling g sc.
Proof. intros K F E. now destruct (scale_positive fac fuel g g' sc K F E). Qed.
Theorem found_points fac fuel g g' sc : general_ok g -> factorizes fac g -> scale fac fuel g = Ok (g', sc) ->
  g_objective g' = g_objective g /\ nr_vars g' = nr_vars g /\ g_orig g' = g_orig g /\
  forall x, (gfeasible g' x <-> gfeasible g (scaled_point sc x)) /\
    gcost g' x - g_fixed g' = sc_cost sc * (gcost g (scaled_point sc x) - g_fixed g) /\
    (goptimal g' x <-> goptimal g (scaled_point sc x)).
Proof.
  intros K F E. destruct (scale_positive fac fuel g g' sc K F E) as (P & _ & ->). pose proof (general_sizes g K) as A. split; [reflexivity|]. split; [apply scaled_vars|]. split; [reflexivity|]. intros x. split; [now apply scaled_feasible|]. split; [apply scaled_cost|now apply scaled_optimal].
Qed.
Theorem found_onto fac fuel g g' sc : general_ok g -> factorizes fac g -> scale fac fuel g = Ok (g', sc) -> forall x, gfeasible g x -> exists y, gfeasible g' y /\ forall j, (j < nr_vars g)%nat -> scaled_point sc y j = x j.
Proof.
  intros K F E x FX. destruct (scale_positive fac fuel g g' sc K F E) as (P & _ & ->). pose proof (general_sizes g K) as A. exists (unscaled sc x).
  assert (EQ : forall j, (j < nr_vars g)%nat -> scaled_point sc (unscaled sc x) j = x j) by (intros j L; now apply (scaled_unscaled g)). split; [|exact EQ]. apply scaled_feasible; [assumption|assumption|]. apply (gfeasible_ext g x); [intros j L; symmetry; now apply EQ|assumption].
Qed.
Theorem found_consistent fac fuel g g' sc : general_ok g -> factorizes fac g -> scale fac fuel g = Ok (g', sc) -> general_ok g' /\ (fresh g -> fresh g').
Proof. intros K F E. destruct (scale_positive fac fuel g g' sc K F E) as (P & _ & ->). split; [now apply scaled_ok|now apply scaled_fresh]. Qed.
Theorem found_restored fac fuel g g' sc : general_ok g -> factorizes fac g -> scale fac fuel g = Ok (g', sc) -> scale_back g' sc = Ok g.
Proof. intros K F E. destruct (scale_positive fac fuel g g' sc K F E) as (P & _ & ->). apply scaled_back; [now apply general_sizes|assumption]. Qed.
Lemma scale_back_solution_ok sc : forall v lo, fwf lo (length (sc_cols sc)) v -> (forall j, (j < length (sc_cols sc))%nat -> nthq (sc_cols sc) j <> 0) ->
  exists w, scale_back_solution sc v = Ok w /\ fwf lo (length (sc_cols sc)) w /\ forall j, den w j = den v j * nthq (sc_cols sc) j.
Proof.
  unfold scale_back_solution. induction v as [|[i x] v IH]; intros lo W N.
  - exists []. split; [reflexivity|]. split; [exact I|]. intros j. cbn. ring.
  - cbn [fwf] in W. destruct W as (W1 & W2 & W3). destruct (IH _ W3 N) as (w & E & WW & D). cbn [mapM]. rewrite index_nthq by lia. cbn [bind]. rewrite E. cbn [bind]. eexists. split; [reflexivity|]. split.
    + cbn [fwf]. split; [assumption|]. split; [|assumption]. intros X. apply Qcmult_integral in X. destruct X as [X|X]; [contradiction|]. apply (N i); [lia|assumption].
    + intros j. cbn [den]. rewrite D. destruct (Nat.eqb_spec j i) as [->|]; ring.
Qed.
Theorem found_solution fac fuel g g' sc v : general_ok g -> factorizes fac g -> scale fac fuel g = Ok (g', sc) -> wfs (nr_vars g) v ->
  exists w, scale_back_solution sc v = Ok w /\ wfs (nr_vars g) w /\
    forall j, (j < nr_vars g)%nat -> den w j = scaled_point sc (den v) j.
Proof.
  intros K F E W. destruct (scale_positive fac fuel g g' sc K F E) as ((L1 & L2 & _ & _ & PV) & _ & _). unfold wfs in *. rewrite <- L2 in W |- *. destruct (scale_back_solution_ok sc v 0 W) as (w & EW & WW & D).
  - intros j L. apply pos_nonzero, PV. lia.
  - exists w. split; [exact EW|]. split; [exact WW|]. intros j _. apply D.
Qed.
Theorem found_solved fac fuel g g' sc r rule fuel' s : general_ok g -> fresh g -> g_objective g = Minimize -> factorizes fac g -> scale fac fuel g = Ok (g', sc) ->
  solve_general r rule fuel' g' = Ok (Solved_to s) -> goptimal g (scaled_point sc (solution_point s)) /\ s_objective s - g_fixed g = sc_cost sc * (gcost g (scaled_point sc (solution_point s)) - g_fixed g).
Proof.
  intros K FR O F E S. destruct (found_consistent fac fuel g g' sc K F E) as [K' FR']. destruct (found_points fac fuel g g' sc K F E) as (EO & _ & _ & PT). destruct (PT (solution_point s)) as (_ & CO & OP).
  destruct (C20_optimum r rule fuel' g' s K' (FR' FR)) as (_ & OPT & OBJ); [congruence|exact S|]. split; [now apply OP|]. rewrite OBJ, <- CO. destruct (scale_positive fac fuel g g' sc K F E) as (_ & _ & ->). reflexivity.
Qed.
Theorem found_none fac fuel g g' sc r rule fuel' : general_ok g -> factorizes fac g -> scale fac fuel g = Ok (g', sc) ->
  solve_general r rule fuel' g' = Ok NoSolution -> forall x, ~ gfeasible g x.
Proof.
  intros K F E S x FX. destruct (found_consistent fac fuel g g' sc K F E) as [K' _]. destruct (found_onto fac fuel g g' sc K F E x FX) as (y & FY & _). exact (C20_infeasible r rule fuel' g' K' S y FY).
Qed.
Lemma no_gain f f' c a b : 0 < c -> f' + c * (a - f) < f' + c * (b - f) -> b <= a -> False.
Proof. intros P L Z. assert (M : 0 <= c * (a - b)) by (apply Qcle_minus_iff in Z; assert (D : 0 <= a - b) by exact Z; clear Z L; set (d := a - b) in *; clearbody d; qnra). assert (N : 0 <= c * a - c * b) by (replace (c * a - c * b) with (c * (a - b)) by ring; exact M). apply (Qclt_not_le _ _ L). replace (f' + c * (a - f)) with (f' + c * (b - f) + (c * a - c * b)) by ring. qlra. Qed.
Theorem found_unbounded fac fuel g g' sc r rule fuel' : general_ok g -> factorizes fac g -> scale fac fuel g = Ok (g', sc) ->
  solve_general r rule fuel' g' = Ok NoBound -> gunbounded g.
Proof.
  intros K F E S. destruct (found_consistent fac fuel g g' sc K F E) as [K' _]. destruct (found_points fac fuel g g' sc K F E) as (EO & _ & _ & PT). destruct (found_positive fac fuel g g' sc K F E) as (_ & _ & P & _).
  destruct (C20_unbounded r rule fuel' g' K' S) as [[x X] U]. split; [exists (scaled_point sc x); exact (proj1 (proj1 (PT x)) X)|]. intros bound.
  destruct (U (g_fixed g' + sc_cost sc * (bound - g_fixed g))) as (y & Y & L). exists (scaled_point sc y). destruct (PT y) as (FE & CO & _). split; [now apply FE|]. rewrite EO in L. assert (CO' : gcost g' y = g_fixed g' + sc_cost sc * (gcost g (scaled_point sc y) - g_fixed g)) by (rewrite <- CO; ring).
  rewrite CO' in L. destruct (g_objective g).
  - destruct (Qclt_le_dec (gcost g (scaled_point sc y)) bound) as [Z|Z]; [exact Z|]. exfalso. revert P L Z. apply no_gain.
  - destruct (Qclt_le_dec bound (gcost g (scaled_point sc y))) as [Z|Z]; [exact Z|]. exfalso. revert P L Z. apply no_gain.
Qed.
Theorem found_complete fac fuel g g' sc x : general_ok g -> fresh g -> g_objective g = Minimize -> factorizes fac g -> scale fac fuel g = Ok (g', sc) -> goptimal g x ->
  exists fuel' s, solve_general UseRows FirstProfitable fuel' g' = Ok (Solved_to s) /\ gcost g (scaled_point sc (solution_point s)) = gcost g x.
Proof.
  intros K FR O F E [X OX]. destruct (found_consistent fac fuel g g' sc K F E) as [K' FR']. destruct (C20_rows_terminates g' K' (FR' FR)) as (n & a & T). specialize (T n (le_n n)). exists n. destruct a as [s| |].
  - exists s. split; [exact T|]. destruct (found_solved fac fuel g g' sc _ _ n s K FR O F E T) as [[Y OY] _]. specialize (OY x X). specialize (OX _ Y). rewrite O in OX, OY. now apply Qcle_antisym.
  - elim (found_none fac fuel g g' sc _ _ n K F E T x X).
  - destruct (found_unbounded fac fuel g g' sc _ _ n K F E T) as [_ U]. destruct (U (gcost g x)) as (y & Y & L). specialize (OX y Y). rewrite O in L, OX. elim (Qclt_not_le _ _ L OX).
Qed.
(** some value has a factor *)
Lemma some_factor fac g v : general_ok g -> In v (values g) -> fac v <> [] -> fa_factors (factorize fac g) <> [].
Proof.
  intros K HV N E. destruct (fac v) as [|[f k] t] eqn:EF; [contradiction|]. pose proof (factor_of fac g v HV f) as H. rewrite EF in H. specialize (H (or_introl eq_refl)). rewrite E in H. destruct H.
Qed.
Theorem scale_returns fac g v : general_ok g -> (0 < nr_vars g)%nat -> In v (values g) -> fac v <> [] -> exists fuel0 g' sc, forall fuel, (fuel0 <= fuel)%nat -> scale fac fuel g = Ok (g', sc).
Proof. intros K NZ HV N. apply scale_works; [now apply general_sizes|assumption|now apply (some_factor fac g v)]. Qed.
Theorem unit_panics : exists fac g, general_ok g /\ fresh g /\ (0 < nr_vars g)%nat /\ (forall v, In v (values g) -> prime_factorization (fac v) v) /\ forall fuel, scale fac fuel g = Panic.
Proof.
  exists small, ex_unit. destruct ex_unit_ok as [K FR]. split; [exact K|]. split; [exact FR|]. split; [vm_compute; lia|]. split; [apply factorizesb_ok; vm_compute; reflexivity|]. intros fuel. unfold scale, solve_scaling.
  assert (E : build_index (factorize small ex_unit) = Ok [[(0%nat, 0%nat); (1%nat, 0%nat)]; [(0%nat, 1%nat); (1%nat, 1%nat)]]) by (vm_compute; reflexivity). rewrite E. cbn [bind].
  assert (E2 : fa_factors (factorize small ex_unit) = []) by (vm_compute; reflexivity). rewrite E2. reflexivity.
Qed.
Theorem no_variables_panics : exists fac g, general_ok g /\ fresh g /\ (forall v, In v (values g) -> prime_factorization (fac v) v) /\ (exists v, In v (values g) /\ fac v <> []) /\ forall fuel, (0 < fuel)%nat -> scale fac fuel g = Panic.
Proof.
  exists small, ex_no_variables. destruct ex_no_variables_ok as [K FR]. split; [exact K|]. split; [exact FR|]. split; [apply factorizesb_ok; vm_compute; reflexivity|]. split; [exists (zq 2); split; [left; apply Qc_is_canon; reflexivity|vm_compute; discriminate]|]. intros fuel F.
  apply no_variables_panic; [now apply general_sizes|assumption|reflexivity].
Qed.
Definition worseb (g : general) (p : Z) : bool := match scale small 300 g with Ok (g', _) => factorizesb g' && (total_exponent small p g <? total_exponent small p g')%Z | _ => false end.
Theorem exponents_worse : exists fac fuel g g' sc p, general_ok g /\ fresh g /\ scale fac fuel g = Ok (g', sc) /\ (forall v, In v (values g) \/ In v (values g') -> prime_factorization (fac v) v) /\ prime p /\
  (total_exponent fac p g < total_exponent fac p g')%Z.
Proof.
  exists small, 300%nat, ex_scale_variable. assert (H : worseb ex_scale_variable 19 = true) by (vm_compute; reflexivity). unfold worseb in H. destruct (scale small 300 ex_scale_variable) as [[g' sc]| |]; try discriminate. exists g', sc, 19%Z.
  apply andb_true_iff in H. destruct H as [H1 H2]. apply Z.ltb_lt in H2. destruct ex_scale_variable_ok as [K FR]. split; [exact K|]. split; [exact FR|]. split; [reflexivity|]. split; [|split; [apply primeb_ok; vm_compute; reflexivity|exact H2]].
  intros v [HV|HV]; [now apply ex_scale_variable_factors|now apply (factorizesb_ok g')].
Qed.
Definition intendedb (g : general) : bool := match scale small 300 g with Ok (_, sc) => match apply_scaling Qcmult Qcdiv g (columns_inverted sc) with Ok g2 => factorizesb g2 && (total_exponent small 2 g2 <? total_exponent small 2 g)%Z | _ => false end | _ => false end.
Lemma ex_intended : exists g' sc g2, general_ok ex_scale_solve /\ scale small 300 ex_scale_solve = Ok (g', sc) /\ apply_scaling Qcmult Qcdiv ex_scale_solve (columns_inverted sc) = Ok g2 /\
  (forall v, In v (values ex_scale_solve) \/ In v (values g2) -> prime_factorization (small v) v) /\ (total_exponent small 2 g2 < total_exponent small 2 ex_scale_solve)%Z.
Proof.
  assert (H : intendedb ex_scale_solve = true) by (vm_compute; reflexivity). unfold intendedb in H. destruct (scale small 300 ex_scale_solve) as [[g' sc]| |]; try discriminate. exists g', sc. destruct (apply_scaling _ _ _ _) as [g2| |]; try discriminate. exists g2.
  apply andb_true_iff in H. destruct H as [H1 H2]. apply Z.ltb_lt in H2. split; [apply ex_scale_solve_ok|]. split; [reflexivity|]. split; [reflexivity|]. split; [|exact H2]. intros v [HV|HV]; [now apply ex_scale_solve_factors|now apply (factorizesb_ok g2)].
Qed.
Definition is_solved (a : res answer) : bool := match a with Ok (Solved_to s) => negb (forallb (fun '(_, x) => qzero x) (s_values s)) | _ => false end.
Lemma is_solved_ok a : is_solved a = true -> exists s, a = Ok (Solved_to s). Proof. destruct a as [[s| |]| |]; try discriminate. intros _. now exists s. Qed.
Definition solvedb : bool := match scale small 300 ex_scale_solve with Ok (g', _) => is_solved (solve_general UseRows FirstProfitable 300 g') | _ => false end.
Lemma ex_solved : exists g' sc s, general_ok ex_scale_solve /\ fresh ex_scale_solve /\ g_objective ex_scale_solve = Minimize /\ factorizes small ex_scale_solve /\ scale small 300 ex_scale_solve = Ok (g', sc) /\ nthq (sc_cols sc) 0 <> 1 /\
  solve_general UseRows FirstProfitable 300 g' = Ok (Solved_to s).
Proof.
  assert (H : solvedb = true) by (vm_compute; reflexivity). destruct ex_scale_solve_found as [g' E]. unfold solvedb in H. rewrite E in H. apply is_solved_ok in H. destruct H as [s ES].
  exists g', (mk_scaling 1 [zq 1 / zq 15; zq 1 / zq 10; zq 1 / zq 3] [zq 2; 1]), s. destruct ex_scale_solve_ok as [K FR]. split; [exact K|]. split; [exact FR|]. split; [reflexivity|]. split; [apply prime_factorizes, ex_scale_solve_factors|]. split; [exact E|]. split; [intros X; apply (f_equal this) in X; vm_compute in X; discriminate|exact ES].
Qed.
