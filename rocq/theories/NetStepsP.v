(** * Proofs: the number of steps for the programs on graphs and tables *)
From Verif Require Import SpecNetSteps NetworkP PathP FlowP RangeR SizesP SolverP SolverQ WarmP FuelP StepsP.
Local Open Scope Qc_scope.
Local Open Scope nat_scope.

Lemma pow_within a b x y : a <= x -> b <= y -> 0 < x -> a ^ b <= x ^ y.
Proof. intros A B X. apply Nat.le_trans with (x ^ b); [now apply Nat.pow_le_mono_l|apply Nat.pow_le_mono_r; lia]. Qed.
Lemma run_settled r p k : provider_ok p -> sizes_ok (ops r) (laws r) p -> (p_rows p + p_cols p) ^ p_rows p <= k -> exists res, forall fuel, k < fuel -> run r FirstProfitable fuel p = Ok res.
Proof.
  intros Pok Sz L. apply (settled (fun fuel => run r FirstProfitable fuel p) (fun _ => True)); [intros i j H N; now apply run_mono| |easy].
  intros i H _. apply run_first_profitable_within; [assumption..|lia].
Qed.
(** ** Shortest paths *)
Lemma path_rows adjacency s t p : graph_ok adjacency -> s < length adjacency -> shortest_path adjacency s t = Ok p -> p_rows p = length adjacency - 1.
Proof.
  intros [G1 G2] Ls E. destruct (incidence_spec adjacency [s] G1 G2) as (im & cost & EI & R & V & _).
  { constructor; [intros []|constructor]. } { intros r [<-|[]]. assumption. }
  unfold shortest_path in E. rewrite EI in E. cbn [bind] in E. destruct (t_index s t) as [i| |]; [|discriminate E..]. cbn [bind] in E. destruct (set_index _ _ _) as [b| |]; [|discriminate E..]. cbn [bind] in E. injection E as <-. cbn [p_rows]. now rewrite V.
Qed.
Lemma path_settled adjacency s t p : graph_ok adjacency -> s < length adjacency -> t < length adjacency -> s <> t -> shortest_path adjacency s t = Ok p ->
  exists res, forall fuel, path_steps (length adjacency) (length (arcs adjacency)) < fuel -> run UseRows FirstProfitable fuel p = Ok res.
Proof.
  intros GO Ls Lt N E. destruct (path_provider adjacency s t GO Ls Lt N p E) as (Pok & I & C & _). pose proof (path_rows adjacency s t p GO Ls E) as R.
  apply run_settled; [assumption|apply sizes_rows; intros l H; rewrite I in H; discriminate|]. rewrite R, C. apply pow_within; lia.
Qed.
(** ** Maximum flows *)
Lemma flow_settled adjacency s t : graph_ok adjacency -> s < length adjacency -> t < length adjacency -> s <> t ->
  (forall k, k < length (arcs adjacency) -> (0 <= arc_length (arcs adjacency) k)%Qc) -> (forall v, v < length adjacency -> joined (arcs adjacency) s t v) ->
  forall p, max_flow adjacency s t = Ok p -> forall r, (r = UseLU -> 2 <= length adjacency - 2 + length (arcs adjacency)) ->
  exists x, forall fuel, flow_steps (length adjacency) (length (arcs adjacency)) < fuel -> run r FirstProfitable fuel p = Ok (FiniteOptimum x).
Proof.
  intros GO Ls Lt N CP CN p E r L. destruct (flow_provider adjacency s t GO Ls Lt N CP p E CN) as (Pok & I & R).
  assert (C : p_cols p = length (arcs adjacency) + length (arcs adjacency)).
  { destruct (flow_program adjacency s t GO Ls Lt N) as (q & Eq & _ & C & _). rewrite E in Eq. injection Eq as <-. exact C. }
  destruct (run_settled r p (flow_steps (length adjacency) (length (arcs adjacency))) Pok) as [res H].
  - destruct r; [|apply sizes_rows; intros l H; now apply I in H]. destruct (flow_sizes adjacency s t GO Ls Lt N CP CN p E (L eq_refl)). now apply sizes_lu.
  - rewrite R, C. apply pow_within; lia.
  - destruct (flow_decided adjacency s t GO Ls Lt N CP CN p E r L) as (f & x & D). exists x. intros fuel Lf. rewrite (H fuel Lf). rewrite <- (H (fuel + f) ltac:(lia)). apply D. lia.
Qed.
(** ** Column ranges *)
Lemma flat_map_short {X Y} (f : X -> list Y) k : (forall x, length (f x) <= k) -> forall l, length (flat_map f l) <= length l * k.
Proof. intros H. induction l as [|x l IH]; cbn; [lia|]. rewrite app_length. specialize (H x). lia. Qed.
Lemma cells_short a h w : length (cells a h w) <= h * w.
Proof.
  unfold cells. rewrite Nat.mul_comm. eapply Nat.le_trans; [apply (flat_map_short _ h)|unfold range; rewrite seq_length; lia].
  intros j. eapply Nat.le_trans; [apply (flat_map_short _ 1)|unfold range; rewrite seq_length; lia]. intros i. destruct (cell a i j); cbn; lia.
Qed.
Lemma range_settled r a : input_ok a -> exists l, forall fuel, range_steps (height a) (width a) <= fuel -> column_range r FirstProfitable fuel a = Ok l.
Proof.
  intros O. destruct (range_problem_spec a O) as (lows & highs & cols & XL & XH & Cl & Cw & Cv & Ep).
  pose proof (data_sized a O cols Cl Cw) as S. pose proof (basis_feasible a lows highs O XL XH cols Cl Cw Cv) as F.
  destruct (start_terminates r _ _ S F (range_sizes r a lows highs cols O XL XH Cl Cw)) as [res H].
  pose proof (p_rows_eq a O cols Cl Cw) as R. pose proof (p_cols_eq a O cols Cl Cw) as C. rewrite R, C in H. pose proof (cells_short a (height a) (width a)) as K. pose proof (proj1 O) as Wd.
  assert (B : forall fuel, range_steps (height a) (width a) <= fuel -> (height a + 2 * width a + length (cells a (height a) (width a)) + length (cells a (height a) (width a))) ^ (length (cells a (height a) (width a)) + length (cells a (height a) (width a))) <= fuel).
  { intros fuel L. eapply Nat.le_trans; [|exact L]. unfold range_steps. set (hw := height a * width a) in *. apply pow_within; lia. }
  destruct (range_terminates r a O) as (l & f & T). exists l. intros fuel L. rewrite <- (T (f + fuel) ltac:(lia)). unfold column_range. rewrite Ep. cbn [bind]. rewrite (H fuel (B fuel L)), (H (f + fuel) (B (f + fuel) ltac:(lia))). reflexivity.
Qed.
(** ** The answers after that many steps *)
Lemma path_known adjacency s t p : graph_ok adjacency -> s < length adjacency -> t < length adjacency -> s <> t -> shortest_path adjacency s t = Ok p ->
  forall fuel, path_steps (length adjacency) (length (arcs adjacency)) < fuel ->
   ((exists l, walk (arcs adjacency) s t l) /\ (forall v l, walk (arcs adjacency) v v l -> (0 <= walk_length (arcs adjacency) l)%Qc) ->
      exists x l, run UseRows FirstProfitable fuel p = Ok (FiniteOptimum x) /\ shortest (arcs adjacency) s t l /\ objective p (den x) = walk_length (arcs adjacency) l /\ (forall k, In k l -> (0 < den x k)%Qc)) /\
   ((exists l, walk (arcs adjacency) s t l) /\ (exists v l, walk (arcs adjacency) v v l /\ (walk_length (arcs adjacency) l < 0)%Qc) -> run UseRows FirstProfitable fuel p = Ok Unbounded) /\
   ((forall l, ~ walk (arcs adjacency) s t l) -> run UseRows FirstProfitable fuel p = Ok Infeasible).
Proof.
  intros GO Ls Lt N E fuel L. destruct (path_settled adjacency s t p GO Ls Lt N E) as [res H]. destruct (path_decided adjacency s t p GO Ls Lt N E) as [f D].
  specialize (D (fuel + f) ltac:(lia)). rewrite (H (fuel + f) ltac:(lia)) in D. rewrite (H fuel L). destruct D as (D1 & D2 & D3). repeat split; [|exact D2|exact D3].
  intros A. destruct (D1 A) as [x X]. rewrite X. destruct (path_optimum adjacency s t GO Ls Lt N p E UseRows FirstProfitable fuel x) as (l & S & P & O); [now rewrite (H fuel L), X|]. exists x, l. repeat split; try assumption; apply S.
Qed.
Lemma flow_known adjacency s t : graph_ok adjacency -> s < length adjacency -> t < length adjacency -> s <> t ->
  (forall k, k < length (arcs adjacency) -> (0 <= arc_length (arcs adjacency) k)%Qc) -> (forall v, v < length adjacency -> joined (arcs adjacency) s t v) ->
  (forall k, k < length (arcs adjacency) -> arc_head (arcs adjacency) k <> s) ->
  forall p, max_flow adjacency s t = Ok p -> forall r, (r = UseLU -> 2 <= length adjacency - 2 + length (arcs adjacency)) ->
  exists x, (forall fuel, flow_steps (length adjacency) (length (arcs adjacency)) < fuel -> run r FirstProfitable fuel p = Ok (FiniteOptimum x)) /\
    maximum_flow (arcs adjacency) s t (den x) /\ flow_value (arcs adjacency) s (den x) = (- objective p (den x))%Qc.
Proof.
  intros GO Ls Lt N CP CN CH p E r L. destruct (flow_settled adjacency s t GO Ls Lt N CP CN p E r L) as [x H]. exists x. split; [exact H|].
  apply (flow_optimum adjacency s t GO Ls Lt N CP CN p E CH r FirstProfitable (S (flow_steps (length adjacency) (length (arcs adjacency)))) x). apply H. lia.
Qed.
Lemma range_known r a : input_ok a -> exists l, (forall fuel, range_steps (height a) (width a) <= fuel -> column_range r FirstProfitable fuel a = Ok l) /\ length l = height a /\ best_shifts a (nthq l).
Proof. intros O. destruct (range_settled r a O) as [l H]. exists l. split; [exact H|]. apply (range_best r FirstProfitable (range_steps (height a) (width a)) a l O). now apply H. Qed.
