(** * Files of network programs with whole numbers have whole answers: proofs *)
From Verif Require Import SpecWhole SpecVertex FlowI StandardP StandardR VertexG Pipeline PipelineP SolveP ConvertP SpecMps BoundsP RangesP MpsP TextPipeline TextSolveP PairP MixP WholeP WholeG WholeS.
Local Open Scope Qc_scope.

Lemma loose_all (A : Type) (P : A -> Qc -> Prop) l : (forall a, In a l -> loose (P a)) -> loose (fun v => forall a, In a l -> P a v).
Proof.
  induction l as [|a l IH]; intros H.
  - apply (loose_iff (fun _ => True)); [intros v; split; [intros _ a []|trivial]|exact loose_any].
  - apply (loose_iff (fun v => P a v /\ forall b, In b l -> P b v)).
    + intros v. split; [intros [X Y] b [<-|B]; [exact X|now apply Y]|]. intros X. split; [apply X; now left|intros; apply X; now right].
    + apply loose_and; [apply H; now left|apply IH; intros; apply H; now right].
Qed.
Lemma loose_if (P : Prop) S : P \/ ~ P -> (P -> loose S) -> loose (fun v => P -> S v).
Proof.
  intros [H|H] L; [apply (loose_iff S); [intros v; split; auto|now apply L]|].
  apply (loose_iff (fun _ => True)); [intros v; split; [intros _ X; contradiction|trivial]|exact loose_any].
Qed.
Lemma whole_abs v : whole v -> whole (qabs v).
Proof. intros W. unfold qabs. destruct (qltb v 0); [now apply whole_opp|exact W]. Qed.
Lemma plain_loose k b : whole b -> loose (plain_holds k b).
Proof. intros B. destruct k; [now apply loose_le|now apply loose_eq|now apply loose_ge]. Qed.
Lemma range_loose k b w : whole b -> whole w -> loose (range_holds k b w).
Proof.
  intros B W. apply whole_abs in W. unfold range_holds. destruct k; [| destruct (qneg w)|]; apply loose_and; try (now apply loose_le); try (now apply loose_ge); first [apply loose_ge; now apply whole_minus|apply loose_le; now apply whole_plus].
Qed.
Lemma fallowed_loose f c : (forall t g c, In (t, g, c) (f_bounds f) -> ~ is_semi t) -> fwhole_data f -> loose (fallowed f c).
Proof.
  intros NS FW. unfold fallowed. apply loose_and.
  - apply (loose_iff (fun x => forall s, In s (f_bounds f) -> (fun s x => snd s = c -> allows (fst (fst s)) x) s x)).
    + intros x. split; [intros H t g I; exact (H (t, g, c) I eq_refl)|]. intros H [[t g] c'] I. cbn. intros ->. exact (H t g I).
    + apply loose_all. intros [[t g] c'] I. cbn. apply loose_if; [destruct (string_dec c' c); tauto|]. intros ->. pose proof (NS t g c I) as N.
      assert (V : forall v, bound_value t = Some v -> whole v) by (intros v; exact (fw_bounds f FW t g c v I)).
      destruct t; cbn in *; try (apply loose_ge; first [now apply V|exact whole_0]); try (apply loose_le; first [now apply V|exact whole_0]); [apply loose_eq; now apply V|exact loose_any| |elim (N Logic.I)].
      apply loose_and; [apply loose_ge, whole_0|apply loose_le, whole_1].
  - apply loose_if; [|intros _; apply loose_ge, whole_0].
    destruct (Forall_Exists_dec (fun s : bound_type * string * string => snd s = c -> leaves_lower (fst (fst s)))) with (l := f_bounds f) as [H|H].
    + intros [[t g] c']. cbn. destruct (string_dec c' c) as [E|E]; [|left; intros; contradiction]. destruct t; cbn; first [left; tauto|right; tauto].
    + left. intros t g I. rewrite Forall_forall in H. exact (H _ I eq_refl).
    + right. intros X. apply Exists_exists in H. destruct H as ([[t g] c'] & I & H). apply H. cbn. intros ->. exact (X t g I).
Qed.
Lemma frow_loose f k r : file_solvable f -> fwhole_data f -> is_constraint f r -> loose (frow_holds f k r).
Proof.
  intros FS FW C. destruct (rhs_exists f r) as [b B]. pose proof (fw_rhs f FW r b C B) as WB.
  apply (loose_iff (fun v => ((forall w, ~ frange f r w) -> plain_holds k b v) /\ forall s, In s (vector_values (f_ranges f)) -> (fun s v => snd (fst s) = r -> range_holds k b (snd s) v) s v)).
  - intros v. unfold frow_holds. split.
    + intros [H1 H2] b' B'. rewrite <- (rhs_unique f r b b' FS B B'). split; [exact H1|]. intros w [g G]. exact (H2 _ G eq_refl).
    + intros H. destruct (H b B) as [H1 H2]. split; [exact H1|]. intros [[g r'] w] I. cbn. intros ->. apply H2. now exists g.
  - apply loose_and.
    + apply loose_if; [|intros _; now apply plain_loose].
      destruct (Forall_Exists_dec (fun s : string * string * Qc => snd (fst s) <> r)) with (l := vector_values (f_ranges f)) as [H|H].
      * intros [[g r'] w]. cbn. destruct (string_dec r' r); [right; tauto|now left].
      * left. intros w [g G]. rewrite Forall_forall in H. exact (H _ G eq_refl).
      * right. intros X. apply Exists_exists in H. destruct H as ([[g r'] w] & I & H). apply H. cbn. intros ->. apply (X w). now exists g.
    + apply loose_all. intros [[g r'] w] I. cbn. apply loose_if; [destruct (string_dec r' r); tauto|]. intros ->. apply range_loose; [exact WB|]. apply (fw_range f FW r); [exact C|now exists g].
Qed.
Lemma column_at_inj f m : file_rules f -> describes m f -> forall i j, (i < length (m_columns m))%nat -> (j < length (m_columns m))%nat -> column_at m i = column_at m j -> i = j.
Proof.
  intros OK D i j I J E. pose proof (TextSolveP.column_names f m OK D) as N. apply (proj1 (NoDup_nth (map col_name (m_columns m)) (col_name (mk_mcolumn "" false []))) N); rewrite ?map_length; try assumption.
  rewrite !map_nth. exact E.
Qed.
Lemma read_coefficient f m g i j : file_rules f -> describes m f -> mps_ok m -> to_general m = Got g -> (i < length (m_rows m))%nat -> (j < length (m_columns m))%nat ->
  coefficient g i j = frow_value f (only (column_at m j)) (row_at m i).
Proof.
  intros OK D MO E I J. rewrite (value_agrees f m OK D _ i I), <- (convert_value m MO g _ i E). destruct (convert_got m MO g E) as (_ & _ & _ & _ & EN & _).
  unfold row_value. rewrite (sum_single (nr_vars g) j).
  - unfold point, only. rewrite String.eqb_refl. ring.
  - now rewrite EN.
  - intros k Lk N. unfold point, only. destruct (String.eqb_spec (column_at m k) (column_at m j)) as [X|_]; [|ring]. elim N. apply (column_at_inj f m OK D); [now rewrite <- EN|exact J|exact X].
Qed.
Lemma read_parts side f m g : file_solvable f -> describes m f -> mps_solvable m -> to_general m = Got g -> fnetwork side f -> fwhole_data f ->
  network (fun i => side (row_at m i)) g /\ (forall i, (i < g_rows g)%nat -> loose (rel_holds (row_type g i) (nthq (g_b g) i))) /\ forall j, (j < nr_vars g)%nat -> loose (in_bounds (var g j)).
Proof.
  intros FS D S E FN FW. pose proof (ms_ok m S) as MO.
  destruct (convert_got m MO g E) as (_ & _ & ER & _ & EN & _). pose proof (fs_rules f FS) as RU.
  assert (CI : forall i, (i < length (m_rows m))%nat -> is_constraint f (row_at m i)).
  { intros i Li. exists (kind_of m i). apply (row_in f m D). now exists i. }
  assert (NI : forall j, (j < length (m_columns m))%nat -> In (column_at m j) (column_names_of f)).
  { intros j Lj. apply (column_in f m D). now exists j. }
  split; [|split].
  - constructor.
    + intros i j Li Lj. rewrite ER in Li. rewrite EN in Lj. rewrite (read_coefficient f m g i j RU D MO E Li Lj). apply (fn_units side f FN); auto.
    + intros i i' j Li Li' N Lj. rewrite ER in Li, Li'. rewrite EN in Lj. rewrite !(read_coefficient f m g _ j RU D MO E) by assumption. apply (fn_pairs side f FN); auto.
      intros X. apply N. now apply (row_at_inj f m RU D).
  - intros i Li. rewrite ER in Li. apply (loose_iff (frow_holds f (kind_of m i) (row_at m i))).
    + intros v. rewrite (holds_agrees f m RU D i v Li). symmetry. exact (convert_row m MO g i v E (ms_ranges m S) Li).
    + apply frow_loose; auto.
  - intros j Lj. rewrite EN in Lj. apply (loose_iff (fallowed f (column_at m j))).
    + intros v. rewrite (allowed_agrees f m RU D j v Lj). symmetry. exact (convert_bounds m MO g j v E Lj).
    + apply fallowed_loose; [exact (fr_bound_types f RU)|exact FW].
Qed.
Lemma read_whole side f m g r n fuel s : file_solvable f -> describes m f -> mps_solvable m -> to_general m = Got g -> fnetwork side f -> fwhole_data f ->
  solve_general r n fuel g = Ok (Solved_to s) -> forall name v, In (name, v) (s_values s) -> whole v.
Proof.
  intros FS D S E FN FW. destruct (convert_solvable m g S E) as [OK FR]. destruct (read_parts side f m g FS D S E FN FW) as (A & B & C).
  exact (whole_values r n fuel _ g s OK FR A B C).
Qed.
Lemma with_whole parse side f text r n fuel s : file_solvable f -> (exists m, parse text = Got m /\ describes m f) -> fnetwork side f -> fwhole_data f ->
  solve_with parse r n fuel text = Got (Ok (Solved_to s)) -> forall name v, In (name, v) (s_values s) -> whole v.
Proof.
  intros FS T FN FW E. destruct (with_solved parse f text FS T) as (m & g & D & S & G & R). rewrite R in E. injection E as E.
  exact (read_whole side f m g r n fuel s FS D S G FN FW E).
Qed.

(** ** Best whole solutions *)
Lemma listed_whole s : (forall name v, In (name, v) (s_values s) -> whole v) -> forall c, whole (answer_at s c).
Proof.
  intros H c. unfold answer_at. destruct (find _ _) as [[nm v]|] eqn:F; [|exact whole_0]. apply find_some in F. now apply (H nm).
Qed.
Lemma point_whole s : (forall name v, In (name, v) (s_values s) -> whole v) -> forall j, whole (solution_point s j).
Proof.
  intros H j. unfold solution_point. destruct (Nat.lt_ge_cases j (length (map snd (s_values s)))) as [L|L]; [|rewrite nth_overflow by exact L; exact whole_0].
  apply (nth_In _ 0) in L. apply in_map_iff in L. destruct L as ([nm v] & <- & I). now apply (H nm).
Qed.
Lemma with_whole_optimal parse side f text r n fuel s : file_solvable f -> (exists m, parse text = Got m /\ describes m f) -> fnetwork side f -> fwhole_data f ->
  solve_with parse r n fuel text = Got (Ok (Solved_to s)) -> fwhole_optimal f (answer_at s).
Proof.
  intros FS T FN FW E. destruct (with_optimum parse f text r n fuel s FS T E) as (_ & [F O] & _). split; [exact F|]. split.
  - intros c _. apply listed_whole. exact (with_whole parse side f text r n fuel s FS T FN FW E).
  - intros y Y _. now apply O.
Qed.
Lemma network_whole_optimal r n fuel side g s : general_ok g -> fresh g -> network side g -> whole_data g ->
  solve_general r n fuel g = Ok (Solved_to s) -> whole_optimal g (solution_point s).
Proof.
  intros P FR NW WD E. destruct (solve_general_optimum r n fuel g s P E) as (x & val & O & C & V & _).
  destruct (fresh_values g s x val FR C V) as [_ H]. assert (O' : goptimal g (solution_point s)) by now apply (goptimal_ext g x).
  destruct O' as [F O']. split; [exact F|]. split; [|intros y Y _; now apply O'].
  intros j _. apply point_whole. exact (network_whole r n fuel side g s P FR NW WD E).
Qed.
