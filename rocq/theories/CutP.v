(** * Proofs: cuts of integer programs *)
From Verif Require Import SpecInteger IntegerP TextSolveP FixedP FileP MpsP UnitsP OrderP BesideP CasesP PairP SpecReform ReformP.
Local Open Scope Qc_scope.

Section Cut.
Variables (k : relation_kind) (r : string) (l : list (string * Qc)) (b : Qc) (f f2 : file).
Hypothesis FS : file_solvable f.
Hypothesis FS2 : file_solvable f2.
Hypothesis W : with_row k r l b f f2.
Lemma total_two (u v : list Qc) : total (u ++ v) = total u + total v.
Proof. induction u as [|a u IH]; unfold total in *; cbn [app fold_right]; [ring|]. rewrite IH. ring. Qed.
Lemma none_of x n (t : list (string * string * Qc)) : (forall c m v, In (c, m, v) t -> m <> n) -> total (map (fun '(c, r0, v) => if String.eqb r0 n then v * x c else 0) t) = 0.
Proof.
  induction t as [|[[c0 m] v] t IH]; intros H; [reflexivity|]. unfold total in *. cbn [map fold_right]. rewrite IH by (intros c' n' v' I'; exact (H c' n' v' (or_intror I'))).
  destruct (String.eqb_spec m n) as [E|_]; [elim (H c0 m v (or_introl eq_refl) E)|ring].
Qed.
Lemma cut_old x n : n <> r -> frow_value f2 x n = frow_value f x n.
Proof using W.
  intros N. unfold frow_value. rewrite <- (total_permutation _ _ (Permutation_map _ (wr_coefficients _ _ _ _ _ _ W))), map_app, total_two, none_of; [ring|].
  intros c m v H. apply in_map_iff in H. destruct H as ([c' v'] & E & _). injection E as <- <- <-. congruence.
Qed.
Lemma cut_own x : frow_value f2 x r = weighed l x.
Proof using FS W.
  unfold frow_value. rewrite <- (total_permutation _ _ (Permutation_map _ (wr_coefficients _ _ _ _ _ _ W))), map_app, total_two, (none_of x r (coefficients f)).
  - unfold weighed. rewrite map_map. rewrite (map_ext _ (fun '(c, v) => v * x c)); [ring|]. intros [c v]. now rewrite String.eqb_refl.
  - intros c m v H ->. exact (wr_new _ _ _ _ _ _ W (fr_coefficient_rows f (fs_rules _ FS) c r v H)).
Qed.
Lemma cut_cost x : fcost f2 x = fcost f x.
Proof using FS FS2 W.
  assert (I : In (None, cost_row f) (f_rows f2)) by (apply (wr_rows _ _ _ _ _ _ W); right; exact (cost_row_in f (fs_rules _ FS))).
  assert (C : cost_row f2 = cost_row f) by (destruct (fr_cost f2 (fs_rules _ FS2)) as (c2 & C2 & U2); rewrite (cost_row_is f2 c2 C2 U2); symmetry; now apply U2).
  unfold fcost. rewrite C. apply cut_old. intros E. apply (wr_new _ _ _ _ _ _ W). rewrite <- E. exact (row_name_in f _ _ (cost_row_in f (fs_rules _ FS))).
Qed.
Lemma cut_plain v : frow_holds f2 k r v <-> plain_holds k b v.
Proof using FS FS2 W.
  apply (no_range_holds f2 k r b v FS2 (wr_rhs_new _ _ _ _ _ _ W)). intros w H. apply (wr_ranges _ _ _ _ _ _ W) in H. destruct H as [g H].
  apply (wr_new _ _ _ _ _ _ W). apply constraint_row_name. exact (fr_range_rows f (fs_rules _ FS) g r w H).
Qed.
Lemma cut_other n v k' : n <> r -> frow_holds f2 k' n v <-> frow_holds f k' n v.
Proof using W.
  intros N. assert (R : forall b, frhs f2 n b <-> frhs f n b) by (intros b'; now apply (wr_rhs _ _ _ _ _ _ W)). pose proof (wr_ranges _ _ _ _ _ _ W n) as G.
  unfold frow_holds. split; intros H b' B; (destruct (H b' (proj2 (R b') B)) as [P Q] || destruct (H b' (proj1 (R b') B)) as [P Q]); (split; [intros Z; apply P; intros w X; apply (Z w); now apply G|intros w X; apply Q; now apply G]).
Qed.
Lemma cut_allowed c x : fallowed f2 c x <-> fallowed f c x.
Proof using W.
  pose proof (wr_bounds _ _ _ _ _ _ W) as B. split; intros [A L]; (split; [intros t g I; apply (A t g); now apply B|intros H; apply L; intros t g I; apply (H t g); now apply B]).
Qed.
Lemma cut_names c : In c (map fst (columns_of f2)) <-> In c (map fst (columns_of f)).
Proof using W.
  pose proof (wr_columns _ _ _ _ _ _ W) as B. rewrite !in_map_iff. split; intros ([c' i] & E & I); exists (c', i); (split; [exact E|now apply B]).
Qed.
Lemma cut_feasible x : ffeasible f2 x <-> ffeasible f x /\ plain_holds k b (weighed l x).
Proof using FS FS2 W.
  assert (NR : forall k' n, In (k', n) (f_rows f) -> n <> r) by (intros k' n I ->; exact (wr_new _ _ _ _ _ _ W (row_name_in f _ _ I))).
  assert (Own : In (Some k, r) (f_rows f2)) by (apply (wr_rows _ _ _ _ _ _ W); left; now split).
  split.
  - intros [A B]. split; [split|].
    + intros k' n I. rewrite <- (cut_old x n (NR _ _ I)). apply (cut_other n _ k' (NR _ _ I)). apply A. apply (wr_rows _ _ _ _ _ _ W). now right.
    + intros c I. apply cut_allowed. apply B. now apply cut_names.
    + rewrite <- cut_own. exact (proj1 (cut_plain _) (A k r Own)).
  - intros [[A B] P]. split.
    + intros k' n I. apply (wr_rows _ _ _ _ _ _ W) in I. destruct I as [[E ->]|I].
      * injection E as ->. apply (proj2 (cut_plain _)). now rewrite cut_own.
      * rewrite (cut_old x n (NR _ _ I)). apply (cut_other n _ k' (NR _ _ I)). exact (A k' n I).
    + intros c I. apply cut_allowed. apply B. now apply cut_names.
Qed.
Lemma cut_integer c : integer_column f2 c <-> integer_column f c.
Proof using W.
  pose proof (wr_columns _ _ _ _ _ _ W) as C. pose proof (wr_bounds _ _ _ _ _ _ W) as B. unfold integer_column. split; (intros [H|(t & g & H & M)]; [left; now apply C|right; exists t, g; split; [now apply B|exact M]]).
Qed.
Lemma cut_branches : (forall x, isolution f x -> plain_holds k b (weighed l x)) -> branches f [f2].
Proof using FS FS2 W.
  intros V. constructor.
  - intros g [<-|[]]. exact (wr_sense _ _ _ _ _ _ W).
  - intros g x [<-|[]]. apply cut_cost.
  - intros g c [<-|[]]. apply cut_integer.
  - intros g x [<-|[]] F. now apply cut_feasible in F.
  - intros x X. exists f2. split; [now left|]. apply cut_feasible. split; [exact (proj1 X)|now apply V].
Qed.
End Cut.
Lemma whole_weighed f l x : (forall c v, In (c, v) l -> integer_column f c /\ whole_number v) -> isolution f x -> whole_number (weighed l x).
Proof.
  intros L [_ X]. apply whole_total, Forall_forall. intros v H. apply in_map_iff in H. destruct H as ([c w] & <- & H). destruct (L c w H) as [I V]. apply whole_mul; [exact V|now apply X].
Qed.
Lemma rounded_branches k r l z f f2 : file_solvable f -> file_solvable f2 -> with_row k r l (Q2Qc (inject_Z z)) f f2 -> (forall c v, In (c, v) l -> integer_column f c /\ whole_number v) ->
  rounds_to k l z f -> branches f [f2].
Proof.
  intros FS FS2 W L R. apply (cut_branches _ _ _ _ _ _ FS FS2 W). intros x X. specialize (R x (proj1 X)). destruct (whole_weighed f l x L X) as [u E]. rewrite E in *. destruct k; cbn [plain_holds]; try contradiction; apply whole_le.
  - assert (T : (u < z + 1)%Z); [|lia]. apply whole_lt. now rewrite whole_next.
  - assert (T : (z < u + 1)%Z); [|lia]. apply whole_lt. rewrite whole_next. clear E. generalize dependent (Q2Qc (inject_Z z)). generalize dependent (Q2Qc (inject_Z u)). intros. qlra.
Qed.
