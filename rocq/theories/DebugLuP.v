(** * The assertions of the basis inverses never fail *)
From Verif Require Export DebugLu LuL InvRowsP.

(** ** Reading assertions *)
Lemma asserted {A} b (k : res A) : b = true -> bind (assert b) (fun _ => k) = k.
Proof. now intros ->. Qed.
Lemma foldM_same {S A} (f g : S -> A -> res S) (I : S -> Prop) : forall l s, I s ->
  (forall s x, In x l -> I s -> f s x = g s x /\ forall s', g s x = Ok s' -> I s') ->
  foldM f l s = foldM g l s.
Proof.
  induction l as [|x l IH]; intros s Hs H; cbn [foldM]; [reflexivity|].
  destruct (H s x (or_introl eq_refl) Hs) as [-> K]. destruct (g s x) as [s'| |]; cbn [bind]; try reflexivity.
  apply IH; [now apply K|]. intros s0 y Hy. apply H. now right.
Qed.
Lemma mapM_same {A B} (f g : A -> res B) l : (forall x, In x l -> f x = g x) -> mapM f l = mapM g l.
Proof.
  induction l as [|x l IH]; intros H; cbn [mapM]; [reflexivity|]. rewrite H by now left.
  rewrite IH; [reflexivity|]. intros y Hy. apply H. now right.
Qed.
Lemma foldM_snoc {S A} (f : S -> A -> res S) l x s :
  foldM f (l ++ [x]) s = bind (foldM f l s) (fun s' => f s' x).
Proof.
  revert s. induction l as [|y l IH]; intros s; cbn [app foldM bind]; [now destruct (f s x)|].
  destruct (f s y); cbn [bind]; [apply IH|reflexivity|reflexivity].
Qed.

Lemma fwf_strict m : forall l lo, fwf lo m l -> is_strict (keys l) = true.
Proof.
  unfold is_strict, keys. induction l as [|[i v] l IH]; intros lo W; [reflexivity|]. destruct W as (_ & _ & W).
  cbn [map fst windows]. destruct l as [|[j x] l]; [reflexivity|]. cbn [map fst] in *.
  rewrite (IH (S i)) by assumption. destruct W as (L & _). rewrite (proj2 (Nat.ltb_lt i j)) by lia. reflexivity.
Qed.
Lemma strict_sorted l : is_strict l = true -> is_sorted l = true.
Proof.
  unfold is_strict, is_sorted. induction l as [|x [|y t] IH]; intros H; try reflexivity. cbn [windows] in *.
  apply Bool.andb_true_iff in H. destruct H as [H1 H2]. apply Nat.ltb_lt in H1.
  apply Bool.andb_true_iff. split; [apply Nat.leb_le; lia|now apply IH].
Qed.
Lemma fwf_sorted m l lo : fwf lo m l -> is_sorted (keys l) = true.
Proof. intros W. now apply strict_sorted, (fwf_strict m l lo). Qed.
Lemma below_In n l : (forall x, In x l -> (x < n)%nat) -> all_below n l = true.
Proof. intros H. apply forallb_forall. intros x Hx. apply Nat.ltb_lt. now apply H. Qed.
Lemma keys_lt m l lo x : fwf lo m l -> In x (keys l) -> (x < m)%nat.
Proof.
  intros W H. apply in_map_iff in H. destruct H as ([i v] & <- & H). apply (den_In lo m l i v W H).
Qed.
Lemma fwf_below m l lo : fwf lo m l -> all_below m (keys l) = true.
Proof. intros W. apply below_In. intros x. now apply (keys_lt m l lo). Qed.
Lemma last_In {A} (l : list A) : match rev l with [] => l = [] | x :: _ => In x l end.
Proof.
  destruct (rev l) as [|x t] eqn:E.
  - apply (f_equal (@rev A)) in E. rewrite rev_involutive in E. exact E.
  - apply in_rev. rewrite E. now left.
Qed.
Lemma fwf_last m l lo : fwf lo m l -> last_below m (keys l) = true.
Proof.
  intros W. unfold last_below. pose proof (last_In (keys l)) as H. destruct (rev (keys l)); [reflexivity|].
  apply Nat.ltb_lt. now apply (keys_lt m l lo).
Qed.
Lemma fwf_nonzero m : forall l lo, fwf lo m l -> all_nonzero l = true.
Proof.
  unfold all_nonzero. induction l as [|[i v] l IH]; intros lo W; [reflexivity|]. destruct W as (_ & N & W).
  cbn [forallb snd]. rewrite (IH (S i)) by assumption. rewrite Bool.andb_true_r. destruct (qzero v) eqn:Z; qb; [contradiction|reflexivity].
Qed.
Lemma fwf_length m : forall l lo, fwf lo m l -> (length l <= m - lo)%nat.
Proof.
  induction l as [|[i v] l IH]; intros lo W; cbn [length]; [lia|]. destruct W as (L & _ & W).
  specialize (IH (S i) W). lia.
Qed.
Lemma sparse_new_ok m v : (0 < m)%nat -> wfs m v -> sparse_new v m = Ok v.
Proof.
  intros M W. unfold sparse_new. rewrite !asserted; try reflexivity.
  - apply Nat.leb_le. pose proof (fwf_length m v 0 W). lia.
  - destruct m; [lia|reflexivity].
  - now apply (fwf_nonzero m v 0).
  - now apply (fwf_sorted m v 0).
  - now apply (fwf_below m v 0).
Qed.

(** ** Permutations *)
Lemma full_forward_same m f i : is_full m f -> (i < m)%nat -> full_forward_d f i = full_forward f i.
Proof. intros F L. unfold full_forward_d. apply asserted. apply Nat.ltb_lt. now rewrite (fu_lf _ _ F). Qed.
Lemma full_backward_same m f i : is_full m f -> (i < m)%nat -> full_backward_d f i = full_backward f i.
Proof. intros F L. unfold full_backward_d. apply asserted. apply Nat.ltb_lt. now rewrite (fu_lf _ _ F). Qed.
Lemma map_indices_same (f g : nat -> res nat) m (l : svec) : (forall i, (i < m)%nat -> f i = g i) ->
  (forall x, In x (keys l) -> (x < m)%nat) -> map_indices f l = map_indices g l.
Proof.
  intros H K. apply mapM_same. intros [i v] Hi. rewrite H; [reflexivity|]. apply K. apply in_map_iff. now exists (i, v).
Qed.
Lemma unsorted_same (f g : nat -> res nat) m (l : svec) : (forall i, (i < m)%nat -> f i = g i) ->
  (forall x, In x (keys l) -> (x < m)%nat) -> unsorted_d m f l = map_indices g l.
Proof.
  intros H K. unfold unsorted_d. rewrite asserted by now apply below_In. now apply (map_indices_same f g m).
Qed.
Lemma map_sorted_same f g m l : (forall i, (i < m)%nat -> f i = g i) -> wfs m l ->
  map_sorted_d m f l = map_sorted g l.
Proof.
  intros H W. unfold map_sorted_d, map_sorted. rewrite !asserted.
  - rewrite (unsorted_same f g) by (try assumption; intros x; now apply (keys_lt m l 0)). reflexivity.
  - now apply (fwf_strict m l 0).
  - now apply (fwf_sorted m l 0).
  - now apply (fwf_below m l 0).
Qed.
Lemma sw_sorted_same m a b l : wfs m l -> (a < m)%nat -> (b < m)%nat -> sw_sorted_d a b m l = sw_sorted a b l.
Proof.
  intros W La Lb. unfold sw_sorted_d. rewrite !asserted.
  - destruct (sw_sorted_spec m a b l W La Lb) as (l' & -> & W' & _). cbn [bind]. rewrite asserted; [reflexivity|].
    now apply (fwf_strict m l' 0).
  - now apply (fwf_strict m l 0).
  - now apply (fwf_below m l 0).
Qed.
Lemma rb_sorted_same m t l : wfs m l -> (t < m)%nat -> rb_sorted_d t m l = rb_sorted t m l.
Proof.
  intros W Lt. unfold rb_sorted_d. rewrite !asserted.
  - destruct (rb_sorted_spec m t l W Lt) as (l' & -> & W' & _). cbn [bind]. rewrite asserted; [reflexivity|].
    now apply (fwf_strict m l' 0).
  - now apply (fwf_strict m l 0).
  - now apply (fwf_below m l 0).
Qed.
Lemma rb_back_sorted_same m t l : wfs m l -> (t < m)%nat -> rb_back_sorted_d t m l = rb_back_sorted t m l.
Proof.
  intros W Lt. unfold rb_back_sorted_d. rewrite !asserted.
  - destruct (rb_back_sorted_spec m t l W Lt) as (l' & -> & W' & _). cbn [bind]. rewrite asserted; [reflexivity|].
    now apply (fwf_strict m l' 0).
  - now apply (fwf_strict m l 0).
  - now apply (fwf_below m l 0).
Qed.

(** ** Eta files *)
Lemma eta_right_same m e t v : upd_ok m (e, t) -> wfs m v -> eta_right_d m e v = eta_right e v.
Proof.
  intros U W. unfold eta_right_d. rewrite !asserted.
  - destruct (eta_right_spec m e t v U W) as (v' & -> & W' & _). cbn [bind]. rewrite asserted; [reflexivity|].
    now apply (fwf_strict m v' 0).
  - now apply (fwf_last m v 0).
  - now apply (fwf_strict m v 0).
Qed.
Lemma eta_left_same m e t v : upd_ok m (e, t) -> wfs m v -> eta_left_d m e v = eta_left e v.
Proof.
  intros U W. unfold eta_left_d. rewrite !asserted.
  - destruct (eta_left_spec m e t v U W) as (v' & -> & W' & _). cbn [bind]. rewrite asserted; [reflexivity|].
    destruct (fst _); [|reflexivity]. now apply (fwf_strict m v' 0).
  - now apply (fwf_last m v 0).
  - now apply (fwf_strict m v 0).
Qed.
Lemma update_spike_same m e t v : upd_ok m (e, t) -> wfs m v -> v <> [] -> update_spike_d m e v = update_spike e v.
Proof.
  intros U W NE. unfold update_spike_d. rewrite asserted by now apply (fwf_strict m v 0).
  destruct v as [|x v]; [congruence|]. apply asserted. now apply (fwf_last m _ 0).
Qed.
Lemma eta_new_ok m r t : (t < m)%nat -> fwf (S t) m r -> eta_new_d r t m = Ok (mk_eta r t).
Proof.
  intros Lt W. unfold eta_new_d. rewrite !asserted; try reflexivity.
  - now apply Nat.ltb_lt.
  - now apply (fwf_last m r (S t)).
  - destruct r as [|[i v] r]; [reflexivity|]. apply Nat.ltb_lt. destruct W as (L & _). lia.
  - now apply (fwf_strict m r (S t)).
Qed.

(** ** Applying the decomposition *)
Section Apply.
Variables (m : nat) (l : lu).
Hypothesis W : lu_wf m l.
Lemma upds_ok : Forall (upd_ok m) (l_upd l).
Proof. exact (LuP.upds m l W). Qed.

Lemma upper_left_same rhs : wfs m rhs -> upper_left_d l rhs = upper_left l (S m) rhs [].
Proof.
  intros Wr. unfold upper_left_d, fuel_of. rewrite (w_m m l W).
  destruct (upper_left_spec m l W (S m) m rhs [] Wr I (le_n m) ltac:(lia)) as (x & -> & Wx & _). cbn [bind].
  rewrite asserted; [reflexivity|]. now apply (fwf_sorted m x 0).
Qed.
Lemma lower_right_same rhs : wfs m rhs -> lower_right_d l rhs = lower_right l (S m) rhs [].
Proof.
  intros Wr. unfold lower_right_d, fuel_of. rewrite (w_m m l W).
  destruct (lower_right_spec m l W (S m) m rhs [] Wr I (le_n m) ltac:(lia)) as (x & -> & Wx & _). cbn [bind].
  rewrite asserted; [reflexivity|]. now apply (fwf_sorted m x 0).
Qed.
Lemma upper_right_same lo rhs : fwf lo m rhs -> upper_right_d l rhs = upper_right l (S m) rhs.
Proof.
  intros Wr. unfold upper_right_d, fuel_of. rewrite (w_m m l W).
  destruct (upper_right_spec m l W (S m) lo rhs Wr ltac:(lia)) as (x & -> & Wx & _). cbn [bind].
  rewrite asserted; [reflexivity|]. now apply (fwf_strict m x lo).
Qed.
Lemma spike_same w : wfs m w ->
  foldM (fun w '(e, t) => let* w := eta_right_d m e w in rb_sorted_d t m w) (l_upd l) w =
  foldM (fun w '(e, t) => let* w := eta_right e w in rb_sorted t m w) (l_upd l) w.
Proof.
  intros Ww. apply (foldM_same _ _ (wfs m)); [assumption|]. intros s [e t] Hin Ws.
  assert (U : upd_ok m (e, t)) by (apply (proj1 (Forall_forall _ _) upds_ok); assumption).
  rewrite (eta_right_same m e t) by assumption.
  destruct (eta_right_spec m e t s U Ws) as (s1 & -> & W1 & _). cbn [bind].
  rewrite (rb_sorted_same m) by (try assumption; apply U). split; [reflexivity|].
  intros s' E. destruct (rb_sorted_spec m t s1 W1) as (s2 & E2 & W2 & _); [apply U|].
  rewrite E2 in E. now injection E as <-.
Qed.
Lemma unspike_same w : wfs m w ->
  foldM (fun w '(e, t) => let* w := rb_back_sorted_d t m w in eta_left_d m e w) (rev (l_upd l)) w =
  foldM (fun w '(e, t) => let* w := rb_back_sorted t m w in eta_left e w) (rev (l_upd l)) w.
Proof.
  intros Ww. apply (foldM_same _ _ (wfs m)); [assumption|]. intros s [e t] Hin Ws. apply in_rev in Hin.
  assert (U : upd_ok m (e, t)) by (apply (proj1 (Forall_forall _ _) upds_ok); assumption).
  rewrite (rb_back_sorted_same m) by (try assumption; apply U).
  destruct (rb_back_sorted_spec m t s Ws) as (s1 & -> & W1 & _); [apply U|]. cbn [bind].
  rewrite (eta_left_same m e t) by assumption. split; [reflexivity|].
  intros s' E. destruct (eta_left_spec m e t s1 U W1) as (s2 & E2 & W2 & _). rewrite E2 in E. now injection E as <-.
Qed.
Lemma upd_forward_same i : (i < m)%nat -> upd_forward_d l i = Ok (upd_forward l i).
Proof.
  unfold upd_forward_d, upd_forward. rewrite (w_m m l W). revert i. generalize upds_ok. generalize (l_upd l).
  induction l0 as [|[e t] us IH]; intros U i Li; cbn [foldM fold_left]; [reflexivity|].
  inversion U as [|? ? U1 U2]; subst. unfold rb_forward_d at 1. rewrite asserted by now apply Nat.ltb_lt. cbn [bind].
  apply IH; [assumption|]. apply rb_forward_lt; [apply U1|assumption].
Qed.
Lemma keys_map (f : nat -> nat) (c : svec) x : In x (keys (map (fun '(i, v) => (f i, v)) c)) ->
  exists i, In i (keys c) /\ x = f i.
Proof.
  unfold keys. rewrite map_map. intros H. apply in_map_iff in H. destruct H as ([i v] & <- & H).
  exists i. split; [|reflexivity]. apply in_map_iff. now exists (i, v).
Qed.
Lemma forward_all (c : svec) : (forall x, In x (keys c) -> (x < m)%nat) ->
  foldM (fun c '(_, t) => unsorted_d m (rb_forward_d t m) c) (l_upd l) c =
  Ok (map (fun '(i, v) => (upd_forward l i, v)) c).
Proof.
  unfold upd_forward. rewrite (w_m m l W). revert c. generalize upds_ok. generalize (l_upd l).
  induction l0 as [|[e t] us IH]; intros U c K; cbn [foldM].
  - f_equal. rewrite <- (map_id c) at 1. apply map_ext. now intros [i v].
  - inversion U as [|? ? U1 U2]; subst. destruct U1 as (Lt & _). cbn [snd] in Lt.
    rewrite (unsorted_same _ (fun i => Ok (rb_forward t m i)) m).
    + rewrite (map_indices_ok _ (rb_forward t m) m) by (try reflexivity; intros i v H; apply K; apply in_map_iff; now exists (i, v)).
      cbn [bind]. rewrite IH; [|assumption|].
      * f_equal. rewrite map_map. apply map_ext. now intros [i v].
      * intros x Hx. apply keys_map in Hx. destruct Hx as (i & Hi & ->). apply rb_forward_lt; [assumption|now apply K].
    + intros i Li. unfold rb_forward_d. apply asserted. now apply Nat.ltb_lt.
    + assumption.
Qed.
Lemma backward_all (c : svec) : (forall x, In x (keys c) -> (x < m)%nat) ->
  foldM (fun c '(_, t) => unsorted_d m (rb_backward_d t m) c) (rev (l_upd l)) c =
  Ok (fold_right (fun '(_, t) c => map (fun '(i, v) => (rb_backward t m i, v)) c) c (l_upd l)).
Proof.
  revert c. generalize upds_ok. generalize (l_upd l).
  induction l0 as [|[e t] us IH]; intros U c K; cbn [rev fold_right]; [reflexivity|].
  inversion U as [|? ? U1 U2]; subst. destruct U1 as (Lt & _). cbn [snd] in Lt.
  rewrite foldM_snoc, IH by assumption. cbn [bind]. rewrite map_backward.
  assert (K' : forall x, In x (keys (map (fun '(i, v) => (upd_backward m us i, v)) c)) -> (x < m)%nat).
  { intros x Hx. apply keys_map in Hx. destruct Hx as (i & Hi & ->). apply upd_backward_spec; [assumption|now apply K]. }
  rewrite (unsorted_same _ (fun i => Ok (rb_backward t m i)) m); [|..|assumption].
  - rewrite (map_indices_ok _ (rb_backward t m) m); [reflexivity|reflexivity|].
    intros i v H. apply K'. apply in_map_iff. now exists (i, v).
  - intros i Li. unfold rb_backward_d. apply asserted. now apply Nat.ltb_lt.
Qed.

Lemma lu_left_same a : wfs m a -> lu_left_d l a = lu_left l a.
Proof.
  intros Wa. unfold lu_left_d, lu_left. pose proof (w_rp _ _ W) as Wr. pose proof (w_cp _ _ W) as Wc.
  rewrite (map_indices_same _ (full_forward (l_rp l)) m).
  2:{ intros i Li. now apply (full_forward_same m). }
  2:{ intros x. now apply (keys_lt m a 0). }
  rewrite (map_indices_ok _ (fun i => nth i (f_fw (l_rp l)) 0%nat) m).
  2:{ intros. now apply (full_forward_ok m). }
  2:{ intros i v H. apply (den_In 0 m a i v Wa H). }
  cbn [bind].
  destruct (collect_map _ _ m a (fu_f _ _ Wr) (fu_b _ _ Wr) Wa) as [Wr1 Dr1].
  unfold fuel_of. rewrite (w_m m l W).
  destruct (lower_left_spec m l W (S m) 0 _ Wr1 ltac:(lia)) as (w & -> & Ww & Dw). cbn [bind].
  rewrite spike_same by assumption.
  destruct (spike_spec m _ upds_ok w Ww) as (s & -> & Ws & Ds). cbn [bind].
  rewrite (collect_sorted m s Ws). rewrite upper_left_same by assumption.
  destruct (upper_left_spec m l W (S m) m s [] Ws I (le_n m) ltac:(lia)) as (x & -> & Wx & Dx). cbn [bind].
  rewrite backward_all by (intros y; now apply (keys_lt m x 0)). cbn [bind]. rewrite map_backward.
  assert (K : forall y, In y (keys (map (fun '(i, v) => (upd_backward m (l_upd l) i, v)) x)) -> (y < m)%nat).
  { intros y Hy. apply keys_map in Hy. destruct Hy as (i & Hi & ->). apply upd_backward_spec; [apply upds_ok|].
    now apply (keys_lt m x 0). }
  rewrite (unsorted_same _ (full_backward (l_cp l)) m).
  2:{ intros i Li. now apply (full_backward_same m). }
  2:{ exact K. }
  assert (K2 : forall i v, In (i, v) (map (fun '(i, v) => (upd_backward m (l_upd l) i, v)) x) -> (i < m)%nat).
  { intros i v H. apply K. apply in_map_iff. now exists (i, v). }
  rewrite (map_indices_ok _ (fun i => nth i (f_bw (l_cp l)) 0%nat) m).
  2:{ intros. now apply (full_backward_ok m). }
  2:{ exact K2. }
  cbn [bind]. rewrite map_map.
  rewrite (map_ext _ (fun '(i, v) => (sigma_inv m l i, v))) by (intros [i v]; reflexivity).
  destruct (map_sort_spec (sigma_inv m l) (sigma m l) m x (sigma_inv_spec m l W) (sigma_spec m l W) Wx) as [Wf _].
  rewrite sparse_new_ok by (try assumption; apply W). reflexivity.
Qed.

Lemma lu_row_of_same rhs : wfs m (collect rhs) -> lu_row_of_d l rhs = lu_row_of l rhs.
Proof.
  intros Wc. unfold lu_row_of_d, lu_row_of. rewrite (upper_right_same 0) by assumption.
  unfold fuel_of. rewrite (w_m m l W).
  destruct (upper_right_spec m l W (S m) 0 _ Wc ltac:(lia)) as (z & -> & Wz & Dz). cbn [bind].
  rewrite unspike_same by assumption.
  destruct (unspike_spec m _ upds_ok z Wz) as (s & -> & Ws & Ds). cbn [bind].
  rewrite (collect_sorted m s Ws). rewrite lower_right_same by assumption.
  destruct (lower_right_spec m l W (S m) m s [] Ws I (le_n m) ltac:(lia)) as (y & -> & Wy & Dy). cbn [bind].
  rewrite (map_sorted_same _ (full_backward (l_rp l))); [|intros i Li; apply (full_backward_same m); [apply W|assumption]|assumption].
  destruct (full_backward_sorted m (l_rp l) y (w_rp _ _ W) Wy) as (v & -> & Wv & Dv). cbn [bind].
  apply sparse_new_ok; [apply W|assumption].
Qed.
Lemma lu_right_same r : wfs m r -> lu_right_d l r = lu_right l r.
Proof.
  intros Wr. unfold lu_right_d, lu_right. assert (Wc := w_cp _ _ W).
  rewrite (map_indices_same _ (full_forward (l_cp l)) m).
  2:{ intros i Li. now apply (full_forward_same m). }
  2:{ intros x. now apply (keys_lt m r 0). }
  rewrite (map_indices_ok _ (fun i => nth i (f_fw (l_cp l)) 0%nat) m).
  2:{ intros. now apply (full_forward_ok m). }
  2:{ intros i v H. apply (den_In 0 m r i v Wr H). }
  cbn [bind]. rewrite (w_m m l W), forward_all.
  2:{ intros x Hx. apply keys_map in Hx. destruct Hx as (i & Hi & ->). apply (fu_f _ _ Wc). now apply (keys_lt m r 0). }
  cbn [bind]. apply lu_row_of_same. rewrite map_map.
  rewrite (map_ext _ (fun '(i, v) => (sigma m l i, v))).
  2:{ intros [i v]. unfold sigma. now rewrite (upd_forward_eq m l W). }
  apply (collect_map (sigma m l) (sigma_inv m l) m r (sigma_spec m l W) (sigma_inv_spec m l W) Wr).
Qed.
Lemma lu_row_same i : (i < m)%nat -> lu_row_d l i = lu_row l i.
Proof.
  intros Li. unfold lu_row_d, lu_row. rewrite (full_forward_same m) by (try assumption; apply W).
  rewrite (full_forward_ok m) by (try assumption; apply W). cbn [bind].
  assert (Lf : (nth i (f_fw (l_cp l)) 0 < m)%nat) by (apply (fu_f _ _ (w_cp _ _ W)); assumption).
  rewrite upd_forward_same by assumption. cbn [bind]. apply lu_row_of_same.
  assert (Wx : wfs m [(upd_forward l (nth i (f_fw (l_cp l)) 0%nat), 1)]).
  { cbn. split; [|split; [discriminate|exact I]]. rewrite (upd_forward_eq m l W).
    split; [lia|]. apply upd_fwd_spec; [apply upds_ok|assumption]. }
  now rewrite (collect_sorted m).
Qed.
Lemma lu_elem_same i a : wfs m a -> (i < m)%nat -> lu_elem_d l i a = lu_elem l i a.
Proof.
  intros Wa Li. unfold lu_elem_d, lu_elem. rewrite lu_left_same by assumption.
  destruct (lu_left l a) as [c| |]; cbn [bind]; try reflexivity.
  apply asserted. apply Nat.ltb_lt. now rewrite (w_m m l W).
Qed.
End Apply.
