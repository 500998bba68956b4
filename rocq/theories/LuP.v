(** * The LU decomposition represents the inverse of the basis *)
From Verif Require Export TriP.

Lemma sum_perm m (F G : nat -> nat) f :
  (forall i, (i < m)%nat -> (F i < m)%nat /\ G (F i) = i) ->
  (forall i, (i < m)%nat -> (G i < m)%nat /\ F (G i) = i) ->
  sum m (fun i => f (F i)) = sum m f.
Proof.
  intros HF HG.
  rewrite (sum_ext m _ (fun i => sum m (fun j => delta (F i) j * f j))).
  2:{ intros i Li. symmetry. apply sum_delta_l. now apply HF. }
  rewrite sum_swap. apply sum_ext. intros j Lj.
  rewrite (sum_single m (G j)); [|now apply HG|].
  - rewrite (proj2 (HG j Lj)), delta_same. ring.
  - intros i Li N. rewrite delta_diff; [ring|]. intros E. apply N. rewrite <- E. symmetry. now apply HF.
Qed.

Lemma inverse_solve m N B (x b : vec) : is_inverse m N B ->
  (forall i, (i < m)%nat -> sum m (fun k => B i k * x k) = b i) ->
  forall i, (i < m)%nat -> x i = sum m (fun k => N i k * b k).
Proof.
  intros [H _] E i Li. rewrite (sum_ext m _ (fun k => N i k * sum m (fun j => B k j * x j))).
  2:{ intros k Lk. now rewrite E. }
  rewrite mv_assoc. rewrite (sum_ext m _ (fun j => delta i j * x j)).
  - now rewrite sum_delta_l.
  - intros j Lj. f_equal. now apply H.
Qed.

(** ** Eta files *)
Lemma update_value_spec m v i d found : wfs m v -> (i < m)%nat -> found = bsearch i v ->
  exists v', update_value d found i v = Ok v' /\ wfs m v' /\
    forall k, den v' k = den v k - (if Nat.eqb k i then d else 0).
Proof.
  intros W Li ->. unfold update_value. destruct (qzero d) eqn:Z; qb.
  { exists v. split; [reflexivity|]. split; [assumption|]. intros k. rewrite Z. destruct (Nat.eqb k i); ring. }
  destruct (insert_or_shift_spec 0 m v i d W ltac:(lia) Z) as [W' D'].
  exists (insert_or_shift v i d). split; [|split; assumption].
  unfold insert_or_shift. pose proof (bsearch_spec 0 m v i W) as B.
  destruct (bsearch i v) as [[] k]; [|reflexivity]. destruct B as [B _].
  unfold index. rewrite B. cbn [ofopt bind fst snd]. rewrite (nth_error_nth _ _ _ B). reflexivity.
Qed.

(** effect of one update on a column and, transposed, on a row *)
Definition ev (m : nat) (e : eta) (t : nat) (w : vec) : vec := fun i =>
  let j := rb_backward t m i in
  w j - (if Nat.eqb j (e_pivot e) then sum m (fun k => den (e_values e) k * w k) else 0).
Definition evT (m : nat) (e : eta) (t : nat) (z : vec) : vec := fun j =>
  z (rb_forward t m j) - den (e_values e) j * z (rb_forward t m (e_pivot e)).

Definition upd_ok (m : nat) (u : eta * nat) : Prop :=
  (snd u < m)%nat /\ e_pivot (fst u) = snd u /\ fwf (S (snd u)) m (e_values (fst u)).

Lemma ev_dual m e t z w : upd_ok m (e, t) ->
  sum m (fun i => z i * ev m e t w i) = sum m (fun j => evT m e t z j * w j).
Proof.
  intros (Lt & Ep & We). cbn [fst snd] in *.
  transitivity (sum m (fun j => z (rb_forward t m j) * (w j - (if Nat.eqb j t then sum m (fun k => den (e_values e) k * w k) else 0)))).
  - rewrite <- (sum_perm m (rb_forward t m) (rb_backward t m)).
    + apply sum_ext. intros j Lj. unfold ev. rewrite rb_back_forw by assumption. now rewrite Ep.
    + intros i Li. split; [now apply rb_forward_lt|now apply rb_back_forw].
    + intros i Li. split; [now apply rb_backward_lt|now apply rb_forw_back].
  - unfold evT. rewrite Ep.
    rewrite (sum_ext m _ (fun j => z (rb_forward t m j) * w j -
        delta t j * (z (rb_forward t m t) * sum m (fun k => den (e_values e) k * w k)))).
    2:{ intros j _. unfold delta. rewrite (Nat.eqb_sym t j). destruct (Nat.eqb_spec j t) as [->|]; ring. }
    rewrite sum_minus. rewrite (sum_delta_l m t (fun _ => _)) by assumption.
    rewrite (sum_ext m (fun j => (z (rb_forward t m j) - den (e_values e) j * z (rb_forward t m t)) * w j)
      (fun j => z (rb_forward t m j) * w j - z (rb_forward t m t) * (den (e_values e) j * w j))) by (intros; ring).
    rewrite sum_minus, sum_scal_l. reflexivity.
Qed.
Lemma ev_injective m e t w w' : upd_ok m (e, t) ->
  (forall i, (i < m)%nat -> ev m e t w i = ev m e t w' i) -> forall i, (i < m)%nat -> w i = w' i.
Proof.
  intros (Lt & Ep & We) H. cbn [fst snd] in *.
  assert (H' : forall j, (j < m)%nat -> w j - (if Nat.eqb j t then sum m (fun k => den (e_values e) k * w k) else 0)
     = w' j - (if Nat.eqb j t then sum m (fun k => den (e_values e) k * w' k) else 0)).
  { intros j Lj. specialize (H (rb_forward t m j) (rb_forward_lt t m j Lt Lj)). unfold ev in H.
    rewrite rb_back_forw in H by assumption. now rewrite Ep in H. }
  assert (Hn : forall j, (j < m)%nat -> j <> t -> w j = w' j).
  { intros j Lj N. specialize (H' j Lj). rewrite (proj2 (Nat.eqb_neq j t)) in H' by assumption. qlra. }
  intros i Li. destruct (Nat.eq_dec i t) as [->|N]; [|now apply Hn].
  specialize (H' t Lt). rewrite Nat.eqb_refl in H'.
  rewrite (sum_ext m (fun k => den (e_values e) k * w k) (fun k => den (e_values e) k * w' k)) in H'; [qlra|].
  intros k Lk. destruct (Nat.eq_dec k t) as [->|Nk]; [|now rewrite Hn].
  rewrite (den_below (S t) m) by (assumption || lia). ring.
Qed.
Lemma ev_linear m e t c w w' i : ev m e t (fun k => w k + c * w' k) i = ev m e t w i + c * ev m e t w' i.
Proof.
  unfold ev. rewrite (sum_ext m _ (fun k => den (e_values e) k * w k + c * (den (e_values e) k * w' k))) by (intros; ring).
  rewrite sum_plus, sum_scal_l. destruct (Nat.eqb _ _); ring.
Qed.
Lemma ev_ext m e t w w' : (t < m)%nat -> (forall i, (i < m)%nat -> w i = w' i) ->
  forall i, (i < m)%nat -> ev m e t w i = ev m e t w' i.
Proof.
  intros Lt H i Li. unfold ev. rewrite (H (rb_backward t m i)) by now apply rb_backward_lt.
  rewrite (sum_ext m _ (fun k => den (e_values e) k * w' k)); [reflexivity|]. intros k Lk. now rewrite H.
Qed.
Lemma evT_ext m e t z z' : upd_ok m (e, t) -> (forall i, (i < m)%nat -> z i = z' i) ->
  forall i, (i < m)%nat -> evT m e t z i = evT m e t z' i.
Proof.
  intros (Lt & Ep & _) H i Li. cbn [fst snd] in *. unfold evT. rewrite Ep. now rewrite !H by now apply rb_forward_lt.
Qed.

Lemma eta_right_spec m e t v : upd_ok m (e, t) -> wfs m v ->
  exists v', eta_right e v = Ok v' /\ wfs m v' /\
    forall i, den v' i = den v i - (if Nat.eqb i t then sum m (fun k => den (e_values e) k * den v k) else 0).
Proof.
  intros (Lt & Ep & We) W. cbn [fst snd] in *. unfold eta_right. rewrite Ep.
  destruct (fwf_split t m v 0 W ltac:(lia)) as (P & R & E & HP & HR).
  assert (Hs : skipn (snd (bsearch t v)) v = R).
  { rewrite E. rewrite (bsearch_app P _ HP). destruct (fwf_head t m R HR) as [(x & C & -> & _)|HC].
    - rewrite bsearch_present. cbn [snd]. now rewrite skipn_app_l by lia.
    - rewrite (bsearch_absent _ HC). cbn [snd]. now rewrite skipn_app_l by lia. }
  assert (W1 : wfs m (e_values e)) by (apply fwf_weaken with (S t); [lia|assumption]).
  assert (W2 : wfs m R) by (apply fwf_weaken with t; [lia|assumption]).
  rewrite Hs. rewrite (sdot_spec m) by assumption.
  rewrite (sum_ext m (fun k => den (e_values e) k * den v k) (fun k => den (e_values e) k * den R k)).
  2:{ intros k Lk. rewrite E, den_app. destruct (Nat.lt_ge_cases k (S t)) as [C|C].
      - rewrite (den_below (S t) m) by assumption. ring.
      - rewrite (den_above 0 t P) by (assumption || lia). ring. }
  now apply update_value_spec.
Qed.
Lemma index_pos m v v' t k : wfs m v -> wfs m v' -> (t < m)%nat -> bsearch t v = (true, k) ->
  (forall i, (i <= t)%nat -> den v' i = den v i) -> index v' k = Ok (t, den v t).
Proof.
  intros W W' Lt B D.
  destruct (fwf_split t m v 0 W ltac:(lia)) as (P & R & E & HP & HR).
  destruct (fwf_split t m v' 0 W' ltac:(lia)) as (P' & R' & E' & HP' & HR').
  assert (P' = P) as ->.
  { apply (fwf_ext 0 t); try assumption. intros i Li. specialize (D i ltac:(lia)).
    rewrite E, E', !den_app in D. rewrite (den_below t m R), (den_below t m R') in D by assumption. qlra. }
  rewrite E, (bsearch_app P _ HP) in B.
  destruct (fwf_head t m R HR) as [(x & C & -> & Nx & _ & HC)|HC].
  2:{ rewrite (bsearch_absent _ HC) in B. discriminate. }
  rewrite bsearch_present in B. injection B as <-. rewrite Nat.add_0_r.
  assert (Dt : den v t = x).
  { rewrite E, den_app. cbn [den]. rewrite (den_above 0 t P), (den_below (S t) m C), Nat.eqb_refl by (assumption || lia). ring. }
  specialize (D t (le_n t)). rewrite Dt in D. rewrite E', den_app, (den_above 0 t P) in D by (assumption || lia).
  destruct (fwf_head t m R' HR') as [(x' & C' & -> & Nx' & _ & HC')|HC'].
  - rewrite E', index_app by reflexivity. do 2 f_equal. rewrite Dt, <- D. cbn [den].
    rewrite (den_below (S t) m C'), Nat.eqb_refl by (assumption || lia). ring.
  - exfalso. rewrite (den_below (S t) m R') in D by (assumption || lia). apply Nx. rewrite <- D. ring.
Qed.
Lemma eta_left_spec m e t v : upd_ok m (e, t) -> wfs m v ->
  exists v', eta_left e v = Ok v' /\ wfs m v' /\
    forall i, den v' i = den v i - den (e_values e) i * den v t.
Proof.
  intros (Lt & Ep & We) W. cbn [fst snd] in *. unfold eta_left. rewrite Ep.
  pose proof (bsearch_spec 0 m v t W) as B. destruct (bsearch t v) as [[] k] eqn:Eb.
  - set (step := fun v '(j, value) => _).
    assert (G : forall vs lo v', fwf lo m vs -> (t < lo)%nat -> wfs m v' ->
      (forall i, (i <= t)%nat -> den v' i = den v i) ->
      exists v2, foldM step vs v' = Ok v2 /\ wfs m v2 /\ forall i, den v2 i = den v' i - den vs i * den v t).
    { clear We. induction vs as [|[j y] vs IH]; intros lo v' Hv Lo W' D.
      - exists v'. split; [reflexivity|]. split; [assumption|]. intros. cbn. ring.
      - destruct Hv as (H1 & H2 & H3). cbn [foldM]. unfold step at 1.
        rewrite (index_pos m v v' t k) by assumption. cbn [bind snd].
        destruct (update_value_spec m v' j (y * den v t) _ W' ltac:(lia) eq_refl) as (v1 & -> & W1 & D1). cbn [bind].
        destruct (IH (S j) v1 H3 ltac:(lia) W1) as (v2 & -> & W2 & D2).
        { intros i Li. rewrite D1. rewrite (proj2 (Nat.eqb_neq i j)) by lia. rewrite D by assumption. ring. }
        exists v2. split; [reflexivity|]. split; [assumption|]. intros i. rewrite D2, D1. cbn [den].
        destruct (Nat.eqb i j); ring. }
    apply (G (e_values e) (S t)); try assumption; [lia|reflexivity].
  - exists v. split; [reflexivity|]. split; [assumption|]. intros i. rewrite B. ring.
Qed.
Lemma update_spike_spec m e t v : upd_ok m (e, t) -> wfs m v ->
  exists v', update_spike e v = Ok v' /\ wfs m v' /\
    forall i, den v' i = den v i - (if Nat.eqb i t then sum m (fun k => den (e_values e) k * den v k) else 0).
Proof.
  intros (Lt & Ep & We) W. cbn [fst snd] in *. unfold update_spike. rewrite Ep.
  destruct (fwf_split t m v 0 W ltac:(lia)) as (P & R & E & HP & HR).
  set (rest := skipn _ v).
  assert (Hs : fwf (S t) m rest /\ forall i, (t < i)%nat -> den rest i = den v i).
  { unfold rest. rewrite E. rewrite (bsearch_app P _ HP). destruct (fwf_head t m R HR) as [(x & C & -> & _ & _ & HC)|HC].
    - rewrite bsearch_present. cbn [fst snd]. change ((t, x) :: C) with ([(t, x)] ++ C). rewrite app_assoc.
      rewrite skipn_app_l by (rewrite app_length; cbn; lia). split; [assumption|].
      intros i Li. rewrite !den_app. cbn [den]. rewrite (proj2 (Nat.eqb_neq i t)) by lia.
      rewrite (den_above 0 t P) by (assumption || lia). ring.
    - rewrite (bsearch_absent _ HC). cbn [fst snd]. rewrite skipn_app_l by lia. split; [assumption|].
      intros i Li. rewrite !den_app. rewrite (den_above 0 t P) by (assumption || lia). ring. }
  destruct Hs as [Wr Dr].
  set (diff := fold_right _ 0 (e_values e)).
  assert (Hd : diff = sum m (fun k => den (e_values e) k * den v k)).
  { unfold diff. transitivity (esum (e_values e) (fun i x => x * den v i)).
    - assert (G : forall vs lo, fwf lo m vs -> (t < lo)%nat -> fold_right (fun '(row, value) acc =>
                  match bsearch row rest with
                  | (true, k) => value * snd (nth k rest (0%nat, 0)) + acc
                  | (false, _) => acc
                  end) 0 vs = esum vs (fun i x => x * den v i)).
      { induction vs as [|[j y] vs IH]; intros lo Hv Lo; [reflexivity|]. destruct Hv as (H1 & H2 & H3).
        cbn [fold_right esum]. rewrite (IH (S j)) by (assumption || lia).
        pose proof (bsearch_nth rest (S t) m j Wr ltac:(lia)) as B. rewrite <- Dr by lia.
        destruct (bsearch j rest) as [[] k]; [destruct B as [-> _]; ring|rewrite B; ring]. }
      apply (G _ (S t)); [assumption|lia].
    - apply esum_den. intros i x H. now apply (den_In (S t) m (e_values e) i x). }
  rewrite Hd. apply update_value_spec; try assumption. reflexivity.
Qed.

(** ** All updates *)
Definition Evec (m : nat) (us : list (eta * nat)) (w : vec) : vec :=
  fold_left (fun w '(e, t) => ev m e t w) us w.
Definition EvecT (m : nat) (us : list (eta * nat)) (z : vec) : vec :=
  fold_right (fun '(e, t) z => evT m e t z) z us.
Lemma Evec_ext m us : Forall (upd_ok m) us -> forall w w', (forall i, (i < m)%nat -> w i = w' i) ->
  forall i, (i < m)%nat -> Evec m us w i = Evec m us w' i.
Proof.
  induction us as [|[e t] us IH]; intros H w w' E; [exact E|]. inversion H; subst. cbn. apply IH; [assumption|].
  apply ev_ext; [|assumption]. now destruct H2.
Qed.
Lemma Evec_linear m us c : Forall (upd_ok m) us -> forall w w' i, (i < m)%nat ->
  Evec m us (fun k => w k + c * w' k) i = Evec m us w i + c * Evec m us w' i.
Proof.
  induction us as [|[e t] us IH]; intros H w w' i Li; [reflexivity|]. inversion H; subst. cbn.
  change (Evec m us (ev m e t (fun k => w k + c * w' k)) i =
    Evec m us (ev m e t w) i + c * Evec m us (ev m e t w') i).
  rewrite <- IH by assumption. apply Evec_ext; try assumption. intros. apply ev_linear.
Qed.
Lemma Evec_injective m us : Forall (upd_ok m) us -> forall w w',
  (forall i, (i < m)%nat -> Evec m us w i = Evec m us w' i) -> forall i, (i < m)%nat -> w i = w' i.
Proof.
  induction us as [|[e t] us IH]; intros H w w' E; [exact E|]. inversion H; subst. cbn in E.
  apply (ev_injective m e t); [assumption|]. now apply IH.
Qed.
Lemma EvecT_ext m us : Forall (upd_ok m) us -> forall z z', (forall i, (i < m)%nat -> z i = z' i) ->
  forall i, (i < m)%nat -> EvecT m us z i = EvecT m us z' i.
Proof.
  induction us as [|[e t] us IH]; intros H z z' E; [exact E|]. inversion H; subst. cbn.
  apply evT_ext; [assumption|]. now apply IH.
Qed.
Lemma Evec_dual m us : Forall (upd_ok m) us -> forall z w,
  sum m (fun i => z i * Evec m us w i) = sum m (fun j => EvecT m us z j * w j).
Proof.
  induction us as [|[e t] us IH]; intros H z w; [reflexivity|]. inversion H; subst. cbn.
  change (sum m (fun i => z i * Evec m us (ev m e t w) i) = sum m (fun j => evT m e t (EvecT m us z) j * w j)).
  rewrite IH by assumption. now apply ev_dual.
Qed.
Lemma spike_spec m us : Forall (upd_ok m) us -> forall w, wfs m w ->
  exists s, foldM (fun w '(e, t) => let* w := eta_right e w in rb_sorted t m w) us w = Ok s /\ wfs m s /\
    forall i, (i < m)%nat -> den s i = Evec m us (den w) i.
Proof.
  induction us as [|[e t] us IH]; intros H w W.
  - exists w. split; [reflexivity|]. split; [assumption|]. reflexivity.
  - inversion H as [|? ? Hu Hus]; subst. cbn [foldM].
    destruct (eta_right_spec m e t w Hu W) as (w1 & -> & W1 & D1). cbn [bind].
    destruct (rb_sorted_spec m t w1 W1) as (w2 & -> & W2 & D2); [apply Hu|]. cbn [bind].
    destruct (IH Hus w2 W2) as (s & -> & Ws & Ds). exists s. split; [reflexivity|]. split; [assumption|].
    intros i Li. rewrite Ds by assumption. cbn. apply Evec_ext; try assumption. intros k Lk.
    rewrite D2 by assumption. rewrite D1. unfold ev. destruct Hu as (_ & Ep & _). cbn [fst snd] in Ep. now rewrite Ep.
Qed.
Lemma unspike_spec m us : Forall (upd_ok m) us -> forall z, wfs m z ->
  exists s, foldM (fun w '(e, t) => let* w := rb_back_sorted t m w in eta_left e w) (rev us) z = Ok s /\ wfs m s /\
    forall i, (i < m)%nat -> den s i = EvecT m us (den z) i.
Proof.
  induction us as [|[e t] us IH]; intros H z W.
  - exists z. split; [reflexivity|]. split; [assumption|]. reflexivity.
  - inversion H as [|? ? Hu Hus]; subst. cbn [rev].
    destruct (IH Hus z W) as (s & Es & Ws & Ds).
    assert (A : forall (f : svec -> eta * nat -> res svec) l x z, foldM f (l ++ [x]) z = let* s := foldM f l z in f s x).
    { clear. intros f. induction l as [|y l IH]; intros x z; cbn [app foldM bind]; [now destruct (f z x)|].
      destruct (f z y); cbn [bind]; [apply IH|reflexivity|reflexivity]. }
    rewrite A, Es. cbn [bind].
    destruct (rb_back_sorted_spec m t s Ws) as (w1 & -> & W1 & D1); [apply Hu|]. cbn [bind].
    destruct (eta_left_spec m e t w1 Hu W1) as (w2 & -> & W2 & D2). exists w2. split; [reflexivity|].
    split; [assumption|]. intros i Li. rewrite D2. destruct Hu as (Lt & Ep & _). cbn [fst snd] in *.
    rewrite !D1 by assumption. cbn. unfold evT. rewrite Ep. now rewrite !Ds by now apply rb_forward_lt.
Qed.

(** ** The permutation of the columns *)
Definition upd_backward (m : nat) (us : list (eta * nat)) (i : nat) : nat :=
  fold_right (fun '(_, t) i => rb_backward t m i) i us.
Definition upd_fwd (m : nat) (us : list (eta * nat)) (i : nat) : nat :=
  fold_left (fun i '(_, t) => rb_forward t m i) us i.
Lemma upd_fwd_spec m us : Forall (upd_ok m) us -> forall i, (i < m)%nat ->
  (upd_fwd m us i < m)%nat /\ upd_backward m us (upd_fwd m us i) = i.
Proof.
  induction us as [|[e t] us IH]; intros H i Li; [now split|]. inversion H as [|? ? (Lt & _) Hus]; subst.
  cbn [fst snd] in *. destruct (IH Hus (rb_forward t m i) (rb_forward_lt t m i Lt Li)) as [A B].
  change (upd_fwd m ((e, t) :: us) i) with (upd_fwd m us (rb_forward t m i)). split; [assumption|].
  cbn [upd_backward fold_right]. fold (upd_backward m us (upd_fwd m us (rb_forward t m i))).
  rewrite B. now apply rb_back_forw.
Qed.
Lemma upd_backward_spec m us : Forall (upd_ok m) us -> forall i, (i < m)%nat ->
  (upd_backward m us i < m)%nat /\ upd_fwd m us (upd_backward m us i) = i.
Proof.
  induction us as [|[e t] us IH]; intros H i Li; [now split|]. inversion H as [|? ? (Lt & _) Hus]; subst.
  cbn [fst snd] in *. destruct (IH Hus i Li) as [A B].
  change (upd_backward m ((e, t) :: us) i) with (rb_backward t m (upd_backward m us i)).
  split; [now apply rb_backward_lt|].
  change (upd_fwd m ((e, t) :: us) (rb_backward t m (upd_backward m us i)))
    with (upd_fwd m us (rb_forward t m (rb_backward t m (upd_backward m us i)))).
  rewrite rb_forw_back by assumption. exact B.
Qed.
Lemma map_backward m us : forall col : svec,
  fold_right (fun '(_, t) c => map (fun '(i, v) => (rb_backward t m i, v)) c) col us =
  map (fun '(i, v) => (upd_backward m us i, v)) col.
Proof.
  induction us as [|[e t] us IH]; intros col; cbn [fold_right].
  - induction col as [|[i v] col IHc]; [reflexivity|]. cbn [map]. now rewrite <- IHc.
  - rewrite IH, map_map. apply map_ext. intros [i v]. reflexivity.
Qed.

Lemma collect_map (F G : nat -> nat) m (l : svec) :
  (forall i, (i < m)%nat -> (F i < m)%nat /\ G (F i) = i) ->
  (forall i, (i < m)%nat -> (G i < m)%nat /\ F (G i) = i) -> wfs m l ->
  wfs m (collect (map (fun '(i, v) => (F i, v)) l)) /\
  forall i, (i < m)%nat -> den (collect (map (fun '(i, v) => (F i, v)) l)) i = den l (G i).
Proof.
  intros HF HG W.
  assert (B : forall i v, In (i, v) l -> (i < m)%nat /\ v <> 0).
  { intros i v H. destruct (den_In 0 m l i v W H) as (_ & A & B). split; [lia|assumption]. }
  destruct (collect_spec m (map (fun '(i, v) => (F i, v)) l)) as [Wc Dc].
  - pose proof (fwf_NoDup 0 m l W) as ND. clear W. induction l as [|[i v] l IH]; [constructor|].
    cbn [map fst] in *. inversion ND as [|? ? N1 N2]; subst. constructor.
    + rewrite map_map. intros C. apply in_map_iff in C. destruct C as ([j x] & E & C). cbn in E. apply N1.
      apply in_map_iff. exists (j, x). split; [|assumption]. cbn.
      rewrite <- (proj2 (HF j ltac:(apply (B j x); now right))), E. apply HF, (B i v). now left.
    + apply IH; [|assumption]. intros. apply B. now right.
  - intros i v H. apply in_map_iff in H. destruct H as ([j x] & E & H). injection E as <- <-.
    split; [apply HF|]; now apply (B j x).
  - split; [assumption|]. intros i Li. rewrite Dc. apply (den_map_inj F G m).
    + intros. now apply HF.
    + intros j v H. now apply (B j v).
    + now apply HG.
Qed.
Section Rep.
Variables (m : nat) (l : lu).
Definition sigma (k : nat) : nat := upd_fwd m (l_upd l) (nth k (f_fw (l_cp l)) 0%nat).
Definition sigma_inv (k : nat) : nat := nth (upd_backward m (l_upd l) k) (f_bw (l_cp l)) 0%nat.
(** [l] stands for the inverse of [B] *)
Definition lu_for (B : mat) : Prop :=
  forall c w : vec,
    (forall i, (i < m)%nat ->
       sum m (fun k => Lmat l (nth i (f_fw (l_rp l)) 0%nat) k * w k) = sum m (fun k => B i k * c k)) ->
    forall i, (i < m)%nat -> Evec m (l_upd l) w i = sum m (fun k => Umat l i (sigma k) * c k).
Hypothesis W : lu_wf m l.

Lemma upds : Forall (upd_ok m) (l_upd l).
Proof.
  apply Forall_forall. intros [e t] H. destruct (w_upd _ _ W e t H) as (A & B & C). unfold upd_ok. cbn. auto.
Qed.
Lemma sigma_spec k : (k < m)%nat -> (sigma k < m)%nat /\ sigma_inv (sigma k) = k.
Proof.
  intros Lk. unfold sigma, sigma_inv. destruct (fu_f _ _ (w_cp _ _ W) k Lk) as [A B].
  destruct (upd_fwd_spec m _ upds _ A) as [C D]. split; [assumption|]. now rewrite D.
Qed.
Lemma sigma_inv_spec k : (k < m)%nat -> (sigma_inv k < m)%nat /\ sigma (sigma_inv k) = k.
Proof.
  intros Lk. unfold sigma, sigma_inv. destruct (upd_backward_spec m _ upds k Lk) as [A B].
  destruct (fu_b _ _ (w_cp _ _ W) _ A) as [C D]. split; [assumption|]. now rewrite D.
Qed.
Lemma upd_forward_eq i : upd_forward l i = upd_fwd m (l_upd l) i.
Proof. unfold upd_forward, upd_fwd. now rewrite (w_m m l W). Qed.

Lemma lu_left_spec a : wfs m a ->
  exists cs (x w : vec), lu_left l a = Ok cs /\ wfs m (cs_column cs) /\ wfs m (cs_spike cs) /\
    (forall i, (i < m)%nat -> sum m (fun k => Lmat l (nth i (f_fw (l_rp l)) 0%nat) k * w k) = den a i) /\
    (forall i, (i < m)%nat -> den (cs_spike cs) i = Evec m (l_upd l) w i) /\
    (forall i, (i < m)%nat -> sum m (fun k => Umat l i k * x k) = den (cs_spike cs) i) /\
    (forall i, (i < m)%nat -> den (cs_column cs) i = x (sigma i)).
Proof.
  intros Wa. unfold lu_left. pose proof (w_rp _ _ W) as Wr. pose proof (w_cp _ _ W) as Wc.
  rewrite (map_indices_ok _ (fun i => nth i (f_fw (l_rp l)) 0%nat) m).
  2:{ intros. now apply (full_forward_ok m). }
  2:{ intros i v H. apply (den_In 0 m a i v Wa H). }
  cbn [bind]. unfold fuel_of. rewrite (w_m m l W).
  destruct (collect_map _ _ m a (fu_f _ _ Wr) (fu_b _ _ Wr) Wa) as [Wr1 Dr1].
  destruct (lower_left_spec m l W (S m) 0 _ Wr1 ltac:(lia)) as (w & -> & Ww & Dw). cbn [bind].
  destruct (spike_spec m _ upds w Ww) as (s & -> & Ws & Ds). cbn [bind].
  rewrite (collect_sorted m s Ws).
  destruct (upper_left_spec m l W (S m) m s [] Ws I (le_n m) ltac:(lia)) as (x & -> & Wx & Dx). cbn [bind].
  rewrite map_backward.
  assert (Bx : forall i v, In (i, v) x -> (i < m)%nat) by (intros i v H; apply (den_In 0 m x i v Wx H)).
  rewrite (map_indices_ok _ (fun i => nth i (f_bw (l_cp l)) 0%nat) m).
  2:{ intros. now apply (full_backward_ok m). }
  2:{ intros i v H. apply in_map_iff in H. destruct H as ([j y] & E & H). injection E as <- <-.
      apply upd_backward_spec; [apply upds|now apply (Bx j y)]. }
  cbn [bind]. rewrite map_map.
  rewrite (map_ext _ (fun '(i, v) => (sigma_inv i, v))) by (intros [i v]; reflexivity).
  destruct (map_sort_spec sigma_inv sigma m x sigma_inv_spec sigma_spec Wx) as [Wf Df].
  eexists (mk_cs _ _), (den x), (den w). split; [reflexivity|]. cbn [cs_column cs_spike].
  split; [assumption|]. split; [assumption|]. split; [|split; [|split]].
  - intros i Li. rewrite Dw by now apply Wr. rewrite Dr1 by now apply Wr. now rewrite (proj2 (fu_f _ _ Wr i Li)).
  - assumption.
  - intros i Li. rewrite Dx by assumption. rewrite (sum_zero m (fun k => Umat l i k * den [] k)) by (intros; cbn; ring). ring.
  - assumption.
Qed.

Lemma lu_row_of_spec rhs : wfs m (collect rhs) ->
  exists v (z y : vec), lu_row_of l rhs = Ok v /\ wfs m v /\
    (forall j, (j < m)%nat -> sum m (fun k => z k * Umat l k j) = den (collect rhs) j) /\
    (forall j, (j < m)%nat -> sum m (fun k => y k * Lmat l k j) = EvecT m (l_upd l) z j) /\
    (forall i, (i < m)%nat -> den v i = y (nth i (f_fw (l_rp l)) 0%nat)).
Proof.
  intros Wc. unfold lu_row_of, fuel_of. rewrite (w_m m l W).
  destruct (upper_right_spec m l W (S m) 0 _ Wc ltac:(lia)) as (z & -> & Wz & Dz). cbn [bind].
  destruct (unspike_spec m _ upds z Wz) as (s & -> & Ws & Ds). cbn [bind].
  rewrite (collect_sorted m s Ws).
  destruct (lower_right_spec m l W (S m) m s [] Ws I (le_n m) ltac:(lia)) as (y & -> & Wy & Dy). cbn [bind].
  destruct (full_backward_sorted m (l_rp l) y (w_rp _ _ W) Wy) as (v & -> & Wv & Dv).
  exists v, (den z), (den y). split; [reflexivity|]. split; [assumption|]. split; [assumption|]. split; [|assumption].
  intros j Lj. rewrite Dy by assumption. rewrite Ds by assumption.
  rewrite (sum_zero m (fun k => den [] k * Lmat l k j)) by (intros; cbn; ring). ring.
Qed.

Variables N B : mat.
Hypothesis NB : is_inverse m N B.
Hypothesis HB : lu_for B.

Lemma lu_left_solves a : wfs m a -> exists cs, lu_left l a = Ok cs /\ wfs m (cs_column cs) /\
  (forall i, (i < m)%nat -> sum m (fun k => B i k * den (cs_column cs) k) = den a i).
Proof.
  intros Wa. destruct (lu_left_spec a Wa) as (cs & x & w & E & Wcol & Wsp & Hw & Hs & Hx & Hc).
  exists cs. split; [assumption|]. split; [assumption|].
  assert (Wr := w_rp _ _ W).
  destruct (lower_solvable m l W (fun i => sum m (fun k => B (nth i (f_bw (l_rp l)) 0%nat) k * den (cs_column cs) k)))
    as (w' & Hw').
  assert (H1 : forall i, (i < m)%nat ->
       sum m (fun k => Lmat l (nth i (f_fw (l_rp l)) 0%nat) k * w' k) = sum m (fun k => B i k * den (cs_column cs) k)).
  { intros i Li. rewrite Hw' by now apply Wr. now rewrite (proj2 (fu_f _ _ Wr i Li)). }
  assert (H2 : forall i, (i < m)%nat -> w' i = w i).
  { apply (Evec_injective m (l_upd l) upds). intros i Li. rewrite (HB _ _ H1 i Li), <- Hs by assumption.
    rewrite <- Hx by assumption.
    rewrite <- (sum_perm m sigma sigma_inv (fun k => Umat l i k * x k) sigma_spec sigma_inv_spec).
    apply sum_ext. intros k Lk. now rewrite Hc by assumption. }
  intros i Li. rewrite <- H1, <- Hw by assumption. apply sum_ext. intros k Lk. now rewrite H2.
Qed.
Lemma lu_left_inverse a : wfs m a -> exists cs, lu_left l a = Ok cs /\ wfs m (cs_column cs) /\
  (forall i, (i < m)%nat -> den (cs_column cs) i = sum m (fun k => N i k * den a k)).
Proof.
  intros Wa. destruct (lu_left_solves a Wa) as (cs & E & Wcol & H3). exists cs. split; [assumption|]. split; [assumption|].
  now apply (inverse_solve m N B).
Qed.

Lemma lu_row_inverse rhs (r : vec) : wfs m (collect rhs) ->
  (forall k, (k < m)%nat -> den (collect rhs) (sigma k) = r k) ->
  exists v, lu_row_of l rhs = Ok v /\ wfs m v /\
    forall j, (j < m)%nat -> den v j = sum m (fun k => r k * N k j).
Proof.
  intros Wc Hr. destruct (lu_row_of_spec rhs Wc) as (v & z & y & E & Wv & Hz & Hy & Hv).
  exists v. split; [assumption|]. split; [assumption|]. assert (Wr := w_rp _ _ W). intros j Lj.
  set (c := fun k => N k j).
  destruct (lower_solvable m l W (fun i => sum m (fun k => B (nth i (f_bw (l_rp l)) 0%nat) k * c k))) as (w & Hw).
  assert (H1 : forall i, (i < m)%nat ->
       sum m (fun k => Lmat l (nth i (f_fw (l_rp l)) 0%nat) k * w k) = sum m (fun k => B i k * c k)).
  { intros i Li. rewrite Hw by now apply Wr. now rewrite (proj2 (fu_f _ _ Wr i Li)). }
  pose proof (HB c w H1) as H2.
  transitivity (sum m (fun i => den v i * sum m (fun k => B i k * c k))).
  { symmetry. rewrite (sum_ext m _ (fun i => den v i * delta i j)).
    - now apply sum_delta_r.
    - intros i Li. f_equal. now apply NB. }
  transitivity (sum m (fun i => y i * sum m (fun k => Lmat l i k * w k))).
  { symmetry. rewrite <- (sum_perm m _ _ _ (fu_f _ _ Wr) (fu_b _ _ Wr)). apply sum_ext. intros i Li.
    now rewrite H1, Hv by assumption. }
  rewrite dot_assoc. rewrite (sum_ext m _ (fun k => EvecT m (l_upd l) z k * w k)).
  2:{ intros k Lk. now rewrite Hy. }
  rewrite <- Evec_dual by apply upds.
  rewrite (sum_ext m _ (fun i => z i * sum m (fun k => Umat l i (sigma k) * c k))).
  2:{ intros i Li. now rewrite H2. }
  rewrite dot_assoc. apply sum_ext. intros k Lk. rewrite Hz by now apply sigma_spec. now rewrite Hr.
Qed.
Lemma lu_right_inverse r : wfs m r -> exists v, lu_right l r = Ok v /\ wfs m v /\
  forall j, (j < m)%nat -> den v j = sum m (fun k => den r k * N k j).
Proof.
  intros Wr. unfold lu_right. assert (Wc := w_cp _ _ W).
  rewrite (map_indices_ok _ (fun i => nth i (f_fw (l_cp l)) 0%nat) m).
  2:{ intros. now apply (full_forward_ok m). }
  2:{ intros i v H. apply (den_In 0 m r i v Wr H). }
  cbn [bind]. rewrite map_map.
  rewrite (map_ext _ (fun '(i, v) => (sigma i, v))).
  2:{ intros [i v]. unfold sigma. now rewrite upd_forward_eq. }
  destruct (collect_map sigma sigma_inv m r sigma_spec sigma_inv_spec Wr) as [W1 D1].
  apply lu_row_inverse; [assumption|]. intros k Lk. rewrite D1 by now apply sigma_spec.
  now rewrite (proj2 (sigma_spec k Lk)).
Qed.
Lemma lu_row_spec i : (i < m)%nat -> exists v, lu_row l i = Ok v /\ wfs m v /\
  forall j, (j < m)%nat -> den v j = N i j.
Proof.
  intros Li. unfold lu_row. rewrite (full_forward_ok m) by (try assumption; apply W). cbn [bind].
  rewrite upd_forward_eq. fold (sigma i). destruct (sigma_spec i Li) as [Ls Es].
  destruct (lu_row_inverse [(sigma i, 1)] (delta i)) as (v & E & Wv & Hv).
  - cbn. repeat split; [lia|assumption|discriminate].
  - intros k Lk. cbn. unfold delta. destruct (Nat.eqb_spec (sigma k) (sigma i)) as [C|C].
    + assert (k = i) as -> by (rewrite <- Es, <- C; symmetry; now apply sigma_spec). rewrite Nat.eqb_refl. ring.
    + destruct (Nat.eqb_spec i k) as [->|]; [congruence|ring].
  - exists v. split; [assumption|]. split; [assumption|]. intros j Lj. rewrite Hv by assumption.
    now rewrite sum_delta_l.
Qed.
End Rep.
