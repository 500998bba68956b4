(** * A basis change keeps the LU decomposition exact *)
From Verif Require Export LuP.

(** ** List operations *)
Lemma slice_rotl1 {A} (l : list A) d x : (d < length l)%nat ->
  exists l', on_slice rotl1 d (length l) l = Ok l' /\ length l' = length l /\
    forall i, (i < length l)%nat -> nth i l' x = nth (rb_backward d (length l) i) l x.
Proof.
  intros Ld. destruct (nth_split l x Ld) as (P & C & E & LP).
  set (y := nth d l x) in *. rewrite E.
  replace (P ++ y :: C) with (P ++ (y :: C) ++ []) by now rewrite app_nil_r.
  rewrite on_slice_app by (rewrite ?app_length; cbn [length app]; rewrite ?app_length; cbn; lia).
  cbn [rotl1 bind]. rewrite !app_nil_r. exists (P ++ C ++ [y]). split; [reflexivity|].
  rewrite !app_length. cbn [length]. split; [lia|]. intros i Li. unfold rb_backward.
  destruct (Nat.ltb_spec i d) as [C1|C1].
  - rewrite !app_nth1 by lia. reflexivity.
  - destruct (Nat.ltb_spec i (length P + S (length C) - 1)) as [C2|C2].
    + rewrite app_nth2 by lia. rewrite app_nth1 by lia. rewrite (app_nth2 P) by lia.
      replace (S i - length P)%nat with (S (i - length P)) by lia. reflexivity.
    + rewrite app_nth2 by lia. rewrite app_nth2 by lia. rewrite app_nth2 by lia.
      replace (i - length P - length C)%nat with 0%nat by lia. now rewrite <- LP, Nat.sub_diag.
Qed.

Definition zero_at (t : nat) (col : svec) : svec :=
  match bsearch t col with (true, k) => remove_at col k | (false, _) => col end.
Lemma zero_at_spec lo n t col : fwf lo n col -> (lo <= t)%nat ->
  fwf lo n (zero_at t col) /\ forall i, den (zero_at t col) i = if Nat.eqb i t then 0 else den col i.
Proof.
  intros W L. destruct (Nat.lt_ge_cases t n) as [Ln|Ln].
  2:{ assert (H : bsearch t col = (false, length col)).
      { revert lo W L. induction col as [|[i v] col IH]; intros lo W L; [reflexivity|]. destruct W as (H1 & H2 & H3).
        cbn [bsearch length]. rewrite (proj2 (Nat.ltb_lt i t)) by lia. now rewrite (IH (S i)) by (assumption || lia). }
      unfold zero_at. rewrite H. split; [assumption|]. intros i.
      destruct (Nat.eqb_spec i t) as [->|]; [|reflexivity]. now apply (den_above lo n). }
  destruct (fwf_split t n col lo W L) as (P & R & -> & HP & HR).
  unfold zero_at. rewrite (bsearch_app P _ HP).
  destruct (fwf_head t n R HR) as [(v & C & -> & Nv & _ & HC)|HC].
  - rewrite bsearch_present. rewrite remove_at_app by lia. split.
    + apply fwf_app with t; try assumption; [|lia]. apply fwf_weaken with (S t); [lia|assumption].
    + intros i. rewrite !den_app. cbn [den]. destruct (Nat.eqb_spec i t) as [->|Ni]; [|ring].
      rewrite (den_above lo t P), (den_below (S t) n C) by (assumption || lia). ring.
  - rewrite (bsearch_absent _ HC). split; [assumption|]. intros i.
    destruct (Nat.eqb_spec i t) as [->|Ni]; [|reflexivity]. rewrite den_app.
    rewrite (den_above lo t P), (den_below (S t) n R) by (assumption || lia). ring.
Qed.

Definition ubar (t : nat) (up : list svec) (j : nat) : list (nat * Qc * nat) :=
  let col := nth (j - 1) up [] in
  match bsearch t col with
  | (true, k) => [(j, snd (nth k col (0%nat, 0)), k)]
  | (false, _) => []
  end.
Lemma ubar_fold t up : forall n a acc, (0 < a)%nat -> (a + n <= S (length up))%nat ->
  foldM (fun acc j =>
                  let* col := index up (j - 1) in
                  match bsearch t col with
                  | (true, k) => Ok (acc ++ [(j, snd (nth k col (0%nat, 0)), k)])
                  | (false, _) => Ok acc
                  end) (seq a n) acc = Ok (acc ++ flat_map (ubar t up) (seq a n)).
Proof.
  induction n as [|n IH]; intros a acc La L; cbn [seq foldM flat_map].
  - now rewrite app_nil_r.
  - rewrite (index_Ok up (a - 1) []) by lia. cbn [bind]. unfold ubar at 1.
    destruct (bsearch t (nth (a - 1) up [])) as [[] k]; cbn [bind]; rewrite IH by lia.
    + now rewrite <- app_assoc.
    + reflexivity.
Qed.
Lemma ubar_den t up : (forall j, (j < length up)%nat -> fwf 0 (S j) (nth j up [])) ->
  forall n a, (0 < a)%nat -> (a + n <= S (length up))%nat ->
  let r := map (fun '(j, v, _) => (j, v)) (flat_map (ubar t up) (seq a n)) in
  fwf a (a + n) r /\
  forall j, den r j = if Nat.leb a j && Nat.ltb j (a + n) then den (nth (j - 1) up []) t else 0.
Proof.
  intros Hup. induction n as [|n IH]; intros a La L; cbn [seq flat_map map].
  - split; [exact I|]. intros j. cbn [den]. destruct (Nat.leb_spec a j), (Nat.ltb_spec j (a + 0)); try reflexivity; lia.
  - destruct (IH (S a) ltac:(lia) ltac:(lia)) as [W D]. set (r := map _ (flat_map _ (seq (S a) n))) in *.
    rewrite map_app. fold r.
    pose proof (bsearch_nth (nth (a - 1) up []) 0 (S (a - 1)) t (Hup (a - 1)%nat ltac:(lia)) ltac:(lia)) as B.
    assert (HD : forall j, den r j = if Nat.eqb j a then 0 else
        if Nat.leb a j && Nat.ltb j (a + S n) then den (nth (j - 1) up []) t else 0).
    { intros j. rewrite D. destruct (Nat.eqb_spec j a) as [->|N].
      - rewrite (proj2 (Nat.leb_gt (S a) a)) by lia. reflexivity.
      - replace (S a + n)%nat with (a + S n)%nat by lia.
        destruct (Nat.leb_spec (S a) j), (Nat.leb_spec a j); try reflexivity; lia. }
    clearbody r. unfold ubar. destruct (bsearch t (nth (a - 1) up [])) as [[] k]; cbn [map app].
    + destruct B as [B1 B2]. rewrite B1. split.
      * cbn [fwf]. split; [lia|]. split; [assumption|]. now replace (a + S n)%nat with (S a + n)%nat by lia.
      * intros j. cbn [den]. rewrite HD. destruct (Nat.eqb_spec j a) as [->|N]; [|ring].
        rewrite (proj2 (Nat.leb_le a a)), (proj2 (Nat.ltb_lt a (a + S n))) by lia. cbn. ring.
    + split.
      * apply fwf_weaken with (S a); [lia|]. now replace (a + S n)%nat with (S a + n)%nat by lia.
      * intros j. rewrite HD. destruct (Nat.eqb_spec j a) as [->|N]; [|reflexivity].
        rewrite B. now destruct (_ && _).
Qed.
Lemma ubar_remove t up0 : forall n a up, (0 < a)%nat -> (a + n <= S (length up))%nat ->
  (forall i, (a <= S i)%nat -> nth i up [] = nth i up0 []) ->
  exists up', foldM (fun up '(j, _, k) =>
               let* col := index up (j - 1) in
               Ok (upd up (j - 1) (remove_at col k))) (flat_map (ubar t up0) (seq a n)) up = Ok up' /\
    length up' = length up /\
    forall i, nth i up' [] = if Nat.leb a (S i) && Nat.ltb (S i) (a + n) then zero_at t (nth i up0 []) else nth i up [].
Proof.
  induction n as [|n IH]; intros a up La L H; cbn [seq flat_map].
  - exists up. split; [reflexivity|]. split; [reflexivity|]. intros i.
    destruct (Nat.leb_spec a (S i)), (Nat.ltb_spec (S i) (a + 0)); try reflexivity; lia.
  - set (step := fun up '(j, _, k) => _).
    assert (A : exists up1, foldM step (ubar t up0 a) up = Ok up1 /\ length up1 = length up /\
      forall i, nth i up1 [] = if Nat.eqb (S i) a then zero_at t (nth i up0 []) else nth i up []).
    { unfold ubar. destruct (bsearch t (nth (a - 1) up0 [])) as [[] k] eqn:E; cbn [foldM].
      - unfold step. rewrite (index_Ok up (a - 1) []) by lia. cbn [bind]. eexists. split; [reflexivity|].
        rewrite upd_length. split; [reflexivity|]. intros i. rewrite upd_nth by lia.
        destruct (Nat.eqb_spec i (a - 1)) as [->|N].
        + rewrite (proj2 (Nat.eqb_eq (S (a - 1)) a)) by lia. rewrite H by lia. unfold zero_at. now rewrite E.
        + rewrite (proj2 (Nat.eqb_neq (S i) a)) by lia. reflexivity.
      - exists up. split; [reflexivity|]. split; [reflexivity|]. intros i.
        destruct (Nat.eqb_spec (S i) a) as [Ei|N]; [|reflexivity]. rewrite H by lia. unfold zero_at.
        replace (a - 1)%nat with i in E by lia. now rewrite E. }
    destruct A as (up1 & E1 & L1 & N1).
    assert (FA : forall l1 l2 u, foldM step (l1 ++ l2) u = let* v := foldM step l1 u in foldM step l2 v).
    { clear. induction l1 as [|x l1 IH]; intros l2 u; cbn [app foldM bind]; [reflexivity|].
      destruct (step u x); cbn [bind]; [apply IH|reflexivity|reflexivity]. }
    rewrite FA, E1. cbn [bind].
    destruct (IH (S a) up1) as (up' & E' & L' & N'); try lia.
    { intros i Li. rewrite N1. rewrite (proj2 (Nat.eqb_neq (S i) a)) by lia. apply H. lia. }
    exists up'. split; [exact E'|]. split; [lia|]. intros i. rewrite N', N1.
    replace (S a + n)%nat with (a + S n)%nat by lia.
    destruct (Nat.leb_spec (S a) (S i)), (Nat.leb_spec a (S i)), (Nat.ltb_spec (S i) (a + S n)),
      (Nat.eqb_spec (S i) a); cbn; try reflexivity; lia.
Qed.
Lemma rotate_fold t m : (t < m)%nat -> forall n a up, (0 < a)%nat -> (a + n <= S (length up))%nat ->
  (forall i, wfs m (nth i up [])) ->
  exists up', foldM (fun up j =>
               let* col := index up (j - 1) in
               let* col := rb_sorted t m col in
               Ok (upd up (j - 1) col)) (seq a n) up = Ok up' /\ length up' = length up /\
    forall i, wfs m (nth i up' []) /\ forall k, (k < m)%nat -> den (nth i up' []) k =
      if Nat.leb a (S i) && Nat.ltb (S i) (a + n) then den (nth i up []) (rb_backward t m k) else den (nth i up []) k.
Proof.
  intros Lt. induction n as [|n IH]; intros a up La L H; cbn [seq foldM].
  - exists up. split; [reflexivity|]. split; [reflexivity|]. intros i. split; [apply H|]. intros k _.
    destruct (Nat.leb_spec a (S i)), (Nat.ltb_spec (S i) (a + 0)); try reflexivity; lia.
  - rewrite (index_Ok up (a - 1) []) by lia. cbn [bind].
    destruct (rb_sorted_spec m t _ (H (a - 1)%nat) Lt) as (col & -> & Wc & Dc). cbn [bind].
    assert (N1 : forall i, nth i (upd up (a - 1) col) [] = if Nat.eqb i (a - 1) then col else nth i up [])
      by (intros; apply upd_nth; lia).
    destruct (IH (S a) (upd up (a - 1) col)) as (up' & E' & L' & N'); try (rewrite ?upd_length; lia).
    { intros i. rewrite N1. destruct (Nat.eqb i (a - 1)); [assumption|apply H]. }
    rewrite upd_length in L'. exists up'. split; [exact E'|]. split; [lia|]. intros i.
    destruct (N' i) as [W' D']. split; [assumption|]. intros k Lk. rewrite D' by assumption. rewrite N1.
    replace (S a + n)%nat with (a + S n)%nat by lia.
    destruct (Nat.eqb_spec i (a - 1)) as [->|Ni].
    + rewrite (proj2 (Nat.leb_gt (S a) (S (a - 1)))) by lia. cbn [andb]. rewrite Dc by assumption.
      rewrite (proj2 (Nat.leb_le a (S (a - 1)))), (proj2 (Nat.ltb_lt (S (a - 1)) (a + S n))) by lia. reflexivity.
    + destruct (Nat.leb_spec (S a) (S i)), (Nat.leb_spec a (S i)), (Nat.ltb_spec (S i) (a + S n)); cbn; try reflexivity; lia.
Qed.

(** ** The new decomposition *)
Section Change.
Variables (m : nat) (l : lu) (N B : mat) (a : svec) (p : nat) (cs : column_and_spike).
Hypothesis M2 : (2 <= m)%nat.
Hypothesis W : lu_wf m l.
Hypothesis NB : is_inverse m N B.
Hypothesis HB : lu_for m l B.
Hypothesis Wa : wfs m a.
Hypothesis Ecs : lu_left l a = Ok cs.
Hypothesis Lp : (p < m)%nat.
Hypothesis Np : den (cs_column cs) p <> 0.

Lemma lu_change_spec : exists l', lu_change l p cs = Ok (l', cs_column cs) /\ lu_wf m l' /\
  lu_for m l' (set_col B p (den a)).
Proof.
  destruct (lu_left_spec m l W a Wa) as (cs' & x & wa & E & Wcol & Wsp & Hwa & Hs & Hx & Hc).
  rewrite Ecs in E. injection E as <-.
  set (t := sigma m l p). destruct (sigma_spec m l W p Lp) as [Lt Et]. fold t in Lt, Et.
  unfold lu_change. rewrite (w_m m l W). rewrite (full_forward_ok m) by (try assumption; apply W).
  cbn [bind]. rewrite (upd_forward_eq m l W).
  change (upd_fwd m (l_upd l) (nth p (f_fw (l_cp l)) 0%nat)) with t.
  assert (Lup := w_lup _ _ W). unfold range.
  (* the row that is zeroed *)
  rewrite ubar_fold by lia. cbn [app bind].
  destruct (ubar_den t (l_up l)) with (n := (m - S t)%nat) (a := S t) as [Wu Du]; try lia.
  { intros j Lj. apply (w_up _ _ W). lia. }
  replace (S t + (m - S t))%nat with m in Wu, Du by lia.
  rewrite (collect_sorted m) by (apply fwf_weaken with (S t); [lia|assumption]).
  destruct (upper_right_spec m l W (S m) (S t) _ Wu ltac:(lia)) as (r & Er & Wr & Dr).
  unfold fuel_of. rewrite (w_m m l W), Er. cbn [bind].
  destruct (ubar_remove t (l_up l) (m - S t) (S t) (l_up l)) as (up1 & E1 & L1 & N1); try lia; [reflexivity|].
  rewrite E1. cbn [bind]. replace (S t + (m - S t))%nat with m in N1 by lia.
  assert (Ue : upd_ok m (mk_eta r t, t)) by (split; [|split]; assumption || reflexivity).
  destruct (update_spike_spec m (mk_eta r t) t (cs_spike cs) Ue Wsp) as (sp & Esp & Wspk & Dsp).
  rewrite Esp. cbn [bind]. cbn [e_values] in Dsp.
  unfold set_index at 1. rewrite L1, Lup. rewrite (proj2 (Nat.ltb_lt (t - 1) (m - 1))) by lia. cbn [bind].
  set (up2 := upd up1 (t - 1) sp).
  assert (L2 : length up2 = (m - 1)%nat) by (unfold up2; rewrite upd_length; lia).
  assert (N2 : forall i, nth i up2 [] = if Nat.eqb i (t - 1) then sp else nth i up1 [])
    by (intros; apply upd_nth; lia).
  destruct (slice_rotl1 up2 (t - 1) []) as (up3 & E3 & L3 & N3); [lia|].
  rewrite E3. cbn [bind]. rewrite L2 in N3.
  destruct (slice_rotl1 (l_diag l) t 0) as (dg & E4 & L4 & N4); [now rewrite (w_ldiag _ _ W)|].
  rewrite E4. cbn [bind]. rewrite (w_ldiag _ _ W) in N4, L4.
  (* the columns before the rows are rotated *)
  assert (Wz : forall i, fwf 0 (S i) (nth i up1 [])).
  { intros i. rewrite N1. destruct (Nat.lt_ge_cases i (m - 1)) as [C|C].
    - destruct (_ && _); [|now apply (w_up _ _ W)]. apply zero_at_spec; [now apply (w_up _ _ W)|lia].
    - rewrite (proj2 (Nat.ltb_ge (S i) m)) by lia. rewrite Bool.andb_false_r.
      rewrite nth_overflow by lia. exact I. }
  assert (Nz : forall j, (0 < j < m)%nat -> nth (j - 1) up3 [] =
     if Nat.ltb j t then nth (j - 1) (l_up l) [] else
     if Nat.ltb j (m - 1) then zero_at t (nth j (l_up l) []) else sp).
  { intros j Lj. rewrite N3 by lia. rewrite N2, N1. unfold rb_backward.
    destruct (Nat.ltb_spec j t) as [C|C].
    - rewrite (proj2 (Nat.ltb_lt (j - 1) (t - 1))) by lia.
      rewrite (proj2 (Nat.eqb_neq (j - 1) (t - 1))) by lia.
      rewrite (proj2 (Nat.leb_gt (S t) (S (j - 1)))) by lia. reflexivity.
    - rewrite (proj2 (Nat.ltb_ge (j - 1) (t - 1))) by lia.
      destruct (Nat.ltb_spec j (m - 1)) as [C2|C2].
      + rewrite (proj2 (Nat.ltb_lt (j - 1) (m - 1 - 1))) by lia.
        rewrite (proj2 (Nat.eqb_neq (S (j - 1)) (t - 1))) by lia.
        rewrite (proj2 (Nat.leb_le (S t) (S (S (j - 1))))) by lia.
        rewrite (proj2 (Nat.ltb_lt (S (S (j - 1))) m)) by lia. cbn [andb].
        now replace (S (j - 1)) with j by lia.
      + rewrite (proj2 (Nat.ltb_ge (j - 1) (m - 1 - 1))) by lia. now rewrite Nat.eqb_refl. }
  destruct (rotate_fold t m Lt (m - Nat.max t 1) (Nat.max t 1) up3) as (up4 & E5 & L5 & N5); try lia.
  { intros i. destruct (Nat.lt_ge_cases i (m - 1)) as [C|C].
    2:{ rewrite nth_overflow by lia. exact I. }
    replace i with (S i - 1)%nat by lia. rewrite Nz by lia.
    destruct (Nat.ltb_spec (S i) t); [|destruct (Nat.ltb_spec (S i) (m - 1))].
    - apply fwf_grow with (S (S i - 1)); [lia|]. apply (w_up _ _ W). lia.
    - apply fwf_grow with (S (S i)); [lia|]. apply zero_at_spec; [|lia]. apply (w_up _ _ W). lia.
    - assumption. }
  rewrite E5. cbn [bind]. replace (Nat.max t 1 + (m - Nat.max t 1))%nat with m in N5 by lia.
  rewrite L5, L3, L2. rewrite (index_Ok up4 (m - 1 - 1) []) by lia. cbn [bind].
  assert (Dup : forall j k, (0 < j < m)%nat -> (k < m)%nat -> den (nth (j - 1) up4 []) k =
     if Nat.ltb j t then den (nth (j - 1) (l_up l) []) k else
     if Nat.ltb j (m - 1) then den (zero_at t (nth j (l_up l) [])) (rb_backward t m k)
     else den sp (rb_backward t m k)).
  { intros j k Lj Lk. destruct (N5 (j - 1)%nat) as [_ D5]. rewrite D5, Nz by assumption.
    replace (S (j - 1)) with j by lia. rewrite (proj2 (Nat.ltb_lt j m)) by lia. rewrite Bool.andb_true_r.
    destruct (Nat.ltb_spec j t) as [C|C].
    - rewrite (proj2 (Nat.leb_gt _ _)) by lia. reflexivity.
    - rewrite (proj2 (Nat.leb_le _ _)) by lia. now destruct (Nat.ltb j (m - 1)). }
  (* the corner *)
  assert (Dt : den sp t = nthq (l_diag l) t * x t).
  { rewrite Dsp, Nat.eqb_refl. rewrite <- Hx by assumption.
    rewrite (sum_ext m (fun k => den r k * den (cs_spike cs) k)
      (fun k => den r k * sum m (fun j => Umat l k j * x j))).
    2:{ intros k Lk. now rewrite Hx. }
    rewrite dot_assoc.
    rewrite (sum_split m t (fun k => Umat l t k * x k) Lt).
    rewrite (sum_split m t (fun i => sum m (fun k => den r k * Umat l k i) * x i) Lt).
    rewrite Dr, Du by assumption. rewrite (proj2 (Nat.leb_gt (S t) t)) by lia. cbn [andb].
    rewrite (Umat_diag m) by assumption.
    rewrite (sum_ext m (fun i => if Nat.eqb i t then 0 else sum m (fun k => den r k * Umat l k i) * x i)
      (fun i => if Nat.eqb i t then 0 else Umat l t i * x i)); [ring|].
    intros i Li. destruct (Nat.eqb_spec i t) as [->|Ni]; [reflexivity|]. f_equal. rewrite Dr, Du by assumption.
    rewrite (proj2 (Nat.ltb_lt i m)) by assumption. rewrite Bool.andb_true_r.
    destruct (Nat.leb_spec (S t) i) as [C|C].
    - destruct i as [|i]; [lia|]. rewrite (Umat_above m) by (assumption || lia). f_equal. f_equal. lia.
    - symmetry. apply (Umat_lower m); assumption || lia. }
  assert (Nt : den sp t <> 0).
  { rewrite Dt. intros C. apply Qcmult_integral in C. destruct C as [C|C].
    - now apply (w_diag _ _ W t Lt).
    - apply Np. rewrite Hc by assumption. exact C. }
  assert (Bl : rb_backward t m (m - 1) = t).
  { unfold rb_backward. rewrite (proj2 (Nat.ltb_ge _ _)) by lia. now rewrite Nat.ltb_irrefl. }
  assert (Dl : forall k, (k < m)%nat -> den (nth (m - 1 - 1) up4 []) k = den sp (rb_backward t m k)).
  { intros k Lk. rewrite Dup by lia. rewrite Nat.ltb_irrefl.
    now rewrite (proj2 (Nat.ltb_ge _ _)) by lia. }
  pose proof (pop_last_spec 0 m _ (proj1 (N5 (m - 1 - 1)%nat))) as PL.
  destruct (pop_last (nth (m - 1 - 1) up4 [])) as [[[ci corner] rest]|].
  2:{ exfalso. apply Nt. rewrite <- Bl, <- Dl by lia. now rewrite PL. }
  destruct PL as (El & Wl & Lci & Nc).
  assert (ci = (m - 1)%nat) as ->.
  { destruct (Nat.eq_dec ci (m - 1)) as [|C]; [assumption|]. exfalso. apply Nt. rewrite <- Bl, <- Dl by lia.
    rewrite El, den_app. cbn [den]. rewrite (proj2 (Nat.eqb_neq _ _)) by lia.
    rewrite (den_above 0 ci) by (assumption || lia). ring. }
  cbn [ofopt bind]. unfold set_index. rewrite L4. rewrite (proj2 (Nat.ltb_lt (m - 1) m)) by lia. cbn [bind].
  eexists. split; [reflexivity|]. set (l' := mk_lu _ _ _ _ _ _).
  assert (N6 : forall j, (0 < j < m)%nat -> nth (j - 1) (l_up l') [] = if Nat.eqb j (m - 1) then rest else nth (j - 1) up4 []).
  { intros j Lj. cbn. rewrite upd_nth by lia.
    destruct (Nat.eqb_spec (j - 1) (m - 1 - 1)), (Nat.eqb_spec j (m - 1)); try reflexivity; lia. }
  assert (N7 : forall i, (i < m)%nat -> nthq (l_diag l') i = if Nat.eqb i (m - 1) then corner else nthq (l_diag l) (rb_backward t m i)).
  { intros i Li. cbn [l' l_diag]. rewrite nthq_upd by lia. unfold nthq. now rewrite N4 by assumption. }
  assert (W' : lu_wf m l').
  { split; try apply W; cbn [l' l_up l_diag l_upd l_rp l_cp l_low].
    - rewrite upd_length. lia.
    - intros j Lj. replace j with (S j - 1)%nat at 2 by lia. fold (l_up l').
      change (upd up4 (m - 1 - 1) rest) with (l_up l'). rewrite N6 by lia.
      destruct (Nat.eqb_spec (S j) (m - 1)) as [C|C]; [now rewrite C|].
      destruct (N5 (S j - 1)%nat) as [W5 _].
      apply fwf_dim with m; [|assumption]. intros i Li.
      destruct (Nat.lt_ge_cases i m) as [Lim|Lim]; [|now apply (den_above 0 m)].
      rewrite Dup by lia. destruct (Nat.ltb_spec (S j) t) as [C1|C1].
      + apply (den_above 0 (S j)); [|lia]. replace (S j - 1)%nat with j by lia. apply (w_up _ _ W). lia.
      + rewrite (proj2 (Nat.ltb_lt _ _)) by lia.
        destruct (zero_at_spec 0 (S (S j)) t (nth (S j) (l_up l) [])) as [Wz1 Dz1]; [apply (w_up _ _ W); lia|lia|].
        rewrite Dz1. unfold rb_backward. rewrite (proj2 (Nat.ltb_ge i t)) by lia.
        destruct (Nat.ltb_spec i (m - 1)); [|now rewrite Nat.eqb_refl].
        destruct (Nat.eqb_spec (S i) t); [reflexivity|].
        apply (den_above 0 (S (S j))); [apply (w_up _ _ W)|]; lia.
    - rewrite upd_length. assumption.
    - intros i Li. change (upd dg (m - 1) corner) with (l_diag l'). rewrite N7 by assumption.
      destruct (Nat.eqb i (m - 1)); [assumption|]. apply (w_diag _ _ W). now apply rb_backward_lt.
    - intros e t0 H. apply in_app_or in H. destruct H as [H|[H|[]]]; [now apply (w_upd _ _ W)|].
      injection H as <- <-. apply Ue. }
  split; [assumption|].
  set (Ub := fun i k => if Nat.eqb k t then den sp i else if Nat.eqb i t then 0 else Umat l i k).
  assert (HU : forall i j, (i < m)%nat -> (j < m)%nat -> Umat l' i j = Ub (rb_backward t m i) (rb_backward t m j)).
  { intros i j Li Lj. unfold Umat at 1. rewrite N7 by assumption.
    assert (E0 : match j with 0%nat => 0 | S k => den (nth k (l_up l') []) i end =
      if Nat.eqb j 0 then 0 else if Nat.eqb j (m - 1) then den rest i else den (nth (j - 1) up4 []) i).
    { destruct j as [|j]; [reflexivity|]. change (Nat.eqb (S j) 0) with false. replace j with (S j - 1)%nat at 1 by lia.
      rewrite N6 by lia. now destruct (Nat.eqb (S j) (m - 1)). }
    rewrite E0. clear E0. unfold Ub. destruct (Nat.eq_dec j (m - 1)) as [->|Nj].
    - rewrite Bl, !Nat.eqb_refl. rewrite (proj2 (Nat.eqb_neq (m - 1) 0)) by lia. rewrite <- Dl by assumption.
      rewrite El, den_app. cbn [den]. unfold delta. destruct (Nat.eqb i (m - 1)); ring.
    - rewrite (proj2 (Nat.eqb_neq j (m - 1))) by assumption.
      assert (Ei : delta i j * (if Nat.eqb i (m - 1) then corner else nthq (l_diag l) (rb_backward t m i)) =
        delta i j * nthq (l_diag l) (rb_backward t m i)).
      { unfold delta. destruct (Nat.eqb_spec i j) as [->|]; [|ring].
        now rewrite (proj2 (Nat.eqb_neq j (m - 1))) by assumption. }
      rewrite Ei. clear Ei. destruct (Nat.lt_ge_cases j t) as [C|C].
      + assert (rb_backward t m j = j) as -> by (unfold rb_backward; now rewrite (proj2 (Nat.ltb_lt j t))).
        rewrite (proj2 (Nat.eqb_neq j t)) by lia.
        assert (E1' : (if Nat.eqb j 0 then 0 else den (nth (j - 1) up4 []) i) =
                     (if Nat.eqb j 0 then 0 else den (nth (j - 1) (l_up l) []) i)).
        { destruct (Nat.eqb_spec j 0); [reflexivity|]. rewrite Dup by lia. now rewrite (proj2 (Nat.ltb_lt j t)). }
        rewrite E1'. clear E1'. destruct (Nat.lt_ge_cases i t) as [C2|C2].
        * assert (rb_backward t m i = i) as -> by (unfold rb_backward; now rewrite (proj2 (Nat.ltb_lt i t))).
          rewrite (proj2 (Nat.eqb_neq i t)) by lia. unfold Umat. destruct j as [|j]; [reflexivity|].
          cbn [Nat.eqb]. now replace (S j - 1)%nat with j by lia.
        * rewrite delta_diff by lia.
          assert (E2 : (if Nat.eqb j 0 then 0 else den (nth (j - 1) (l_up l) []) i) = 0).
          { destruct (Nat.eqb_spec j 0); [reflexivity|]. apply (den_above 0 (S (j - 1))); [apply (w_up _ _ W)|]; lia. }
          rewrite E2. destruct (Nat.eqb_spec (rb_backward t m i) t) as [C3|C3]; [ring|].
          rewrite (Umat_lower m) by (try assumption; unfold rb_backward in *;
             rewrite (proj2 (Nat.ltb_ge i t)) in * by lia; destruct (Nat.ltb_spec i (m - 1)); lia). ring.
      + assert (rb_backward t m j = S j) as ->.
        { unfold rb_backward. rewrite (proj2 (Nat.ltb_ge j t)) by lia. now rewrite (proj2 (Nat.ltb_lt j (m - 1))) by lia. }
        rewrite (proj2 (Nat.eqb_neq (S j) t)) by lia.
        destruct (zero_at_spec 0 (S j) t (nth j (l_up l) [])) as [Wz1 Dz1]; [apply (w_up _ _ W); lia|lia|].
        assert (E1' : (if Nat.eqb j 0 then 0 else den (nth (j - 1) up4 []) i) =
                     (if Nat.eqb (rb_backward t m i) t then 0 else den (nth j (l_up l) []) (rb_backward t m i))).
        { destruct (Nat.eqb_spec j 0) as [->|Nj0].
          - destruct (Nat.eqb_spec (rb_backward t m i) t) as [|C3]; [reflexivity|]. symmetry.
            apply (den_above 0 1); [apply (w_up _ _ W)|]; lia.
          - rewrite Dup by lia. rewrite (proj2 (Nat.ltb_ge j t)) by lia. rewrite (proj2 (Nat.ltb_lt j (m - 1))) by lia.
            now rewrite Dz1. }
        rewrite E1'. clear E1'. destruct (Nat.eqb_spec (rb_backward t m i) t) as [C3|C3].
        * rewrite delta_diff; [ring|]. intros ->. unfold rb_backward in C3. rewrite (proj2 (Nat.ltb_ge j t)) in C3 by lia.
          rewrite (proj2 (Nat.ltb_lt j (m - 1))) in C3 by lia. lia.
        * unfold Umat. f_equal. f_equal. unfold delta.
          destruct (Nat.eqb_spec i j) as [Eij|Nij], (Nat.eqb_spec (rb_backward t m i) (S j)) as [C4|C4]; try reflexivity.
          -- exfalso. apply C4. rewrite Eij. unfold rb_backward. rewrite (proj2 (Nat.ltb_ge j t)) by lia.
             now rewrite (proj2 (Nat.ltb_lt j (m - 1))) by lia.
          -- exfalso. unfold rb_backward in C4. destruct (Nat.ltb_spec i t); [lia|].
             destruct (Nat.ltb_spec i (m - 1)); lia. }
  intros c w Hw i Li.
  assert (Hlin : forall k, (k < m)%nat -> Evec m (l_upd l) w k =
    sum m (fun k' => (if Nat.eqb (sigma m l k') t then den (cs_spike cs) k else Umat l k (sigma m l k')) * c k')).
  { set (c0 := fun k => if Nat.eqb k p then 0 else c k).
    set (w1 := fun k => w k + - c p * wa k).
    assert (H1 : forall i, (i < m)%nat ->
       sum m (fun k => Lmat l (nth i (f_fw (l_rp l)) 0%nat) k * w1 k) = sum m (fun k => B i k * c0 k)).
    { intros q Lq. unfold w1. rewrite (sum_ext m _ (fun k => Lmat l (nth q (f_fw (l_rp l)) 0%nat) k * w k +
         - c p * (Lmat l (nth q (f_fw (l_rp l)) 0%nat) k * wa k))) by (intros; ring).
      rewrite sum_plus, sum_scal_l. rewrite Hwa by assumption.
      rewrite (sum_ext m (fun k => Lmat l (nth q (f_fw (l_rp l)) 0%nat) k * w k)
         (fun k => Lmat l' (nth q (f_fw (l_rp l')) 0%nat) k * w k)) by reflexivity.
      rewrite Hw by assumption. rewrite (sum_split m p (fun k => set_col B p (den a) q k * c k) Lp).
      rewrite (sum_split m p (fun k => B q k * c0 k) Lp).
      unfold set_col, c0. rewrite Nat.eqb_refl.
      rewrite (sum_ext m _ (fun k => if Nat.eqb k p then 0 else B q k * (if Nat.eqb k p then 0 else c k))).
      2:{ intros k Lk. now destruct (Nat.eqb k p). }
      ring. }
    intros k Lk.
    transitivity (Evec m (l_upd l) w1 k + c p * Evec m (l_upd l) wa k).
    { rewrite <- Evec_linear by (try assumption; apply (upds m l W)).
      apply Evec_ext; try assumption; [apply (upds m l W)|]. intros q Lq. unfold w1. ring. }
    rewrite (HB c0 w1 H1 k Lk). rewrite <- Hs by assumption.
    rewrite (sum_split m p (fun k0 => Umat l k (sigma m l k0) * c0 k0) Lp).
    rewrite (sum_split m p (fun k' => (if Nat.eqb (sigma m l k') t then den (cs_spike cs) k else Umat l k (sigma m l k')) * c k') Lp).
    unfold c0. rewrite Nat.eqb_refl. fold t. rewrite Nat.eqb_refl.
    rewrite (sum_ext m (fun i0 => if Nat.eqb i0 p then 0 else
       (if Nat.eqb (sigma m l i0) t then den (cs_spike cs) k else Umat l k (sigma m l i0)) * c i0)
      (fun k0 => if Nat.eqb k0 p then 0 else Umat l k (sigma m l k0) * (if Nat.eqb k0 p then 0 else c k0))); [ring|].
    intros q Lq. destruct (Nat.eqb_spec q p) as [|Nq]; [reflexivity|].
    destruct (Nat.eqb_spec (sigma m l q) t) as [C|C]; [|reflexivity]. exfalso. apply Nq.
    rewrite <- Et, <- C. symmetry. now apply (sigma_spec m l W). }
  assert (Esig : forall k, sigma m l' k = rb_forward t m (sigma m l k)).
  { intros k. unfold sigma, upd_fwd. cbn [l' l_upd l_cp]. now rewrite fold_left_app. }
  rewrite (sum_ext m (fun k => Umat l' i (sigma m l' k) * c k) (fun k => Ub (rb_backward t m i) (sigma m l k) * c k)).
  2:{ intros k Lk. destruct (sigma_spec m l W k Lk) as [Ls _]. rewrite Esig, HU by (try assumption; now apply rb_forward_lt).
      now rewrite rb_back_forw. }
  unfold Evec. cbn [l' l_upd]. rewrite fold_left_app. cbn [fold_left]. fold (Evec m (l_upd l) w).
  set (g := Evec m (l_upd l) w) in *. unfold ev. cbn [e_pivot e_values].
  assert (Lb := rb_backward_lt t m i Lt Li). set (k := rb_backward t m i) in *.
  rewrite Hlin by assumption. destruct (Nat.eqb_spec k t) as [->|Nk].
  - rewrite (sum_ext m (fun k0 => den r k0 * g k0) (fun k0 => den r k0 *
      sum m (fun k' => (if Nat.eqb (sigma m l k') t then den (cs_spike cs) k0 else Umat l k0 (sigma m l k')) * c k'))).
    2:{ intros q Lq. now rewrite Hlin. }
    rewrite (dot_assoc m m (den r) (fun k0 k' => if Nat.eqb (sigma m l k') t then den (cs_spike cs) k0 else Umat l k0 (sigma m l k'))).
    rewrite <- sum_minus. apply sum_ext. intros q Lq. unfold Ub. rewrite Nat.eqb_refl.
    destruct (sigma_spec m l W q Lq) as [Ls _].
    destruct (Nat.eqb_spec (sigma m l q) t) as [C|C].
    + rewrite Dsp, Nat.eqb_refl. ring.
    + rewrite Dr, Du by assumption. rewrite (proj2 (Nat.ltb_lt _ m)) by assumption. rewrite Bool.andb_true_r.
      destruct (Nat.leb_spec (S t) (sigma m l q)) as [C2|C2].
      * destruct (sigma m l q) as [|j]; [lia|]. rewrite (Umat_above m) by (assumption || lia).
        replace (S j - 1)%nat with j by lia. ring.
      * rewrite (Umat_lower m) by (assumption || lia). ring.
  - rewrite (sum_ext m _ (fun k0 => Ub k (sigma m l k0) * c k0)); [ring|]. intros q Lq. unfold Ub.
    rewrite (proj2 (Nat.eqb_neq k t)) by assumption.
    destruct (Nat.eqb (sigma m l q) t); [|reflexivity]. rewrite Dsp.
    rewrite (proj2 (Nat.eqb_neq k t)) by assumption. ring.
Qed.
End Change.
