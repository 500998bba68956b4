(** * The assertions of a basis change never fail *)
From Verif Require Export DebugLuP.

Lemma triangle_ok_holds m up : length up = (m - 1)%nat ->
  (forall j, (j < m - 1)%nat -> fwf 0 (S j) (nth j up [])) -> triangle_ok up = true.
Proof.
  intros L H. unfold triangle_ok. apply Bool.andb_true_iff. split; apply forallb_forall.
  - intros c Hc. destruct (In_nth _ _ [] Hc) as (j & Lj & <-). apply (fwf_strict (S j) _ 0). apply H. lia.
  - intros [j c] Hc. destruct (In_nth _ _ (0%nat, []) Hc) as (i & Li & E).
    rewrite combine_length, seq_length, Nat.min_id in Li.
    rewrite combine_nth in E by apply seq_length. injection E as <- <-.
    rewrite seq_nth by assumption. apply (fwf_last _ _ 0). apply H. lia.
Qed.

Section Change.
Variables (m : nat) (l : lu) (B : mat) (a : svec) (p : nat) (cs : column_and_spike).
Hypotheses (M : (2 <= m)%nat) (W : lu_wf m l) (HB : lu_for m l B) (Wa : wfs m a)
  (Ecs : lu_left l a = Ok cs) (Lp : (p < m)%nat) (Np : den (cs_column cs) p <> 0).

Lemma lu_change_same : lu_change_d l p cs = lu_change l p cs.
Proof.
  destruct (lu_change_spec m l B a p cs M W HB Wa Ecs Lp Np) as (l' & E' & W' & _). rewrite E'. revert E'.
  destruct (lu_left_spec m l W a Wa) as (cs' & x & wa & E & Wcol & Wsp & Hwa & Hs & Hx & Hc).
  rewrite Ecs in E. injection E as <-.
  set (t := sigma m l p). destruct (sigma_spec m l W p Lp) as [Lt Et]. fold t in Lt, Et.
  unfold lu_change, lu_change_d. rewrite (full_forward_same m) by (try assumption; apply W).
  rewrite (full_forward_ok m) by (try assumption; apply W).
  cbn [bind]. rewrite (upd_forward_same m l W).
  2:{ apply (fu_f _ _ (w_cp _ _ W)). assumption. }
  rewrite (w_m m l W). cbn [bind]. rewrite (upd_forward_eq m l W).
  change (upd_fwd m (l_upd l) (nth p (f_fw (l_cp l)) 0%nat)) with t.
  assert (Lup := w_lup _ _ W). unfold range.
  (* the row that is zeroed *)
  rewrite ubar_fold by lia. cbn [app bind].
  destruct (ubar_den t (l_up l)) with (n := (m - S t)%nat) (a := S t) as [Wu Du]; try lia.
  { intros j Lj. apply (w_up _ _ W). lia. }
  replace (S t + (m - S t))%nat with m in Wu, Du by lia.
  rewrite (collect_sorted m) by (apply fwf_weaken with (S t); [lia|assumption]).
  destruct (upper_right_spec m l W (S m) (S t) _ Wu ltac:(lia)) as (r & Er & Wr & Dr).
  rewrite (upper_right_same m l W (S t) _ Wu).
  unfold fuel_of. rewrite (w_m m l W), Er. cbn [bind]. rewrite (eta_new_ok m r t Lt Wr). cbn [bind].
  destruct (ubar_remove t (l_up l) (m - S t) (S t) (l_up l)) as (up1 & E1 & L1 & N1); try lia; [reflexivity|].
  rewrite E1. cbn [bind]. replace (S t + (m - S t))%nat with m in N1 by lia.
  assert (Ue : upd_ok m (mk_eta r t, t)) by (split; [|split]; assumption || reflexivity).
  destruct (update_spike_spec m (mk_eta r t) t (cs_spike cs) Ue Wsp) as (sp & Esp & Wspk & Dsp).
  assert (Dt : den sp t = nthq (l_diag l) t * x t).
  { rewrite Dsp, Nat.eqb_refl. cbn [e_values]. rewrite <- Hx by assumption.
    rewrite (sum_ext m (fun k => den r k * den (cs_spike cs) k)
      (fun k => den r k * sum m (fun j => Umat l k j * x j))).
    2:{ intros k Lk. now rewrite Hx. }
    rewrite dot_assoc.
    rewrite (sum_split m t (fun k => Umat l t k * x k) Lt).
    rewrite (sum_split m t (fun i => sum m (fun k => den r k * Umat l k i) * x i) Lt).
    rewrite Dr, Du by assumption. rewrite (proj2 (Nat.leb_gt (S t) t)) by lia. cbn [andb].
    rewrite (Umat_diag m) by assumption.
    rewrite (sum_ext m (fun i => if Nat.eqb i t then 0 else sum m (fun k => den r k * Umat l k i) * x i)
      (fun i => if Nat.eqb i t then 0 else Umat l t i * x i)); [ring|].
    intros i Li. destruct (Nat.eqb_spec i t) as [->|Ni]; [reflexivity|]. f_equal. rewrite Dr, Du by assumption.
    rewrite (proj2 (Nat.ltb_lt i m)) by assumption. rewrite Bool.andb_true_r.
    destruct (Nat.leb_spec (S t) i) as [C|C].
    - destruct i as [|i]; [lia|]. rewrite (Umat_above m) by (assumption || lia). f_equal. f_equal. lia.
    - symmetry. apply (Umat_lower m); assumption || lia. }
  assert (Nt : den sp t <> 0).
  { rewrite Dt. intros C. apply Qcmult_integral in C. destruct C as [C|C].
    - now apply (w_diag _ _ W t Lt).
    - apply Np. rewrite Hc by assumption. exact C. }
  assert (Nsp : cs_spike cs <> []).
  { intros C. apply Nt. rewrite Dsp, Nat.eqb_refl, C. cbn [den].
    rewrite sum_zero by (intros; ring). ring. }
  rewrite (asserted (is_strict (keys (cs_spike cs)))) by now apply (fwf_strict m _ 0).
  rewrite (update_spike_same m _ t) by assumption.
  rewrite Esp. cbn [bind]. cbn [e_values] in Dsp.
  rewrite (asserted (fst (bsearch t sp))).
  2:{ pose proof (bsearch_nth sp 0 m t Wspk ltac:(lia)) as Hb. destruct (bsearch t sp) as [[] k]; [reflexivity|contradiction]. }
  unfold set_index at 1 3. rewrite L1, Lup. rewrite (proj2 (Nat.ltb_lt (t - 1) (m - 1))) by lia. cbn [bind].
  set (up2 := upd up1 (t - 1) sp).
  assert (L2 : length up2 = (m - 1)%nat) by (unfold up2; rewrite upd_length; lia).
  assert (N2 : forall i, nth i up2 [] = if Nat.eqb i (t - 1) then sp else nth i up1 [])
    by (intros; apply upd_nth; lia).
  destruct (slice_rotl1 up2 (t - 1) []) as (up3 & E3 & L3 & N3); [lia|].
  rewrite E3. cbn [bind]. rewrite L2 in N3.
  destruct (slice_rotl1 (l_diag l) t 0) as (dg & E4 & L4 & N4); [now rewrite (w_ldiag _ _ W)|].
  rewrite E4. cbn [bind]. rewrite (w_ldiag _ _ W) in N4, L4.
  assert (Wz : forall i, fwf 0 (S i) (nth i up1 [])).
  { intros i. rewrite N1. destruct (Nat.lt_ge_cases i (m - 1)) as [C|C].
    - destruct (_ && _); [|now apply (w_up _ _ W)]. apply zero_at_spec; [now apply (w_up _ _ W)|lia].
    - rewrite (proj2 (Nat.ltb_ge (S i) m)) by lia. rewrite Bool.andb_false_r.
      rewrite nth_overflow by lia. exact I. }
  assert (Nz : forall j, (0 < j < m)%nat -> nth (j - 1) up3 [] =
     if Nat.ltb j t then nth (j - 1) (l_up l) [] else
     if Nat.ltb j (m - 1) then zero_at t (nth j (l_up l) []) else sp).
  { intros j Lj. rewrite N3 by lia. rewrite N2, N1. unfold rb_backward.
    destruct (Nat.ltb_spec j t) as [C|C].
    - rewrite (proj2 (Nat.ltb_lt (j - 1) (t - 1))) by lia.
      rewrite (proj2 (Nat.eqb_neq (j - 1) (t - 1))) by lia.
      rewrite (proj2 (Nat.leb_gt (S t) (S (j - 1)))) by lia. reflexivity.
    - rewrite (proj2 (Nat.ltb_ge (j - 1) (t - 1))) by lia.
      destruct (Nat.ltb_spec j (m - 1)) as [C2|C2].
      + rewrite (proj2 (Nat.ltb_lt (j - 1) (m - 1 - 1))) by lia.
        rewrite (proj2 (Nat.eqb_neq (S (j - 1)) (t - 1))) by lia.
        rewrite (proj2 (Nat.leb_le (S t) (S (S (j - 1))))) by lia.
        rewrite (proj2 (Nat.ltb_lt (S (S (j - 1))) m)) by lia. cbn [andb].
        now replace (S (j - 1)) with j by lia.
      + rewrite (proj2 (Nat.ltb_ge (j - 1) (m - 1 - 1))) by lia. now rewrite Nat.eqb_refl. }
  assert (W3 : forall i, fwf 0 m (nth i up3 [])).
  { intros i. destruct (Nat.lt_ge_cases i (m - 1)) as [C|C].
    2:{ rewrite nth_overflow by lia. exact I. }
    replace i with (S i - 1)%nat by lia. rewrite Nz by lia.
    destruct (Nat.ltb_spec (S i) t); [|destruct (Nat.ltb_spec (S i) (m - 1))].
    - apply fwf_grow with (S (S i - 1)); [lia|]. apply (w_up _ _ W). lia.
    - apply fwf_grow with (S (S i)); [lia|]. apply zero_at_spec; [|lia]. apply (w_up _ _ W). lia.
    - assumption. }
  unfold rb_new_d. rewrite (asserted (Nat.ltb t m)) by now apply Nat.ltb_lt.
  rewrite (foldM_same (fun up j => let* col := index up (j - 1) in
               let* col := rb_sorted_d t m col in Ok (upd up (j - 1) col))
             (fun up j => let* col := index up (j - 1) in
               let* col := rb_sorted t m col in Ok (upd up (j - 1) col))
             (fun up => forall i, wfs m (nth i up []))); [|assumption|].
  2:{ intros up j _ Hup. destruct (Nat.lt_ge_cases (j - 1) (length up)) as [C|C].
      - rewrite (index_Ok up (j - 1) []) by assumption. cbn [bind].
        rewrite (rb_sorted_same m) by (try assumption; apply Hup). split; [reflexivity|].
        destruct (rb_sorted_spec m t (nth (j - 1) up []) (Hup _) Lt) as (c' & -> & Wc' & _). cbn [bind].
        intros up' [= <-] i. rewrite upd_nth by assumption. destruct (Nat.eqb i (j - 1)); [assumption|apply Hup].
      - unfold index. rewrite (proj2 (nth_error_None up (j - 1)) C). cbn [ofopt bind]. split; [reflexivity|discriminate]. }
  destruct (rotate_fold t m Lt (m - Nat.max t 1) (Nat.max t 1) up3) as (up4 & E5 & L5 & N5); try lia; try assumption.
  rewrite E5. cbn [bind]. replace (Nat.max t 1 + (m - Nat.max t 1))%nat with m in N5 by lia.
  rewrite L5, L3, L2. rewrite (index_Ok up4 (m - 1 - 1) []) by lia. cbn [bind].
  assert (Dup : forall j k, (0 < j < m)%nat -> (k < m)%nat -> den (nth (j - 1) up4 []) k =
     if Nat.ltb j t then den (nth (j - 1) (l_up l) []) k else
     if Nat.ltb j (m - 1) then den (zero_at t (nth j (l_up l) [])) (rb_backward t m k)
     else den sp (rb_backward t m k)).
  { intros j k Lj Lk. destruct (N5 (j - 1)%nat) as [_ D5]. rewrite D5, Nz by assumption.
    replace (S (j - 1)) with j by lia. rewrite (proj2 (Nat.ltb_lt j m)) by lia. rewrite Bool.andb_true_r.
    destruct (Nat.ltb_spec j t) as [C|C].
    - rewrite (proj2 (Nat.leb_gt _ _)) by lia. reflexivity.
    - rewrite (proj2 (Nat.leb_le _ _)) by lia. now destruct (Nat.ltb j (m - 1)). }
  assert (Bl : rb_backward t m (m - 1) = t).
  { unfold rb_backward. rewrite (proj2 (Nat.ltb_ge _ _)) by lia. now rewrite Nat.ltb_irrefl. }
  assert (Dl : forall k, (k < m)%nat -> den (nth (m - 1 - 1) up4 []) k = den sp (rb_backward t m k)).
  { intros k Lk. rewrite Dup by lia. rewrite Nat.ltb_irrefl.
    now rewrite (proj2 (Nat.ltb_ge _ _)) by lia. }
  pose proof (pop_last_spec 0 m _ (proj1 (N5 (m - 1 - 1)%nat))) as PL.
  destruct (pop_last (nth (m - 1 - 1) up4 [])) as [[[ci corner] rest]|].
  2:{ exfalso. apply Nt. rewrite <- Bl, <- Dl by lia. now rewrite PL. }
  destruct PL as (El & Wl & Lci & Nc).
  assert (ci = (m - 1)%nat) as ->.
  { destruct (Nat.eq_dec ci (m - 1)) as [|C]; [assumption|]. exfalso. apply Nt. rewrite <- Bl, <- Dl by lia.
    rewrite El, den_app. cbn [den]. rewrite (proj2 (Nat.eqb_neq _ _)) by lia.
    rewrite (den_above 0 ci) by (assumption || lia). ring. }
  cbn [ofopt bind]. rewrite (asserted (Nat.eqb (m - 1) (m - 1))) by apply Nat.eqb_refl.
  unfold set_index. rewrite L4. rewrite (proj2 (Nat.ltb_lt (m - 1) m)) by lia. cbn [bind].
  intros E'. rewrite asserted; [exact E'|]. injection E' as El'.
  apply (triangle_ok_holds m).
  - rewrite upd_length. lia.
  - intros j Lj. pose proof (w_up _ _ W' j Lj) as Wj. rewrite <- El' in Wj. exact Wj.
Qed.
End Change.
