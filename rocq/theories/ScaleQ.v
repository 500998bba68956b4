(** * Scaled programs are consistent, and the total exponents *)
From Verif Require Import SpecScale ScaleP SearchP PowerP FactorP ScaleRunP ExponentP StandardQ StandardP SparseP.
Local Open Scope Qc_scope.

Section Ok.
Variable g : general.
Variable sc : scaling.
Hypothesis K : general_ok g.
Hypothesis P : positive_scaling g sc.
Notation g' := (scaled Qcmult Qcdiv g sc).
Let A : sizes_agree g := general_sizes g K.
Lemma column_scaled_fwf f n : f <> 0 -> forall c lo, (forall i, (i < n)%nat -> nthq (sc_rows sc) i <> 0) -> fwf lo n c -> fwf lo n (column_scaled Qcmult sc f c).
Proof.
  intros F. induction c as [|[i v] c IH]; intros lo R W; [exact W|]. cbn [column_scaled map fwf] in *. destruct W as (W1 & W2 & W3). split; [assumption|]. split; [|now apply IH].
  intros E. apply Qcmult_integral in E. destruct E as [E|E]; [contradiction|]. apply Qcmult_integral in E. destruct E as [E|E]; [apply (R i); [lia|assumption]|contradiction].
Qed.
Lemma var_scaled j : (j < nr_vars g)%nat -> var g' j = scale_variable Qcmult Qcdiv sc (nthq (sc_cols sc) j) (var g j).
Proof. intros L. unfold var. cbn [scaled g_vars]. now rewrite variables_scaled_nth by exact L. Qed.
Theorem scaled_ok : general_ok g'.
Proof.
  destruct (scaled_sizes g sc A Qcmult Qcdiv) as (S1 & S2 & S3 & _). destruct P as (_ & _ & PC & PR & PV).
  split; try assumption.
  - unfold nr_vars. cbn [scaled g_from g_vars]. rewrite variables_scaled_length. apply K.
  - rewrite scaled_vars. intros j L. cbn [scaled g_cols g_rows]. rewrite columns_scaled_nth by (rewrite (gok_cols g K); exact L). apply column_scaled_fwf; [apply pos_nonzero, PV; exact L|intros i LI; apply pos_nonzero; now apply PR|]. now apply K.
  - cbn [scaled g_rows]. intros i r L E. unfold row_type in E. cbn [scaled g_types] in E. rewrite types_scaled_nth in E by (rewrite (gok_types g K); exact L). destruct (nth i (g_types g) Equal) as [|r0| |] eqn:ET; try discriminate. cbn in E. injection E as <-.
    pose proof (gok_ranges g K i r0 L ET). pose proof (PR i L). qnra.
  - rewrite scaled_vars. intros j l u L. rewrite var_scaled by assumption. cbn [scale_variable v_lower v_upper]. destruct (v_lower (var g j)) as [l0|] eqn:EL; [|discriminate]. destruct (v_upper (var g j)) as [u0|] eqn:EU; [|discriminate]. cbn. intros E1 E2. injection E1 as <-. injection E2 as <-.
    pose proof (gok_domain g K j l0 u0 L EL EU) as D. pose proof (PV j L) as H. apply (le_scaled _ _ (nthq (sc_cols sc) j) H).
    replace (l0 / nthq (sc_cols sc) j * nthq (sc_cols sc) j) with l0 by (field; now apply pos_nonzero). replace (u0 / nthq (sc_cols sc) j * nthq (sc_cols sc) j) with u0 by (field; now apply pos_nonzero). assumption.
  - rewrite scaled_vars. exact (gok_active g K).
  - rewrite scaled_vars. exact (gok_split g K).
  - rewrite scaled_vars. intros j L. rewrite var_scaled by assumption. cbn [scale_variable v_lower v_upper v_flipped]. intros E1 E2. destruct (v_lower (var g j)) eqn:EL; [discriminate|]. destruct (v_upper (var g j)) eqn:EU; [discriminate|]. exact (gok_free g K j L EL EU).
Qed.
Theorem scaled_fresh : fresh g -> fresh g'.
Proof.
  intros (F1 & F2 & F3 & F4). unfold fresh. rewrite scaled_vars. split; [exact F1|]. split; [exact F2|]. split; [|exact F4]. intros j L. rewrite var_scaled by assumption. cbn [scale_variable v_shift v_flipped]. now apply F3.
Qed.
End Ok.

(** ** The factors that are found are positive *)
Section Found.
Variable fac : Qc -> factorization.
Variable g : general.
Hypothesis K : general_ok g.
Hypothesis FZ : factorizes fac g.
Variable l : list factor_result.
Hypothesis M : map fst l = rev (fa_factors (factorize fac g)).
Hypothesis LE : forall r, In r l -> length (snd (fst (snd r))) = g_rows g /\ length (snd (snd r)) = nr_vars g.
Lemma factor_positive r : In r l -> (0 < fst r)%Z.
Proof.
  intros H. assert (X : In (fst r) (rev (fa_factors (factorize fac g)))) by (rewrite <- M; now apply in_map). apply in_rev in X. pose proof (factors_sorted fac g K FZ) as S. now apply (zincreasing_above _ _ S).
Qed.
Lemma combine_positive sc : combine_factors l = Ok sc -> positive_scaling g sc /\
  sc_cost sc = powers cost_power l /\ (forall i, (i < g_rows g)%nat -> nthq (sc_rows sc) i = powers (row_power i) l) /\ (forall j, (j < nr_vars g)%nat -> nthq (sc_cols sc) j = powers (fun r => (- column_power j r)%Z) l).
Proof.
  intros E. destruct (combine_lengths g l sc LE E) as [L1 L2]. destruct (combine_values (g_rows g) (nr_vars g) l sc) as (C1 & C2 & C3); [|exact E|].
  - intros r H. pose proof (factor_positive r H). destruct (LE r H). split; [lia|]. split; assumption.
  - split; [|split; [exact C1|split; [exact C2|exact C3]]]. split; [exact L1|]. split; [exact L2|]. split; [rewrite C1; apply powers_pos, factor_positive|]. split.
    + intros i L. rewrite C2 by assumption. apply powers_pos, factor_positive.
    + intros j L. rewrite C3 by assumption. apply powers_pos, factor_positive.
Qed.
End Found.
Theorem scale_positive fac fuel g g' sc : general_ok g -> factorizes fac g -> scale fac fuel g = Ok (g', sc) -> positive_scaling g sc /\ apply_scaling Qcmult Qcdiv g sc = Ok g' /\ g' = scaled Qcmult Qcdiv g sc.
Proof.
  intros K FZ E. pose proof (general_sizes g K) as A. destruct (scale_inv fac g A fuel g' sc E) as (l & EC & -> & _ & M & LE & _). destruct (combine_positive fac g K FZ l M LE sc EC) as [P _]. split; [exact P|]. split; [|reflexivity]. apply apply_ok; [assumption|apply P|apply P].
Qed.

(** ** The total exponents *)
Section Total.
Variable fac : Qc -> factorization.
Variable g : general.
Hypothesis K : general_ok g.
Variable l : list factor_result.
Hypothesis M : map fst l = rev (fa_factors (factorize fac g)).
Hypothesis LE : forall r, In r l -> length (snd (fst (snd r))) = g_rows g /\ length (snd (snd r)) = nr_vars g.
Variable sc : scaling.
Hypothesis EC : combine_factors l = Ok sc.
Notation g2 := (scaled Qcmult Qcdiv g (columns_inverted sc)).
Hypothesis PF : forall v, In v (values g) \/ In v (values g2) -> prime_factorization (fac v) v.
Lemma increasing_weaken a b t : (b <= a)%Z -> zincreasing a t -> zincreasing b t. Proof. destruct t as [|x t]; [trivial|]. cbn. intros H [H1 H2]. split; [lia|assumption]. Qed.
Lemma total_factorizes : factorizes fac g.
Proof. intros v HV. destruct (PF v (or_introl HV)) as [S _]. now apply (increasing_weaken 1). Qed.
Lemma total_primes r : In r l -> prime (fst r).
Proof.
  intros H. assert (X : In (fst r) (rev (fa_factors (factorize fac g)))) by (rewrite <- M; now apply in_map). apply in_rev in X. destruct (factor_from fac g K _ X) as (v & HV & HF). apply in_map_iff in HF. destruct HF as ([f k] & E & HF). cbn in E. subst f. destruct (PF v (or_introl HV)) as (_ & PR & _). now apply (PR _ k).
Qed.
Lemma total_nodup : NoDup (map fst l).
Proof. rewrite M. apply NoDup_rev. exact (zincreasing_nodup _ _ (factors_sorted fac g K total_factorizes)). Qed.
Let CP := combine_positive fac g K total_factorizes l M LE sc EC.
Lemma inverted_positive : positive_scaling g (columns_inverted sc).
Proof.
  destruct CP as ((L1 & L2 & PC & PR & PV) & _). split; [exact L1|]. split; [cbn; rewrite map_length; exact L2|]. split; [exact PC|]. split; [exact PR|]. intros j L. cbn [columns_inverted sc_cols].
  unfold nthq. rewrite (nth_indep _ 0 (/ 0)) by (rewrite map_length; lia). rewrite (map_nth Qcinv). pose proof (PV j L) as H. unfold nthq in H. set (q := nth j (sc_cols sc) 0) in *. clearbody q.
  unfold Qclt in *. assert (E : (this (/ q) == / this q)%Q) by (unfold Qcinv, Q2Qc; cbn [this]; apply Qred_correct). rewrite E. now apply Qinv_lt_0_compat.
Qed.
Lemma inverted_column j : (j < nr_vars g)%nat -> nthq (sc_cols (columns_inverted sc)) j = powers (column_power j) l.
Proof.
  intros L. destruct CP as ((L1 & L2 & _) & _ & _ & CV). cbn [columns_inverted sc_cols]. unfold nthq. rewrite (nth_indep _ 0 (/ 0)) by (rewrite map_length; lia). rewrite (map_nth Qcinv). pose proof (CV j L) as E. unfold nthq in E. rewrite E.
  rewrite powers_opp by (intros r H; pose proof (factor_positive fac g K total_factorizes l M r H); lia). assert (N : powers (column_power j) l <> 0) by (apply pos_nonzero, powers_pos; intros r H; exact (factor_positive fac g K total_factorizes l M r H)). field. repeat split; try assumption; discriminate.
Qed.
Lemma inverted_row i : (i < g_rows g)%nat -> nthq (sc_rows (columns_inverted sc)) i = powers (row_power i) l. Proof. intros L. destruct CP as (_ & _ & CR & _). exact (CR i L). Qed.
Lemma powers_add s1 s2 : powers s1 l * powers s2 l = powers (fun r => (s1 r + s2 r)%Z) l.
Proof.
  assert (N : forall r, In r l -> zq (fst r) <> 0) by (intros r H; apply zq_nonzero; pose proof (factor_positive fac g K total_factorizes l M r H); lia).
  unfold powers. revert N. clear. induction l as [|r t IH]; intros N; cbn [map product fold_right]; [ring|]. fold (product (map (fun r => (fst r, s1 r)) t)) (product (map (fun r => (fst r, s2 r)) t)) (product (map (fun r => (fst r, (s1 r + s2 r)%Z)) t)). rewrite <- IH by (intros q H; apply N; now right). rewrite qpower_add by (apply N; now left). ring.
Qed.
Lemma powers_nonzero s : powers s l <> 0. Proof. apply pos_nonzero, powers_pos. intros r H. exact (factor_positive fac g K total_factorizes l M r H). Qed.
Variable p : Z.
Hypothesis PP : prime p.
Definition power_of (s : factor_result -> Z) : Z := power p (map (fun r => (fst r, s r)) l).
Lemma vpen_scaled v s d : (v <> 0 -> In v (values g)) -> (v <> 0 -> In (v * powers s l) (values g2)) -> d = power_of s -> vpen fac p (v * powers s l) 0 = vpen fac p v d.
Proof.
  intros H1 H2 ->. unfold vpen. destruct (qzero v) eqn:Q; [apply qeqb_true in Q; subst v; replace (0 * powers s l) with 0 by ring; reflexivity|].
  assert (NV : v <> 0) by (intros ->; discriminate). destruct (qzero (v * powers s l)) eqn:Q2; [apply qeqb_true in Q2; apply Qcmult_integral in Q2; destruct Q2 as [E|E]; [contradiction|now apply powers_nonzero in E]|].
  f_equal. rewrite Z.add_0_r. apply (has_power_unique p PP (v * powers s l)).
  - apply prime_factorization_power; [assumption|]. apply PF. right. now apply H2.
  - apply has_power_mul; [assumption|apply prime_factorization_power; [assumption|apply PF; left; now apply H1]|]. unfold powers, power_of. apply has_power_product; [assumption| |].
    + intros f k H. apply in_map_iff in H. destruct H as (r & E & H). injection E as <- _. now apply total_primes.
    + rewrite map_map. cbn [fst]. exact total_nodup.
Qed.
Lemma power_of_add s1 s2 : power_of (fun r => (s1 r + s2 r)%Z) = (power_of s1 + power_of s2)%Z.
Proof. unfold power_of. clear. induction l as [|r t IH]; [reflexivity|]. cbn [map power]. destruct (fst r =? p)%Z; [reflexivity|exact IH]. Qed.
Lemma power_of_opp s : power_of (fun r => (- s r)%Z) = (- power_of s)%Z.
Proof. unfold power_of. clear. induction l as [|r t IH]; [reflexivity|]. cbn [map power]. destruct (fst r =? p)%Z; [reflexivity|exact IH]. Qed.
Theorem expo_scaled k rows cols : k = power_of cost_power -> (forall i, (i < g_rows g)%nat -> zat rows i = power_of (row_power i)) -> (forall j, (j < nr_vars g)%nat -> zat cols j = power_of (column_power j)) ->
  expo fac p g2 0 [] [] = expo fac p g k rows cols.
Proof.
  intros HK HR HC. pose proof (scaled_ok g (columns_inverted sc) K inverted_positive) as K2. unfold expo. rewrite scaled_vars. change (g_rows g2) with (g_rows g). f_equal.
  - apply zsumf_ext. intros j J. apply in_seq in J. assert (L : (j < nr_vars g)%nat) by lia. clear J. rewrite !zat_nil. rewrite (HC j L). subst k.
    pose proof (var_scaled g (columns_inverted sc) j L) as EV. assert (LV2 : (j < nr_vars g2)%nat) by (rewrite scaled_vars; exact L). f_equal; [f_equal|f_equal].
    + assert (E : v_cost (var g2 j) = v_cost (var g j) * powers (fun r => (cost_power r + column_power j r)%Z) l).
      { rewrite EV. cbn [scale_variable v_cost]. rewrite inverted_column by assumption. rewrite <- powers_add. destruct CP as (_ & EK & _). cbn [columns_inverted sc_cost]. now rewrite EK. }
      rewrite E. apply vpen_scaled.
      * apply value_cost; assumption.
      * intros N. rewrite <- E. apply value_cost; [assumption|]. rewrite E. intros X. apply Qcmult_integral in X. destruct X as [X|X]; [contradiction|now apply powers_nonzero in X].
      * symmetry. apply power_of_add.
    + cbn [scaled g_cols]. rewrite columns_scaled_nth by (rewrite (gok_cols g K); assumption). cbn [Nat.add]. unfold column_scaled. rewrite zsumf_map. apply zsumf_ext. intros [i v] HI. rewrite !zat_nil.
      assert (HCO : In (nth j (g_cols g) []) (g_cols g)) by (apply nth_In; rewrite (gok_cols g K); exact L).
      assert (LI : (i < g_rows g)%nat) by (destruct (general_sizes g K) as (_ & _ & _ & B); now apply (B _ i v HCO)).
      rewrite inverted_column by assumption. rewrite inverted_row by assumption. rewrite powers_add. apply vpen_scaled.
      * intros _. now apply (value_entry g K _ i v HCO).
      * intros _. apply (value_entry g2 K2 (nth j (g_cols g2) []) i).
        -- apply nth_In. rewrite (gok_cols g2 K2). exact LV2.
        -- cbn [scaled g_cols]. rewrite columns_scaled_nth by (rewrite (gok_cols g K); assumption). apply in_map_iff. exists (i, v). split; [|assumption]. cbn [Nat.add]. rewrite inverted_column, inverted_row, powers_add by assumption. reflexivity.
      * rewrite (HR i LI). symmetry. apply power_of_add.
    + assert (E : v_lower (var g2 j) = option_map (fun x => x * powers (fun r => (- column_power j r)%Z) l) (v_lower (var g j))).
      { rewrite EV. cbn [scale_variable v_lower]. rewrite inverted_column by assumption. rewrite powers_opp by (intros r H; pose proof (factor_positive fac g K total_factorizes l M r H); lia). reflexivity. }
      destruct (v_lower (var g j)) as [v|] eqn:EL; cbn [option_map] in E; rewrite E; [|reflexivity]. cbn [open]. apply vpen_scaled.
      * intros N. now apply (value_lower g j v).
      * intros N. apply (value_lower g2 j); [assumption|assumption|]. intros X. apply Qcmult_integral in X. destruct X as [X|X]; [contradiction|now apply powers_nonzero in X].
      * symmetry. apply power_of_opp.
    + assert (E : v_upper (var g2 j) = option_map (fun x => x * powers (fun r => (- column_power j r)%Z) l) (v_upper (var g j))).
      { rewrite EV. cbn [scale_variable v_upper]. rewrite inverted_column by assumption. rewrite powers_opp by (intros r H; pose proof (factor_positive fac g K total_factorizes l M r H); lia). reflexivity. }
      destruct (v_upper (var g j)) as [v|] eqn:EL; cbn [option_map] in E; rewrite E; [|reflexivity]. cbn [open]. apply vpen_scaled.
      * intros N. now apply (value_upper g j v).
      * intros N. apply (value_upper g2 j); [assumption|assumption|]. intros X. apply Qcmult_integral in X. destruct X as [X|X]; [contradiction|now apply powers_nonzero in X].
      * symmetry. apply power_of_opp.
  - apply zsumf_ext. intros i I0. apply in_seq in I0. assert (L : (i < g_rows g)%nat) by lia. rewrite zat_nil.
    assert (E : nthq (g_b g2) i = nthq (g_b g) i * powers (row_power i) l) by (cbn [scaled g_b]; rewrite values_scaled_nth by (rewrite (gok_b g K); exact L); cbn [Nat.add]; now rewrite inverted_row).
    rewrite E. apply vpen_scaled.
    + now apply value_b.
    + intros N. rewrite <- E. apply value_b; [assumption|exact L|]. rewrite E. intros X. apply Qcmult_integral in X. destruct X as [X|X]; [contradiction|now apply powers_nonzero in X].
    + now apply HR.
Qed.
End Total.
Theorem intended_exponents fac fuel g g' sc g2 : general_ok g -> scale fac fuel g = Ok (g', sc) -> apply_scaling Qcmult Qcdiv g (columns_inverted sc) = Ok g2 ->
  (forall v, In v (values g) \/ In v (values g2) -> prime_factorization (fac v) v) -> forall p, (total_exponent fac p g2 <= total_exponent fac p g)%Z.
Proof.
  intros K E E2 PF p. pose proof (general_sizes g K) as A. destruct (scale_inv fac g A fuel g' sc E) as (l & EC & -> & NZ & M & LE & D). destruct (combine_lengths g l sc LE EC) as [L1 L2].
  rewrite apply_ok in E2 by (try assumption; cbn; now rewrite map_length). assert (scaled Qcmult Qcdiv g (columns_inverted sc) = g2) by congruence. subst g2. clear E2.
  pose proof (scaled_ok g (columns_inverted sc) K (inverted_positive fac g K l M LE sc EC PF)) as K2. pose proof (general_sizes _ K2) as A2.
  destruct (prime_dec p) as [PP|NP].
  - rewrite !total_is by assumption. pose proof (total_factorizes fac g sc PF) as FZ.
    destruct (in_dec Z.eq_dec p (rev (fa_factors (factorize fac g)))) as [IN|NI].
    + destruct (in_split _ _ IN) as (before & after & BA). destruct (D before p after BA) as ([q [[k rows] cols]] & IR & EQ & LR & LC & PEN). subst q.
      rewrite !(stage_is fac p g K FZ before after BA) in PEN.
      assert (PO : forall s, power_of l p s = s (p, (k, rows, cols))).
      { intros s. unfold power_of. pose proof (total_nodup fac g K l M sc PF) as ND. revert ND IR. clear. induction l as [|r t IH]; intros ND IR; [destruct IR|]. cbn [map power] in *. inversion ND as [|? ? NI ND']; subst. destruct IR as [->|IR]; [cbn [fst]; now rewrite Z.eqb_refl|].
        destruct (Z.eqb_spec (fst r) p) as [EQ|N]; [|now apply IH]. elim NI. rewrite EQ. apply (in_map fst _ _ IR). }
      rewrite (expo_scaled fac g K l M LE sc EC PF p PP k rows cols); [exact PEN| | |]; intros; rewrite PO; reflexivity.
    + assert (PO : forall s, power_of l p s = 0%Z) by (intros s; unfold power_of; apply power_not_in; rewrite map_map; change (~ In p (map fst l)); rewrite M; exact NI).
      rewrite (expo_scaled fac g K l M LE sc EC PF p PP 0 [] []); [lia| | |]; intros; rewrite PO; try rewrite zat_nil; reflexivity.
  - assert (ZE : forall h, (forall v, In v (values h) -> prime_factorization (fac v) v) -> total_exponent fac p h = 0%Z).
    { intros h PH. unfold total_exponent. apply zsumf_zero. intros v HV. destruct (PH v HV) as (_ & PR & _). rewrite power_not_in; [reflexivity|]. intros HI. apply in_map_iff in HI. destruct HI as ([f k] & EF & HI). cbn in EF. subst f. apply NP. now apply (PR p k). }
    rewrite !ZE; [lia| |]; intros v HV; apply PF; tauto.
Qed.
