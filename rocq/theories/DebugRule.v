(** * With assertions: the pivot rules and the simplex loop are those of the release build *)
From Verif Require Export DebugTab.

(** What the rule of the debug build has to do with the rule of the release build. *)
Record RuleDLaws {O} (L : BILaws O) (D : DOps O) (DL : DLaws L D) (R : Rule O) (RL : RuleLaws L R)
  (RD : DRule O R) := mk_rdlaws {
  rd_inv : kind -> tableau O -> r_state R -> Prop;
  rd_new : forall k rhs t, kind_ok k -> tab_inv L k rhs t -> d_ok L D DL (k_rows k) ->
    dr_new O R RD k t = r_new R k t /\ forall s, r_new R k t = Ok s -> rd_inv k t s;
  rd_select : forall k rhs t s, kind_ok k -> tab_inv L k rhs t -> d_ok L D DL (k_rows k) ->
    rl_inv L R RL k t s -> rd_inv k t s ->
    dr_select O R RD s k t = r_select R s k t /\
    forall sel s', r_select R s k t = Ok (sel, s') -> rd_inv k t s';
  rd_after : forall k rhs t q p cc t' info s, kind_ok k -> pivoted L k rhs t q p cc t' info ->
    d_ok L D DL (k_rows k) -> candidate k t q -> rl_mid L R RL k t q s -> rd_inv k t s ->
    dr_after O R RD s info k t' = r_after R s info k t' /\
    forall s', r_after R s info k t' = Ok s' -> rd_inv k t' s'
}.

Section Rules.
Variable O : BIOps.
Variable L : BILaws O.
Variable D : DOps O.
Variable DL : DLaws L D.
Local Notation ok := (d_ok L D DL).

Lemma find_profitable_same k (t : tableau O) l : kind_ok k -> (forall j, In j l -> (j < k_cols k)%nat) ->
  find_profitable_d O k t l = Ok (find_profitable O k t l).
Proof.
  intros K. induction l as [|j l IH]; intros H; cbn [find_profitable_d find_profitable]; [reflexivity|].
  rewrite in_basis_same by (apply H; now left). cbn [bind].
  rewrite IH by (intros; apply H; now right).
  destruct (in_basis t j); [reflexivity|].
  rewrite relative_cost_same; [|assumption|apply H; now left]. cbn [bind].
  now destruct (qneg (relative_cost k t j)).
Qed.

Definition first_profitable_dlaws :
  RuleDLaws L D DL (first_profitable O) (first_profitable_laws O L) (first_profitable_d O).
Proof.
  refine (mk_rdlaws O L D DL (first_profitable O) (first_profitable_laws O L) (first_profitable_d O) (fun _ _ _ => True) _ _ _).
  - intros. split; [reflexivity|easy].
  - intros k rhs t s K I W _ _. split; [|easy]. cbn [dr_select first_profitable_d r_select first_profitable].
    rewrite find_profitable_same; [reflexivity|assumption|]. intros j Hj. apply In_range in Hj. lia.
  - intros. split; [reflexivity|easy].
Defined.

Definition first_profitable_memory_dlaws :
  RuleDLaws L D DL (first_profitable_memory O) (first_profitable_memory_laws O L) (first_profitable_memory_d O).
Proof.
  refine (mk_rdlaws O L D DL (first_profitable_memory O) (first_profitable_memory_laws O L) (first_profitable_memory_d O) (fun _ _ _ => True) _ _ _).
  - intros. split; [reflexivity|easy].
  - intros k rhs t s K I W Hs _. split; [|easy].
    cbn [dr_select first_profitable_memory_d r_select first_profitable_memory].
    destruct s as [last|].
    + cbn [rl_inv first_profitable_memory_laws fpm_inv] in Hs. destruct Hs as [Ha Hl].
      assert (Ll : (last < k_cols k)%nat).
      { destruct I as [I S]. apply S, In_bcol in Hl. destruct Hl as (r & Lr & <-). apply (ci_range _ _ _ _ _ I).
        now rewrite (ci_lbasis _ _ _ _ _ I) in Lr. }
      rewrite !find_profitable_same; try assumption; try (intros j Hj; apply In_range in Hj; lia).
      cbn [bind]. now destruct (find_profitable O k t (range (last + 1) (k_cols k))).
    + rewrite find_profitable_same; [reflexivity|assumption|]. intros j Hj. apply In_range in Hj. lia.
  - intros. split; [reflexivity|easy].
Defined.

Lemma steepest_variable_same k (t : tableau O) : kind_ok k -> forall l acc, (forall j, In j l -> (j < k_cols k)%nat) ->
  foldM (steepest_variable_step_d O k t) l acc = Ok (fold_left (steepest_variable_step O k t) l acc).
Proof.
  intros K. induction l as [|j l IH]; intros acc H; cbn [foldM fold_left]; [reflexivity|].
  assert (E : steepest_variable_step_d O k t acc j = Ok (steepest_variable_step O k t acc j)).
  { unfold steepest_variable_step_d, steepest_variable_step.
    rewrite in_basis_same by (apply H; now left). cbn [bind]. destruct (in_basis t j); [reflexivity|].
    rewrite relative_cost_same; [|assumption|apply H; now left]. cbn [bind].
    destruct (qneg (relative_cost k t j)); [|reflexivity]. destruct acc as [[i c0]|]; [|reflexivity].
    now destruct (qltb (relative_cost k t j) c0). }
  rewrite E. cbn [bind]. apply IH. intros i Hi. apply H. now right.
Qed.
Definition steepest_variable_dlaws :
  RuleDLaws L D DL (steepest_variable O) (steepest_variable_laws O L) (steepest_variable_d O).
Proof.
  refine (mk_rdlaws O L D DL (steepest_variable O) (steepest_variable_laws O L) (steepest_variable_d O) (fun _ _ _ => True) _ _ _).
  - intros. split; [reflexivity|easy].
  - intros k rhs t s K I W _ _. split; [|easy]. cbn [dr_select steepest_variable_d r_select steepest_variable].
    rewrite steepest_variable_same; [reflexivity|assumption|]. intros j Hj. apply In_range in Hj. lia.
  - intros. split; [reflexivity|easy].
Defined.

(** ** Steepest edge *)
Definition weights_outside (k : kind) (t : tableau O) (gamma : list (option Qc)) : Prop :=
  forall j g, (k_art k <= j)%nat -> nth_error gamma j = Some (Some g) -> ~ In j (t_cols t).

Lemma initial_gamma_same k rhs t j : kind_ok k -> tab_inv L k rhs t -> ok (k_rows k) -> (j < k_cols k)%nat ->
  initial_gamma_d O D k t j = initial_gamma O k t j.
Proof. intros. unfold initial_gamma_d, initial_gamma. now rewrite (generate_column_same O L D DL k rhs). Qed.

Lemma initial_gamma_weight k rhs t j : kind_ok k -> tab_inv L k rhs t -> (j < k_cols k)%nat ->
  exists g, initial_gamma O k t j = Ok g /\ weight_of k (c_basis (t_im t)) j g.
Proof.
  intros Hk HI Lj. destruct (column_spec O L k rhs t j Hk HI Lj) as (cc & N & Ec & Wc & R & HN & V & HB).
  unfold initial_gamma. rewrite Ec. cbn [bind]. eexists. split; [reflexivity|].
  intros y Hy. f_equal. rewrite (sqnorm_spec (k_rows k)) by assumption. apply sum_ext.
  intros r Lr. rewrite V by assumption.
  now rewrite <- (solve_unique _ N (bmat k (c_basis (t_im t))) (fun i => kA k i j) y HN Hy r Lr).
Qed.
Lemma weight_unique k N basis j g g' : is_inverse (k_rows k) N (bmat k basis) ->
  weight_of k basis j g -> weight_of k basis j g' -> g = g'.
Proof.
  intros HN H H'. apply (weight_of_inverse k N) in H; [|assumption]. apply (weight_of_inverse k N) in H'; [|assumption].
  congruence.
Qed.

Lemma sdo_new_same k rhs t : kind_ok k -> tab_inv L k rhs t -> ok (k_rows k) ->
  sdo_new_d O D k t = sdo_new O k t.
Proof.
  intros K I W. unfold sdo_new_d, sdo_new. apply mapM_same. intros j Hj. apply in_seq in Hj.
  destruct (Nat.leb (k_art k) j); cbn [andb]; [|reflexivity].
  rewrite in_basis_same by lia. cbn [bind]. destruct (negb (in_basis t j)); [|reflexivity].
  rewrite (initial_gamma_same k rhs) by (assumption || lia). reflexivity.
Qed.
Lemma sdo_new_outside k t gamma : sdo_new O k t = Ok gamma -> weights_outside k t gamma.
Proof.
  intros E j g Hj Eg. unfold sdo_new in E. apply mapM_ok in E. destruct E as [El En]. rewrite seq_length in El.
  assert (Lj : (j < k_cols k)%nat) by (rewrite <- El; apply nth_error_Some; congruence).
  destruct (En j j) as (y & Ey & Ny).
  { rewrite (nth_error_nth' _ 0%nat) by (rewrite seq_length; lia). rewrite seq_nth by lia. reflexivity. }
  rewrite Eg in Ny. inversion Ny; subst y. destruct (Nat.leb (k_art k) j && negb (in_basis t j)) eqn:B; [|discriminate Ey].
  apply andb_true_iff in B. destruct B as [_ B]. apply negb_true_iff in B. now apply in_basis_false.
Qed.

Lemma sdo_select_same k (t : tableau O) gamma : kind_ok k ->
  sdo_select_d O gamma k t = sdo_select O gamma k t.
Proof.
  intros K. unfold sdo_select_d, sdo_select. apply bind_same; [|reflexivity].
  apply (foldM_same _ _ (fun _ => True)); [exact I|]. intros acc j Hj _. apply In_range in Hj.
  split; [|easy]. unfold sdo_step_d, sdo_step.
  rewrite in_basis_same by lia. cbn [bind]. destruct (in_basis t j); [reflexivity|].
  rewrite relative_cost_same; [|assumption|lia]. reflexivity.
Qed.

Lemma sdo_update_from_same k (t : tableau O) info gq : forall gamma j0,
  (forall i g, nth_error gamma i = Some (Some g) -> (k_art k <= j0 + i)%nat ->
     (exists col, original_d k (j0 + i) = Ok col) /\
     initial_gamma_d O D k t (j0 + i) = Ok (sdo_update_gamma k info gq (j0 + i) g)) ->
  sdo_update_from_d O D k t info gq j0 gamma = Ok (sdo_update_from k info gq j0 gamma).
Proof.
  induction gamma as [|og gamma IH]; intros j0 H; cbn [sdo_update_from_d sdo_update_from]; [reflexivity|].
  rewrite IH.
  2:{ intros i g Eg Hi. replace (S j0 + i)%nat with (j0 + S i)%nat in * by lia. now apply H. }
  destruct og as [g|]; [|reflexivity]. specialize (H 0%nat g eq_refl). rewrite Nat.add_0_r in H.
  destruct (Nat.ltb_spec j0 (k_art k)) as [C|C]; [reflexivity|]. destruct (H C) as [(col & Ec) Eg].
  rewrite Ec, Eg. cbn [bind]. rewrite asserted by now apply qeqb_true. reflexivity.
Qed.

Lemma sdo_after_same k rhs t q p cc t' info gamma :
  kind_ok k -> pivoted L k rhs t q p cc t' info -> ok (k_rows k) -> candidate k t q -> gamma_inv O k t gamma ->
  weights_outside k t gamma ->
  sdo_after_d O D gamma info k t' = sdo_after O gamma info k t' /\
  forall gamma', sdo_after O gamma info k t' = Ok gamma' -> weights_outside k t' gamma'.
Proof.
  intros K Hp W [Cq Nq] [GL GI] Out. assert (Hp' := Hp).
  destruct Hp' as (HI & HI' & (E1 & E2 & E3 & E4 & W1 & W2 & N & HN & Vw & Vr) & Eb & Lp & Ec & Np).
  destruct HI as [I S]. pose proof HI' as [I' S'].
  assert (Lb : length (c_basis (t_im t)) = k_rows k) by apply (ci_lbasis _ _ _ _ _ I).
  destruct (ci_rep _ _ _ _ _ I') as (N' & Rp' & HN').
  unfold sdo_after_d, sdo_after. rewrite E2.
  assert (Nat.ltb q (k_cols k) = true) as LQ by (apply Nat.ltb_lt; lia).
  assert (set_index gamma q None = Ok (upd gamma q None)) as SI by (unfold set_index; now rewrite GL, LQ).
  rewrite SI. cbn [bind].
  set (gq := 1 + sqnorm (i_before info)).
  assert (Upd : forall i g, nth_error (upd gamma q None) i = Some (Some g) -> i <> q /\ nth_error gamma i = Some (Some g)).
  { intros i g Eg. rewrite upd_nth_error in Eg. destruct (Nat.eqb_spec i q) as [->|Ne]; [|now split].
    rewrite GL, LQ in Eg. cbn [andb] in Eg. discriminate Eg. }
  assert (Cand : forall i g, nth_error (upd gamma q None) i = Some (Some g) -> (k_art k <= i)%nat ->
      (i < k_cols k)%nat /\ ~ In i (t_cols t) /\ i <> q).
  { intros i g Eg Hi. destruct (Upd i g Eg) as [Ne Eg']. split; [rewrite <- GL; apply nth_error_Some; congruence|].
    split; [now apply (Out i g)|assumption]. }
  rewrite (sdo_update_from_same k t' info gq).
  2:{ intros i g Eg Hi. cbn [Nat.add] in *. destruct (Cand i g Eg Hi) as (Li & Ni & Nei).
      split; [exists (k_col k i); now apply original_same|].
      rewrite (initial_gamma_same k rhs) by assumption.
      destruct (initial_gamma_weight k rhs t' i K HI' Li) as (g' & Eg' & Wg'). rewrite Eg'. f_equal.
      apply (weight_unique k N' (c_basis (t_im t')) i); try assumption. unfold gq.
      apply (sdo_update_gamma_spec O L k rhs t q p cc t' info i g); try assumption; try lia.
      destruct (GI i) as (g2 & Eg2 & Wg2); [split; [lia|assumption]|].
      destruct (Upd i g Eg) as [_ Eg3]. rewrite Eg2 in Eg3. now inversion Eg3; subst g2. }
  cbn [bind]. rewrite asserted by (apply Nat.ltb_lt; rewrite (dl_m L D DL (k_rows k) _ N' Rp'); lia).
  split; [reflexivity|].
  intros gamma' E. destruct (ofopt (sget (i_before info) (i_row info))) as [wp| |]; try discriminate E. cbn [bind] in E.
  unfold set_index in E. destruct (Nat.ltb (i_leaving info) _) eqn:Llv; [|discriminate E]. inversion E; subst gamma'; clear E.
  intros j g Hj Eg Hin. rewrite upd_nth_error, Llv, andb_true_r in Eg.
  apply S', In_bcol in Hin. destruct Hin as (r & Lr & Er). rewrite Eb, upd_length in Lr. rewrite Eb in Er. unfold bcol in Er.
  rewrite upd_nth in Er by lia.
  destruct (Nat.eqb_spec j (i_leaving info)) as [El|Nl].
  - (* the column that left is not in the new basis *)
    destruct (Nat.eqb_spec r p) as [->|Nr].
    + apply Nq. rewrite Er, El, E3. apply S. apply nth_In. lia.
    + assert (r = p); [|contradiction].
      apply (inverse_injective (k_rows k) k N (c_basis (t_im t))); try assumption; try lia.
      unfold bcol in *. rewrite Er, El, E3. reflexivity.
  - rewrite sdo_update_from_spec in Eg. destruct (nth_error (upd gamma q None) j) as [[g0|]|] eqn:Eg0; try discriminate Eg.
    destruct (Cand j g0 Eg0 Hj) as (Lj & Nj & Nejq).
    destruct (Nat.eqb_spec r p) as [->|Nr]; [congruence|]. apply Nj. rewrite <- Er. apply S. apply nth_In. lia.
Qed.

Definition steepest_objective_dlaws :
  RuleDLaws L D DL (steepest_objective O) (steepest_objective_laws O L) (steepest_objective_d O D).
Proof.
  refine (mk_rdlaws O L D DL (steepest_objective O) (steepest_objective_laws O L) (steepest_objective_d O D) weights_outside _ _ _).
  - intros k rhs t K I W. split; [now apply (sdo_new_same k rhs)|]. apply sdo_new_outside.
  - intros k rhs t s K I W _ Hd. cbn [dr_select steepest_objective_d r_select steepest_objective].
    rewrite sdo_select_same by assumption. split; [reflexivity|]. intros sel s' E.
    destruct (sdo_select O s k t); try discriminate E. now inversion E; subst.
  - intros k rhs t q p cc t' info s K Hp W Hc Hm Hd. now apply (sdo_after_same k rhs t q p cc t' info s).
Defined.

(** ** One turn, and the loop *)
Variable R : Rule O.
Variable RL : RuleLaws L R.
Variable RD : DRule O R.
Variable RDL : RuleDLaws L D DL R RL RD.

Lemma simplex_step_same k rhs t s :
  kind_ok k -> tab_inv L k rhs t -> ok (k_rows k) -> rl_inv L R RL k t s -> rd_inv L D DL R RL RD RDL k t s ->
  simplex_step_d O D R RD k t s = simplex_step O R k t s /\
  forall t' s', simplex_step O R k t s = Ok (StepPivot _ _ t' s') -> rd_inv L D DL R RL RD RDL k t' s'.
Proof.
  intros Hk HI W Hs Hd. unfold simplex_step_d, simplex_step.
  rewrite (bfs_state_ok O L D DL k rhs) by assumption. cbn [bind].
  destruct (rd_select L D DL R RL RD RDL k rhs t s Hk HI W Hs Hd) as [Es Hd1].
  destruct (rl_select L R RL k rhs t s Hk HI Hs) as (sel & s1 & E1 & Hsel & Hmid).
  rewrite Es, E1. cbn [bind]. specialize (Hd1 _ _ E1). destruct sel as [[q cost]|].
  2:{ split; [reflexivity|discriminate]. }
  destruct Hsel as (Hc & Ecost & Hneg). subst cost.
  assert (Lq : (q < k_cols k)%nat) by (destruct Hc; lia).
  rewrite (generate_column_same O L D DL k rhs) by assumption.
  destruct (column_spec O L k rhs t q Hk HI Lq) as (cc & N & Ec & Wc & Rp & HN & V & HB).
  rewrite Ec. cbn [bind].
  rewrite (select_row_same O L D DL k rhs) by assumption.
  destruct (select_row_spec O (k_rows k) t (cci_col O cc) Wc) as (row & Er & Hr).
  { apply (ci_lb _ _ _ _ _ (proj1 HI)). }
  { apply (ci_lbasis _ _ _ _ _ (proj1 HI)). }
  rewrite Er. cbn [bind]. destruct row as [p|]; [|split; [reflexivity|discriminate]].
  pose proof (best_row_nonneg O (k_rows k) (t_im t) (cci_col O cc) p
        (ci_nonneg _ _ _ _ _ (proj1 HI)) Hr) as HNN.
  destruct Hr as (Lp & Hp & Hmin).
  destruct (change_spec O L k rhs t p q cc Hk HI Lq Ec Lp (Qc_pos_neq0 _ Hp) HNN) as [Part _].
  rewrite (bring_into_basis_same O L D DL k rhs); try assumption; [|apply Hc|now apply Qc_pos_neq0].
  destruct (bring_into_basis k t q p cc (relative_cost k t q)) as [[t' info]| |] eqn:Eb;
    cbn [bind]; [|split; [reflexivity|discriminate]..].
  destruct (Part t' info eq_refl) as (HI' & Hinfo & Eb' & Vb & Eobj).
  destruct (rd_after L D DL R RL RD RDL k rhs t q p cc t' info s1 Hk) as [Ea Hd2]; try assumption.
  { exact (conj HI (conj HI' (conj Hinfo (conj Eb' (conj Lp (conj Ec (Qc_pos_neq0 _ Hp))))))). }
  rewrite Ea. split; [reflexivity|]. intros t2 s2 E.
  destruct (r_after R s1 info k t') as [s'| |] eqn:Es'; try discriminate E. cbn [bind] in E. inversion E; subst. now apply Hd2.
Qed.

Lemma simplex_loop_same k rhs : kind_ok k -> ok (k_rows k) -> forall fuel t s,
  tab_inv L k rhs t -> rl_inv L R RL k t s -> rd_inv L D DL R RL RD RDL k t s ->
  simplex_loop_d O D R RD fuel k t s = simplex_loop O R fuel k t s.
Proof.
  intros Hk W. induction fuel as [|fuel IH]; intros t s HI Hs Hd; cbn [simplex_loop_d simplex_loop]; [reflexivity|].
  destruct (simplex_step_same k rhs t s Hk HI W Hs Hd) as [E Hd'].
  pose proof (step_spec O L R RL k rhs t s Hk HI Hs) as S. rewrite E.
  destruct (simplex_step O R k t s) as [[| |t' s']| |] eqn:Es; cbn [bind]; try reflexivity.
  destruct S as (HI' & Hs' & _). apply IH; try assumption. now apply Hd'.
Qed.

Lemma phase_two_same k rhs fuel t : kind_ok k -> ok (k_rows k) -> tab_inv L k rhs t ->
  (forall t', tab_inv L k rhs t' -> wfs (k_cols k) (carry_bfs (t_im t'))) -> k_cols k <> 0%nat ->
  phase_two_d O D R RD fuel k t = phase_two O R fuel k t.
Proof.
  intros Hk W HI Hw Hc. unfold phase_two_d, phase_two.
  destruct (rd_new L D DL R RL RD RDL k rhs t Hk HI W) as [En Hd].
  destruct (rl_new L R RL k rhs t Hk HI) as (s & Es & Hs). rewrite En, Es. cbn [bind].
  rewrite (simplex_loop_same k rhs) by auto.
  pose proof (loop_spec O L R RL k rhs (fun _ => True) Hk (fun _ _ _ _ _ => I) fuel t s HI Hs I) as Lp.
  destruct (simplex_loop O R fuel k t s) as [[t'|t']| |]; cbn [bind]; try reflexivity.
  destruct Lp as (HI' & _). unfold current_bfs_d, current_bfs. rewrite sparse_new_ok; [reflexivity|lia|now apply Hw].
Qed.

End Rules.
