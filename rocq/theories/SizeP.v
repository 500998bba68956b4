(** * Numbers of a run stay small *)
From Verif Require Import DetQ SpecSize.
From Verif Require Export SolverQ DualP.
Local Open Scope Qc_scope.

(** ** Numbers in lowest terms *)
Lemma lowest (x : Qc) : Z.gcd (Qnum x) (Zpos (Qden x)) = 1%Z.
Proof. apply Qred_identity2. apply canon. Qed.
Lemma zq_den (x : Qc) : x * zq_of (Zpos (Qden x)) = zq_of (Qnum x).
Proof.
  apply Qc_is_canon. unfold zq_of, Qcmult. rewrite !this_q. destruct x as [[n e] C]. cbn [this Qnum Qden]. unfold Qeq, Qmult, inject_Z. cbn [Qnum Qden]. lia.
Qed.
Lemma fraction_size (x : Qc) (D p : Z) : D <> 0%Z -> x * zq_of D = zq_of p -> (Z.abs (Qnum x) <= Z.abs p)%Z /\ (Zpos (Qden x) <= Z.abs D)%Z.
Proof.
  intros N E. assert (H : (Qnum x * D = p * Zpos (Qden x))%Z).
  { apply zq_inj. rewrite !zq_mul, <- E, <- zq_den. ring. }
  assert (V : (Zpos (Qden x) | D)%Z).
  { apply Z.gauss with (Qnum x); [exists p; lia|]. rewrite Z.gcd_comm. apply lowest. }
  destruct V as [c Ec]. assert (Nc : c <> 0%Z) by (intros ->; lia).
  assert (Ep : (Qnum x * c = p)%Z) by (apply (Z.mul_reg_r _ _ (Zpos (Qden x))); [lia|]; rewrite <- H, Ec; ring).
  split.
  - rewrite <- Ep, Z.abs_mul. pose proof (Z.abs_nonneg (Qnum x)). nia.
  - rewrite Ec, Z.abs_mul. nia.
Qed.
Lemma small_size K (x : Qc) (D : Z) : D <> 0%Z -> (Z.abs D <= K)%Z -> zsmall K (x * zq_of D) -> size_at_most K x.
Proof. intros N L (z & E & Lz). destruct (fraction_size x D z N E). split; lia. Qed.
Lemma parts_small d K x : parts d K x -> zsmall K (x * zq_of (Zpos d)).
Proof.
  intros (z & -> & L). exists z. split; [|exact L]. apply Qc_is_canon. unfold zq_of, Qcmult. rewrite !this_q. unfold Qeq, Qmult, inject_Z. cbn [Qnum Qden]. lia.
Qed.
Lemma parts_0 d K : (0 <= K)%Z -> parts d K 0.
Proof. intros L. exists 0%Z. split; [|exact L]. apply Qc_is_canon. rewrite !this_q. unfold Qeq. cbn [Qnum Qden]. lia. Qed.
Lemma parts_1 d K : (Zpos d <= K)%Z -> parts d K 1.
Proof. intros L. exists (Zpos d). split; [|lia]. apply Qc_is_canon. rewrite !this_q. unfold Qeq. cbn [Qnum Qden]. lia. Qed.
Lemma zq_pos_nonzero d : zq_of (Zpos d) <> 0.
Proof. intros E. change 0 with (zq_of 0) in E. apply zq_inj in E. lia. Qed.

(** ** Bounds *)
Lemma zfact_pos n : (1 <= zfact n)%Z.
Proof. induction n as [|n IH]; cbn [zfact]; [lia|]. rewrite Nat2Z.inj_succ. nia. Qed.
Lemma det_bound_pos m K : (1 <= K)%Z -> (1 <= det_bound m K)%Z.
Proof. intros L. unfold det_bound. pose proof (zfact_pos m). pose proof (Z.pow_pos_nonneg K (Z.of_nat m)). nia. Qed.
Lemma det_bound_step m K : (1 <= K)%Z -> det_bound (S m) K = (Z.of_nat (S m) * (det_bound m K * K))%Z.
Proof. intros L. unfold det_bound. cbn [zfact]. rewrite (Nat2Z.inj_succ m), Z.pow_succ_r by lia. ring. Qed.
Lemma det_bound_le m n K : (1 <= K)%Z -> (m <= n)%nat -> (det_bound m K <= det_bound n K)%Z.
Proof.
  intros L H. induction H as [|n H IH]; [lia|]. rewrite det_bound_step by assumption. pose proof (det_bound_pos n K L). rewrite Nat2Z.inj_succ. nia.
Qed.
Lemma det_bound_pred m K : (1 <= K)%Z -> (Z.of_nat m * (det_bound (Nat.pred m) K * K) <= det_bound m K)%Z.
Proof. intros L. destruct m as [|m]; [cbn; unfold det_bound; cbn; lia|]. rewrite det_bound_step by assumption. cbn [Nat.pred]. lia. Qed.

(** ** A state with an exact inverse *)
Section State.
Variables (d : positive) (K : Z) (O : BIOps) (k : kind) (rhs : list Qc) (t : tableau O) (N : mat).
Hypothesis KD : (Zpos d <= K)%Z.
Hypothesis HC : forall i j, (i < k_rows k)%nat -> (j < k_cols k)%nat -> parts d K (den (k_col k j) i).
Hypothesis HR : forall i, (i < k_rows k)%nat -> parts d K (nthq rhs i).
Hypothesis HK : forall j, (j < k_cols k)%nat -> parts d K (k_cost k j).
Hypothesis CS : consistent O k rhs t N.
Local Notation m := (k_rows k).
Local Notation M := (det_bound m K).
Local Notation A := (det_bound (Nat.pred m) K).
Local Notation e := (zq_of (Zpos d)).
Let K1 : (1 <= K)%Z. Proof. lia. Qed.
Lemma basis_col r : (r < m)%nat -> (nth r (c_basis (t_im t)) 0 < k_cols k)%nat.
Proof using CS. intros L. apply (cs_columns _ _ _ _ _ CS). apply nth_In. rewrite (proj1 (cs_size _ _ _ _ _ CS)). exact L. Qed.

Lemma state_inverse : exists D : Z, D <> 0%Z /\ (Z.abs D <= M)%Z /\ forall i j, (i < m)%nat -> (j < m)%nat -> zsmall A (N i j / e * zq_of D).
Proof using KD HC CS.
  apply (inverse_bound m (fun i j => basis_matrix k (c_basis (t_im t)) i j * e) (fun i j => N i j / e) K); [lia| |].
  - intros i j Li Lj. apply parts_small. apply HC; [exact Li|now apply basis_col].
  - intros i j Li Lj. rewrite <- (proj1 (cs_inverse _ _ _ _ _ CS) i j Li Lj). unfold mmul. apply sum_ext. intros l _. field. apply zq_pos_nonzero.
Qed.

(** a product of a row of the inverse with numbers of the data *)
Lemma row_small D (f g : nat -> Qc) L1 L2 : (0 <= L2)%Z -> (forall l, (l < m)%nat -> zsmall L1 (f l / e * zq_of D)) -> (forall l, (l < m)%nat -> zsmall L2 (g l * e)) ->
  zsmall (Z.of_nat m * (L1 * L2)) (sum m (fun l => f l * g l) * zq_of D).
Proof using.
  intros P F G. rewrite <- sum_scal_r. rewrite (sum_ext m _ (fun l => (f l / e * zq_of D) * (g l * e))).
  - apply zsmall_sum. intros l Ll. apply zsmall_mul; [apply F|apply G]; exact Ll.
  - intros l _. field. apply zq_pos_nonzero.
Qed.
Variable D : Z.
Hypothesis D0 : D <> 0%Z.
Hypothesis DM : (Z.abs D <= M)%Z.
Hypothesis DN : forall i j, (i < m)%nat -> (j < m)%nat -> zsmall A (N i j / e * zq_of D).
Lemma query_small g i : (i < m)%nat -> (forall l, (l < m)%nat -> parts d K (g l)) -> zsmall M (sum m (fun l => N i l * g l) * zq_of D).
Proof using KD DN.
  intros Li G. apply zsmall_le with (Z.of_nat m * (A * K))%Z; [now apply det_bound_pred|]. apply row_small; [lia| |].
  - intros l Ll. now apply DN.
  - intros l Ll. now apply parts_small, G.
Qed.
Lemma value_small i : (i < m)%nat -> zsmall M (nthq (c_b (t_im t)) i * zq_of D).
Proof using KD DN HR CS. intros Li. rewrite (cs_b _ _ _ _ _ CS i Li). now apply query_small. Qed.
Lemma pi_small i : (i < m)%nat -> zsmall M (nthq (c_mpi (t_im t)) i * zq_of D).
Proof using KD DN HK CS.
  intros Li. rewrite (cs_pi _ _ _ _ _ CS i Li).
  match goal with |- zsmall _ (- ?s * ?z) => replace (- s * z) with (- (s * z)) by ring end. apply zsmall_opp.
  apply zsmall_le with (Z.of_nat m * (A * K))%Z; [now apply det_bound_pred|].
  rewrite (sum_ext m _ (fun r => N r i * k_cost k (nth r (c_basis (t_im t)) 0%nat))) by (intros; ring).
  apply row_small; [lia| |].
  - intros l Ll. now apply DN.
  - intros l Ll. apply parts_small, HK. now apply basis_col.
Qed.
Lemma objective_small : zsmall (Z.of_nat m * (K * M)) (objective_value t * zq_of (Zpos d * D)).
Proof using KD DN HK HR CS.
  rewrite (cs_z _ _ _ _ _ CS), <- sum_scal_r. rewrite zq_mul.
  rewrite (sum_ext m _ (fun r => (k_cost k (nth r (c_basis (t_im t)) 0%nat) * e) * (nthq (c_b (t_im t)) r * zq_of D))) by (intros; ring).
  apply zsmall_sum. intros r Lr. apply zsmall_mul; [apply parts_small, HK; now apply basis_col|now apply value_small].
Qed.
Lemma relative_small j : (j < k_cols k)%nat -> wfs m (k_col k j) -> zsmall (Z.of_nat m * (M * K) + K * M) (relative_cost k t j * zq_of (Zpos d * D)).
Proof using KD DN DM HK HC CS.
  intros Lj W. rewrite (relative_cost_spec O k t j W), zq_mul.
  replace ((sum m (fun i => nthq (c_mpi (t_im t)) i * kA k i j) + k_cost k j) * (e * zq_of D))
    with (sum m (fun i => nthq (c_mpi (t_im t)) i * kA k i j) * (e * zq_of D) + k_cost k j * e * zq_of D) by ring.
  apply zsmall_add.
  - rewrite <- sum_scal_r. rewrite (sum_ext m _ (fun i => (nthq (c_mpi (t_im t)) i * zq_of D) * (kA k i j * e))) by (intros; ring).
    apply zsmall_sum. intros i Li. apply zsmall_mul; [now apply pi_small|]. apply parts_small. now apply HC.
  - apply zsmall_mul; [now apply parts_small, HK|]. exists D. now split.
Qed.
Lemma weight_small j : (j < k_cols k)%nat -> zsmall (M * M + Z.of_nat m * (M * M)) (edge_weight k N j * zq_of (D * D)).
Proof using KD DN DM HC D0.
  intros Lj. unfold edge_weight. rewrite zq_mul. rewrite Qcmult_plus_distr_l. apply zsmall_add.
  - rewrite Qcmult_1_l, <- zq_mul. exists (D * D)%Z. split; [reflexivity|]. rewrite Z.abs_mul. apply Z.mul_le_mono_nonneg; lia.
  - rewrite <- sum_scal_r.
    rewrite (sum_ext m _ (fun r => (sum m (fun i => N r i * den (k_col k j) i) * zq_of D) * (sum m (fun i => N r i * den (k_col k j) i) * zq_of D))) by (intros; ring).
    apply zsmall_sum. intros r Lr. apply zsmall_mul; apply query_small; try assumption; intros l Ll; now apply HC.
Qed.
End State.

(** ** States of a run *)
Section Run.
Variables (d : positive) (K : Z) (O : BIOps) (L : BILaws O) (R : Rule O) (RL : RuleLaws L R).
Variables (p : provider) (ph : phase) (p' : provider) (k : kind) (t : tableau O) (s : option (r_state R)).
Hypothesis Pok : provider_ok p.
Hypothesis DS : data_size d K p.
Hypothesis H : reach O R p ph p' k t s.
Lemma reach_data : (k_rows k <= p_rows p)%nat /\ (forall i j, (i < k_rows k)%nat -> (j < k_cols k)%nat -> parts d K (den (k_col k j) i)) /\
  (forall i, (i < k_rows k)%nat -> parts d K (nthq (p_rhs p') i)) /\ (forall j, (j < k_cols k)%nat -> parts d K (k_cost k j)).
Proof using Pok DS H RL.
  pose proof (ds_one _ _ _ DS) as D1. destruct (reach_reach_inv O L R RL p ph p' k t s Pok H) as (Kok & _ & _ & Hp).
  assert (Z0 : forall x, x = 0 -> parts d K x) by (intros x ->; apply parts_0; lia). assert (Z1 : forall x, x = 1 -> parts d K x) by (intros x ->; now apply parts_1).
  destruct ph.
  - destruct Hp as (-> & c2r & AK & _). rewrite (ak_rows _ _ _ AK), (ak_cols _ _ _ AK). split; [lia|]. split; [|split].
    + intros i j Li Lj. destruct (lt_dec j (k_art k)) as [La|La].
      * rewrite (proj1 (ak_acol _ _ _ AK j La)). unfold sbasis. cbn [den]. destruct (Nat.eqb _ _); [apply Z1|apply Z0]; ring.
      * replace j with (k_art k + (j - k_art k))%nat by lia. rewrite (ak_rcol _ _ _ AK) by lia. apply (ds_cols _ _ _ DS); lia.
    + apply (ds_rhs _ _ _ DS).
    + intros j Lj. destruct (lt_dec j (k_art k)) as [La|La]; [apply Z1; now apply (ak_acost _ _ _ AK)|].
      apply Z0. replace j with (k_art k + (j - k_art k))%nat by lia. apply (ak_rcost _ _ _ AK). lia.
  - destruct Hp as (-> & [->|(rows & _ & Red & Inc & ->)]).
    + split; [apply le_n|]. split; [apply (ds_cols _ _ _ DS)|]. split; [apply (ds_rhs _ _ _ DS)|apply (ds_cost _ _ _ DS)].
    + cbn [non_artificial remove_rows k_rows k_cols k_col k_cost p_rows p_cols p_col p_cost p_rhs]. split; [lia|].
      destruct Red as [ND Hrd] eqn:Er. clear Er. assert (Srt : sorted_rows (p_rows p) rows) by (split; [exact ND|]; intros i Hi; now apply Hrd). pose proof (kept_length _ _ Srt) as LK.
      assert (B : forall i, (i < p_rows p - length rows)%nat -> (nth i (kept (p_rows p) rows) 0 < p_rows p)%nat) by (intros i Li; apply (proj1 (kept_In (p_rows p) rows _)), nth_In; lia).
      split; [|split].
      * intros i j Li Lj. rewrite (pok_filter p Pok rows j Inc (conj ND Hrd) Lj).
        rewrite (den_sremove (p_rows p)); [apply (ds_cols _ _ _ DS); [now apply B|exact Lj]|exact ND| |lia].
        intros j' v Hin. apply (wfs_In_lt _ _ _ _ (pok_cols p Pok j Lj) Hin).
      * intros i Li. unfold nthq. rewrite nth_remove_indices; rewrite (pok_len p Pok); [|lia]. apply (ds_rhs _ _ _ DS). now apply B.
      * apply (ds_cost _ _ _ DS).
Qed.

Local Notation m := (p_rows p).
Local Notation M := (det_bound (p_rows p) K).
Lemma reach_fractions N : consistent O k (p_rhs p') t N -> exists D : Z, D <> 0%Z /\ (Z.abs D <= M)%Z /\
  (forall i j, (i < k_rows k)%nat -> (j < k_rows k)%nat -> zsmall M (N i j * zq_of D)) /\
  (forall i, (i < k_rows k)%nat -> zsmall M (nthq (c_b (t_im t)) i * zq_of D)) /\
  (forall i, (i < k_rows k)%nat -> zsmall M (nthq (c_mpi (t_im t)) i * zq_of D)) /\
  zsmall (Z.of_nat m * (K * M)) (objective_value t * zq_of (Zpos d * D)) /\
  (forall j, (j < k_cols k)%nat -> zsmall ((Z.of_nat m + 1) * (K * M)) (relative_cost k t j * zq_of (Zpos d * D))) /\
  (forall i j, (i < k_rows k)%nat -> (j < k_cols k)%nat -> zsmall M (sum (k_rows k) (fun l => N i l * den (k_col k j) l) * zq_of D)) /\
  (forall j, (j < k_cols k)%nat -> zsmall ((Z.of_nat m + 1) * (M * M)) (edge_weight k N j * zq_of (D * D))).
Proof using Pok DS H RL.
  intros CS. pose proof (ds_one _ _ _ DS) as KD. destruct (reach_reach_inv O L R RL p ph p' k t s Pok H) as (Kok & _ & _ & _). destruct reach_data as (Lm & HC & HR & HK).
  destruct (state_inverse d K O k (p_rhs p') t N KD HC CS) as (D & D0 & DM & DN). set (M' := det_bound (k_rows k) K) in *.
  assert (MM : (M' <= M)%Z) by (apply det_bound_le; lia). assert (P' : (1 <= M')%Z) by (apply det_bound_pos; lia).
  assert (Lz : (Z.of_nat (k_rows k) <= Z.of_nat m)%Z) by lia. assert (Pz : (0 <= Z.of_nat (k_rows k))%Z) by lia.
  exists D. split; [exact D0|]. split; [lia|]. split; [|split; [|split; [|split; [|split; [|split]]]]].
  - intros i j Li Lj. apply zsmall_le with (det_bound (Nat.pred (k_rows k)) K * K)%Z.
    + pose proof (det_bound_pred (k_rows k) K ltac:(lia)) as Q. pose proof (det_bound_pos (Nat.pred (k_rows k)) K ltac:(lia)). fold M' in Q. assert ((1 <= Z.of_nat (k_rows k))%Z) by lia. nia.
    + replace (N i j * zq_of D) with ((N i j / zq_of (Zpos d) * zq_of D) * zq_of (Zpos d)) by (field; apply zq_pos_nonzero).
      apply zsmall_mul; [now apply DN|]. exists (Zpos d). split; [reflexivity|lia].
  - intros i Li. apply zsmall_le with M'; [exact MM|]. exact (value_small d K O k (p_rhs p') t N KD HR CS D DN i Li).
  - intros i Li. apply zsmall_le with M'; [exact MM|]. exact (pi_small d K O k (p_rhs p') t N KD HK CS D DN i Li).
  - apply zsmall_le with (Z.of_nat (k_rows k) * (K * M'))%Z; [|exact (objective_small d K O k (p_rhs p') t N KD HR HK CS D DN)].
    apply Z.mul_le_mono_nonneg; [exact Pz|exact Lz|nia|nia].
  - intros j Lj. apply zsmall_le with (Z.of_nat (k_rows k) * (M' * K) + K * M')%Z; [|exact (relative_small d K O k (p_rhs p') t N KD HC HK CS D DM DN j Lj (proj1 Kok j Lj))].
    assert (Q : (K * M' <= K * M)%Z) by nia. assert (0 <= K * M')%Z by nia. nia.
  - intros i j Li Lj. apply zsmall_le with M'; [exact MM|]. apply (query_small d K k N KD D DN (fun l => den (k_col k j) l) i Li). intros l Ll. now apply HC.
  - intros j Lj. apply zsmall_le with (M' * M' + Z.of_nat (k_rows k) * (M' * M'))%Z; [|exact (weight_small d K k N KD HC D D0 DM DN j Lj)].
    assert (Q : (M' * M' <= M * M)%Z) by nia. assert (0 <= M' * M')%Z by nia. nia.
Qed.

Lemma reach_sizes :
  (forall i, (i < k_rows k)%nat -> size_at_most M (nthq (c_b (t_im t)) i)) /\
  (forall i, (i < k_rows k)%nat -> size_at_most M (nthq (c_mpi (t_im t)) i)) /\
  size_at_most ((Z.of_nat m + 1) * (K * M)) (objective_value t) /\
  (forall j, (j < k_cols k)%nat -> size_at_most ((Z.of_nat m + 1) * (K * M)) (relative_cost k t j)) /\
  (forall j c, (j < k_cols k)%nat -> generate_column k t j = Ok c -> forall i, (i < k_rows k)%nat -> size_at_most M (den (cci_col O c) i)) /\
  (forall i w, (i < k_rows k)%nat -> bi_row O (c_bi (t_im t)) i = Ok w -> forall l, (l < k_rows k)%nat -> size_at_most M (den w l)).
Proof using Pok DS H L RL.
  pose proof (ds_one _ _ _ DS) as KD. destruct (reach_consistent O L R RL p ph p' k t s Pok H) as (N & CS).
  destruct (reach_reach_inv O L R RL p ph p' k t s Pok H) as (Kok & HI & _ & _).
  destruct (reach_fractions N CS) as (D & D0 & DM & F1 & F2 & F3 & F4 & F5 & F6 & F7).
  assert (M1 : (1 <= M)%Z) by (apply det_bound_pos; lia). assert (DD : (Zpos d * D <> 0)%Z) by lia.
  assert (DB : (Z.abs (Zpos d * D) <= (Z.of_nat m + 1) * (K * M))%Z).
  { rewrite Z.abs_mul. assert (Q : (Z.abs (Zpos d) * Z.abs D <= K * M)%Z) by (apply Z.mul_le_mono_nonneg; lia). assert (0 <= K * M)%Z by nia. nia. }
  split; [|split; [|split; [|split; [|split]]]].
  - intros i Li. apply (small_size M _ D); auto.
  - intros i Li. apply (small_size M _ D); auto.
  - apply (small_size _ _ (Zpos d * D)); [exact DD|exact DB|]. revert F4. apply zsmall_le. assert (0 <= K * M)%Z by nia. nia.
  - intros j Lj. apply (small_size _ _ (Zpos d * D)); auto.
  - intros j c Lj E i Li. destruct (cs_query _ _ _ _ _ CS (k_col k j) (proj1 Kok j Lj)) as (c' & E' & V). unfold generate_column in E. rewrite E in E'. injection E' as <-.
    rewrite V by exact Li. apply (small_size M _ D); auto.
  - intros i w Li E l Ll. destruct (ci_rep _ _ _ _ _ (proj1 HI)) as (N' & Rp & HN). destruct (law_row O L _ _ N' i Rp Li) as (w' & E' & _ & V). rewrite E in E'. injection E' as <-.
    rewrite V by exact Ll. rewrite (inverse_unique _ _ _ _ HN (cs_inverse _ _ _ _ _ CS) i l Li Ll). apply (small_size M _ D); auto.
Qed.
(** weights of steepest edge pricing *)
Lemma weight_size N j : consistent O k (p_rhs p') t N -> (j < k_cols k)%nat -> size_at_most ((Z.of_nat m + 1) * (M * M)) (edge_weight k N j).
Proof using Pok DS H RL.
  intros CS Lj. pose proof (ds_one _ _ _ DS) as KD. destruct (reach_fractions N CS) as (D & D0 & DM & _ & _ & _ & _ & _ & _ & F7). assert (M1 : (1 <= M)%Z) by (apply det_bound_pos; lia).
  apply (small_size _ _ (D * D)); [lia| |now apply F7]. rewrite Z.abs_mul. assert (Q : (Z.abs D * Z.abs D <= M * M)%Z) by (apply Z.mul_le_mono_nonneg; lia). assert (0 <= M * M)%Z by nia. nia.
Qed.
Lemma size_zero B : (1 <= B)%Z -> size_at_most B 0.
Proof using. intros HB. split; cbn; lia. Qed.
Lemma bfs_sizes : forall j, size_at_most M (den (current_bfs t) j).
Proof using Pok DS H L RL.
  intros j. destruct reach_sizes as (S & _). destruct (reach_reach_inv O L R RL p ph p' k t s Pok H) as (Kok & HI & _ & _).
  destruct (Qc_eq_dec (den (current_bfs t) j) 0) as [->|NZ].
  - apply size_zero. apply det_bound_pos. pose proof (ds_one _ _ _ DS). lia.
  - destruct (den_nonzero_In _ _ NZ) as (v & Hin). pose proof (current_bfs_wfs O L k (rhs_of p') t HI) as W. apply (proj1 (den_In_iff _ _ _ _ W)) in Hin as Ev. rewrite (proj1 Ev).
    unfold current_bfs, carry_bfs in Hin. apply sort_by_In in Hin. apply filter_In in Hin. destruct Hin as [Hin _].
    apply in_combine_r in Hin. destruct (In_nth _ _ 0 Hin) as (r & Lr & Er). rewrite <- Er. apply S. rewrite <- (ci_lb _ _ _ _ _ (proj1 HI)). exact Lr.
Qed.
End Run.

(** ** Answers *)
Lemma run_sizes d K r n fuel p x : provider_ok p -> data_size d K p -> run r n fuel p = Ok (FiniteOptimum x) ->
  (forall j, size_at_most (det_bound (p_rows p) K) (den x j)) /\
  size_at_most ((Z.of_nat (p_rows p) + 1) * (K * det_bound (p_rows p) K)) (objective p (den x)).
Proof.
  intros Pok DS E. destruct (solve_end (ops r) (rule n (ops r)) fuel p _ E) as (p' & k & t & s & H & _ & ->). split.
  - exact (bfs_sizes d K (ops r) (laws r) _ (rule_laws n (ops r) (laws r)) p PhaseTwo p' k t (Some s) Pok DS H).
  - destruct (reach_sizes d K (ops r) (laws r) _ (rule_laws n (ops r) (laws r)) p PhaseTwo p' k t (Some s) Pok DS H) as (_ & _ & S & _).
    destruct (reach_objective (ops r) (laws r) _ (rule_laws n (ops r) (laws r)) p PhaseTwo p' k t (Some s) Pok H) as (_ & _ & EO).
    destruct (reach_reach_inv (ops r) (laws r) _ (rule_laws n (ops r) (laws r)) p PhaseTwo p' k t (Some s) Pok H) as (_ & _ & _ & Ek & Hp). subst k.
    replace (objective p (den (current_bfs t))) with (objective_value t); [exact S|]. destruct Hp as [->|(rows & _ & _ & _ & ->)]; exact EO.
Qed.
Lemma weights_sized d K r p ph p' k t (s : r_state (rule DescentAlongObjective (ops r))) : provider_ok p -> data_size d K p ->
  reach (ops r) (rule DescentAlongObjective (ops r)) p ph p' k t (Some s) ->
  forall j, eligible k (c_basis (t_im t)) j -> exists w, nth_error s j = Some (Some w) /\
    size_at_most ((Z.of_nat (p_rows p) + 1) * (det_bound (p_rows p) K * det_bound (p_rows p) K)) w.
Proof.
  intros Pok DS H j Ej. destruct (reach_consistent (ops r) (laws r) _ (rule_laws DescentAlongObjective (ops r) (laws r)) p ph p' k t (Some s) Pok H) as (N & CS).
  exists (edge_weight k N j). split; [exact (proj2 (weights_exact r p p' ph k t N Pok s H CS) j Ej)|].
  exact (weight_size d K (ops r) (laws r) _ (rule_laws DescentAlongObjective (ops r) (laws r)) p ph p' k t (Some s) Pok DS H N j CS (proj2 (proj1 Ej))).
Qed.
