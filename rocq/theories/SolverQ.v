(** * Proofs behind PropSolver.v, continued: pricing, basis inverses, permutations *)
From Verif Require Export SolverP.
From Coq Require Import Permutation.

(** ** Pricing *)
Definition eligible (k : kind) (basis : list nat) (j : nat) : Prop :=
  (k_art k <= j < k_cols k)%nat /\ ~ In j basis.
(** 1 + |B^-1 a_j|^2 *)
Definition edge_weight (k : kind) (N : mat) (j : nat) : Qc :=
  1 + sum (k_rows k) (fun r => sum (k_rows k) (fun i => N r i * den (k_col k j) i) *
                               sum (k_rows k) (fun i => N r i * den (k_col k j) i)).

Section Pricing.
Variable r : representation.
Variable p p' : provider.
Variable ph : phase.
Variable k : kind.
Variable t : tableau (ops r).
Variable N : mat.
Hypothesis Pok : provider_ok p.
Local Notation O := (ops r).
Local Notation basis := (c_basis (t_im t)).

Section Cons.
Hypothesis Kok : kind_ok k.
Hypothesis HI : tab_inv (laws r) k (rhs_of p') t.
Hypothesis C : consistent O k (p_rhs p') t N.
Lemma candidate_eligible j : candidate k t j <-> eligible k basis j.
Proof. unfold candidate, eligible. now rewrite (cs_set _ _ _ _ _ C j). Qed.
Lemma cost_eq j : (j < k_cols k)%nat -> relative_cost k t j = reduced_cost k basis N j.
Proof. intros Lj. now apply (cost_of_inverse O (laws r) k p' t N j). Qed.
Lemma select_eligible sel : select_ok k t sel ->
  match sel with
  | None => forall j, eligible k basis j -> 0 <= reduced_cost k basis N j
  | Some (q, c) => eligible k basis q /\ c = reduced_cost k basis N q /\ c < 0
  end.
Proof.
  destruct sel as [[q c]|]; cbn.
  - intros (A & B & D). assert (Lq : (q < k_cols k)%nat) by apply A. split; [now apply candidate_eligible|].
    rewrite <- cost_eq by assumption. now split.
  - intros H j Ej. rewrite <- cost_eq by apply Ej. apply H. now apply candidate_eligible.
Qed.
End Cons.

Lemma select_spec n s : reach O (rule n O) p ph p' k t (Some s) -> consistent O k (p_rhs p') t N ->
  exists sel s', r_select (rule n O) s k t = Ok (sel, s') /\
    match sel with
    | None => forall j, eligible k basis j -> 0 <= reduced_cost k basis N j
    | Some (q, c) => eligible k basis q /\ c = reduced_cost k basis N q /\ c < 0
    end.
Proof.
  intros Rc C. destruct (reach_reach_inv O (laws r) _ (rule_laws n O (laws r)) p _ _ _ _ _ Pok Rc) as (Kok & HI & Vs & _).
  destruct (rl_select _ _ (rule_laws n O (laws r)) k (rhs_of p') t s Kok HI Vs) as (sel & s' & E & Sl & _).
  exists sel, s'. split; [assumption|]. now apply select_eligible.
Qed.
Lemma first_profitable_least s q c s' : reach O (rule FirstProfitable O) p ph p' k t (Some s) ->
  consistent O k (p_rhs p') t N -> r_select (rule FirstProfitable O) s k t = Ok (Some (q, c), s') ->
  forall j, eligible k basis j -> (j < q)%nat -> 0 <= reduced_cost k basis N j.
Proof.
  intros Rc C E j Ej Lj. destruct (reach_reach_inv O (laws r) _ (rule_laws FirstProfitable O (laws r)) p _ _ _ _ _ Pok Rc) as (Kok & HI & _).
  cbn in E. injection E as E _. pose proof (find_profitable_first O k t _ _ q c E j) as F.
  rewrite <- cost_eq; try assumption; [|apply Ej]. apply F; [destruct Ej; lia|]. now apply (candidate_eligible C).
Qed.
Lemma variable_least s q c s' : reach O (rule DescentAlongVariable O) p ph p' k t (Some s) ->
  consistent O k (p_rhs p') t N -> r_select (rule DescentAlongVariable O) s k t = Ok (Some (q, c), s') ->
  forall j, eligible k basis j -> reduced_cost k basis N q <= reduced_cost k basis N j.
Proof.
  intros Rc C E j Ej. destruct (reach_reach_inv O (laws r) _ (rule_laws DescentAlongVariable O (laws r)) p _ _ _ _ _ Pok Rc) as (Kok & HI & _).
  cbn in E. injection E as E _. pose proof (steepest_variable_spec O k t) as [S1 S2]. rewrite E in S1, S2.
  destruct S1 as (A & B & _). rewrite <- (cost_eq Kok HI C q) by apply A. rewrite <- B.
  rewrite <- cost_eq; try assumption; [|apply Ej]. apply S2. now apply (candidate_eligible C).
Qed.
Lemma weights_exact (s : r_state (rule DescentAlongObjective O)) :
  reach O (rule DescentAlongObjective O) p ph p' k t (Some s) ->
  consistent O k (p_rhs p') t N ->
  length s = k_cols k /\
  forall j, eligible k basis j -> nth_error s j = Some (Some (edge_weight k N j)).
Proof.
  intros Rc C. destruct (reach_reach_inv O (laws r) _ (rule_laws DescentAlongObjective O (laws r)) p _ _ _ _ _ Pok Rc) as (Kok & HI & Vs & _).
  destruct Vs as [V1 V2]. split; [exact V1|]. intros j Ej. apply (candidate_eligible C) in Ej.
  destruct (V2 j Ej) as (g & Eg & W). rewrite Eg. do 2 f_equal.
  apply (weight_of_inverse k N) in W; [exact W|]. exact (cs_inverse _ _ _ _ _ C).
Qed.
Lemma objective_steepest s q c s' : reach O (rule DescentAlongObjective O) p ph p' k t (Some s) ->
  consistent O k (p_rhs p') t N -> r_select (rule DescentAlongObjective O) s k t = Ok (Some (q, c), s') ->
  forall j, eligible k basis j -> reduced_cost k basis N j < 0 ->
    reduced_cost k basis N j * reduced_cost k basis N j / edge_weight k N j <=
    reduced_cost k basis N q * reduced_cost k basis N q / edge_weight k N q.
Proof.
  intros Rc C E j Ej Cj. pose proof (weights_exact s Rc C) as [_ WE].
  destruct (reach_reach_inv O (laws r) _ (rule_laws DescentAlongObjective O (laws r)) p _ _ _ _ _ Pok Rc) as (Kok & HI & Vs & _).
  cbn in Vs. destruct (sdo_select_spec O k t s Vs) as (sel & E1 & S1 & S2).
  cbn in E. rewrite E1 in E. cbn [bind] in E. injection E as -> _.
  destruct S1 as (A & B & _). destruct S2 as (g & Eg & S2).
  rewrite (WE q) in Eg by (now apply (candidate_eligible C)). injection Eg as <-.
  assert (Lq : (q < k_cols k)%nat) by apply A.
  rewrite <- (cost_eq Kok HI C q Lq), <- B. assert (Lj : (j < k_cols k)%nat) by apply Ej.
  rewrite <- (cost_eq Kok HI C j Lj) in *. apply (S2 j); try assumption.
  - now apply (candidate_eligible C).
  - now apply WE.
Qed.
End Pricing.

(** ** Basis inverses *)
Section Hist.
Variable O : BIOps.
Variable L : BILaws O.
Lemma nth_units m j : (j < m)%nat -> nth j (map sbasis (seq 0 m)) [] = sbasis j.
Proof.
  intros Lj. rewrite (nth_indep _ [] (sbasis 0)) by (rewrite map_length, seq_length; lia).
  rewrite map_nth, seq_nth by lia. reflexivity.
Qed.
Lemma sbasis_wfs m i : (i < m)%nat -> wfs m (sbasis i).
Proof. intros H. cbn. repeat split; try lia. discriminate. Qed.
Lemma den_sbasis i j : den (sbasis i) j = delta i j.
Proof. cbn. unfold delta. rewrite Nat.eqb_sym. destruct (Nat.eqb i j); ring. Qed.
Lemma history_rep m b cols : history O m b cols ->
  length cols = m /\ Forall (wfs m) cols /\ exists N, rep L m b N /\ is_inverse m N (cols_mat cols).
Proof.
  induction 1 as [b E|b cols Hl Hw [N HN] E|b cols a cc r b' w H IH Wa El Lr Nz E].
  - split; [now rewrite map_length, seq_length|]. split.
    { apply Forall_forall. intros c Hc. apply in_map_iff in Hc. destruct Hc as (i & <- & Hi).
      apply in_seq in Hi. apply sbasis_wfs. lia. }
    exists delta. split; [now apply (law_identity O L)|].
    assert (E1 : meq m m (cols_mat (map sbasis (seq 0 m))) delta).
    { intros i j Li Lj. unfold cols_mat. rewrite nth_units by assumption. rewrite den_sbasis. unfold delta. now rewrite Nat.eqb_sym. }
    split; intros i j Li Lj; unfold mmul.
    + rewrite sum_delta_l by assumption. now apply E1.
    + rewrite (sum_delta_r m j (fun l => cols_mat (map sbasis (seq 0 m)) i l)) by assumption. now apply E1.
  - split; [assumption|]. split; [assumption|]. exists N. split; [|assumption]. now apply (law_invert O L m cols).
  - destruct IH as (Hl & Hw & N & Rp & HN). split; [now rewrite upd_length|]. split.
    { apply Forall_forall. intros c Hc. destruct (In_nth _ _ [] Hc) as (i & Li & <-). rewrite upd_length in Li.
      rewrite upd_nth by lia. destruct (Nat.eqb i r); [assumption|]. rewrite Forall_forall in Hw. apply Hw, nth_In. lia. }
    destruct (law_change O L m b N a cc r b' w Rp Wa El Lr Nz E) as [_ Rp'].
    destruct (law_left O L m b N a Rp Wa) as (cc' & El' & _ & D). rewrite El in El'. injection El' as <-.
    exists (pivot N r (den (cci_col O cc))). split; [assumption|].
    assert (PI := pivot_inverse m N (cols_mat cols) r (den a) (den (cci_col O cc)) Lr HN D Nz).
    assert (E1 : meq m m (set_col (cols_mat cols) r (den a)) (cols_mat (upd cols r a))).
    { intros i j Li Lj. unfold set_col, cols_mat. rewrite upd_nth by lia. now destruct (Nat.eqb j r). }
    destruct PI as [P1 P2]. split; intros i j Li Lj; unfold mmul.
    + rewrite <- (P1 i j Li Lj). apply sum_ext. intros l Ll. now rewrite <- (E1 l j).
    + rewrite <- (P2 i j Li Lj). apply sum_ext. intros l Ll. now rewrite <- (E1 i l).
Qed.
Lemma rep_queries m b N : rep L m b N -> exact_queries O m b N.
Proof.
  intros Rp. split.
  - intros a Wa. exact (law_left O L m b N a Rp Wa).
  - intros a Wa Ne. exact (law_right O L m b N a Rp Wa Ne).
  - intros i a Wa Li. destruct (law_elem O L m b N i a Rp Wa Li) as ([v|] & E & H); eexists; (split; [exact E|]); auto.
  - intros i Li. exact (law_row O L m b N i Rp Li).
Qed.
Lemma history_exact m b cols : history O m b cols ->
  exists N, is_inverse m N (fun i j => den (nth j cols []) i) /\ exact_queries O m b N.
Proof. intros H. destruct (history_rep m b cols H) as (_ & _ & N & Rp & HN). exists N. split; [exact HN|now apply rep_queries]. Qed.
Lemma history_change m b cols a cc r : history O m b cols -> ok_change L m -> wfs m a -> bi_left O b a = Ok cc ->
  (r < m)%nat -> den (cci_col O cc) r <> 0 -> exists b' w, bi_change O b r cc = Ok (b', w).
Proof.
  intros H M Wa El Lr Nz. destruct (history_rep m b cols H) as (_ & _ & N & Rp & HN).
  now apply (law_change_total O L m b N a).
Qed.
End Hist.

(** ** Permutations *)
Definition two_way (m : nat) (F G : nat -> nat) : Prop :=
  (forall i, (i < m)%nat -> (F i < m)%nat /\ G (F i) = i) /\ (forall i, (i < m)%nat -> (G i < m)%nat /\ F (G i) = i).
(** [l'] is [l] with every index [i] replaced by [F i], sorted, and with the same meaning *)
Definition moved (m : nat) (F : nat -> nat) (l l' : svec) : Prop :=
  wfs m l' /\ forall i, (i < m)%nat -> den l' (F i) = den l i.

Lemma swap_two_way m a b : (a < m)%nat -> (b < m)%nat -> two_way m (sw_forward a b) (sw_forward a b).
Proof. intros; split; intros i Li; (split; [now apply sw_forward_lt|apply sw_forward_invol]). Qed.
Lemma rotate_two_way m t : (t < m)%nat -> two_way m (rb_forward t m) (rb_backward t m).
Proof.
  intros; split; intros i Li.
  - split; [now apply rb_forward_lt|now apply rb_back_forw].
  - split; [now apply rb_backward_lt|now apply rb_forw_back].
Qed.
Lemma swap_moved m a b l : (a < m)%nat -> (b < m)%nat -> wfs m l ->
  exists l', sw_sorted a b l = Ok l' /\ moved m (sw_forward a b) l l'.
Proof.
  intros La Lb W. destruct (sw_sorted_spec m a b l W La Lb) as (l' & E & W' & D). exists l'. split; [assumption|].
  split; [assumption|]. intros i _. now rewrite D, sw_forward_invol.
Qed.
Lemma rotate_moved m t l : (t < m)%nat -> wfs m l -> exists l', rb_sorted t m l = Ok l' /\ moved m (rb_forward t m) l l'.
Proof.
  intros Lt W. destruct (rb_sorted_spec m t l W Lt) as (l' & E & W' & D). exists l'. split; [assumption|].
  split; [assumption|]. intros i Li. rewrite D by now apply rb_forward_lt. now rewrite rb_back_forw.
Qed.
Lemma rotate_back_moved m t l : (t < m)%nat -> wfs m l ->
  exists l', rb_back_sorted t m l = Ok l' /\ moved m (rb_backward t m) l l'.
Proof.
  intros Lt W. destruct (rb_back_sorted_spec m t l W Lt) as (l' & E & W' & D). exists l'. split; [assumption|].
  split; [assumption|]. intros i Li. rewrite D by now apply rb_backward_lt. now rewrite rb_forw_back.
Qed.

(** a full permutation that was made and changed through the interface *)
Inductive full_history (m : nat) : full -> Prop :=
| fh_new fwd : length fwd = m -> NoDup fwd -> (forall x, In x fwd -> (x < m)%nat) -> full_history m (full_new fwd)
| fh_identity : full_history m (full_identity m)
| fh_invert f : full_history m f -> full_history m (full_invert f)
| fh_swap f i j f' : full_history m f -> (i < m)%nat -> (j < m)%nat -> full_swap f i j = Ok f' -> full_history m f'
| fh_swap_inverse f i j f' : full_history m f -> (i < m)%nat -> (j < m)%nat -> full_swap_inverse f i j = Ok f' ->
    full_history m f'.

Lemma swap_list_spec (l : list nat) i j : (i < length l)%nat -> (j < length l)%nat ->
  exists l', swap_list l i j = Ok l' /\ length l' = length l /\ forall x, (x < length l)%nat -> nth x l' 0%nat = nth (sw_forward i j x) l 0%nat.
Proof.
  intros Li Lj. unfold swap_list. rewrite !(index_Ok _ _ 0%nat) by assumption. cbn [bind]. eexists. split; [reflexivity|].
  split; [now rewrite !upd_length|]. intros x Lx. rewrite !upd_nth by (rewrite ?upd_length; lia). unfold sw_forward.
  destruct (Nat.eqb_spec x j), (Nat.eqb_spec x i); subst; auto.
Qed.
Lemma full_swap_total m f i j : is_full m f -> (i < m)%nat -> (j < m)%nat ->
  exists f', full_swap f i j = Ok f' /\ is_full m f' /\
    forall x, (x < m)%nat -> nth x (f_fw f') 0%nat = nth (sw_forward i j x) (f_fw f) 0%nat.
Proof.
  intros [A B C D] Li Lj. unfold full_swap. rewrite !(index_Ok _ _ 0%nat) by lia. cbn [bind].
  destruct (C i Li) as [Ci Bi]. destruct (C j Lj) as [Cj Bj].
  destruct (swap_list_spec (f_fw f) i j) as (fw & -> & Lf & Vf); [lia|lia|].
  destruct (swap_list_spec (f_bw f) (nth i (f_fw f) 0%nat) (nth j (f_fw f) 0%nat)) as (bw & -> & Lb & Vb); [lia|lia|].
  cbn [bind]. eexists. split; [reflexivity|]. split; [|intros x Lx; cbn; apply Vf; lia].
  assert (K : forall x, (x < m)%nat -> sw_forward (nth i (f_fw f) 0%nat) (nth j (f_fw f) 0%nat) (nth x (f_fw f) 0%nat)
      = nth (sw_forward i j x) (f_fw f) 0%nat).
  { intros x Lx. destruct (C x Lx) as [Cx Bx]. unfold sw_forward.
    destruct (Nat.eqb_spec x i) as [->|N1]; [now rewrite Nat.eqb_refl|].
    destruct (Nat.eqb_spec (nth x (f_fw f) 0%nat) (nth i (f_fw f) 0%nat)) as [E1|_]; [exfalso; apply N1; congruence|].
    destruct (Nat.eqb_spec x j) as [->|N2]; [now rewrite Nat.eqb_refl|].
    destruct (Nat.eqb_spec (nth x (f_fw f) 0%nat) (nth j (f_fw f) 0%nat)) as [E1|_]; [exfalso; apply N2; congruence|reflexivity]. }
  split; cbn [f_fw f_bw].
  - lia.
  - lia.
  - intros x Lx. assert (Ls := sw_forward_lt i j m x Li Lj Lx). rewrite Vf by lia. destruct (C _ Ls) as [Cs Bs].
    split; [assumption|]. rewrite Vb by lia. rewrite K by assumption. rewrite sw_forward_invol. now apply C.
  - intros x Lx. assert (Ls := sw_forward_lt _ _ m x Ci Cj Lx). rewrite Vb by lia. destruct (D _ Ls) as [Ds Fs].
    split; [assumption|]. rewrite Vf by lia. rewrite <- K by assumption. rewrite Fs. apply sw_forward_invol.
Qed.
Lemma full_swap_inverse_total m f i j : is_full m f -> (i < m)%nat -> (j < m)%nat ->
  exists f', full_swap_inverse f i j = Ok f' /\ is_full m f' /\
    forall x, (x < m)%nat -> nth x (f_bw f') 0%nat = nth (sw_forward i j x) (f_bw f) 0%nat.
Proof.
  intros H Li Lj. destruct (full_swap_total m (full_invert f) i j (full_invert_spec m f H) Li Lj) as (f' & E & H' & V).
  exists (full_invert f'). split; [|split; [now apply full_invert_spec|exact V]].
  revert E. unfold full_swap_inverse, full_swap, full_invert. cbn [f_fw f_bw].
  destruct (index (f_bw f) i) as [it| |]; cbn [bind]; try discriminate.
  destruct (index (f_bw f) j) as [jt| |]; cbn [bind]; try discriminate.
  destruct (swap_list (f_bw f) i j) as [bw| |]; cbn [bind]; try discriminate.
  destruct (swap_list (f_fw f) it jt) as [fw| |]; cbn [bind]; try discriminate.
  intros E. injection E as <-. reflexivity.
Qed.
Lemma full_history_full m f : full_history m f -> is_full m f.
Proof.
  induction 1 as [fwd A B C| |f H IH|f i j f' H IH Li Lj E|f i j f' H IH Li Lj E].
  - now apply full_new_spec.
  - apply full_identity_spec.
  - now apply full_invert_spec.
  - destruct (full_swap_total m f i j IH Li Lj) as (f1 & E1 & H1 & _). congruence.
  - destruct (full_swap_inverse_total m f i j IH Li Lj) as (f1 & E1 & H1 & _). congruence.
Qed.
Lemma full_two_way m f : full_history m f ->
  exists F G, two_way m F G /\ forall i, (i < m)%nat -> full_forward f i = Ok (F i) /\ full_backward f i = Ok (G i).
Proof.
  intros H. apply full_history_full in H. exists (fun i => nth i (f_fw f) 0%nat), (fun i => nth i (f_bw f) 0%nat).
  split; [split; [exact (fu_f m f H)|exact (fu_b m f H)]|]. intros i Li. split.
  - now apply (full_forward_ok m).
  - now apply (full_backward_ok m).
Qed.
Lemma full_moved m f l : full_history m f -> wfs m l ->
  exists F G, (forall i, (i < m)%nat -> full_forward f i = Ok (F i) /\ full_backward f i = Ok (G i)) /\
    (exists l', map_sorted (full_forward f) l = Ok l' /\ moved m F l l') /\
    (exists l', map_sorted (full_backward f) l = Ok l' /\ moved m G l l').
Proof.
  intros H W. pose proof (full_history_full m f H) as Fu.
  exists (fun i => nth i (f_fw f) 0%nat), (fun i => nth i (f_bw f) 0%nat). split; [|split].
  - intros i Li. split; [now apply (full_forward_ok m)|now apply (full_backward_ok m)].
  - destruct (full_forward_sorted m f l Fu W) as (l' & E & W' & D). exists l'. split; [assumption|]. split; [assumption|].
    intros i Li. destruct (fu_f m f Fu i Li) as [Lf Bf]. rewrite D by assumption. now rewrite Bf.
  - destruct (full_backward_sorted m f l Fu W) as (l' & E & W' & D). exists l'. split; [assumption|]. split; [assumption|].
    intros i Li. destruct (fu_b m f Fu i Li) as [Lf Bf]. rewrite D by assumption. now rewrite Bf.
Qed.

(** ** Reached states of the examples *)
Definition started (r : representation) (n : rule_name) (p : provider) (l : nat) : bool :=
  match p_init p with
  | PartialInit real =>
      match new_partially (ops r) p real with
      | Ok (t, arts) =>
          match r_new (rule n (ops r)) (partially p arts) t with
          | Ok s => match steps (ops r) (rule n (ops r)) l (partially p arts) t s with Ok _ => true | _ => false end
          | _ => false
          end
      | _ => false
      end
  | NoInit =>
      match new_fully (ops r) p with
      | Ok t =>
          match r_new (rule n (ops r)) (fully p) t with
          | Ok s => match steps (ops r) (rule n (ops r)) l (fully p) t s with Ok _ => true | _ => false end
          | _ => false
          end
      | _ => false
      end
  | FullInit _ => false
  end.
Lemma steps_reach O R p ph p' k : forall l t s t' s', reach O R p ph p' k t (Some s) ->
  steps O R l k t s = Ok (t', s') -> reach O R p ph p' k t' (Some s').
Proof.
  induction l as [|l IH]; intros t s t' s' H E; cbn [steps] in E; [injection E as <- <-; exact H|].
  destruct (simplex_step O R k t s) as [[| |t1 s1]| |] eqn:E1; cbn [bind] in E; try discriminate.
  apply (IH t1 s1); [|assumption]. now apply reach_step with t s.
Qed.
Lemma started_reach r n p l : started r n p l = true ->
  exists k t s, reach (ops r) (rule n (ops r)) p PhaseOne p k t (Some s).
Proof.
  unfold started. intros H. destruct (p_init p) as [|real|] eqn:Ei; try discriminate.
  - destruct (new_fully (ops r) p) as [t| |] eqn:E1; try discriminate.
    destruct (r_new (rule n (ops r)) (fully p) t) as [s| |] eqn:E2; try discriminate.
    destruct (steps (ops r) (rule n (ops r)) l (fully p) t s) as [[t' s']| |] eqn:E3; try discriminate.
    exists (fully p), t', s'. apply (steps_reach _ _ _ _ _ _ l t s); [|assumption]. now apply reach_fully.
  - destruct (new_partially (ops r) p real) as [[t arts]| |] eqn:E1; try discriminate.
    destruct (r_new (rule n (ops r)) (partially p arts) t) as [s| |] eqn:E2; try discriminate.
    destruct (steps (ops r) (rule n (ops r)) l (partially p arts) t s) as [[t' s']| |] eqn:E3; try discriminate.
    exists (partially p arts), t', s'. apply (steps_reach _ _ _ _ _ _ l t s); [|assumption]. now apply (reach_partially _ _ _ real).
Qed.

(** results compared by computation *)
Definition qeq_list (a b : svec) : bool :=
  Nat.eqb (length a) (length b) && forallb (fun '((i, x), (j, y)) => Nat.eqb i j && qeqb x y) (combine a b).
Lemma qeq_list_ok : forall a b, qeq_list a b = true -> a = b.
Proof.
  unfold qeq_list. induction a as [|[i x] a IH]; intros [|[j y] b] H; cbn in H; try reflexivity; try discriminate.
  apply andb_true_iff in H. destruct H as [H1 H2]. apply andb_true_iff in H2. destruct H2 as [H2 H3].
  apply andb_true_iff in H2. destruct H2 as [H2 H4]. apply Nat.eqb_eq in H2. qb. subst. f_equal. apply IH. now rewrite H1, H3.
Qed.
Definition result_is (r : res opt_result) (x : opt_result) : bool :=
  match r, x with
  | Ok (FiniteOptimum a), FiniteOptimum b => qeq_list a b
  | Ok Infeasible, Infeasible => true
  | Ok Unbounded, Unbounded => true
  | _, _ => false
  end.
Lemma result_is_ok r x : result_is r x = true -> r = Ok x.
Proof.
  destruct r as [[|a|]| |], x as [|b|]; cbn; try discriminate; try reflexivity. intros H.
  now rewrite (qeq_list_ok a b H).
Qed.

Lemma run_mono r n p f g : (f <= g)%nat -> run r n f p <> Fuel -> run r n g p = run r n f p.
Proof. apply solve_mono. Qed.
Lemma run_agree n f p : provider_ok p ->
  agree (sizes_ok LU LU_laws p /\ sizes_ok BIR BIR_laws p) eq (run UseLU n f p) (run UseRows n f p).
Proof. intros Pok. exact (solve_agree _ _ _ _ _ _ _ _ (rule_sim n LU BIR LU_laws BIR_laws) f p Pok). Qed.
Lemma run_same n f1 f2 p a b : provider_ok p -> run UseLU n f1 p = Ok a -> run UseRows n f2 p = Ok b -> a = b.
Proof.
  intros Pok E1 E2. set (f := Nat.max f1 f2).
  assert (H1 : run UseLU n f p = Ok a) by (rewrite <- E1; apply run_mono; [unfold f; lia|congruence]).
  assert (H2 : run UseRows n f p = Ok b) by (rewrite <- E2; apply run_mono; [unfold f; lia|congruence]).
  pose proof (run_agree n f p Pok) as A. rewrite H1, H2 in A. exact A.
Qed.
Lemma run_equal n f p : provider_ok p -> (2 <= p_rows p)%nat ->
  (forall rm, redundant p rm -> (length rm + 2 <= p_rows p)%nat) -> run UseLU n f p = run UseRows n f p.
Proof.
  intros Pok H2 H. pose proof (run_agree n f p Pok) as A.
  assert (Sz : sizes_ok LU LU_laws p /\ sizes_ok BIR BIR_laws p).
  { split; [now apply sizes_lu|]. apply sizes_rows. intros; lia. }
  destruct (run UseLU n f p), (run UseRows n f p); cbn in A; try reflexivity; try (exfalso; exact (A Sz)). now subst.
Qed.

(** what the results of the examples are, and that they have enough independent rows *)
Definition ok_rank2 (p : provider) (y0 y1 : nat) : bool := (* columns [y0], [y1] are unit columns of rows 0, 1 *)
  Nat.ltb y0 (p_cols p) && Nat.ltb y1 (p_cols p) && unitb (p_col p y0) 0 && unitb (p_col p y1) 1 && Nat.ltb 1 (p_rows p).
Lemma unit_column_kept p rm i j : (i < p_rows p)%nat -> (j < p_cols p)%nat -> p_col p j = sbasis i -> redundant p rm -> ~ In i rm.
Proof.
  intros Li Lj E [_ R] Hi. destruct (R i Hi) as (_ & y & Y1 & _ & Y3 & _). specialize (Y3 j Lj). rewrite E in Y3.
  rewrite (sum_ext _ _ (fun r => y r * delta r i)) in Y3.
  - rewrite (sum_delta_r (p_rows p) i y) in Y3 by assumption. rewrite Y1 in Y3. discriminate.
  - intros r _. rewrite den_sbasis. unfold delta. now rewrite Nat.eqb_sym.
Qed.
Lemma rank2_ok p y0 y1 : ok_rank2 p y0 y1 = true -> (2 <= p_rows p)%nat /\ forall rm, redundant p rm -> (length rm + 2 <= p_rows p)%nat.
Proof.
  unfold ok_rank2. intros H. repeat (apply andb_true_iff in H; destruct H as [H ?]).
  apply Nat.ltb_lt in H. repeat match goal with X : Nat.ltb _ _ = true |- _ => apply Nat.ltb_lt in X end.
  repeat match goal with X : unitb _ _ = true |- _ => apply unitb_ok in X end.
  split; [lia|]. intros rm Red.
  assert (N0 : ~ In 0%nat rm) by (apply (unit_column_kept p rm 0 y0); auto; lia).
  assert (N1 : ~ In 1%nat rm) by (apply (unit_column_kept p rm 1 y1); auto; lia).
  destruct Red as [ND R]. assert (Inc : incl rm (seq 2 (p_rows p - 2))).
  { intros i Hi. destruct (R i Hi) as [Li _]. apply in_seq. destruct i as [|[|i]]; [contradiction|contradiction|lia]. }
  pose proof (NoDup_incl_length ND Inc) as Le. rewrite seq_length in Le. lia.
Qed.

(** ** Remaining lemmas of PropSolver.v *)
Lemma removal_consistent r n fuel p rows t a t' : provider_ok p -> (forall l, p_init p <> FullInit l) ->
  compute_bfs (ops r) (rule n (ops r)) fuel p = Ok (PhaseOneFeasible _ (RankDeficient rows) t, a) ->
  tab_from_artificial_remove (t_im t) a (t_cols t) (remove_rows p rows) rows = Ok t' ->
  exists N, consistent (ops r) (non_artificial (remove_rows p rows)) (p_rhs (remove_rows p rows)) t' N.
Proof.
  intros Pok NF E ET.
  pose proof (compute_bfs_spec (ops r) (laws r) _ (rule_laws n (ops r) (laws r)) fuel p Pok NF) as S.
  rewrite E in S. destruct S as (k & c2r & AK & Kok & Ea & PE). cbn [fst snd phase_one_end] in *. destruct PE as [Ne V].
  pose proof (from_artificial_remove_spec (ops r) (laws r) p k c2r Pok AK t rows V) as FS.
  subst a. rewrite ET in FS. destruct FS as [HI _].
  exact (inv_consistent (ops r) (laws r) (non_artificial (remove_rows p rows)) (remove_rows p rows) t' HI).
Qed.
Definition same_rows (a b : list nat) : bool := if list_eq_dec Nat.eq_dec a b then true else false.
Lemma ex_redundant_rows r n : exists t a,
  compute_bfs (ops r) (rule n (ops r)) 20 ex_redundant = Ok (PhaseOneFeasible _ (RankDeficient [2%nat]) t, a).
Proof.
  assert (E : match compute_bfs (ops r) (rule n (ops r)) 20 ex_redundant with
     | Ok (PhaseOneFeasible _ (RankDeficient rows) _, _) => same_rows rows [2%nat] | _ => false end = true)
    by (destruct r, n; vm_compute; reflexivity).
  destruct (compute_bfs _ _ _ _) as [[[[|rows] t|] a]| |]; try discriminate.
  unfold same_rows in E. destruct (list_eq_dec Nat.eq_dec rows [2%nat]) as [->|]; [|discriminate]. now exists t, a.
Qed.
Lemma loop_first_profitable r p ph p' k t s : provider_ok p ->
  reach (ops r) (rule FirstProfitable (ops r)) p ph p' k t (Some s) -> (r = UseLU -> (2 <= k_rows k)%nat) ->
  simplex_loop (ops r) (rule FirstProfitable (ops r)) (k_cols k ^ k_rows k) k t s <> Fuel.
Proof.
  intros Pok Rc H. apply (phase_two_first_profitable r p' k t p ph s Pok Rc). destruct r; cbn; auto.
Qed.
Lemma ex_cycle_optimal : exists x, optimal ex_cycle x.
Proof.
  exists (den [(0%nat, half); (2%nat, half); (4%nat, half); (6%nat, Q2Qc (17 # 2))]).
  apply (run_optimum UseRows FirstProfitable 20 ex_cycle _ ex_cycle_ok). apply result_is_ok. vm_compute. reflexivity.
Qed.
Lemma default_rule_cycles : exists p, provider_ok p /\ (exists x, optimal p x) /\
  forall r fuel, run r DescentAlongObjective fuel p = Fuel.
Proof. exists ex_cycle. exact (conj ex_cycle_ok (conj ex_cycle_optimal objective_cycles)). Qed.
Lemma memory_rule_cycles : exists p, provider_ok p /\ (exists x, optimal p x) /\
  forall r fuel, run r FirstProfitableWithMemory fuel p = Fuel.
Proof. exists ex_cycle. exact (conj ex_cycle_ok (conj ex_cycle_optimal memory_cycles)). Qed.
Lemma ex_optimum_state r n : exists k t s N,
  reach (ops r) (rule n (ops r)) ex_optimum PhaseOne ex_optimum k t (Some s) /\ consistent (ops r) k (p_rhs ex_optimum) t N.
Proof.
  destruct (started_reach r n ex_optimum 0) as (k & t & s & Rc); [destruct r, n; vm_compute; reflexivity|].
  assert (Pok : provider_ok ex_optimum) by (apply plain_ok; vm_compute; reflexivity).
  destruct (reach_consistent (ops r) (laws r) _ (rule_laws n (ops r) (laws r)) _ _ _ _ _ _ Pok Rc) as [N C].
  now exists k, t, s, N.
Qed.
Lemma ex_cycle_state r : exists k t s,
  reach (ops r) (rule DescentAlongObjective (ops r)) ex_cycle PhaseTwo ex_cycle k t (Some s).
Proof.
  assert (E : match compute_bfs (ops r) (rule DescentAlongObjective (ops r)) 5 ex_cycle with
     | Ok (PhaseOneFeasible _ RankFull t, a) =>
         match tab_from_artificial (t_im t) a (t_cols t) ex_cycle with
         | Ok t' => match r_new (rule DescentAlongObjective (ops r)) (non_artificial ex_cycle) t' with
                    | Ok s => match steps (ops r) (rule DescentAlongObjective (ops r)) 3 (non_artificial ex_cycle) t' s with
                              | Ok _ => true | _ => false end
                    | _ => false end
         | _ => false end
     | _ => false end = true) by (destruct r; vm_compute; reflexivity).
  destruct (compute_bfs _ _ _ _) as [[[[|rows] t|] a]| |] eqn:E1; try discriminate.
  destruct (tab_from_artificial _ _ _ _) as [t'| |] eqn:E2; try discriminate.
  destruct (r_new (rule DescentAlongObjective (ops r)) (non_artificial ex_cycle) t') as [s| |] eqn:E3; try discriminate.
  destruct (steps _ _ _ _ _ _) as [[t2 s2]| |] eqn:E4; try discriminate.
  exists (non_artificial ex_cycle), t2, s2. apply (steps_reach _ _ _ _ _ _ 3 t' s); [|assumption].
  apply (reach_full_rank _ _ _ 5 t a); try assumption. intros l H. discriminate H.
Qed.
Lemma rows_total :
  (forall m, exists b, bi_identity BIR m = Ok b) /\
  (forall m cols N, (1 <= m)%nat -> length cols = m -> Forall (wfs m) cols ->
     is_inverse m N (fun i j => den (nth j cols []) i) -> exists b, bi_invert BIR cols = Ok b) /\
  (forall m b cols a cc r, history BIR m b cols -> wfs m a -> bi_left BIR b a = Ok cc ->
     (r < m)%nat -> den (cci_col BIR cc) r <> 0 -> exists b' w, bi_change BIR b r cc = Ok (b', w)).
Proof.
  split; [|split].
  - intros m. exact (law_identity_total BIR BIR_laws m I).
  - intros m cols N. exact (law_invert_total BIR BIR_laws m cols N).
  - intros m b cols a cc r H. apply (history_change BIR BIR_laws m b cols a cc r H I).
Qed.
Lemma lu_total :
  (forall m, (1 <= m)%nat -> exists b, bi_identity LU m = Ok b) /\
  (forall m cols N, (1 <= m)%nat -> length cols = m -> Forall (wfs m) cols ->
     is_inverse m N (fun i j => den (nth j cols []) i) -> exists b, bi_invert LU cols = Ok b) /\
  (forall m b cols a cc r, history LU m b cols -> (2 <= m)%nat -> wfs m a -> bi_left LU b a = Ok cc ->
     (r < m)%nat -> den (cci_col LU cc) r <> 0 -> exists b' w, bi_change LU b r cc = Ok (b', w)).
Proof.
  split; [|split].
  - exact (law_identity_total LU LU_laws).
  - intros m cols N. exact (law_invert_total LU LU_laws m cols N).
  - intros m b cols a cc r H M. apply (history_change LU LU_laws m b cols a cc r H M).
Qed.
Lemma lu_one_row : exists b a cc, history LU 1 b (map sbasis (seq 0 1)) /\ wfs 1 a /\
  bi_left LU b a = Ok cc /\ den (cci_col LU cc) 0%nat <> 0 /\ bi_change LU b 0%nat cc = Panic.
Proof.
  destruct (law_identity_total LU LU_laws 1 ltac:(cbn; lia)) as [b Eb].
  pose proof (h_identity LU 1 b Eb) as H. assert (Wa := sbasis_wfs 1 0 ltac:(lia)).
  destruct (law_left LU LU_laws 1 b delta (sbasis 0) (law_identity LU LU_laws 1 b Eb) Wa) as (cc & El & Wc & D).
  exists b, (sbasis 0), cc. split; [exact H|]. split; [exact Wa|]. split; [exact El|]. split.
  - rewrite D by lia. vm_compute. discriminate.
  - revert El. vm_compute in Eb. injection Eb as <-. vm_compute. intros El. injection El as <-. vm_compute. reflexivity.
Qed.
Lemma full_all m f : full_history m f ->
  exists F G, two_way m F G /\ (forall i, (i < m)%nat -> full_forward f i = Ok (F i) /\ full_backward f i = Ok (G i)) /\
   forall l, wfs m l ->
    (exists l', map_sorted (full_forward f) l = Ok l' /\ moved m F l l') /\
    (exists l', map_sorted (full_backward f) l = Ok l' /\ moved m G l l').
Proof.
  intros H. destruct (full_two_way m f H) as (F & G & T & E). exists F, G. split; [assumption|]. split; [assumption|].
  intros l W. destruct (full_moved m f l H W) as (F' & G' & E' & (l1 & A1 & W1 & D1) & (l2 & A2 & W2 & D2)). split.
  - exists l1. split; [assumption|]. split; [assumption|]. intros i Li. rewrite <- (D1 i Li). f_equal.
    destruct (E i Li), (E' i Li). congruence.
  - exists l2. split; [assumption|]. split; [assumption|]. intros i Li. rewrite <- (D2 i Li). f_equal.
    destruct (E i Li), (E' i Li). congruence.
Qed.
Lemma full_swaps m f i j : full_history m f -> (i < m)%nat -> (j < m)%nat ->
  (exists f', full_swap f i j = Ok f' /\ forall x, (x < m)%nat -> full_forward f' x = full_forward f (sw_forward i j x)) /\
  (exists f', full_swap_inverse f i j = Ok f' /\ forall x, (x < m)%nat -> full_backward f' x = full_backward f (sw_forward i j x)).
Proof.
  intros H Li Lj. apply full_history_full in H. split.
  - destruct (full_swap_total m f i j H Li Lj) as (f' & E & H' & V). exists f'. split; [assumption|]. intros x Lx.
    assert (Ls := sw_forward_lt i j m x Li Lj Lx).
    rewrite (full_forward_ok m f'), (full_forward_ok m f) by assumption. now rewrite V.
  - destruct (full_swap_inverse_total m f i j H Li Lj) as (f' & E & H' & V). exists f'. split; [assumption|]. intros x Lx.
    assert (Ls := sw_forward_lt i j m x Li Lj Lx).
    rewrite (full_backward_ok m f'), (full_backward_ok m f) by assumption. now rewrite V.
Qed.
Lemma full_rotate_wrong : exists f f', full_history 3 f /\ full_rotate_right_from f 1 = Ok f' /\
  exists i j, full_forward f' i = Ok j /\ full_backward f' j <> Ok i.
Proof.
  exists (full_new [1; 0; 2]%nat), (mk_full [1; 2; 0]%nat [1; 2; 0]%nat). split; [|split; [reflexivity|]].
  - apply fh_new; [reflexivity| |].
    + repeat constructor; cbn; intuition discriminate.
    + cbn. intuition lia.
  - exists 0%nat, 1%nat. split; [reflexivity|]. discriminate.
Qed.
Lemma history_case r : exists b, history (ops r) 3 b
  [zcol [(0%nat, 2%Z); (1%nat, 1%Z); (2%nat, 4%Z)]; zcol [(1%nat, 3%Z); (2%nat, 1%Z)]; sbasis 2].
Proof.
  set (c0 := zcol [(0%nat, 2%Z); (1%nat, 1%Z); (2%nat, 4%Z)]). set (c1 := zcol [(1%nat, 3%Z); (2%nat, 1%Z)]).
  assert (W0 : wfs 3 c0) by (apply fwfb_ok; vm_compute; reflexivity).
  assert (W1 : wfs 3 c1) by (apply fwfb_ok; vm_compute; reflexivity).
  destruct (law_identity_total _ (laws r) 3) as [b Eb]; [destruct r; cbn; auto; lia|].
  pose proof (h_identity (ops r) 3 b Eb) as H0.
  assert (T : match bi_left (ops r) b c0 with
     | Ok cc => qeqb (den (cci_col (ops r) cc) 0%nat) 0 = false /\
         match bi_change (ops r) b 0 cc with
         | Ok (b1, _) => match bi_left (ops r) b1 c1 with
             | Ok cc1 => qeqb (den (cci_col (ops r) cc1) 1%nat) 0 = false /\
                         match bi_change (ops r) b1 1 cc1 with Ok _ => True | _ => False end
             | _ => False end
         | _ => False end
     | _ => False end).
  { destruct r; vm_compute in Eb; injection Eb as <-; vm_compute; auto. }
  destruct (bi_left (ops r) b c0) as [cc| |] eqn:E1; try contradiction. destruct T as [N1 T].
  destruct (bi_change (ops r) b 0 cc) as [[b1 w1]| |] eqn:E2; try contradiction.
  assert (H1 := h_change _ 3 b _ c0 cc 0 b1 w1 H0 W0 E1 ltac:(lia) ltac:(now qb) E2).
  destruct (bi_left (ops r) b1 c1) as [cc1| |] eqn:E3; try contradiction. destruct T as [N2 T].
  destruct (bi_change (ops r) b1 1 cc1) as [[b2 w2]| |] eqn:E4; try contradiction.
  exists b2. exact (h_change _ 3 b1 _ c1 cc1 1 b2 w2 H1 W1 E3 ltac:(lia) ltac:(now qb) E4).
Qed.
