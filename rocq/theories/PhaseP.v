(** * One simplex step and the loop *)
From Verif Require Export RuleP Spec Solve.

Section Loop.
Variable O : BIOps.
Variable L : BILaws O.
Variable R : Rule O.
Variable RL : RuleLaws L R.

(** no column has negative relative cost *)
Definition priced_out (k : kind) (t : tableau O) : Prop :=
  forall j, (k_art k <= j < k_cols k)%nat -> 0 <= relative_cost k t j.

(** a column with negative relative cost whose representation [w] is not positive anywhere *)
Definition has_ray (k : kind) (t : tableau O) : Prop :=
  exists q (w : vec), (k_art k <= q < k_cols k)%nat /\ ~ In q (t_cols t) /\ relative_cost k t q < 0 /\
    (forall i, (i < k_rows k)%nat -> w i <= 0) /\
    (forall i, (i < k_rows k)%nat ->
       sum (k_rows k) (fun r => bmat k (c_basis (t_im t)) i r * w r) = kA k i q).

(** one basis change: column [q] enters, the basic variable of row [p] leaves *)
Definition step_desc (k : kind) (t t' : tableau O) (q p : nat) (w : vec) : Prop :=
  candidate k t q /\ relative_cost k t q < 0 /\ (p < k_rows k)%nat /\ 0 < w p /\
  (forall i, (i < k_rows k)%nat ->
     sum (k_rows k) (fun r => bmat k (c_basis (t_im t)) i r * w r) = kA k i q) /\
  (forall i, (i < k_rows k)%nat -> 0 < w i ->
     nthq (c_b (t_im t)) p / w p < nthq (c_b (t_im t)) i / w i \/
     (nthq (c_b (t_im t)) p / w p = nthq (c_b (t_im t)) i / w i /\
      (bcol (c_basis (t_im t)) p <= bcol (c_basis (t_im t)) i)%nat)) /\
  c_basis (t_im t') = upd (c_basis (t_im t)) p q /\
  (forall i, nthq (c_b (t_im t')) i =
     if Nat.eqb i p then nthq (c_b (t_im t)) p / w p
     else nthq (c_b (t_im t)) i - w i * (nthq (c_b (t_im t)) p / w p)) /\
  c_mobj (t_im t') = c_mobj (t_im t) - relative_cost k t q * (nthq (c_b (t_im t)) p / w p).

Lemma select_ok_priced k rhs (t : tableau O) :
  kind_ok k -> tab_inv L k rhs t -> select_ok k t None -> priced_out k t.
Proof.
  intros Hk HI H j Hj. destruct (in_dec Nat.eq_dec j (t_cols t)) as [Hin|Hout].
  - rewrite (relative_cost_basic O L k rhs t j Hk HI Hin). apply Qcle_refl.
  - apply H. split; assumption.
Qed.

Lemma step_spec k rhs t s :
  kind_ok k -> tab_inv L k rhs t -> rl_inv L R RL k t s ->
  match simplex_step O R k t s with
  | Ok (StepNoColumn _ _) => priced_out k t
  | Ok (StepNoRow _ _) => has_ray k t /\
       exists q w s0, r_select R s k t = Ok (Some (q, relative_cost k t q), s0) /\
         (forall i, (i < k_rows k)%nat -> w i <= 0) /\
         forall i, (i < k_rows k)%nat ->
           sum (k_rows k) (fun r => bmat k (c_basis (t_im t)) i r * w r) = kA k i q
  | Ok (StepPivot _ _ t' s') => tab_inv L k rhs t' /\ rl_inv L R RL k t' s' /\
       exists q p w s0, step_desc k t t' q p w /\
         r_select R s k t = Ok (Some (q, relative_cost k t q), s0) /\
         exists info, r_after R s0 info k t' = Ok s'
  | Panic => ~ ok_change L (k_rows k)
  | Fuel => ~ ok_change L (k_rows k)
  end.
Proof.
  intros Hk HI Hs. unfold simplex_step.
  destruct (rl_select L R RL k rhs t s Hk HI Hs) as (sel & s1 & E1 & Hsel & Hmid).
  rewrite E1. cbn [bind]. destruct sel as [[q cost]|].
  2:{ now apply (select_ok_priced k rhs). }
  destruct Hsel as (Hc & Ecost & Hneg). subst cost.
  assert (Lq : (q < k_cols k)%nat) by (destruct Hc; lia).
  destruct (column_spec O L k rhs t q Hk HI Lq) as (cc & N & Ec & Wc & Rp & HN & V & HB).
  rewrite Ec. cbn [bind].
  destruct (select_row_spec O (k_rows k) t (cci_col O cc) Wc) as (row & Er & Hr).
  { apply (ci_lb _ _ _ _ _ (proj1 HI)). }
  { apply (ci_lbasis _ _ _ _ _ (proj1 HI)). }
  rewrite Er. cbn [bind]. destruct row as [p|].
  - pose proof (best_row_nonneg O (k_rows k) (t_im t) (cci_col O cc) p
        (ci_nonneg _ _ _ _ _ (proj1 HI)) Hr) as HNN.
    destruct Hr as (Lp & Hp & Hmin).
    destruct (change_spec O L k rhs t p q cc Hk HI Lq Ec Lp (Qc_pos_neq0 _ Hp) HNN) as [Part Tot].
    destruct (bring_into_basis k t q p cc (relative_cost k t q)) as [[t' info]| |] eqn:Eb.
    + destruct (Part t' info eq_refl) as (HI' & Hinfo & Eb' & Vb & Eobj). cbn [bind].
      destruct (rl_after L R RL k rhs t q p cc t' info s1 Hk) as (s' & Es & Hs').
      * exact (conj HI (conj HI' (conj Hinfo (conj Eb' (conj Lp (conj Ec (Qc_pos_neq0 _ Hp))))))).
      * assumption.
      * assumption.
      * rewrite Es. cbn [bind]. split; [assumption|]. split; [assumption|].
        exists q, p, (den (cci_col O cc)), s1. split; [|split; [reflexivity|now exists info]].
        unfold step_desc. repeat split; try assumption; apply Hc.
    + cbn [bind]. intros Hok. destruct (Tot Hok) as (t' & info & E). discriminate.
    + cbn [bind]. intros Hok. destruct (Tot Hok) as (t' & info & E). discriminate.
  - split.
    + exists q, (den (cci_col O cc)). destruct Hc as [Hc1 Hc2]. repeat split; try assumption; lia.
    + exists q, (den (cci_col O cc)), s1. now repeat split.
Qed.

(** the objective never gets worse *)
Lemma step_objective k rhs t t' q p w :
  tab_inv L k rhs t -> step_desc k t t' q p w -> objective_value t' <= objective_value t.
Proof.
  intros [I _] (_ & Hneg & Lp & Hp & _ & _ & _ & _ & Eo). unfold objective_value. rewrite Eo.
  assert (0 <= nthq (c_b (t_im t)) p / w p).
  { apply Qc_div_nonneg; [|assumption]. now apply (ci_nonneg _ _ _ _ _ I). }
  set (th := nthq (c_b (t_im t)) p / w p) in *. qnra.
Qed.

(** Everything that can be said about the result of the loop.  [Pd] is any property of the list of
    basic columns that survives replacing one of them by a candidate column. *)
Lemma loop_spec k rhs (Pd : list nat -> Prop) :
  kind_ok k ->
  (forall basis p q, (k_art k <= q < k_cols k)%nat -> Pd basis -> Pd (upd basis p q)) ->
  forall fuel t s, tab_inv L k rhs t -> rl_inv L R RL k t s -> Pd (c_basis (t_im t)) ->
  match simplex_loop O R fuel k t s with
  | Ok (LoopOptimal _ t') => tab_inv L k rhs t' /\ priced_out k t' /\ Pd (c_basis (t_im t')) /\
       objective_value t' <= objective_value t
  | Ok (LoopUnbounded _ t') => tab_inv L k rhs t' /\ has_ray k t' /\ Pd (c_basis (t_im t')) /\
       objective_value t' <= objective_value t
  | Panic => ~ ok_change L (k_rows k)
  | Fuel => True
  end.
Proof.
  intros Hk HPd. induction fuel as [|fuel IH]; intros t s HI Hs HP; [exact I|].
  cbn [simplex_loop]. pose proof (step_spec k rhs t s Hk HI Hs) as S.
  destruct (simplex_step O R k t s) as [[| |t' s']| |]; cbn [bind].
  - repeat split; try assumption; try apply HI. apply Qcle_refl.
  - destruct S as [S _]. repeat split; try assumption; try apply HI. apply Qcle_refl.
  - destruct S as (HI' & Hs' & q & p & w & s0 & D & _).
    assert (HP' : Pd (c_basis (t_im t'))).
    { destruct D as ([Hc _] & _ & _ & _ & _ & _ & Eb & _). rewrite Eb. now apply HPd. }
    pose proof (step_objective k rhs t t' q p w HI D) as Ho.
    specialize (IH t' s' HI' Hs' HP').
    destruct (simplex_loop O R fuel k t' s') as [[t''|t'']| |]; try exact IH.
    + destruct IH as (A & B & C & E). repeat split; try assumption; try apply A.
      now apply Qcle_trans with (objective_value t').
    + destruct IH as (A & B & C & E). repeat split; try assumption; try apply A.
      now apply Qcle_trans with (objective_value t').
  - exact S.
  - exact I.
Qed.

End Loop.
Arguments priced_out {O}.
Arguments has_ray {O}.
Arguments step_desc {O}.
