(** * The choice of basis inverse representation does not change the run *)
From Verif Require Export SolveP.

(** Two results agree: equal up to [rel] when both are values; they may only differ in kind when
    [C] fails. *)
Definition agree {A B} (C : Prop) (rel : A -> B -> Prop) (x : res A) (y : res B) : Prop :=
  match x, y with
  | Ok a, Ok b => rel a b
  | Fuel, Fuel => True
  | _, _ => ~ C
  end.
Lemma agree_bind {A B A' B'} C (rel : A -> B -> Prop) (rel' : A' -> B' -> Prop) x y f g :
  agree C rel x y -> (forall a b, rel a b -> agree C rel' (f a) (g b)) ->
  agree C rel' (bind x f) (bind y g).
Proof.
  intros H K. destruct x as [a| |], y as [b| |]; cbn in *; auto.
  - destruct (f a); exact H.
  - destruct (f a); exact H || exact I.
  - destruct (g b); exact H || exact I.
Qed.
Lemma agree_weaken {A B} (C C' : Prop) (rel rel' : A -> B -> Prop) x y :
  (C' -> C) -> (forall a b, rel a b -> rel' a b) -> agree C rel x y -> agree C' rel' x y.
Proof. intros H1 H2 H. destruct x, y; cbn in *; auto. Qed.

Lemma agree_no {A B} (C : Prop) (rel : A -> B -> Prop) x y : ~ C ->
  match x with Ok _ => match y with Ok _ => False | _ => True end | _ => True end -> agree C rel x y.
Proof. intros NC H. destruct x, y; cbn in *; try contradiction; auto. Qed.

Lemma memb_ext j a b : (In j a <-> In j b) -> memb j a = memb j b.
Proof.
  intros H. destruct (memb j b) eqn:E.
  - apply memb_In. apply H. now apply memb_In.
  - apply memb_false. intros C. apply memb_false in E. apply E. now apply H.
Qed.

Section Agree.
Variables O1 O2 : BIOps.
Variable L1 : BILaws O1.
Variable L2 : BILaws O2.

Definition sim (k : kind) (rhs : vec) (t1 : tableau O1) (t2 : tableau O2) : Prop :=
  tab_inv L1 k rhs t1 /\ tab_inv L2 k rhs t2 /\ c_basis (t_im t1) = c_basis (t_im t2).

Section One.
Variable k : kind.
Variable rhs : vec.
Hypothesis Kok : kind_ok k.
Variable t1 : tableau O1.
Variable t2 : tableau O2.
Hypothesis Sim : sim k rhs t1 t2.
Local Notation m := (k_rows k).

Lemma sim_inverse : exists N, is_inverse m N (bmat k (c_basis (t_im t1))).
Proof. destruct Sim as ([I _] & _). destruct (ci_rep _ _ _ _ _ I) as (N & _ & H). now exists N. Qed.
Lemma sim_b : c_b (t_im t1) = c_b (t_im t2).
Proof.
  destruct Sim as ([I1 _] & [I2 _] & E). destruct sim_inverse as [N HN].
  apply nth_ext with 0 0.
  - now rewrite (ci_lb _ _ _ _ _ I1), (ci_lb _ _ _ _ _ I2).
  - intros r Lr. rewrite (ci_lb _ _ _ _ _ I1) in Lr. fold (nthq (c_b (t_im t1)) r). fold (nthq (c_b (t_im t2)) r).
    rewrite (solve_unique m N (bmat k (c_basis (t_im t1))) rhs (nthq (c_b (t_im t1))) HN (ci_feas _ _ _ _ _ I1) r Lr).
    rewrite E in HN. symmetry.
    exact (solve_unique m N (bmat k (c_basis (t_im t2))) rhs (nthq (c_b (t_im t2))) HN (ci_feas _ _ _ _ _ I2) r Lr).
Qed.
Lemma dual_unique N (B : mat) (c y : vec) : is_inverse m N B ->
  (forall r, (r < m)%nat -> sum m (fun i => y i * B i r) = c r) ->
  forall i, (i < m)%nat -> y i = sum m (fun r => c r * N r i).
Proof.
  intros HN H i Li. rewrite (sum_ext m (fun r => c r * N r i) (fun r => sum m (fun l => y l * B l r) * N r i)).
  2:{ intros r Lr. now rewrite H. }
  rewrite <- (dot_assoc m m y B (fun r => N r i)).
  rewrite (sum_ext m (fun i0 => y i0 * sum m (fun j => B i0 j * N j i)) (fun l => y l * delta l i)).
  - symmetry. now apply sum_delta_r.
  - intros l Ll. f_equal. now apply (proj2 HN).
Qed.
Lemma sim_mpi : c_mpi (t_im t1) = c_mpi (t_im t2).
Proof.
  destruct Sim as ([I1 _] & [I2 _] & E). destruct sim_inverse as [N HN].
  apply nth_ext with 0 0.
  - now rewrite (ci_lmpi _ _ _ _ _ I1), (ci_lmpi _ _ _ _ _ I2).
  - intros i Li. rewrite (ci_lmpi _ _ _ _ _ I1) in Li. fold (nthq (c_mpi (t_im t1)) i). fold (nthq (c_mpi (t_im t2)) i).
    rewrite (dual_unique N _ _ (nthq (c_mpi (t_im t1))) HN (ci_dual _ _ _ _ _ I1) i Li).
    rewrite E in HN. symmetry. rewrite E.
    exact (dual_unique N _ _ (nthq (c_mpi (t_im t2))) HN (ci_dual _ _ _ _ _ I2) i Li).
Qed.
Lemma sim_obj : objective_value t1 = objective_value t2.
Proof.
  pose proof sim_b as Eb. destruct Sim as ([I1 _] & [I2 _] & E). unfold objective_value.
  rewrite (ci_obj _ _ _ _ _ I1), (ci_obj _ _ _ _ _ I2), E, Eb. reflexivity.
Qed.
Lemma sim_cost j : relative_cost k t1 j = relative_cost k t2 j.
Proof. unfold relative_cost, cost_difference. now rewrite sim_mpi. Qed.
Lemma sim_cols j : In j (t_cols t1) <-> In j (t_cols t2).
Proof. destruct Sim as ([_ S1] & [_ S2] & E). rewrite S1, S2, E. reflexivity. Qed.
Lemma sim_in_basis j : in_basis t1 j = in_basis t2 j.
Proof. apply memb_ext, sim_cols. Qed.
Lemma sim_candidate j : candidate k t1 j <-> candidate k t2 j.
Proof. unfold candidate. rewrite sim_cols. reflexivity. Qed.
Lemma sim_bfs : current_bfs t1 = current_bfs t2.
Proof. unfold current_bfs, carry_bfs. rewrite sim_b. destruct Sim as (_ & _ & E). now rewrite E. Qed.
Lemma sim_w q w1 w2 :
  (forall i, (i < m)%nat -> sum m (fun r => bmat k (c_basis (t_im t1)) i r * w1 r) = kA k i q) ->
  (forall i, (i < m)%nat -> sum m (fun r => bmat k (c_basis (t_im t2)) i r * w2 r) = kA k i q) ->
  forall i, (i < m)%nat -> w1 i = w2 i.
Proof.
  intros H1 H2 i Li. destruct sim_inverse as [N HN]. destruct Sim as (_ & _ & E).
  rewrite (solve_unique m N _ _ w1 HN H1 i Li). rewrite E in HN. symmetry.
  exact (solve_unique m N _ _ w2 HN H2 i Li).
Qed.
Lemma sim_weight j g1 g2 : weight_of k (c_basis (t_im t1)) j g1 -> weight_of k (c_basis (t_im t2)) j g2 -> g1 = g2.
Proof.
  destruct Sim as (_ & _ & E). rewrite <- E. intros H1 H2. destruct sim_inverse as [N HN].
  apply (weight_of_inverse k N) in H1; [|assumption]. apply (weight_of_inverse k N) in H2; [|assumption]. congruence.
Qed.
End One.

(** ** Rules *)
Section Rule.
Variable R1 : Rule O1.
Variable R2 : Rule O2.
Variable RL1 : RuleLaws L1 R1.
Variable RL2 : RuleLaws L2 R2.

Record RuleSim := mk_rsim {
  rs_rel : r_state R1 -> r_state R2 -> Prop;
  rs_new : forall k t1 t2 s1 s2, r_new R1 k t1 = Ok s1 -> r_new R2 k t2 = Ok s2 -> rs_rel s1 s2;
  rs_select : forall k rhs t1 t2 s1 s2 c1 c2 s1' s2', kind_ok k -> sim k rhs t1 t2 ->
    rl_inv L1 R1 RL1 k t1 s1 -> rl_inv L2 R2 RL2 k t2 s2 -> rs_rel s1 s2 ->
    r_select R1 s1 k t1 = Ok (c1, s1') -> r_select R2 s2 k t2 = Ok (c2, s2') -> c1 = c2 /\ rs_rel s1' s2';
  rs_after : forall k t1 t2 s1 s2 i1 i2 s1' s2', rs_rel s1 s2 ->
    r_after R1 s1 i1 k t1 = Ok s1' -> r_after R2 s2 i2 k t2 = Ok s2' -> rs_rel s1' s2'
}.
Variable RS : RuleSim.

Definition rsim k rhs (t1 : tableau O1) s1 (t2 : tableau O2) s2 : Prop :=
  sim k rhs t1 t2 /\ rl_inv L1 R1 RL1 k t1 s1 /\ rl_inv L2 R2 RL2 k t2 s2 /\ rs_rel RS s1 s2.

Definition step_rel k rhs (r1 : step_result O1 R1) (r2 : step_result O2 R2) : Prop :=
  match r1, r2 with
  | StepNoColumn _ _, StepNoColumn _ _ => True
  | StepNoRow _ _, StepNoRow _ _ => True
  | StepPivot _ _ t1 s1, StepPivot _ _ t2 s2 => rsim k rhs t1 s1 t2 s2
  | _, _ => False
  end.

Lemma same_row k rhs t1 t2 t1' t2' q p1 p2 w1 w2 : sim k rhs t1 t2 ->
  step_desc k t1 t1' q p1 w1 -> step_desc k t2 t2' q p2 w2 -> p1 = p2.
Proof.
  intros Sm (_ & _ & Lp1 & Hp1 & HB1 & T1 & _) (_ & _ & Lp2 & Hp2 & HB2 & T2 & _).
  assert (Ew := sim_w k rhs t1 t2 Sm q w1 w2 HB1 HB2).
  rewrite <- (Ew p2 Lp2) in Hp2.
  specialize (T1 p2 Lp2 Hp2). rewrite (Ew p1 Lp1) in Hp1. specialize (T2 p1 Lp1 Hp1).
  rewrite (Ew p1 Lp1), (Ew p2 Lp2) in T1. rewrite (sim_b k rhs t1 t2 Sm) in T1.
  destruct (sim_inverse k rhs t1 t2 Sm) as [N HN]. destruct Sm as (_ & _ & E). rewrite E in *.
  apply (inverse_injective (k_rows k) k N (c_basis (t_im t2))); try assumption.
  destruct T1 as [T1|[T1 T1']], T2 as [T2|[T2 T2']]; try (exfalso; qlra). lia.
Qed.

Lemma step_agree k rhs t1 s1 t2 s2 : kind_ok k -> rsim k rhs t1 s1 t2 s2 ->
  agree (ok_change L1 (k_rows k) /\ ok_change L2 (k_rows k)) (step_rel k rhs)
    (simplex_step O1 R1 k t1 s1) (simplex_step O2 R2 k t2 s2).
Proof.
  intros Kok (Sm & V1 & V2 & Rel).
  pose proof (step_spec O1 L1 R1 RL1 k rhs t1 s1 Kok (proj1 Sm) V1) as P1.
  pose proof (step_spec O2 L2 R2 RL2 k rhs t2 s2 Kok (proj1 (proj2 Sm)) V2) as P2.
  pose proof (sim_cost k rhs t1 t2 Sm) as Ec.
  destruct (simplex_step O1 R1 k t1 s1) as [r1| |], (simplex_step O2 R2 k t2 s2) as [r2| |]; cbn [agree];
    try (intros [C1 C2]; contradiction).
  2:{ exact I. }
  destruct r1 as [| |t1' s1'], r2 as [| |t2' s2']; cbn [step_rel]; try exact I.
  - destruct P2 as [(q & w & Hq & _ & Hn & _) _]. specialize (P1 q Hq). rewrite Ec in P1. qlra.
  - destruct P2 as (_ & _ & q & p & w & s0 & ((Hq & _) & Hn & _) & _). specialize (P1 q Hq). rewrite Ec in P1. qlra.
  - destruct P1 as [(q & w & Hq & _ & Hn & _) _]. specialize (P2 q Hq). rewrite Ec in Hn. qlra.
  - destruct P1 as (_ & q1 & w1 & s01 & E1 & N1 & B1).
    destruct P2 as (_ & _ & q2 & p2 & w2 & s02 & D2 & E2 & _).
    destruct (rs_select RS k rhs t1 t2 s1 s2 _ _ _ _ Kok Sm V1 V2 Rel E1 E2) as [Eq _]. injection Eq as -> _.
    destruct D2 as (_ & _ & Lp2 & Hp2 & B2 & _). pose proof (sim_w k rhs t1 t2 Sm q2 w1 w2 B1 B2 p2 Lp2) as Ew.
    specialize (N1 p2 Lp2). rewrite Ew in N1. qlra.
  - destruct P1 as (_ & _ & q & p & w & s0 & ((Hq & _) & Hn & _) & _). specialize (P2 q Hq). rewrite Ec in Hn. qlra.
  - destruct P2 as (_ & q1 & w1 & s01 & E1 & N1 & B1).
    destruct P1 as (_ & _ & q2 & p2 & w2 & s02 & D2 & E2 & _).
    destruct (rs_select RS k rhs t1 t2 s1 s2 _ _ _ _ Kok Sm V1 V2 Rel E2 E1) as [Eq _]. injection Eq as -> _.
    destruct D2 as (_ & _ & Lp2 & Hp2 & B2 & _). pose proof (sim_w k rhs t1 t2 Sm q1 w2 w1 B2 B1 p2 Lp2) as Ew.
    specialize (N1 p2 Lp2). rewrite <- Ew in N1. qlra.
  - destruct P1 as (I1 & V1' & q1 & p1 & w1 & s01 & D1 & E1 & i1 & A1).
    destruct P2 as (I2 & V2' & q2 & p2 & w2 & s02 & D2 & E2 & i2 & A2).
    destruct (rs_select RS k rhs t1 t2 s1 s2 _ _ _ _ Kok Sm V1 V2 Rel E1 E2) as [Eq Rel']. injection Eq as -> _.
    pose proof (same_row k rhs t1 t2 t1' t2' q2 p1 p2 w1 w2 Sm D1 D2) as ->.
    split; [|split; [assumption|split; [assumption|]]].
    + split; [assumption|]. split; [assumption|].
      destruct D1 as (_ & _ & _ & _ & _ & _ & -> & _). destruct D2 as (_ & _ & _ & _ & _ & _ & -> & _).
      destruct Sm as (_ & _ & ->). reflexivity.
    + exact (rs_after RS k t1' t2' s01 s02 i1 i2 s1' s2' Rel' A1 A2).
Qed.

Definition loop_rel k rhs (r1 : loop_result O1) (r2 : loop_result O2) : Prop :=
  match r1, r2 with
  | LoopOptimal _ t1, LoopOptimal _ t2 => sim k rhs t1 t2
  | LoopUnbounded _ t1, LoopUnbounded _ t2 => sim k rhs t1 t2
  | _, _ => False
  end.
Lemma loop_agree k rhs : kind_ok k -> forall fuel t1 s1 t2 s2, rsim k rhs t1 s1 t2 s2 ->
  agree (ok_change L1 (k_rows k) /\ ok_change L2 (k_rows k)) (loop_rel k rhs)
    (simplex_loop O1 R1 fuel k t1 s1) (simplex_loop O2 R2 fuel k t2 s2).
Proof.
  intros Kok. induction fuel as [|fuel IH]; intros t1 s1 t2 s2 RS'; [exact I|]. cbn [simplex_loop].
  eapply agree_bind; [apply (step_agree k rhs); eassumption|].
  intros r1 r2 H. destruct r1 as [| |t1' s1'], r2 as [| |t2' s2']; cbn [step_rel] in H; try contradiction.
  - cbn. apply RS'.
  - cbn. apply RS'.
  - now apply IH.
Qed.

Lemma new_agree k rhs t1 t2 : kind_ok k -> sim k rhs t1 t2 ->
  exists s1 s2, r_new R1 k t1 = Ok s1 /\ r_new R2 k t2 = Ok s2 /\ rsim k rhs t1 s1 t2 s2.
Proof.
  intros Kok Sm. destruct (rl_new L1 R1 RL1 k rhs t1 Kok (proj1 Sm)) as (s1 & E1 & V1).
  destruct (rl_new L2 R2 RL2 k rhs t2 Kok (proj1 (proj2 Sm))) as (s2 & E2 & V2).
  exists s1, s2. split; [assumption|]. split; [assumption|]. split; [assumption|]. split; [assumption|].
  split; [assumption|]. exact (rs_new RS k t1 t2 s1 s2 E1 E2).
Qed.

Lemma phase_two_agree fuel k rhs t1 t2 : kind_ok k -> sim k rhs t1 t2 ->
  agree (ok_change L1 (k_rows k) /\ ok_change L2 (k_rows k)) eq (phase_two O1 R1 fuel k t1) (phase_two O2 R2 fuel k t2).
Proof.
  intros Kok Sm. unfold phase_two. destruct (new_agree k rhs t1 t2 Kok Sm) as (s1 & s2 & -> & -> & Rs). cbn [bind].
  eapply agree_bind; [apply (loop_agree k rhs Kok); eassumption|].
  intros [t1'|t1'] [t2'|t2']; cbn [loop_rel]; try contradiction; intros Sm'; cbn; [|reflexivity].
  f_equal. now apply (sim_bfs k rhs).
Qed.

(** ** Removing artificial variables *)
Lemma bring_basis O k (t : tableau O) q p cc cost t' info :
  bring_into_basis k t q p cc cost = Ok (t', info) -> c_basis (t_im t') = upd (c_basis (t_im t)) p q.
Proof.
  unfold bring_into_basis. destruct (carry_change (t_im t) p q cc cost k) as [[c i]| |] eqn:E; cbn [bind]; intros E';
    try discriminate.
  injection E' as <- <-. cbn [t_im]. unfold carry_change in E.
  destruct (bi_right _ _ _); cbn [bind] in E; try discriminate.
  destruct (update_b _ _ _); cbn [bind] in E; try discriminate.
  destruct (index (c_basis (t_im t)) p); cbn [bind] in E; try discriminate.
  match type of E with bind ?x _ = _ => destruct x as [[i' before]| |]; cbn [bind] in E; try discriminate end.
  destruct (bi_row _ _ _); cbn [bind] in E; try discriminate.
  destruct (update_mpi _ _ _); cbn [bind] in E; try discriminate.
  destruct (index _ p); cbn [bind] in E; try discriminate.
  injection E as <- <-. reflexivity.
Qed.

Section Removal.
Variable p : provider.
Variable k : kind.
Variable c2r : nat -> nat.
Hypothesis AK : art_kind p k c2r.
Hypothesis Kok : kind_ok k.
Local Notation rhs := (rhs_of p).

Lemma value_agree t1 t2 j : sim k rhs t1 t2 -> variable_value k t1 j = variable_value k t2 j.
Proof.
  intros Sm. unfold variable_value. rewrite (sim_in_basis k rhs t1 t2 Sm j), (sim_b k rhs t1 t2 Sm).
  destruct Sm as (_ & _ & ->). reflexivity.
Qed.
Lemma elem_agree t1 t2 i j : sim k rhs t1 t2 -> (i < p_rows p)%nat -> (j < k_cols k)%nat ->
  exists e1 e2 v, generate_element k t1 i j = Ok e1 /\ generate_element k t2 i j = Ok e2 /\
    match e1 with Some x => x = v | None => v = 0 end /\ match e2 with Some x => x = v | None => v = 0 end.
Proof.
  intros Sm Li Lj.
  destruct (element_spec O1 L1 p k c2r AK Kok t1 i j (proj1 Sm) Li Lj) as (N1 & e1 & _ & H1 & E1 & M1).
  destruct (element_spec O2 L2 p k c2r AK Kok t2 i j (proj1 (proj2 Sm)) Li Lj) as (N2 & e2 & _ & H2 & E2 & M2).
  exists e1, e2, (sum (p_rows p) (fun r => N1 i r * kA k r j)).
  split; [assumption|]. split; [assumption|]. split; [assumption|].
  destruct Sm as (_ & _ & E). rewrite E in H1. pose proof (inverse_unique _ _ _ _ H1 H2) as U.
  rewrite (sum_ext _ (fun r => N1 i r * kA k r j) (fun r => N2 i r * kA k r j)); [assumption|].
  intros r Lr. now rewrite (U i r Li Lr).
Qed.
Lemma removal_ok_agree t1 t2 i v j : sim k rhs t1 t2 -> (i < p_rows p)%nat -> (j < k_cols k)%nat ->
  removal_ok O1 k t1 i v j = removal_ok O2 k t2 i v j.
Proof.
  intros Sm Li Lj. unfold removal_ok. rewrite (sim_in_basis k rhs t1 t2 Sm), (sim_cost k rhs t1 t2 Sm).
  destruct (elem_agree t1 t2 i j Sm Li Lj) as (e1 & e2 & x & -> & -> & M1 & M2). cbn [bind].
  assert (Z0 : qzero 0 = true) by reflexivity. assert (P0 : qpos 0 = false) by reflexivity.
  destruct (in_basis t2 j); [reflexivity|]. destruct (qzero v).
  - f_equal. destruct e1, e2; subst; rewrite ?Z0; reflexivity.
  - destruct (qzero (relative_cost k t2 j)); [|reflexivity]. f_equal.
    destruct e1, e2; subst; rewrite ?P0; reflexivity.
Qed.
Lemma findM_ext {A} (f g : A -> res bool) l : (forall x, In x l -> f x = g x) -> findM f l = findM g l.
Proof.
  induction l as [|x l IH]; intros H; [reflexivity|]. cbn [findM]. rewrite (H x (or_introl eq_refl)).
  destruct (g x) as [[|]| |]; cbn [bind]; try reflexivity. apply IH. intros y Hy. apply H. now right.
Qed.
Lemma removal_step_result O (t : tableau O) rows i j t' rows' :
  removal_step O k (t, rows) (i, j) = Ok (t', rows') ->
  exists value found, variable_value k t j = Ok value /\
    findM (removal_ok O k t i value) (range (k_art k) (k_cols k)) = Ok found /\
    match found with
    | Some q => rows' = rows /\ c_basis (t_im t') = upd (c_basis (t_im t)) i q
    | None => t' = t /\ rows' = rows ++ [i]
    end.
Proof.
  unfold removal_step. intros E. destruct (variable_value k t j) as [value| |]; cbn [bind] in E; try discriminate.
  destruct (findM _ _) as [found| |] eqn:F; cbn [bind] in E; try discriminate. exists value, found.
  split; [reflexivity|]. split; [assumption|]. destruct found as [q|].
  - destruct (generate_column k t q) as [cc| |]; cbn [bind] in E; try discriminate.
    destruct (bring_into_basis k t q i cc (relative_cost k t q)) as [[t0 info]| |] eqn:B; cbn [bind fst] in E; try discriminate.
    injection E as <- <-. split; [reflexivity|]. now apply bring_basis in B.
  - injection E as <- <-. now split.
Qed.

Definition removal_rel todo (a : tableau O1 * list nat) (b : tableau O2 * list nat) : Prop :=
  snd a = snd b /\ c_basis (t_im (fst a)) = c_basis (t_im (fst b)) /\
  removal_inv O1 L1 p k c2r (fst a) (snd a) todo /\ removal_inv O2 L2 p k c2r (fst b) (snd b) todo.

Lemma removal_step_agree a b e todo : removal_rel (e :: todo) a b ->
  agree (ok_change L1 (p_rows p) /\ ok_change L2 (p_rows p)) (removal_rel todo)
    (removal_step O1 k a e) (removal_step O2 k b e).
Proof.
  destruct a as [t1 rows1], b as [t2 rows2], e as [i j]. intros (Er & Eb & V1 & V2). cbn [fst snd] in *. subst rows2.
  pose proof (removal_step_spec O1 L1 p k c2r AK Kok t1 rows1 i j todo V1) as P1.
  pose proof (removal_step_spec O2 L2 p k c2r AK Kok t2 rows1 i j todo V2) as P2.
  assert (Sm : sim k rhs t1 t2) by (split; [apply (ri_tab _ _ _ _ _ _ _ _ V1)|split; [apply (ri_tab _ _ _ _ _ _ _ _ V2)|assumption]]).
  assert (Li : (i < p_rows p)%nat).
  { apply (ri_lt _ _ _ _ _ _ _ _ V1). apply in_or_app. right. now left. }
  destruct (removal_step O1 k (t1, rows1) (i, j)) as [[t1' r1]| |] eqn:E1,
    (removal_step O2 k (t2, rows1) (i, j)) as [[t2' r2]| |] eqn:E2; cbn [agree]; try (intros [C1 C2]; contradiction).
  2:{ exact I. }
  destruct (removal_step_result O1 t1 rows1 i j t1' r1 E1) as (v1 & f1 & A1 & F1 & M1).
  destruct (removal_step_result O2 t2 rows1 i j t2' r2 E2) as (v2 & f2 & A2 & F2 & M2).
  rewrite (value_agree t1 t2 j Sm) in A1. rewrite A1 in A2. injection A2 as <-.
  rewrite (findM_ext _ (removal_ok O2 k t2 i v1)) in F1.
  2:{ intros x Hx. apply In_range in Hx. apply removal_ok_agree; try assumption. lia. }
  rewrite F1 in F2. injection F2 as <-. unfold removal_rel. cbn [fst snd].
  destruct f1 as [q|].
  - destruct M1 as [-> B1]. destruct M2 as [-> B2]. split; [reflexivity|]. split; [now rewrite B1, B2, Eb|]. now split.
  - destruct M1 as [-> ->]. destruct M2 as [-> ->]. split; [reflexivity|]. split; [assumption|]. now split.
Qed.
Lemma removal_fold_agree todo : forall a b, removal_rel todo a b ->
  agree (ok_change L1 (p_rows p) /\ ok_change L2 (p_rows p)) (removal_rel [])
    (foldM (removal_step O1 k) todo a) (foldM (removal_step O2 k) todo b).
Proof.
  induction todo as [|e todo IH]; intros a b H; [exact H|]. cbn [foldM].
  eapply agree_bind; [now apply (removal_step_agree a b e todo)|]. exact IH.
Qed.
Lemma arts_agree t1 t2 : sim k rhs t1 t2 -> artificial_basis_columns k t1 = artificial_basis_columns k t2.
Proof. intros (_ & _ & E). unfold artificial_basis_columns. now rewrite E. Qed.

(** the invariant that the list of artificial columns starts with *)
Lemma removal_start O (L : BILaws O) t :
  tab_inv L k rhs t -> objective_value t = 0 -> own_row p k c2r (c_basis (t_im t)) ->
  exists l, artificial_basis_columns k t = Ok l /\ removal_inv O L p k c2r t [] l.
Proof.
  intros HI HO HW. destruct (artificial_columns_spec O L p k c2r AK t HI) as (l & E & Inc & Hl).
  exists l. split; [assumption|]. split; cbn [app]; try assumption.
  - intros i Li. rewrite in_map_iff. split.
    + intros H. exists (i, bcol (c_basis (t_im t)) i). split; [reflexivity|]. now apply Hl.
    + intros ([i' j'] & E' & Hin). cbn [fst] in E'. subst i'. apply Hl in Hin. destruct Hin as (_ & -> & Hin). assumption.
  - intros i Hi. apply in_map_iff in Hi. destruct Hi as ([i' j'] & E' & Hin). cbn [fst] in E'. subst i'.
    apply Hl in Hin. apply Hin.
  - intros i j Hin. apply Hl in Hin. destruct Hin as (_ & -> & _). reflexivity.
  - intros i [].
Qed.

Definition feas_rel (f1 : feasibility O1) (f2 : feasibility O2) : Prop :=
  match f1, f2 with
  | PhaseOneInfeasible _, PhaseOneInfeasible _ => True
  | PhaseOneFeasible _ r1 t1, PhaseOneFeasible _ r2 t2 => r1 = r2 /\ c_basis (t_im t1) = c_basis (t_im t2) /\
      match r1 with
      | RankFull => removal_inv O1 L1 p k c2r t1 [] [] /\ removal_inv O2 L2 p k c2r t2 [] []
      | RankDeficient rows => rows <> [] /\ removal_inv O1 L1 p k c2r t1 rows [] /\ removal_inv O2 L2 p k c2r t2 rows []
      end
  | _, _ => False
  end.

Lemma phase_one_agree fuel t1 t2 : sim k rhs t1 t2 -> own_row p k c2r (c_basis (t_im t1)) ->
  agree (ok_change L1 (p_rows p) /\ ok_change L2 (p_rows p)) feas_rel
    (phase_one O1 R1 fuel k t1) (phase_one O2 R2 fuel k t2).
Proof.
  intros Sm HW. pose proof Sm as (I1 & I2 & E).
  pose proof (phase_one_spec O1 L1 R1 RL1 p k c2r AK Kok fuel t1 I1 HW) as P1.
  assert (HW2 : own_row p k c2r (c_basis (t_im t2))) by now rewrite <- E.
  pose proof (phase_one_spec O2 L2 R2 RL2 p k c2r AK Kok fuel t2 I2 HW2) as P2.
  unfold phase_one in *. destruct (new_agree k rhs t1 t2 Kok Sm) as (s1 & s2 & E1 & E2 & Rs). rewrite E1, E2 in *.
  cbn [bind] in *.
  pose proof (loop_agree k rhs Kok fuel t1 s1 t2 s2 Rs) as LA. rewrite (ak_rows _ _ _ AK) in LA.
  pose proof (loop_spec O1 L1 R1 RL1 k rhs (own_row p k c2r) Kok
     (fun basis r q Hq => own_row_upd p k c2r basis r q (proj1 Hq)) fuel t1 s1 I1 (proj1 (proj2 Rs)) HW) as LS1.
  destruct (simplex_loop O1 R1 fuel k t1 s1) as [r1| |], (simplex_loop O2 R2 fuel k t2 s2) as [r2| |]; cbn [bind agree] in *.
  1:{ destruct r1 as [t1'|t1'], r2 as [t2'|t2']; cbn [loop_rel] in LA; try contradiction.
      - rewrite (sim_obj k rhs t1' t2' LA) in *. destruct (qzero (objective_value t2')) eqn:Z; qb; [|exact Logic.I].
        assert (EA : has_artificial k t1' = has_artificial k t2').
        { unfold has_artificial. apply Bool.eq_iff_eq_true. rewrite !existsb_exists.
          split; intros (x & Hx & Hlt); exists x; (split; [|assumption]); now apply (sim_cols k rhs t1' t2' LA). }
        rewrite EA in *. destruct LS1 as (I1' & _ & HW' & _).
        destruct (has_artificial k t2').
        + unfold remove_artificials in *. rewrite (arts_agree t1' t2' LA) in *.
          destruct (removal_start O2 L2 t2') as (l & El & V2); [apply LA|assumption|now rewrite <- (proj2 (proj2 LA))|].
          destruct (removal_start O1 L1 t1') as (l' & El' & V1); [apply LA|now rewrite (sim_obj k rhs t1' t2' LA)|assumption|].
          rewrite (arts_agree t1' t2' LA), El in El'. injection El' as <-. rewrite El in *. cbn [bind] in *.
          assert (RA := removal_fold_agree l (t1', []) (t2', []) (conj eq_refl (conj (proj2 (proj2 LA)) (conj V1 V2)))).
          eapply agree_bind; [exact RA|]. intros [u1 rows1] [u2 rows2] (Er & Eb & W1 & W2). cbn [fst snd] in *. subst rows2.
          destruct rows1 as [|r rows]; cbn [agree feas_rel].
          * split; [reflexivity|]. split; [assumption|]. now split.
          * split; [reflexivity|]. split; [assumption|]. split; [discriminate|]. now split.
        + cbn [agree feas_rel phase_one_end] in *. split; [reflexivity|]. split; [apply LA|]. now split.
      - intros [C1 C2]. contradiction. }
  all: clear P1 P2; try exact LA; try exact Logic.I.
  all: unfold agree; match goal with |- match ?x with _ => _ end => destruct x end; try exact LA; exact Logic.I.
Qed.
End Removal.

(** ** Starting and switching tableaux *)
Lemma bind_inv {A B} (x : res A) (f : A -> res B) y : bind x f = Ok y -> exists a, x = Ok a /\ f a = Ok y.
Proof. destruct x; cbn; intros H; try discriminate. now exists a. Qed.

Lemma from_artificial_basis O (t : tableau O) a p t' :
  tab_from_artificial (t_im t) a (t_cols t) p = Ok t' ->
  mapM (unshift a) (c_basis (t_im t)) = Ok (c_basis (t_im t')).
Proof.
  unfold tab_from_artificial, carry_from_artificial. intros E.
  apply bind_inv in E. destruct E as (c & E & E'). apply bind_inv in E'. destruct E' as (cols & _ & E').
  injection E' as <-. cbn [t_im]. apply bind_inv in E. destruct E as (b & Eb & E). rewrite Eb. f_equal.
  apply bind_inv in E. destruct E as (? & _ & E). apply bind_inv in E. destruct E as (? & _ & E).
  injection E as <-. reflexivity.
Qed.
Lemma from_artificial_remove_basis O (t : tableau O) a p rm t' :
  tab_from_artificial_remove (t_im t) a (t_cols t) p rm = Ok t' ->
  mapM (unshift a) (remove_indices (c_basis (t_im t)) rm) = Ok (c_basis (t_im t')).
Proof.
  unfold tab_from_artificial_remove, carry_from_artificial_remove. intros E.
  apply bind_inv in E. destruct E as (? & _ & E). apply bind_inv in E. destruct E as (? & _ & E).
  apply bind_inv in E. destruct E as (c & E & E'). injection E' as <-. cbn [t_im].
  apply bind_inv in E. destruct E as (b & Eb & E). rewrite Eb. f_equal.
  apply bind_inv in E. destruct E as (? & _ & E). apply bind_inv in E. destruct E as (? & _ & E).
  apply bind_inv in E. destruct E as (? & _ & E). injection E as <-. reflexivity.
Qed.

Lemma two_phase_tail_agree fuel p k c2r f1 f2 : provider_ok p -> art_kind p k c2r ->
  feas_rel p k c2r f1 f2 ->
  agree (sizes_ok O1 L1 p /\ sizes_ok O2 L2 p) eq
  (match f1 with
  | PhaseOneInfeasible _ => Ok Infeasible
  | PhaseOneFeasible _ (RankDeficient ((_ :: _) as rows)) t =>
      let p' := remove_rows p rows in
      let* t' := tab_from_artificial_remove (t_im t) (k_art k) (t_cols t) p' rows in
      phase_two O1 R1 fuel (non_artificial p') t'
  | PhaseOneFeasible _ _ t =>
      let* t' := tab_from_artificial (t_im t) (k_art k) (t_cols t) p in
      phase_two O1 R1 fuel (non_artificial p) t'
  end)
  (match f2 with
  | PhaseOneInfeasible _ => Ok Infeasible
  | PhaseOneFeasible _ (RankDeficient ((_ :: _) as rows)) t =>
      let p' := remove_rows p rows in
      let* t' := tab_from_artificial_remove (t_im t) (k_art k) (t_cols t) p' rows in
      phase_two O2 R2 fuel (non_artificial p') t'
  | PhaseOneFeasible _ _ t =>
      let* t' := tab_from_artificial (t_im t) (k_art k) (t_cols t) p in
      phase_two O2 R2 fuel (non_artificial p) t'
  end).
Proof.
  intros Pok AK FR. destruct f1 as [r1 t1|], f2 as [r2 t2|]; cbn [feas_rel] in FR; try contradiction; [|reflexivity].
  destruct FR as (<- & Eb & FR).
  assert (Kp : kind_ok (non_artificial p)) by (apply non_artificial_ok; apply (pok_cols p Pok)).
  destruct r1 as [|rows].
  - destruct FR as [V1 V2].
    destruct (from_artificial_spec O1 L1 p k c2r AK t1 V1) as (t1' & E1 & I1).
    destruct (from_artificial_spec O2 L2 p k c2r AK t2 V2) as (t2' & E2 & I2).
    pose proof (from_artificial_basis O1 t1 _ _ _ E1) as B1. pose proof (from_artificial_basis O2 t2 _ _ _ E2) as B2.
    rewrite Eb in B1. rewrite B1 in B2. injection B2 as B2. rewrite E1, E2. cbn [bind].
    eapply agree_weaken; [| |apply (phase_two_agree fuel (non_artificial p) (rhs_of p) t1' t2' Kp)].
    + intros [S1 S2]. split; [apply S1|apply S2].
    + auto.
    + split; [assumption|]. now split.
  - destruct FR as (Ne & V1 & V2). destruct rows as [|r0 rows]; [congruence|]. set (rm := r0 :: rows) in *.
    cbn zeta.
    pose proof (removal_redundant O1 L1 p k c2r t1 rm V1) as Red.
    pose proof (from_artificial_remove_spec O1 L1 p k c2r Pok AK t1 rm V1) as F1.
    pose proof (from_artificial_remove_spec O2 L2 p k c2r Pok AK t2 rm V2) as F2.
    destruct (tab_from_artificial_remove (t_im t1) (k_art k) (t_cols t1) (remove_rows p rm) rm) as [t1'| |] eqn:E1.
    2,3: destruct F1 as [F1 F1']; cbn [bind];
      assert (NC : ~ (sizes_ok O1 L1 p /\ sizes_ok O2 L2 p))
        by (intros [(_ & _ & _ & S) _]; apply F1'; now apply (S rm Ne Red));
      apply agree_no; [exact NC|]; first [exact I|match goal with |- match ?x with _ => _ end => destruct x; exact I end].
    destruct (tab_from_artificial_remove (t_im t2) (k_art k) (t_cols t2) (remove_rows p rm) rm) as [t2'| |] eqn:E2.
    2,3: destruct F2 as [F2 F2']; cbn [bind];
      assert (NC : ~ (sizes_ok O1 L1 p /\ sizes_ok O2 L2 p))
        by (intros [_ (_ & _ & _ & S)]; apply F2'; now apply (S rm Ne Red));
      apply agree_no; [exact NC|]; first [exact I|match goal with |- match ?x with _ => _ end => destruct x; exact I end].
    pose proof (from_artificial_remove_basis O1 t1 _ _ _ _ E1) as B1.
    pose proof (from_artificial_remove_basis O2 t2 _ _ _ _ E2) as B2.
    rewrite Eb in B1. rewrite B1 in B2. injection B2 as B2. cbn [bind]. destruct F1 as [I1 K1]. destruct F2 as [I2 K2].
    eapply agree_weaken; [| |apply (phase_two_agree fuel (non_artificial (remove_rows p rm)) (rhs_of (remove_rows p rm)) t1' t2' K1)].
    + intros [(_ & _ & _ & S1) (_ & _ & _ & S2)]. split; [now apply (S1 rm Ne Red)|now apply (S2 rm Ne Red)].
    + auto.
    + split; [assumption|]. now split.
Qed.

Lemma new_partially_basis O p real t arts : new_partially O p real = Ok (t, arts) ->
  arts = artificial_rows (p_rows p - length real) 0 0 (map fst real) /\
  merge_basis (p_rows p - length real) (p_rows p) 0 arts real = Ok (c_basis (t_im t)).
Proof.
  unfold new_partially. destruct (Nat.ltb (p_rows p) (length real)); [discriminate|]. intros E.
  apply bind_inv in E. destruct E as (basis & Eb & E). apply bind_inv in E. destruct E as (c & Ec & E).
  injection E as <- <-. split; [reflexivity|]. cbn [t_im]. rewrite Eb. f_equal. unfold create_partially in Ec.
  apply bind_inv in Ec. destruct Ec as (? & _ & Ec). apply bind_inv in Ec. destruct Ec as (? & _ & Ec).
  injection Ec as <-. reflexivity.
Qed.

(** The two representations give the same result. *)
Theorem solve_agree fuel p : provider_ok p ->
  agree (sizes_ok O1 L1 p /\ sizes_ok O2 L2 p) eq (solve O1 R1 fuel p) (solve O2 R2 fuel p).
Proof.
  intros Pok. unfold solve.
  assert (Two : (forall l, p_init p <> FullInit l) ->
     agree (sizes_ok O1 L1 p /\ sizes_ok O2 L2 p) eq (solve_two_phase O1 R1 fuel p) (solve_two_phase O2 R2 fuel p)).
  { intros NF. unfold solve_two_phase, compute_bfs. pose proof (pok_init p Pok) as PI. unfold init_ok in PI.
    assert (Fail : forall A (x : res A) (C : Prop) (y : res A), (x = Panic \/ x = Fuel) -> ~ C -> agree C eq x y).
    { intros A x C y [->| ->] NC; cbn; destruct y; assumption || exact I. }
    assert (FailR : forall A (x : res A) (C : Prop) (y : res A), (x = Panic \/ x = Fuel) -> ~ C -> agree C eq y x).
    { intros A x C y [->| ->] NC; destruct y; cbn; assumption || exact I. }
    destruct (p_init p) as [|real|real] eqn:Ei.
    - pose proof (new_fully_spec O1 L1 p Pok) as N1. pose proof (new_fully_spec O2 L2 p Pok) as N2.
      destruct (new_fully O1 p) as [t1| |]; cbn [bind].
      2:{ apply Fail; [now left|]. intros [(C & _) _]. contradiction. }
      2:{ apply Fail; [now right|]. intros [(C & _) _]. contradiction. }
      destruct (new_fully O2 p) as [t2| |]; cbn [bind].
      2:{ apply FailR; [now left|]. intros [_ (C & _)]. contradiction. }
      2:{ apply FailR; [now right|]. intros [_ (C & _)]. contradiction. }
      destruct N1 as [I1 B1]. destruct N2 as [I2 B2].
      assert (W : own_row p (fully p) (fun j => j) (c_basis (t_im t1))).
      { intros i Li _. rewrite B1. unfold bcol. now rewrite seq_nth. }
      eapply agree_bind.
      + eapply agree_bind with (rel' := fun a b => snd a = k_art (fully p) /\ snd b = k_art (fully p) /\
           feas_rel p (fully p) (fun j => j) (fst a) (fst b)).
        * eapply agree_weaken;
          [| |apply (phase_one_agree p (fully p) _ (fully_art p) (fully_ok p Pok) fuel t1 t2)]; [| |split; [exact I1|split; [exact I2|congruence]]|assumption].
          -- intros [S1 S2]. split; [apply S1|apply S2].
          -- intros a b H. exact H.
        * intros a b H. cbn. auto.
      + intros [f1 a1] [f2 a2] (E1 & E2 & FR). cbn [fst snd] in *. subst a1 a2.
        now apply (two_phase_tail_agree fuel p (fully p) (fun j => j) f1 f2 Pok (fully_art p)).
    - destruct PI as [P1 P2].
      pose proof (new_partially_spec O1 L1 p real Pok P1 P2) as N1. pose proof (new_partially_spec O2 L2 p real Pok P1 P2) as N2.
      destruct (new_partially O1 p real) as [[t1 arts1]| |] eqn:E1; cbn [bind].
      2:{ apply Fail; [now left|]. intros [(C & _) _]. contradiction. }
      2:{ apply Fail; [now right|]. intros [(C & _) _]. contradiction. }
      destruct (new_partially O2 p real) as [[t2 arts2]| |] eqn:E2; cbn [bind].
      2:{ apply FailR; [now left|]. intros [_ (C & _)]. contradiction. }
      2:{ apply FailR; [now right|]. intros [_ (C & _)]. contradiction. }
      destruct (new_partially_basis O1 p real t1 arts1 E1) as [Ea1 B1].
      destruct (new_partially_basis O2 p real t2 arts2 E2) as [Ea2 B2].
      assert (Ea : arts2 = arts1) by congruence. clear Ea1 Ea2 E1 E2. subst arts2.
      rewrite B1 in B2. injection B2 as B2.
      destruct N1 as (I1 & Ha & ND & Hown). destruct N2 as (I2 & _).
      pose proof (partially_art p arts1 Ha) as AK. pose proof (partially_ok p arts1 Pok Ha) as Kok.
      eapply agree_bind.
      + eapply agree_bind with (rel' := fun a b => snd a = k_art (partially p arts1) /\ snd b = k_art (partially p arts1) /\
           feas_rel p (partially p arts1) (fun j => nth j arts1 0%nat) (fst a) (fst b)).
        * eapply agree_weaken;
          [| |apply (phase_one_agree p (partially p arts1) _ AK Kok fuel t1 t2)]; [| |split; [exact I1|split; [exact I2|congruence]]|assumption].
          -- intros [S1 S2]. split; [apply S1|apply S2].
          -- intros a b H. exact H.
        * intros a b H. cbn. auto.
      + intros [f1 a1] [f2 a2] (E1 & E2 & FR). cbn [fst snd] in *. subst a1 a2.
        now apply (two_phase_tail_agree fuel p (partially p arts1) _ f1 f2 Pok AK).
    - exfalso. now apply (NF real). }
  destruct (p_init p) as [|real|pivots] eqn:Ei.
  - apply Two. congruence.
  - apply Two. congruence.
  - unfold solve_full_basis. pose proof (pok_init p Pok) as PI. unfold init_ok in PI. rewrite Ei in PI.
    destruct PI as (P1 & P2 & P3 & P4).
    pose proof (from_basis_spec O1 L1 p pivots Pok P1 P2 P3 P4) as F1.
    pose proof (from_basis_spec O2 L2 p pivots Pok P1 P2 P3 P4) as F2.
    assert (Kp : kind_ok (non_artificial p)) by (apply non_artificial_ok; apply (pok_cols p Pok)).
    destruct (from_basis_pivots O1 pivots p) as [c1| |], (from_basis_pivots O2 pivots p) as [c2| |]; cbn [bind].
    1:{ destruct F1 as [H1 E1]. destruct F2 as [H2 E2].
        eapply agree_weaken; [| |apply (phase_two_agree fuel (non_artificial p) (rhs_of p) _ _ Kp)].
        - intros [S1 S2]. split; [apply S1|apply S2].
        - auto.
        - split; [split; [exact H1|cbn [t_im t_cols]; intros j; now rewrite E1]|].
          split; [split; [exact H2|cbn [t_im t_cols]; intros j; now rewrite E2]|]. cbn [t_im]. congruence. }
    all: assert (NC : ~ (sizes_ok O1 L1 p /\ sizes_ok O2 L2 p))
      by (intros [(_ & _ & S1 & _) (_ & _ & S2 & _)]; specialize (S1 pivots Ei); specialize (S2 pivots Ei); tauto).
    all: apply agree_no; [exact NC|]; first [exact I|match goal with |- match ?x with _ => _ end => destruct x; exact I end].
Qed.
End Rule.
End Agree.

(** ** The four rules *)
Section RuleInstances.
Variables O1 O2 : BIOps.
Variable L1 : BILaws O1.
Variable L2 : BILaws O2.

Lemma find_sim k rhs (t1 : tableau O1) (t2 : tableau O2) l : sim O1 O2 L1 L2 k rhs t1 t2 ->
  find_profitable O1 k t1 l = find_profitable O2 k t2 l.
Proof.
  intros Sm. induction l as [|j l IH]; [reflexivity|]. cbn [find_profitable].
  rewrite (sim_in_basis O1 O2 L1 L2 k rhs t1 t2 Sm), (sim_cost O1 O2 L1 L2 k rhs t1 t2 Sm), IH. reflexivity.
Qed.

Definition first_profitable_sim :
  RuleSim O1 O2 L1 L2 (first_profitable O1) (first_profitable O2)
    (first_profitable_laws O1 L1) (first_profitable_laws O2 L2).
Proof.
  refine (mk_rsim _ _ _ _ _ _ _ _ (fun _ _ => True) _ _ _).
  - intros; exact I.
  - intros k rhs t1 t2 s1 s2 c1 c2 s1' s2' _ Sm _ _ _ E1 E2. cbn in E1, E2.
    injection E1 as <- _. injection E2 as <- _. split; [|exact I]. now apply (find_sim k rhs).
  - intros; exact I.
Defined.

Definition first_profitable_memory_sim :
  RuleSim O1 O2 L1 L2 (first_profitable_memory O1) (first_profitable_memory O2)
    (first_profitable_memory_laws O1 L1) (first_profitable_memory_laws O2 L2).
Proof.
  refine (mk_rsim _ _ _ _ (first_profitable_memory O1) (first_profitable_memory O2) _ _ (fun s1 s2 => (s1 : option nat) = (s2 : option nat)) _ _ _).
  - intros k t1 t2 s1 s2 E1 E2. cbn in E1, E2. congruence.
  - intros k rhs t1 t2 s1 s2 c1 c2 s1' s2' _ Sm _ _ -> E1 E2. cbn in E1, E2.
    rewrite !(find_sim k rhs t1 t2 _ Sm) in E1.
    destruct s2 as [last|]; [rewrite !(find_sim k rhs t1 t2 _ Sm) in E1|];
      rewrite E1 in E2; injection E2 as -> ->; now split.
  - intros k t1 t2 s1 s2 i1 i2 s1' s2' H E1 E2. cbn in E1, E2. congruence.
Defined.

Definition steepest_variable_sim :
  RuleSim O1 O2 L1 L2 (steepest_variable O1) (steepest_variable O2)
    (steepest_variable_laws O1 L1) (steepest_variable_laws O2 L2).
Proof.
  refine (mk_rsim _ _ _ _ _ _ _ _ (fun _ _ => True) _ _ _).
  - intros; exact I.
  - intros k rhs t1 t2 s1 s2 c1 c2 s1' s2' _ Sm _ _ _ E1 E2. cbn in E1, E2.
    injection E1 as <- _. injection E2 as <- _. split; [|exact I].
    assert (H : forall l acc, fold_left (steepest_variable_step O1 k t1) l acc = fold_left (steepest_variable_step O2 k t2) l acc).
    { induction l as [|j l IH]; intros acc; [reflexivity|]. cbn [fold_left]. rewrite IH. f_equal.
      unfold steepest_variable_step.
      now rewrite (sim_in_basis O1 O2 L1 L2 k rhs t1 t2 Sm), (sim_cost O1 O2 L1 L2 k rhs t1 t2 Sm). }
    apply H.
  - intros; exact I.
Defined.

Definition steepest_objective_sim :
  RuleSim O1 O2 L1 L2 (steepest_objective O1) (steepest_objective O2)
    (steepest_objective_laws O1 L1) (steepest_objective_laws O2 L2).
Proof.
  refine (mk_rsim _ _ _ _ _ _ _ _ (fun _ _ => True) _ _ _).
  - intros; exact I.
  - intros k rhs t1 t2 s1 s2 c1 c2 s1' s2' _ Sm V1 V2 _ E1 E2. cbn [r_select steepest_objective] in E1, E2.
    split; [|exact I]. cbn [rl_inv steepest_objective_laws] in V1, V2.
    assert (H : forall l acc, (forall j, In j l -> (k_art k <= j < k_cols k)%nat) ->
       foldM (sdo_step O1 k t1 s1) l acc = foldM (sdo_step O2 k t2 s2) l acc).
    { induction l as [|j l IH]; intros acc Hl; [reflexivity|]. cbn [foldM].
      replace (sdo_step O1 k t1 s1 acc j) with (sdo_step O2 k t2 s2 acc j).
      - destruct (sdo_step O2 k t2 s2 acc j); cbn [bind]; try reflexivity. apply IH. intros; apply Hl; now right.
      - unfold sdo_step. rewrite <- (sim_in_basis O1 O2 L1 L2 k rhs t1 t2 Sm), <- (sim_cost O1 O2 L1 L2 k rhs t1 t2 Sm).
        destruct (in_basis t1 j) eqn:Eb; [reflexivity|].
        destruct (qneg (relative_cost k t1 j)); [|reflexivity].
        assert (C1 : candidate k t1 j) by (split; [apply Hl; now left|now apply in_basis_false]).
        destruct (proj2 V1 j C1) as (g1 & G1 & W1).
        destruct (proj2 V2 j (proj1 (sim_candidate O1 O2 L1 L2 k rhs t1 t2 Sm j) C1)) as (g2 & G2 & W2).
        pose proof (sim_weight O1 O2 L1 L2 k rhs t1 t2 Sm j g1 g2 W1 W2) as ->.
        unfold index. rewrite G1, G2. reflexivity. }
    apply bind_inv in E1. destruct E1 as (r1 & E1 & F1). injection F1 as <- _.
    apply bind_inv in E2. destruct E2 as (r2 & E2 & F2). injection F2 as <- _.
    unfold sdo_select in E1, E2. rewrite H in E1; [congruence|]. intros j Hj. now apply In_range.
  - intros; exact I.
Defined.
End RuleInstances.
