(** * Concrete programs on which presolving goes wrong, and some on which it goes well *)
From Verif Require Import PreRules Examples SparseP ExGeneral.
From Verif Require Export SpecGeneral Presolve.
Local Open Scope Qc_scope.

(** comparing programs by computation *)
Definition opt_eqb {A} (f : A -> A -> bool) (a b : option A) : bool :=
  match a, b with Some x, Some y => f x y | None, None => true | _, _ => false end.
Fixpoint list_eqb {A} (f : A -> A -> bool) (a b : list A) : bool :=
  match a, b with [], [] => true | x :: a, y :: b => f x y && list_eqb f a b | _, _ => false end.
Definition pair_eqb {A B} (f : A -> A -> bool) (h : B -> B -> bool) (a b : A * B) : bool := f (fst a) (fst b) && h (snd a) (snd b).
Definition sound_eqb {A} (f : A -> A -> bool) : Prop := forall a b, f a b = true -> a = b.
Lemma opt_eqb_ok {A} (f : A -> A -> bool) : sound_eqb f -> sound_eqb (opt_eqb f).
Proof. intros F [x|] [y|]; cbn; intros H; try discriminate; [f_equal; now apply F|reflexivity]. Qed.
Lemma list_eqb_ok {A} (f : A -> A -> bool) : sound_eqb f -> sound_eqb (list_eqb f).
Proof.
  intros F a. induction a as [|x a IH]; intros [|y b]; cbn; intros H; try discriminate; [reflexivity|].
  apply andb_true_iff in H. destruct H as [H1 H2]. apply F in H1. apply IH in H2. now subst.
Qed.
Lemma pair_eqb_ok {A B} (f : A -> A -> bool) (h : B -> B -> bool) : sound_eqb f -> sound_eqb h -> sound_eqb (pair_eqb f h).
Proof.
  intros F H [x y] [x' y'] E. unfold pair_eqb in E. cbn in E. apply andb_true_iff in E. destruct E as [E1 E2].
  apply F in E1. apply H in E2. now subst.
Qed.
Lemma qeqb_sound : sound_eqb qeqb. Proof. intros a b H. now apply qeqb_true. Qed.
Lemma nat_eqb_sound : sound_eqb Nat.eqb. Proof. intros a b H. now apply Nat.eqb_eq. Qed.
Lemma string_eqb_sound : sound_eqb String.eqb. Proof. intros a b H. now apply String.eqb_eq. Qed.
Definition rel_eqb (a b : rel) : bool :=
  match a, b with Equal, Equal | Less, Less | Greater, Greater => true | Range r, Range s => qeqb r s | _, _ => false end.
Lemma rel_eqb_sound : sound_eqb rel_eqb.
Proof. intros [|r| |] [|s| |]; cbn; intros H; try discriminate; try reflexivity. now rewrite (qeqb_sound _ _ H). Qed.
Definition var_eqb (a b : variable) : bool :=
  Bool.eqb (v_integer a) (v_integer b) && qeqb (v_cost a) (v_cost b) && opt_eqb qeqb (v_lower a) (v_lower b) &&
  opt_eqb qeqb (v_upper a) (v_upper b) && qeqb (v_shift a) (v_shift b) && Bool.eqb (v_flipped a) (v_flipped b).
Lemma var_eqb_sound : sound_eqb var_eqb.
Proof.
  intros [a1 a2 a3 a4 a5 a6] [b1 b2 b3 b4 b5 b6]. unfold var_eqb. cbn. rewrite !andb_true_iff. intros [[[[[H1 H2] H3] H4] H5] H6].
  apply eqb_prop in H1, H6. apply qeqb_sound in H2, H5. apply (opt_eqb_ok _ qeqb_sound) in H3, H4. now subst.
Qed.
Definition orig_eqb (a b : original) : bool :=
  match a, b with
  | Active i, Active j => Nat.eqb i j
  | ActiveFree p n, ActiveFree q k => Nat.eqb p q && Nat.eqb n k
  | Removed (Solved x), Removed (Solved y) => qeqb x y
  | Removed (FunctionOf c l), Removed (FunctionOf d k) => qeqb c d && list_eqb (pair_eqb Nat.eqb qeqb) l k
  | _, _ => false
  end.
Lemma orig_eqb_sound : sound_eqb orig_eqb.
Proof.
  intros [i|p n|[x|c l]] [j|q k|[y|d e]]; cbn; intros H; try discriminate.
  - now rewrite (nat_eqb_sound _ _ H).
  - apply andb_true_iff in H. destruct H as [H1 H2]. now rewrite (nat_eqb_sound _ _ H1), (nat_eqb_sound _ _ H2).
  - now rewrite (qeqb_sound _ _ H).
  - apply andb_true_iff in H. destruct H as [H1 H2]. apply qeqb_sound in H1.
    apply (list_eqb_ok _ (pair_eqb_ok _ _ nat_eqb_sound qeqb_sound)) in H2. now subst.
Qed.
Definition dir_eqb (a b : direction) : bool := match a, b with Minimize, Minimize | Maximize, Maximize => true | _, _ => false end.
Definition general_eqb (a b : general) : bool :=
  dir_eqb (g_objective a) (g_objective b) && qeqb (g_fixed a) (g_fixed b) && Nat.eqb (g_rows a) (g_rows b) &&
  list_eqb (list_eqb (pair_eqb Nat.eqb qeqb)) (g_cols a) (g_cols b) && list_eqb rel_eqb (g_types a) (g_types b) &&
  list_eqb qeqb (g_b a) (g_b b) && list_eqb var_eqb (g_vars a) (g_vars b) &&
  list_eqb (pair_eqb String.eqb orig_eqb) (g_orig a) (g_orig b) && list_eqb Nat.eqb (g_from a) (g_from b).
Lemma general_eqb_sound : sound_eqb general_eqb.
Proof.
  intros [a1 a2 a3 a4 a5 a6 a7 a8 a9] [b1 b2 b3 b4 b5 b6 b7 b8 b9]. unfold general_eqb. cbn. rewrite !andb_true_iff.
  intros [[[[[[[[H1 H2] H3] H4] H5] H6] H7] H8] H9].
  assert (a1 = b1) by (destruct a1, b1; try discriminate; reflexivity). apply qeqb_sound in H2. apply nat_eqb_sound in H3.
  apply (list_eqb_ok _ (list_eqb_ok _ (pair_eqb_ok _ _ nat_eqb_sound qeqb_sound))) in H4. apply (list_eqb_ok _ rel_eqb_sound) in H5.
  apply (list_eqb_ok _ qeqb_sound) in H6. apply (list_eqb_ok _ var_eqb_sound) in H7.
  apply (list_eqb_ok _ (pair_eqb_ok _ _ string_eqb_sound orig_eqb_sound)) in H8. apply (list_eqb_ok _ nat_eqb_sound) in H9. now subst.
Qed.
Definition goes_to (r : pr general) (g : general) : bool := match r with Go g' => general_eqb g' g | _ => false end.
Lemma goes_to_ok r g : goes_to r g = true -> r = Go g.
Proof. destruct r; cbn; try discriminate. intros H. apply general_eqb_sound in H. now subst. Qed.
Definition stops_with {A} (r : pr A) (v : verdict) : bool :=
  match r, v with
  | Stop VInfeasible, VInfeasible | Stop VUnbounded, VUnbounded => true
  | Stop (VOptimum s), VOptimum t => qeqb (s_objective s) (s_objective t) && same_values (s_values s) (s_values t)
  | _, _ => false
  end.
Lemma stops_with_ok {A} (r : pr A) v : stops_with r v = true -> r = Stop v.
Proof.
  destruct r as [a|[| |[o w]]| |], v as [| |[o' w']]; cbn; try discriminate; try reflexivity. intros H. apply andb_true_iff in H.
  destruct H as [H1 H2]. apply same_values_ok in H2. qb. now subst.
Qed.
Definition pr_panics {A} (r : pr A) : bool := match r with PPanic => true | _ => false end.
Lemma pr_panics_ok {A} (r : pr A) : pr_panics r = true -> r = PPanic.
Proof. destruct r; try discriminate; reflexivity. Qed.

(** deciding whether a listed point is feasible *)
Definition point (l : list Qc) : vec := fun j => nth j l 0.
Definition rel_holdsb (t : rel) (b v : Qc) : bool :=
  match t with Equal => qeqb v b | Range r => qleb (b - r) v && qleb v b | Less => qleb v b | Greater => qleb b v end.
Lemma rel_holdsb_ok t b v : rel_holdsb t b v = true <-> rel_holds t b v.
Proof. destruct t; cbn; rewrite ?andb_true_iff, ?qeqb_true, ?qleb_true; reflexivity. Qed.
Definition in_boundsb (v : variable) (x : Qc) : bool :=
  match v_lower v with Some l => qleb l x | None => true end && match v_upper v with Some u => qleb x u | None => true end.
Lemma in_boundsb_ok v x : in_boundsb v x = true <-> in_bounds v x.
Proof.
  unfold in_boundsb, in_bounds. rewrite andb_true_iff. destruct (v_lower v) as [l|], (v_upper v) as [u|]; rewrite ?qleb_true; split.
  all: try (intros [H1 H2]; split; intros ? E; try discriminate; injection E as <-; assumption).
  all: intros [H1 H2]; split; try reflexivity; auto.
Qed.
Definition gfeasibleb (g : general) (x : vec) : bool :=
  forallb (fun i => rel_holdsb (row_type g i) (nthq (g_b g) i) (row_value g x i)) (range 0 (g_rows g)) &&
  forallb (fun j => in_boundsb (var g j) (x j)) (range 0 (nr_vars g)).
Lemma gfeasibleb_ok g x : gfeasibleb g x = true <-> gfeasible g x.
Proof.
  unfold gfeasibleb, gfeasible. rewrite andb_true_iff, !forallb_forall. split.
  - intros [H1 H2]. split; intros k L; [apply rel_holdsb_ok, H1|apply in_boundsb_ok, H2]; apply In_range; lia.
  - intros [H1 H2]. split; intros k L; apply In_range in L; [apply rel_holdsb_ok, H1|apply in_boundsb_ok, H2]; lia.
Qed.
Lemma gfeasibleb_false g x : gfeasibleb g x = false -> ~ gfeasible g x.
Proof. intros H C. apply gfeasibleb_ok in C. congruence. Qed.

Local Open Scope string_scope.
(** 7 <= 4x + 3y + z <= 9 with x <= 2, min 2y + 2z.  Presolving removes x as a slack variable and keeps
    the constraint 3y + z >= 1; what follows from x <= 2 is 3y + z >= -1. *)
Definition w_range : general :=
  new_general Minimize 1 [zcol [(0%nat, 4%Z)]; zcol [(0%nat, 3%Z)]; zcol [(0%nat, 1%Z)]] [Range (zq 2)] [zq 9]
    [v_ 0 None (Some 2%Z); v_ 2 (Some 0%Z) None; v_ 2 (Some 0%Z) None] ["x"; "y"; "z"] 0.
Definition w_range_after : general :=
  mk_general Minimize 0 1 [zcol [(0%nat, 3%Z)]; zcol [(0%nat, 1%Z)]] [Greater] [zq 1] [v_ 2 (Some 0%Z) None; v_ 2 (Some 0%Z) None]
    [("x", Removed (FunctionOf (zq 9 / zq 4) [(1%nat, zq 3 / zq 4); (2%nat, 1 / zq 4)])); ("y", Active 0); ("z", Active 1)] [1; 2]%nat.
(** min -x with x + s >= 1, 0 <= x <= 5, s >= 0: reported as x = 5, s = -4 *)
Definition w_slack : general :=
  new_general Minimize 1 [zcol [(0%nat, 1%Z)]; zcol [(0%nat, 1%Z)]] [Greater] [zq 1]
    [v_ (-1) (Some 0%Z) (Some 5%Z); v_ 0 (Some 0%Z) None] ["x"; "s"] 0.
(** min x with x + s + r = 3, 0 <= x <= 5, 0 <= s, r <= 1: reported as x = 1, s = 2, r = 0 *)
Definition w_two : general :=
  new_general Minimize 1 [zcol [(0%nat, 1%Z)]; zcol [(0%nat, 1%Z)]; zcol [(0%nat, 1%Z)]] [Equal] [zq 3]
    [v_ 1 (Some 0%Z) (Some 5%Z); v_ 0 (Some 0%Z) (Some 1%Z); v_ 0 (Some 0%Z) (Some 1%Z)] ["x"; "s"; "r"] 0.
(** three constraints of which the presolver uses an activity it computed before the bounds changed *)
Definition w_stale : general :=
  new_general Minimize 3
    [zcol [(2%nat, 3%Z)]; zcol [(0%nat, 1%Z); (1%nat, 2%Z); (2%nat, 2%Z)]; zcol [(0%nat, 2%Z)]; zcol [(2%nat, 1%Z)]]
    [Equal; Less; Equal] [zq 1; zq 8; zq 6]
    [v_ (-1) (Some 0%Z) None; v_ 1 (Some 1%Z) (Some 5%Z); v_ (-1) (Some 0%Z) None; v_ 1 (Some 0%Z) (Some 3%Z)] ["a"; "b"; "c"; "d"] 0.
(** an infeasible program of which the presolver drops constraints because of bounds that it forgets *)
Definition w_dropped : general :=
  new_general Minimize 3
    [zcol [(0%nat, (-1)%Z); (1%nat, 1%Z); (2%nat, (-1)%Z)]; zcol [(1%nat, 1%Z); (2%nat, (-5)%Z)];
     zcol [(0%nat, (-1)%Z); (1%nat, 4%Z); (2%nat, 2%Z)]]
    [Greater; Greater; Greater] [zq 8; 0; zq (-4)]
    [v_ 2 None (Some 0%Z); v_ 1 (Some 0%Z) None; v_ 2 (Some (-1)%Z) (Some 1%Z)] ["a"; "b"; "c"] 0.
(** 0 = 4 is required, and x has cost 1 and no lower bound *)
Definition w_unbounded : general := new_general Minimize 1 [[]] [Equal] [zq 4] [v_ 1 None (Some 0%Z)] ["x"] 0.
(** -5 <= x + y <= 0 with x, y >= 0 *)
Definition w_panic : general :=
  new_general Minimize 1 [zcol [(0%nat, 1%Z)]; zcol [(0%nat, 1%Z)]] [Range (zq 5)] [0]
    [v_ 1 (Some 0%Z) None; v_ 1 (Some 0%Z) None] ["x"; "y"] 0.
(** a program for which the second call changes what the first left *)
Definition w_twice : general :=
  new_general Minimize 2 [zcol [(0%nat, 4%Z); (1%nat, (-1)%Z)]; zcol [(0%nat, 4%Z); (1%nat, 1%Z)]; zcol [(0%nat, (-1)%Z)]]
    [Greater; Less] [zq 5; zq 10]
    [v_ 0 (Some 1%Z) (Some 4%Z); v_ 2 (Some 0%Z) (Some 3%Z); v_ 2 (Some (-1)%Z) (Some 2%Z)] ["a"; "b"; "c"] 0.

Lemma w_range_ok : general_ok w_range /\ fresh w_range. Proof. apply new_ok. vm_compute. reflexivity. Qed.
Lemma w_slack_ok : general_ok w_slack /\ fresh w_slack. Proof. apply new_ok. vm_compute. reflexivity. Qed.
Lemma w_two_ok : general_ok w_two /\ fresh w_two. Proof. apply new_ok. vm_compute. reflexivity. Qed.
Lemma w_stale_ok : general_ok w_stale /\ fresh w_stale. Proof. apply new_ok. vm_compute. reflexivity. Qed.
Lemma w_dropped_ok : general_ok w_dropped /\ fresh w_dropped. Proof. apply new_ok. vm_compute. reflexivity. Qed.
Lemma w_unbounded_ok : general_ok w_unbounded /\ fresh w_unbounded. Proof. apply new_ok. vm_compute. reflexivity. Qed.
Lemma w_panic_ok : general_ok w_panic /\ fresh w_panic. Proof. apply new_ok. vm_compute. reflexivity. Qed.
Lemma w_twice_ok : general_ok w_twice /\ fresh w_twice. Proof. apply new_ok. vm_compute. reflexivity. Qed.

Lemma w_range_run : presolve 100 w_range = Go w_range_after.
Proof. apply goes_to_ok. vm_compute. reflexivity. Qed.
Definition w_range_best : vec := point [zq 1 / zq 3; 0].
Definition w_range_value : vec := point [zq 2; zq 1 / zq 3; 0].
Lemma w_range_best_ok : goptimal w_range_after w_range_best.
Proof.
  split; [apply gfeasibleb_ok; vm_compute; reflexivity|]. intros y [Hr Hb].
  specialize (Hr 0%nat ltac:(cbn; lia)). pose proof (Hb 0%nat ltac:(cbn; lia)) as B0. pose proof (Hb 1%nat ltac:(cbn; lia)) as B1.
  destruct B0 as [B0 _]. destruct B1 as [B1 _]. specialize (B0 _ eq_refl). specialize (B1 _ eq_refl). cbn [better w_range_after g_objective].
  assert (E1 : gcost w_range_after w_range_best = zq 2 / zq 3) by (apply qeqb_true; vm_compute; reflexivity).
  assert (E2 : gcost w_range_after y = zq 2 * y 0%nat + zq 2 * y 1%nat).
  { change (gcost w_range_after y) with (0 + (0 + zq 2 * y 0%nat + zq 2 * y 1%nat)). ring. }
  assert (E3 : zq 1 <= zq 3 * y 0%nat + y 1%nat).
  { replace (zq 3 * y 0%nat + y 1%nat) with (row_value w_range_after y 0); [exact Hr|].
    change (row_value w_range_after y 0) with (0 + (zq 3 + 0) * y 0%nat + (zq 1 + 0) * y 1%nat). change (zq 1) with 1. ring. }
  rewrite E1, E2. clear -B0 B1 E3. assert (zq 2 / zq 3 * zq 3 = zq 2) by (apply qeqb_true; vm_compute; reflexivity).
  generalize dependent (zq 2 / zq 3). intros q Hq. qlra.
Qed.
Lemma w_range_completed : completed w_range_after w_range_best w_range_value.
Proof.
  intros o name e E. destruct o as [|[|[|o]]]; cbn in E; [| | |destruct o; discriminate]; injection E as <- <-; apply qeqb_true; vm_compute; reflexivity.
Qed.
Lemma w_range_not_optimal : ~ goptimal w_range w_range_value.
Proof.
  intros [_ H]. specialize (H (point [zq 2; 0; 0])). assert (F : gfeasible w_range (point [zq 2; 0; 0])) by (apply gfeasibleb_ok; vm_compute; reflexivity).
  specialize (H F). cbn in H. apply qleb_true in H. vm_compute in H. discriminate.
Qed.
Definition w_slack_solution : solution := mk_solution (zq (-5)) [("x", zq 5); ("s", zq (-4))].
Lemma w_slack_run : presolve 100 w_slack = Stop (VOptimum w_slack_solution).
Proof. apply stops_with_ok. vm_compute. reflexivity. Qed.
Lemma w_slack_wrong : ~ gfeasible w_slack (solution_point w_slack_solution).
Proof. apply gfeasibleb_false. vm_compute. reflexivity. Qed.
Definition w_two_solution : solution := mk_solution (zq 1) [("x", zq 1); ("s", zq 2); ("r", 0)].
Lemma w_two_run : presolve 100 w_two = Stop (VOptimum w_two_solution).
Proof. apply stops_with_ok. vm_compute. reflexivity. Qed.
Lemma w_two_wrong : ~ gfeasible w_two (solution_point w_two_solution).
Proof. apply gfeasibleb_false. vm_compute. reflexivity. Qed.
Lemma w_stale_run : presolve 100 w_stale = Stop VInfeasible.
Proof. apply stops_with_ok. vm_compute. reflexivity. Qed.
Lemma w_stale_point : gfeasible w_stale (point [zq 4 / zq 3; 1; 0; 0]).
Proof. apply gfeasibleb_ok. vm_compute. reflexivity. Qed.
Lemma w_dropped_run : exists g', presolve 100 w_dropped = Go g' /\ exists x, gfeasible g' x.
Proof.
  assert (H : match presolve 100 w_dropped with Go g' => gfeasibleb g' (point [0; 0; 0]) | _ => false end = true) by (vm_compute; reflexivity).
  destruct (presolve 100 w_dropped) as [g'| | |]; try discriminate. exists g'. split; [reflexivity|]. eexists. apply gfeasibleb_ok. exact H.
Qed.
Lemma w_dropped_empty : ~ exists x, gfeasible w_dropped x.
Proof.
  intros [x [Hr Hb]]. pose proof (Hr 0%nat ltac:(cbn; lia)) as R0. pose proof (Hr 1%nat ltac:(cbn; lia)) as R1. pose proof (Hr 2%nat ltac:(cbn; lia)) as R2.
  destruct (Hb 0%nat ltac:(cbn; lia)) as [_ A]. destruct (Hb 1%nat ltac:(cbn; lia)) as [B _]. destruct (Hb 2%nat ltac:(cbn; lia)) as [C D].
  specialize (A _ eq_refl). specialize (B _ eq_refl). specialize (C _ eq_refl). specialize (D _ eq_refl).
  change (zq 8 <= 0 + (zq (-1) + 0) * x 0%nat + 0 * x 1%nat + (zq (-1) + 0) * x 2%nat) in R0.
  change (0 <= 0 + (zq 1 + 0) * x 0%nat + (zq 1 + 0) * x 1%nat + (zq 4 + 0) * x 2%nat) in R1.
  change (zq (-4) <= 0 + (zq (-1) + 0) * x 0%nat + (zq (-5) + 0) * x 1%nat + (zq 2 + 0) * x 2%nat) in R2.
  clear Hr Hb. qlra.
Qed.
Lemma w_unbounded_run : presolve 100 w_unbounded = Stop VUnbounded.
Proof. apply stops_with_ok. vm_compute. reflexivity. Qed.
Lemma w_unbounded_empty : ~ exists x, gfeasible w_unbounded x.
Proof.
  intros [x [Hr _]]. specialize (Hr 0%nat ltac:(cbn; lia)). change (0 + 0 * x 0%nat = zq 4) in Hr.
  assert (E : 0 = zq 4) by (rewrite <- Hr; ring). apply qeqb_true in E. vm_compute in E. discriminate.
Qed.
Lemma w_panic_run : presolve 100 w_panic = PPanic.
Proof. apply pr_panics_ok. vm_compute. reflexivity. Qed.
Lemma w_panic_point : gfeasible w_panic (point [0; 0]).
Proof. apply gfeasibleb_ok. vm_compute. reflexivity. Qed.
Definition w_twice_first : solution := mk_solution (zq (-2)) [("a", zq 4); ("b", 0); ("c", zq (-1))].
Definition w_twice_second : solution := mk_solution (zq (-2)) [("a", 0); ("b", zq (-1)); ("c", 0)].
Lemma w_twice_run : exists g', presolve 100 w_twice = Go g' /\
  solve_general UseRows FirstProfitable 100 g' = Ok (Solved_to w_twice_first) /\
  presolve_and_solve UseRows FirstProfitable 100 g' = Ok (Solved_to w_twice_second).
Proof.
  assert (H : match presolve 100 w_twice with
              | Go g' => answer_is (solve_general UseRows FirstProfitable 100 g') (Solved_to w_twice_first) &&
                         answer_is (presolve_and_solve UseRows FirstProfitable 100 g') (Solved_to w_twice_second)
              | _ => false end = true) by (vm_compute; reflexivity).
  destruct (presolve 100 w_twice) as [g'| | |]; try discriminate. exists g'. apply andb_true_iff in H. destruct H as [H1 H2].
  split; [reflexivity|]. split; now apply answer_is_ok.
Qed.
Lemma w_twice_right : gfeasible w_twice (solution_point w_twice_first).
Proof. apply gfeasibleb_ok. vm_compute. reflexivity. Qed.
Lemma w_twice_wrong : ~ gfeasible w_twice (solution_point w_twice_second).
Proof. apply gfeasibleb_false. vm_compute. reflexivity. Qed.
Lemma w_two_rows : forall i, (i < g_rows w_two)%nat -> row_type w_two i = Equal.
Proof. intros [|i] L; [reflexivity|cbn in L; lia]. Qed.

(** ** A row of which the activity is used *)
Definition withinb (g : general) (u : updates) (j : nat) (x : Qc) : bool :=
  match bound_of g u j Lower with Some l => qleb l x | None => true end && match bound_of g u j Upper with Some h => qleb x h | None => true end.
Lemma w_stale_activity : let row := zcol [(0%nat, 3%Z); (1%nat, 2%Z); (3%nat, 1%Z)] in exists a, activity_sum w_stale no_updates Lower row = Go a /\ a = zq 2 /\
  all_within w_stale no_updates row (fun _ => 1) /\ rel_holds (type_of w_stale no_updates 2) (b_of w_stale no_updates 2) (combination row (fun _ => 1)) /\
  usable_side w_stale no_updates 2 Lower = Some (zq 6) /\ bound_of w_stale no_updates 1 (bmul Lower (zq 2)) = Some (zq 1) /\
  qeqb ((zq 6 - (a - zq 2 * zq 1)) / zq 2) (zq 3) = true.
Proof.
  intros row. destruct (activity_sum w_stale no_updates Lower row) as [a| | |] eqn:E; [|vm_compute in E; discriminate..].
  exists a. split; [reflexivity|].
  assert (A : a = zq 2) by (apply qeqb_true; assert (H : match activity_sum w_stale no_updates Lower row with Go a => qeqb a (zq 2) = true | _ => False end) by (vm_compute; reflexivity); now rewrite E in H).
  split; [exact A|]. split; [|split; [|split; [|split]]].
  - assert (B : forallb (fun '(j, c) => negb (qzero c) && withinb w_stale no_updates j 1) row = true) by (vm_compute; reflexivity).
    intros j c I. rewrite forallb_forall in B. specialize (B _ I). apply andb_true_iff in B. destruct B as [B1 B2]. split.
    + intros ->. discriminate B1.
    + unfold withinb in B2. apply andb_true_iff in B2. destruct B2 as [B2 B3]. intros d v Q. destruct d; rewrite Q in *; cbn; now apply qleb_true.
  - apply qeqb_true. vm_compute. reflexivity.
  - reflexivity.
  - reflexivity.
  - rewrite A. vm_compute. reflexivity.
Qed.
