(** * Concrete general form programs, used to show that hypotheses can be met and for counterexamples *)
From Verif Require Import Examples SparseP StandardP StandardQ.
From Verif Require Export SpecGeneral Pipeline.
Local Open Scope Qc_scope.

Definition range_ok (t : rel) : bool := match t with Range r => negb (qneg r) | _ => true end.
Definition domain_ok (v : variable) : bool :=
  match v_lower v, v_upper v with Some l, Some u => negb (qneg (u - l)) | _, _ => true end.
Definition new_okb (rows : nat) (cols : list svec) (types : list rel) (b : list Qc) (vars : list variable) (names : list string) : bool :=
  Nat.eqb (length cols) (length vars) && Nat.eqb (length names) (length vars) && Nat.eqb (length types) rows && Nat.eqb (length b) rows &&
  forallb (fwfb 0 rows) cols && forallb range_ok types && forallb domain_ok vars &&
  forallb (fun v => qzero (v_shift v) && negb (v_flipped v)) vars.
Lemma new_ok o rows cols types b vars names fixed : new_okb rows cols types b vars names = true ->
  general_ok (new_general o rows cols types b vars names fixed) /\ fresh (new_general o rows cols types b vars names fixed).
Proof.
  unfold new_okb. rewrite !andb_true_iff. intros [[[[[[[H1 H2] H3] H4] H5] H6] H7] H8]. apply Nat.eqb_eq in H1, H2, H3, H4.
  rewrite forallb_forall in H5, H6, H7, H8.
  set (g := new_general o rows cols types b vars names fixed).
  assert (V : forall j, (j < nr_vars g)%nat -> In (var g j) vars) by (intros j L; now apply nth_In).
  assert (OR : forall k, nth_error (g_orig g) k = match nth_error names k with Some s => Some (s, Active k) | None => None end).
  { intros k. cbn. rewrite nth_error_map. clear; revert k. assert (G : forall l s k, nth_error (number_from s l) k = option_map (fun x : string => ((s + k)%nat, x)) (nth_error l k)).
    { induction l as [|x l IH]; intros s [|k]; cbn; try reflexivity; [now rewrite Nat.add_0_r|]. rewrite IH. now replace (S s + k)%nat with (s + S k)%nat by lia. }
    intros k. rewrite G. destruct (nth_error names k); reflexivity. }
  assert (FR : forall j, (j < nr_vars g)%nat -> nth j (g_from g) 0%nat = j).
  { intros j L. cbn. unfold range. rewrite Nat.sub_0_r. now rewrite seq_nth by exact L. }
  assert (OK : forall j, (j < nr_vars g)%nat -> exists name, nth_error (g_orig g) j = Some (name, Active j)).
  { intros j L. rewrite OR. destruct (nth_error names j) eqn:E; [eexists; reflexivity|]. apply nth_error_None in E. cbn in L. unfold nr_vars in L. cbn in L. lia. }
  split.
  - constructor; try assumption.
    + cbn. unfold range, nr_vars. rewrite seq_length. cbn. lia.
    + intros j L. apply fwfb_ok, H5. apply nth_In. cbn in L |- *. unfold nr_vars in L. cbn in L. lia.
    + intros i r L E. specialize (H6 (Range r)). cbn in H6. assert (negb (qneg r) = true).
      { apply H6. rewrite <- E. unfold row_type. apply nth_In. cbn in L |- *. lia. } apply negb_true_iff in H. now qb.
    + intros j l u L El Eu. specialize (H7 _ (V j L)). unfold domain_ok in H7. rewrite El, Eu in H7. apply negb_true_iff in H7. qb. qlra.
    + intros k name j E. rewrite OR in E. destruct (nth_error names k) eqn:En; [|discriminate]. injection E as -> <-.
      assert (L : (k < nr_vars g)%nat) by (unfold nr_vars; cbn; rewrite <- H2; apply nth_error_Some; congruence). split; [assumption|now apply FR].
    + intros k name p n E. rewrite OR in E. destruct (nth_error names k); discriminate.
    + intros j L _ _. specialize (H8 _ (V j L)). apply andb_true_iff in H8. destruct H8 as [_ H8]. apply negb_true_iff in H8.
      split; [assumption|]. rewrite FR by assumption. now apply OK.
  - split; [|split; [exact OK|split; [|exact FR]]].
    + cbn. rewrite map_length, number_from_length. exact H2.
    + intros j L. specialize (H8 _ (V j L)). apply andb_true_iff in H8. destruct H8 as [Hs Hf]. apply negb_true_iff in Hf. qb. now split.
Qed.

Definition v_ (cost : Z) (lower upper : option Z) : variable :=
  mk_var false (zq cost) (option_map zq lower) (option_map zq upper) 0 false.

(** min -x - 2y + w + 3 with 1 <= x <= 5, y <= 3, w free,
    x + y - w <= 4, x + 3y = 6, 2 <= -x + 2w <= 9 (as 9 with range 7), -x - y >= -8 *)
Local Open Scope string_scope.
Definition ex_general : general :=
  new_general Minimize 4
    [zcol [(0%nat, 1%Z); (1%nat, 1%Z); (2%nat, (-1)%Z); (3%nat, (-1)%Z)];
     zcol [(0%nat, 1%Z); (1%nat, 3%Z); (3%nat, (-1)%Z)];
     zcol [(0%nat, (-1)%Z); (2%nat, 2%Z)]]
    [Less; Equal; Range (zq 7); Greater] [zq 4; zq 6; zq 9; zq (-8)]
    [v_ (-1) (Some 1%Z) (Some 5%Z); v_ (-2) None (Some 3%Z); v_ 1 None None] ["x"; "y"; "w"] (zq 3).
(** min x - y with x >= 0, 0 <= y <= 3, x + y = 3, 1 <= 2x + y <= 5 (as 5 with range 4), x <= 2, y >= 1 *)
Definition ex_shape : general :=
  new_general Minimize 4
    [zcol [(0%nat, 1%Z); (1%nat, 2%Z); (2%nat, 1%Z)]; zcol [(0%nat, 1%Z); (1%nat, 1%Z); (3%nat, 1%Z)]]
    [Equal; Range (zq 4); Less; Greater] [zq 3; zq 5; zq 2; zq 1]
    [v_ 1 (Some 0%Z) None; v_ (-1) (Some 0%Z) (Some 3%Z)] ["x"; "y"] 0.
(** x + y <= 1, x <= 9, x >= 1, 2 <= y <= 5: no point *)
Definition ex_general_infeasible : general :=
  new_general Minimize 2 [zcol [(0%nat, 1%Z); (1%nat, 1%Z)]; zcol [(0%nat, 1%Z)]] [Less; Less] [zq 1; zq 9]
    [v_ 1 (Some 1%Z) None; v_ 1 (Some 2%Z) (Some 5%Z)] ["x"; "y"] 0.
(** min -x, x - y <= 4, x + y >= 1, y free *)
Definition ex_general_unbounded : general :=
  new_general Minimize 2 [zcol [(0%nat, 1%Z); (1%nat, 1%Z)]; zcol [(0%nat, (-1)%Z); (1%nat, 1%Z)]] [Less; Greater] [zq 4; zq 1]
    [v_ (-1) (Some 0%Z) None; v_ 0 None None] ["x"; "y"] 0.
(** max x + 3 with x + y <= 4, x >= 1, y <= 2: the optimum is 3 + 4 when y is 0 *)
Definition ex_maximize : general :=
  new_general Maximize 2 [zcol [(0%nat, 1%Z); (1%nat, 1%Z)]; zcol [(0%nat, 1%Z); (1%nat, 1%Z)]] [Less; Less] [zq 4; zq 5]
    [v_ 1 (Some 1%Z) None; v_ 0 (Some 0%Z) (Some 2%Z)] ["x"; "y"] (zq 3).
(** min -x with x <= 4 as the only constraint *)
Definition ex_one_constraint : general :=
  new_general Minimize 1 [zcol [(0%nat, 1%Z)]] [Less] [zq 4] [v_ (-1) (Some 0%Z) None] ["x"] 0.
(** min x, 0 <= x <= -1, x + y <= 4, x - y <= 3: the domain of x is empty *)
Definition ex_empty_domain : general :=
  new_general Minimize 2 [zcol [(0%nat, 1%Z); (1%nat, 1%Z)]; zcol [(0%nat, 1%Z); (1%nat, (-1)%Z)]] [Less; Less] [zq 4; zq 3]
    [v_ 1 (Some 0%Z) (Some (-1)%Z); v_ 1 (Some 0%Z) None] ["x"; "y"] 0.

(** comparing answers by computation *)
Fixpoint same_values (a b : list (string * Qc)) : bool :=
  match a, b with
  | [], [] => true
  | (s, x) :: a, (t, y) :: b => String.eqb s t && qeqb x y && same_values a b
  | _, _ => false
  end.
Lemma same_values_ok : forall a b, same_values a b = true -> a = b.
Proof.
  induction a as [|[s x] a IH]; intros [|[t y] b] H; cbn in H; try discriminate; [reflexivity|].
  rewrite !andb_true_iff in H. destruct H as [[H1 H2] H3]. apply String.eqb_eq in H1. apply IH in H3. qb. now subst.
Qed.
Definition answer_is (r : res answer) (a : answer) : bool :=
  match r, a with
  | Ok (Solved_to s), Solved_to t => qeqb (s_objective s) (s_objective t) && same_values (s_values s) (s_values t)
  | Ok NoSolution, NoSolution | Ok NoBound, NoBound => true
  | _, _ => false
  end.
Lemma answer_is_ok r a : answer_is r a = true -> r = Ok a.
Proof.
  destruct r as [[[o v]| |]| |], a as [[o' v']| |]; cbn; try discriminate; try reflexivity. intros H. apply andb_true_iff in H.
  destruct H as [H1 H2]. apply same_values_ok in H2. qb. now subst.
Qed.
Definition is_panic {A} (r : res A) : bool := match r with Panic => true | _ => false end.
Lemma is_panic_ok {A} (r : res A) : is_panic r = true -> r = Panic.
Proof. destruct r; [discriminate|reflexivity|discriminate]. Qed.
