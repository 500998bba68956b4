(** * Standardization preserves the problem (proofs about GeneralForm.v) *)
From Verif Require Import SpecGeneral SparseP KindP FinishP.
From Coq Require Import Permutation.
Local Open Scope Qc_scope.

(** A correspondence between two programs: [F] maps points of [g'] back to points of [g], [G] forth;
    when [one] holds they are inverse to each other. *)
(** the point between two points that is [a] of the one and the rest of the other *)
Definition mix (a : Qc) (x y : vec) : vec := fun j => a * x j + (1 - a) * y j.
Record corr (one : Prop) (g g' : general) (F G : vec -> vec) : Prop := mk_corr {
  co_back : forall x, gfeasible g' x -> gfeasible g (F x);
  co_forth : forall x, gfeasible g x -> gfeasible g' (G x);
  co_cost : forall x, gcost g' x = gcost g (F x);
  co_ext : forall x y, (forall j, (j < nr_vars g')%nat -> x j = y j) -> forall j, (j < nr_vars g)%nat -> F x j = F y j;
  co_ext' : forall x y, (forall j, (j < nr_vars g)%nat -> x j = y j) -> forall j, (j < nr_vars g')%nat -> G x j = G y j;
  co_inv : forall x j, (j < nr_vars g)%nat -> F (G x) j = x j;
  co_one : one -> forall x j, (j < nr_vars g')%nat -> G (F x) j = x j;
  co_values : forall x val, completed g' x val <-> completed g (F x) val;
  co_names : map fst (g_orig g') = map fst (g_orig g);
  co_dir : g_objective g' = g_objective g;
  co_removed : forall o name r, nth_error (g_orig g') o = Some (name, Removed r) -> nth_error (g_orig g) o = Some (name, Removed r);
  co_mix : forall a x y j, (j < nr_vars g)%nat -> F (mix a x y) j = mix a (F x) (F y) j
}.

Lemma corr_id (one : Prop) g : corr one g g (fun x => x) (fun x => x).
Proof. constructor; auto. intros; reflexivity. Qed.
Lemma corr_weaken (one one' : Prop) g g' F G : (one' -> one) -> corr one g g' F G -> corr one' g g' F G.
Proof. intros H []; constructor; auto. Qed.
Lemma corr_trans one g1 g2 g3 F G F' G' : corr one g1 g2 F G -> corr one g2 g3 F' G' ->
  corr one g1 g3 (fun x => F (F' x)) (fun x => G' (G x)).
Proof.
  intros [] []; constructor; intros; auto.
  - congruence.
  - assert (H2 : forall j, (j < nr_vars g1)%nat -> F (F' (G' (G x))) j = F (G x) j) by (apply co_ext0; intros; apply co_inv1; assumption).
    rewrite H2 by assumption. apply co_inv0; assumption.
  - transitivity (G' (F' x) j); [|now apply co_one1]. apply co_ext'1; [|assumption]. intros; now apply co_one0.
  - rewrite co_values1. apply co_values0.
  - congruence.
  - congruence.
  - transitivity (F (mix a (F' x) (F' y)) j); [|now apply co_mix0]. apply co_ext0; [|assumption]. intros; now apply co_mix1.
Qed.

Lemma own_value_ext v v' x x' : v_flipped v = v_flipped v' -> v_shift v = v_shift v' -> x = x' -> own_value v x = own_value v' x'.
Proof. unfold own_value. intros -> -> ->. reflexivity. Qed.

Lemma nth_app_l {A} (l l' : list A) i d : (i < length l)%nat -> nth i (l ++ l') d = nth i l d.
Proof. intros; now apply app_nth1. Qed.
Lemma nth_snoc {A} (l : list A) x d : nth (length l) (l ++ [x]) d = x.
Proof. rewrite app_nth2 by lia. now rewrite Nat.sub_diag. Qed.

Lemma den_snegate l i : den (snegate l) i = - den l i.
Proof. unfold snegate. induction l as [|[j v] l IH]; cbn [map den]; [ring|]. rewrite IH. destruct (Nat.eqb i j); ring. Qed.
Lemma fwf_snegate lo m l : fwf lo m l -> fwf lo m (snegate l).
Proof.
  unfold snegate. revert lo. induction l as [|[j v] l IH]; intros lo; cbn [map fwf]; [auto|].
  intros (H & N & K). split; [assumption|]. split; [|auto]. intro C. apply N. rewrite <- (Qcopp_involutive v), C. ring.
Qed.

(** ** Splitting one free variable *)
Section Split.
Variables (g : general) (j : nat).
Local Notation n := (nr_vars g).
Hypothesis Lj : (j < n)%nat.
Hypothesis Lcols : (n < length (g_cols g))%nat.
Hypothesis Hfrom : length (g_from g) = n.
Hypothesis Hcol : nth n (g_cols g) [] = snegate (nth j (g_cols g) []).
Hypothesis Hactive : forall o name k, nth_error (g_orig g) o = Some (name, Active k) ->
     (k < n)%nat /\ nth k (g_from g) 0%nat = o.
Hypothesis Hsplit : forall o name p q, nth_error (g_orig g) o = Some (name, ActiveFree p q) ->
     (p < n)%nat /\ (q < n)%nat /\ nth p (g_from g) 0%nat = o /\ nth q (g_from g) 0%nat = o.
Hypothesis Hlow : v_lower (var g j) = None.
Hypothesis Hup : v_upper (var g j) = None.
Hypothesis Hflip : v_flipped (var g j) = false.
Hypothesis Hname : exists name, nth_error (g_orig g) (nth j (g_from g) 0%nat) = Some (name, Active j).

Definition split_back (k n : nat) (x : vec) : vec := fun i => if Nat.eqb i k then x k - x n else x i.
Definition split_forth (k n : nat) (x : vec) : vec :=
  fun i => if Nat.eqb i k then qmax (x k) 0 else if Nat.eqb i n then qmax (- x k) 0 else x i.

Lemma split_one_ok : exists g', split_one g j = Ok g' /\
  g_objective g' = g_objective g /\ g_fixed g' = g_fixed g /\ g_rows g' = g_rows g /\ g_cols g' = g_cols g /\
  g_types g' = g_types g /\ g_b g' = g_b g /\
  nr_vars g' = Datatypes.S n /\
  (forall k, (k < n)%nat -> k <> j -> var g' k = var g k) /\
  var g' j = set_lower_zero (var g j) /\
  var g' n = mk_var (v_integer (var g j)) (- v_cost (var g j)) (Some 0) None 0 false /\
  g_from g' = g_from g ++ [nth j (g_from g) 0%nat] /\
  exists name, nth_error (g_orig g) (nth j (g_from g) 0%nat) = Some (name, Active j) /\
    g_orig g' = upd (g_orig g) (nth j (g_from g) 0%nat) (name, ActiveFree j n).
Proof using Lj Hfrom Hname.
  clear Lcols.
  destruct Hname as [name Hn]. set (o := nth j (g_from g) 0%nat) in *.
  assert (Lo : (o < length (g_orig g))%nat) by (apply nth_error_Some; congruence).
  unfold split_one.
  assert (E1 : index (g_from g) j = Ok o).
  { apply index_ok. unfold o. apply nth_error_nth'. now rewrite Hfrom. }
  assert (E2 : index (g_orig g) o = Ok (name, Active j)) by now apply index_ok.
  assert (E3 : index (g_vars g) j = Ok (var g j)) by (apply index_ok; now apply nth_error_nth').
  rewrite E1. cbn [bind]. rewrite E2. cbn [bind fst].
  unfold set_index at 1. rewrite (proj2 (Nat.ltb_lt _ _) Lo). cbn [bind]. rewrite E3. cbn [bind].
  unfold set_index. rewrite app_length. cbn [length].
  assert (Lj' : (j < length (g_vars g) + 1)%nat) by (unfold nr_vars in Lj; lia).
  rewrite (proj2 (Nat.ltb_lt _ _) Lj'). cbn [bind].
  eexists. split; [reflexivity|]. cbn [g_objective g_fixed g_rows g_cols g_types g_b g_vars g_orig g_from].
  repeat split.
  - unfold nr_vars. cbn [g_vars]. rewrite upd_length, app_length. cbn. lia.
  - intros k Lk Nk. unfold var at 1. cbn [g_vars]. rewrite upd_nth by (rewrite app_length; cbn; lia).
    rewrite (proj2 (Nat.eqb_neq k j)) by assumption. now rewrite nth_app_l.
  - unfold var at 1. cbn [g_vars]. rewrite upd_nth by (rewrite app_length; cbn; lia). now rewrite Nat.eqb_refl.
  - unfold var at 1. cbn [g_vars]. rewrite upd_nth by (rewrite app_length; cbn; lia).
    rewrite (proj2 (Nat.eqb_neq n j)) by lia. apply nth_snoc.
  - exists name. split; [assumption|]. now rewrite Hfrom.
Qed.

Lemma split_one_corr g' : split_one g j = Ok g' -> corr False g g' (split_back j n) (split_forth j n).
Proof using Lj Lcols Hfrom Hcol Hactive Hsplit Hlow Hup Hflip Hname.
  intros E. destruct split_one_ok as (g0 & E0 & HO & HF & HR & HC & HT & HB & HN & HV & HVj & HVn & HFr & name & Hn & HOr).
  rewrite E in E0. injection E0 as <-.
  set (o := nth j (g_from g) 0%nat) in *.
  assert (Lo : (o < length (g_orig g))%nat) by (apply nth_error_Some; congruence).
  assert (RV : forall x i, row_value g' x i = row_value g (split_back j n x) i).
  { intros x i. unfold row_value, coefficient. rewrite HN, HC. cbn [sum]. rewrite Hcol, den_snegate.
    rewrite (sum_split n j (fun k => den (nth k (g_cols g) []) i * x k)) by assumption.
    rewrite (sum_split n j (fun k => den (nth k (g_cols g) []) i * split_back j n x k)) by assumption.
    unfold split_back at 1. rewrite Nat.eqb_refl.
    rewrite (sum_ext n (fun k => if Nat.eqb k j then 0 else den (nth k (g_cols g) []) i * split_back j n x k)
               (fun k => if Nat.eqb k j then 0 else den (nth k (g_cols g) []) i * x k)).
    2:{ intros k Lk. unfold split_back. destruct (Nat.eqb_spec k j); reflexivity. }
    ring. }
  assert (CV : forall x, gcost g' x = gcost g (split_back j n x)).
  { intros x. unfold gcost. rewrite HN, HF. cbn [sum]. rewrite HVn. cbn [v_cost].
    rewrite (sum_split n j (fun k => v_cost (var g' k) * x k)) by assumption.
    rewrite (sum_split n j (fun k => v_cost (var g k) * split_back j n x k)) by assumption.
    unfold split_back at 1. rewrite Nat.eqb_refl. rewrite HVj. cbn [v_cost set_lower_zero].
    rewrite (sum_ext n (fun k => if Nat.eqb k j then 0 else v_cost (var g' k) * x k)
               (fun k => if Nat.eqb k j then 0 else v_cost (var g k) * split_back j n x k)).
    2:{ intros k Lk. unfold split_back. destruct (Nat.eqb_spec k j); [reflexivity|]. now rewrite HV. }
    ring. }
  constructor.
  - intros x [HA HD]. split.
    + intros i Li. rewrite <- HR in Li. specialize (HA i Li). rewrite RV in HA. unfold row_type in *. now rewrite HT, HB in HA.
    + intros k Lk. unfold split_back. destruct (Nat.eqb_spec k j) as [->|Nk].
      * split; intros; congruence.
      * assert (Lk' : (k < nr_vars g')%nat) by lia. specialize (HD k Lk'). now rewrite HV in HD.
  - intros x [HA HD].
    assert (FG : forall k, (k < n)%nat -> split_back j n (split_forth j n x) k = x k).
    { intros k Lk. unfold split_back, split_forth. rewrite !Nat.eqb_refl.
      rewrite (proj2 (Nat.eqb_neq n j)) by lia.
      destruct (Nat.eqb_spec k j) as [->|Nk].
      - unfold qmax. destruct (qltb (x j) 0) eqn:E1, (qltb (- x j) 0) eqn:E2; qb; qlra.
      - now rewrite (proj2 (Nat.eqb_neq k n)) by lia. }
    split.
    + intros i Li. rewrite RV. unfold row_type. rewrite HT, HB. rewrite HR in Li. specialize (HA i Li).
      unfold row_type in HA. replace (row_value g (split_back j n (split_forth j n x)) i) with (row_value g x i); [assumption|].
      apply sum_ext. intros k Lk. now rewrite FG.
    + intros k Lk. rewrite HN in Lk. unfold split_forth. destruct (Nat.eqb_spec k j) as [->|Nk].
      * rewrite HVj. unfold in_bounds. cbn [v_lower v_upper set_lower_zero]. split; [|congruence].
        intros l [= <-]. unfold qmax. destruct (qltb (x j) 0) eqn:E1; qb; qlra.
      * destruct (Nat.eqb_spec k n) as [->|Nk'].
        -- rewrite HVn. unfold in_bounds. cbn [v_lower v_upper]. split; [|congruence].
           intros l [= <-]. unfold qmax. destruct (qltb (- x j) 0) eqn:E1; qb; qlra.
        -- rewrite HV by lia. apply HD. lia.
  - exact CV.
  - intros x y H k Lk. unfold split_back. rewrite HN in H. destruct (Nat.eqb k j).
    + rewrite (H j) by lia. rewrite (H (nr_vars g)) by lia. reflexivity.
    + apply H. lia.
  - intros x y H k Lk. unfold split_forth. rewrite HN in Lk. destruct (Nat.eqb_spec k j) as [_|Nkj]; [now rewrite (H j)|].
    destruct (Nat.eqb_spec k n) as [_|Nkn]; [now rewrite (H j)|]. apply H. lia.
  - intros x k Lk. unfold split_back, split_forth. rewrite !Nat.eqb_refl.
    rewrite (proj2 (Nat.eqb_neq n j)) by lia.
    destruct (Nat.eqb_spec k j) as [->|Nk].
    + unfold qmax. destruct (qltb (x j) 0) eqn:E1, (qltb (- x j) 0) eqn:E2; qb; qlra.
    + now rewrite (proj2 (Nat.eqb_neq k n)) by lia.
  - intros [].
  - intros x val. unfold completed. rewrite HOr.
    assert (EV : entry_value g' x val (ActiveFree j n) = entry_value g (split_back j n x) val (Active j)).
    { cbn [entry_value]. rewrite HVj, HVn. unfold own_value. cbn [v_flipped v_shift set_lower_zero]. rewrite Hflip.
      unfold split_back. rewrite Nat.eqb_refl. ring. }
    assert (EO : forall o' name' e, o' <> o -> nth_error (g_orig g) o' = Some (name', e) ->
              entry_value g' x val e = entry_value g (split_back j n x) val e).
    { intros o' name' e No He. destruct e as [k|p q|[v|c l]]; cbn [entry_value]; try reflexivity.
      - destruct (Hactive o' name' k He) as [Lk Fk]. assert (k <> j) by (intros ->; now apply No).
        rewrite HV by assumption. unfold split_back. now rewrite (proj2 (Nat.eqb_neq k j)).
      - destruct (Hsplit o' name' p q He) as (Lp & Lq & Fp & Fq).
        assert (p <> j) by (intros ->; now apply No). assert (q <> j) by (intros ->; now apply No).
        rewrite !HV by assumption. unfold split_back.
        rewrite (proj2 (Nat.eqb_neq p j)), (proj2 (Nat.eqb_neq q j)) by assumption. reflexivity. }
    split; intros H o' name' e He.
    + destruct (Nat.eq_dec o' o) as [->|No].
      * rewrite Hn in He. injection He as <- <-. rewrite <- EV. apply (H o name).
        rewrite upd_nth_error, Nat.eqb_refl. now rewrite (proj2 (Nat.ltb_lt _ _) Lo).
      * rewrite <- (EO o' name' e No He). apply (H o' name'). rewrite upd_nth_error, (proj2 (Nat.eqb_neq o' o)) by assumption. assumption.
    + rewrite upd_nth_error in He. destruct (Nat.eqb_spec o' o) as [->|No].
      * rewrite (proj2 (Nat.ltb_lt _ _) Lo) in He. cbn in He. injection He as <- <-. rewrite EV. apply (H o name). assumption.
      * cbn in He. rewrite (EO o' name' e No He). now apply (H o' name').
  - rewrite HOr. clear - Hn. revert Hn. generalize (g_orig g). generalize o. intros k l. revert k. induction l as [|[a b] l IH]; intros [|k]; cbn; intros H; try discriminate.
    + injection H as -> ->. reflexivity.
    + now rewrite IH.
  - assumption.
  - intros o' name' r He. rewrite HOr, upd_nth_error in He. destruct (Nat.eqb_spec o' o) as [->|No]; [|exact He].
    rewrite (proj2 (Nat.ltb_lt _ _) Lo) in He. discriminate.
  - intros a x y k Lk. unfold split_back, mix. destruct (Nat.eqb k j); ring.
Qed.
End Split.

(** ** Splitting all free variables *)
Definition freev (v : variable) : Prop := v_lower v = None /\ v_upper v = None.
Record gpre (l : list nat) (g : general) : Prop := mk_gpre {
  gp_cols : length (g_cols g) = (nr_vars g + length l)%nat;
  gp_from : length (g_from g) = nr_vars g;
  gp_types : length (g_types g) = g_rows g;
  gp_b : length (g_b g) = g_rows g;
  gp_sorted : forall j, (j < length (g_cols g))%nat -> wfs (g_rows g) (nth j (g_cols g) []);
  gp_ranges : forall i r, (i < g_rows g)%nat -> row_type g i = Range r -> 0 <= r;
  gp_domain : forall j l u, (j < nr_vars g)%nat -> v_lower (var g j) = Some l -> v_upper (var g j) = Some u -> l <= u;
  gp_active : forall o name j, nth_error (g_orig g) o = Some (name, Active j) ->
     (j < nr_vars g)%nat /\ nth j (g_from g) 0%nat = o;
  gp_split : forall o name p n, nth_error (g_orig g) o = Some (name, ActiveFree p n) ->
     (p < nr_vars g)%nat /\ (n < nr_vars g)%nat /\ nth p (g_from g) 0%nat = o /\ nth n (g_from g) 0%nat = o;
  gp_list : NoDup l /\ forall j, In j l <-> (j < nr_vars g)%nat /\ freev (var g j);
  gp_free : forall j, In j l -> v_flipped (var g j) = false /\
     exists name, nth_error (g_orig g) (nth j (g_from g) 0%nat) = Some (name, Active j);
  gp_new : forall t, (t < length l)%nat -> nth (nr_vars g + t) (g_cols g) [] = snegate (nth (nth t l 0%nat) (g_cols g) [])
}.

Lemma split_pre j l g g' : gpre (j :: l) g -> split_one g j = Ok g' -> gpre l g'.
Proof.
  intros P E. destruct P as [PC PF PT PB PS PR PD PA PSp [PN PL] PFr PNew].
  assert (Lj : (j < nr_vars g)%nat /\ freev (var g j)) by (apply PL; now left). destruct Lj as [Lj [Fl Fu]].
  destruct (PFr j (or_introl eq_refl)) as [Ff Fn].
  destruct (split_one_ok g j Lj PF Fn) as (g0 & E0 & HO & HF & HR & HC & HT & HB & HN & HV & HVj & HVn & HFr & name & Hn & HOr).
  rewrite E in E0. injection E0 as <-.
  set (o := nth j (g_from g) 0%nat) in *.
  assert (Lo : (o < length (g_orig g))%nat) by (apply nth_error_Some; congruence).
  cbn [length] in PC. inversion PN as [|a b Nj PN']; subst a b.
  constructor.
  - rewrite HC, HN. lia.
  - rewrite HFr, HN, app_length. cbn. lia.
  - congruence.
  - congruence.
  - rewrite HC, HR. assumption.
  - rewrite HR. unfold row_type. rewrite HT. exact PR.
  - intros k a u Lk. rewrite HN in Lk. destruct (Nat.eq_dec k j) as [->|Nk].
    + rewrite HVj. cbn. congruence.
    + destruct (Nat.eq_dec k (nr_vars g)) as [->|Nk']; [rewrite HVn; cbn; congruence|]. rewrite HV by lia. apply PD. lia.
  - intros o' name' k He. rewrite HOr, upd_nth_error in He. destruct (Nat.eqb_spec o' o) as [->|No].
    + rewrite (proj2 (Nat.ltb_lt _ _) Lo) in He. discriminate.
    + cbn in He. destruct (PA _ _ _ He) as [L1 L2]. split; [lia|]. rewrite HFr, nth_app_l by lia. assumption.
  - intros o' name' p q He. rewrite HOr, upd_nth_error in He. destruct (Nat.eqb_spec o' o) as [->|No].
    + rewrite (proj2 (Nat.ltb_lt _ _) Lo) in He. cbn in He. injection He as <- <- <-. rewrite HN, HFr.
      split; [lia|]. split; [lia|]. split; [now rewrite nth_app_l by lia|]. rewrite <- PF. apply nth_snoc.
    + cbn in He. destruct (PSp _ _ _ _ He) as (L1 & L2 & L3 & L4). rewrite HN, HFr. split; [lia|]. split; [lia|].
      rewrite !nth_app_l by lia. auto.
  - split; [assumption|]. intros k. split.
    + intros Hk. assert (k <> j) by congruence. destruct (proj1 (PL k)) as [Lk Fk]; [now right|]. split; [lia|]. now rewrite HV.
    + intros [Lk [Fa Fb]]. destruct (Nat.eq_dec k j) as [->|Nk]; [rewrite HVj in Fa; discriminate|].
      destruct (Nat.eq_dec k (nr_vars g)) as [->|Nk']; [rewrite HVn in Fa; discriminate|].
      assert (In k (j :: l)) as [?|?]; [|congruence|assumption]. apply PL. rewrite HV in Fa, Fb by lia. split; [lia|]. now split.
  - intros k Hk. assert (Nk : k <> j) by congruence. destruct (proj1 (PL k)) as [Lk Fk]; [now right|].
    destruct (PFr k (or_intror Hk)) as [A (nm & B)]. rewrite HV by assumption. split; [assumption|]. exists nm.
    rewrite HFr, nth_app_l by lia. rewrite HOr, upd_nth_error.
    destruct (Nat.eqb_spec (nth k (g_from g) 0%nat) o) as [Eo|No]; [|assumption].
    rewrite Eo, Hn in B. congruence.
  - intros t Lt. rewrite HC, HN. specialize (PNew (Datatypes.S t)). cbn [length nth] in PNew. rewrite <- PNew by lia.
    f_equal. lia.
Qed.

Lemma split_fold l : forall g, gpre l g -> exists g', foldM split_one l g = Ok g' /\ gpre [] g' /\
  exists F G, corr (l = []) g g' F G.
Proof.
  induction l as [|j l IH]; intros g P; cbn [foldM].
  - exists g. split; [reflexivity|]. split; [assumption|]. exists (fun x => x), (fun x => x). apply corr_id.
  - assert (Lj : (j < nr_vars g)%nat /\ freev (var g j)) by (apply (gp_list _ _ P); now left). destruct Lj as [Lj [Fl Fu]].
    destruct (gp_free _ _ P j (or_introl eq_refl)) as [Ff Fn].
    destruct (split_one_ok g j Lj (gp_from _ _ P) Fn) as (g1 & E1 & _).
    rewrite E1. cbn [bind]. destruct (IH g1 (split_pre _ _ _ _ P E1)) as (g2 & E2 & P2 & F & G & C).
    exists g2. split; [assumption|]. split; [assumption|].
    exists (fun x => split_back j (nr_vars g) (F x)), (fun x => G (split_forth j (nr_vars g) x)).
    apply corr_trans with g1.
    + apply corr_weaken with False; [discriminate|]. apply split_one_corr; try assumption.
      * rewrite (gp_cols _ _ P). cbn. lia.
      * exact (gp_from _ _ P).
      * pose proof (gp_new _ _ P 0%nat) as H. cbn [length nth] in H. rewrite <- H by lia. f_equal. lia.
      * exact (gp_active _ _ P).
      * exact (gp_split _ _ P).
    + apply corr_weaken with (l = []); [discriminate|]. assumption.
Qed.

Lemma filterM_ok {A} (f : A -> res bool) (f' : A -> bool) l : (forall x, In x l -> f x = Ok (f' x)) -> filterM f l = Ok (filter f' l).
Proof.
  induction l as [|x l IH]; intros H; cbn; [reflexivity|].
  rewrite (H x) by now left. cbn. rewrite IH by (intros; apply H; now right). reflexivity.
Qed.
Lemma mapM_map {A B} (f : A -> res B) (f' : A -> B) l : (forall x, In x l -> f x = Ok (f' x)) -> mapM f l = Ok (map f' l).
Proof.
  induction l as [|x l IH]; intros H; cbn; [reflexivity|].
  rewrite (H x) by now left. cbn. rewrite IH by (intros; apply H; now right). reflexivity.
Qed.
Lemma index_nth {A} (l : list A) i d : (i < length l)%nat -> index l i = Ok (nth i l d).
Proof. intros H. apply index_ok. now apply nth_error_nth'. Qed.
Lemma is_free_iff v : is_free v = true <-> freev v.
Proof. unfold is_free, freev. destruct (v_lower v), (v_upper v); split; intros; try discriminate; intuition discriminate. Qed.

(** the transformed programs of the first step *)
Record bounded_ok (g : general) : Prop := { bo_ok : general_ok g; bo_bounded : forall j, (j < nr_vars g)%nat -> ~ freev (var g j) }.

Lemma split_free_corr g : general_ok g -> exists g', split_free g = Ok g' /\ bounded_ok g' /\
  exists F G, corr (forall j, (j < nr_vars g)%nat -> ~ freev (var g j)) g g' F G.
Proof.
  intros P. unfold split_free.
  rewrite (filterM_ok _ (fun j => is_free (var g j))).
  2:{ intros j Hj. apply In_range in Hj. rewrite (index_nth _ _ no_variable); [reflexivity|].
      rewrite (gok_cols _ P) in Hj. unfold nr_vars in Hj. lia. }
  cbn [bind]. set (dup := filter _ _).
  assert (Hdup : forall j, In j dup <-> (j < nr_vars g)%nat /\ freev (var g j)).
  { intros j. unfold dup. rewrite filter_In, In_range, is_free_iff, (gok_cols _ P). intuition lia. }
  rewrite (mapM_map _ (fun j => snegate (nth j (g_cols g) []))).
  2:{ intros j Hj. apply Hdup in Hj. rewrite (index_nth _ _ []); [reflexivity|]. rewrite (gok_cols _ P). tauto. }
  cbn [bind].
  set (g1 := mk_general _ _ _ _ _ _ _ _ _).
  assert (P1 : gpre dup g1).
  { destruct P as [PC PF PT PB PS PR PD PA PSp PFr]. constructor; try assumption.
    - cbn [g_cols g1]. rewrite app_length, map_length. now rewrite PC.
    - intros j Lj. cbn [g_cols g1] in *. rewrite app_length, map_length in Lj.
      destruct (Nat.lt_ge_cases j (length (g_cols g))) as [L|L].
      + rewrite nth_app_l by assumption. apply PS. now rewrite <- PC.
      + rewrite app_nth2 by assumption. set (d := fun j => snegate (nth j (g_cols g) [])).
        rewrite (nth_indep _ [] (d 0%nat)) by (rewrite map_length; lia). rewrite map_nth. unfold d.
        apply fwf_snegate. apply PS. apply Hdup. apply nth_In. lia.
    - split; [|exact Hdup]. unfold dup. apply NoDup_filter. apply seq_NoDup.
    - intros j Hj. apply Hdup in Hj. destruct Hj as [Lj [A B]]. exact (PFr j Lj A B).
    - intros t Lt. cbn [g_cols g1]. change (nr_vars g1) with (nr_vars g). rewrite <- PC. rewrite app_nth2 by lia.
      replace (length (g_cols g) + t - length (g_cols g))%nat with t by lia. set (d := fun j => snegate (nth j (g_cols g) [])).
      rewrite (nth_indep _ [] (d 0%nat)) by (rewrite map_length; lia). rewrite map_nth. unfold d.
      rewrite nth_app_l; [reflexivity|]. rewrite PC. apply Hdup. apply nth_In. lia. }
  assert (C1 : corr True g g1 (fun x => x) (fun x => x)).
  { assert (RV : forall x i, row_value g1 x i = row_value g x i).
    { intros x i. unfold row_value. apply sum_ext. intros j Lj. unfold coefficient. cbn [g_cols g1]. rewrite nth_app_l; [reflexivity|].
      rewrite (gok_cols _ P). exact Lj. }
    constructor; auto; try reflexivity.
    - intros x [A B]. split; [|exact B]. intros i Li. rewrite <- RV. now apply A.
    - intros x [A B]. split; [|exact B]. intros i Li. rewrite RV. now apply A. }
  destruct (split_fold dup g1 P1) as (g2 & E2 & P2 & F & G & C2). rewrite E2. exists g2. split; [reflexivity|]. split.
  - destruct P2 as [PC PF PT PB PS PR PD PA PSp [_ PL] PFr PNew]. cbn [length] in PC. rewrite Nat.add_0_r in PC. split.
    + constructor; try assumption.
      * intros j Lj. apply PS. now rewrite PC.
      * intros j Lj A B. exfalso. apply (proj2 (PL j)). split; [assumption|]. now split.
    + intros j Lj Fj. apply (proj2 (PL j)). now split.
  - exists (fun x => F x), (fun x => G x). apply corr_trans with (F := fun x => x) (G := fun x => x) (g2 := g1).
    + eapply corr_weaken; [|exact C1]. trivial.
    + eapply corr_weaken; [|exact C2]. intros H. destruct dup as [|j dup'] eqn:Ed; [reflexivity|].
      exfalso. destruct (proj1 (Hdup j) (or_introl eq_refl)) as [Lj Fj]. exact (H j Lj Fj).
Qed.

(** ** Changing one variable *)
Lemma sum_one_changed n j (f f' : nat -> Qc) (d : Qc) : (j < n)%nat -> (forall k, (k < n)%nat -> k <> j -> f' k = f k) ->
  f' j = f j + d -> sum n f' = sum n f + d.
Proof.
  intros L H E. rewrite (sum_split n j f'), (sum_split n j f) by assumption. rewrite E.
  rewrite (sum_ext n _ (fun i => if Nat.eqb i j then 0 else f i)); [ring|].
  intros i Li. destruct (Nat.eqb_spec i j); [reflexivity|]. now apply H.
Qed.

(** [g'] is [g] with a change of variable [x_j = s * x'_j + l], where [s] is 1 or -1 *)
Record changed (g g' : general) (j : nat) (s l : Qc) : Prop := mk_changed {
  ch_objective : g_objective g' = g_objective g;
  ch_rows : g_rows g' = g_rows g;
  ch_vars : nr_vars g' = nr_vars g;
  ch_types : g_types g' = g_types g;
  ch_orig : g_orig g' = g_orig g;
  ch_from : g_from g' = g_from g;
  ch_cols : length (g_cols g') = length (g_cols g);
  ch_lb : length (g_b g') = length (g_b g);
  ch_other : forall k, k <> j -> var g' k = var g k;
  ch_ocols : forall k, k <> j -> nth k (g_cols g') [] = nth k (g_cols g) [];
  ch_col : wfs (g_rows g) (nth j (g_cols g') []);
  ch_coef : forall i, coefficient g' i j = s * coefficient g i j;
  ch_b : forall i, (i < g_rows g)%nat -> nthq (g_b g') i = nthq (g_b g) i - l * coefficient g i j;
  ch_fixed : g_fixed g' = g_fixed g + l * v_cost (var g j);
  ch_cost : v_cost (var g' j) = s * v_cost (var g j);
  ch_bounds : forall x, in_bounds (var g' j) x <-> in_bounds (var g j) (s * x + l);
  ch_domain : forall a u, v_lower (var g' j) = Some a -> v_upper (var g' j) = Some u -> a <= u;
  ch_own : forall x, own_value (var g' j) x = own_value (var g j) (s * x + l);
  ch_free : ~ freev (var g' j)
}.

Lemma changed_corr g g' j s l : (j < nr_vars g)%nat -> s * s = 1 -> general_ok g -> changed g g' j s l ->
  corr True g g' (fun x k => if Nat.eqb k j then s * x k + l else x k) (fun x k => if Nat.eqb k j then s * (x k - l) else x k)
  /\ general_ok g'.
Proof.
  intros Lj Hs P C. set (F := fun (x : vec) k => if Nat.eqb k j then s * x k + l else x k).
  set (G := fun (x : vec) k => if Nat.eqb k j then s * (x k - l) else x k).
  assert (FG : forall x k, F (G x) k = x k).
  { intros x k. unfold F, G. destruct (Nat.eqb_spec k j); [|reflexivity].
    transitivity (s * s * (x k - l) + l); [ring|]. rewrite Hs. ring. }
  assert (GF : forall x k, G (F x) k = x k).
  { intros x k. unfold F, G. destruct (Nat.eqb_spec k j); [|reflexivity].
    transitivity (s * s * x k); [ring|]. rewrite Hs. ring. }
  assert (RV : forall x i, row_value g (F x) i = row_value g' x i + l * coefficient g i j).
  { intros x i. unfold row_value. rewrite (ch_vars _ _ _ _ _ C). apply sum_one_changed with j; [assumption| |].
    - intros k Lk Nk. unfold coefficient. rewrite (ch_ocols _ _ _ _ _ C) by assumption. unfold F.
      now rewrite (proj2 (Nat.eqb_neq k j)).
    - rewrite (ch_coef _ _ _ _ _ C). unfold F. rewrite Nat.eqb_refl. ring. }
  assert (CV : forall x, gcost g' x = gcost g (F x)).
  { intros x. unfold gcost. rewrite (ch_vars _ _ _ _ _ C), (ch_fixed _ _ _ _ _ C).
    rewrite (sum_one_changed (nr_vars g) j (fun k => v_cost (var g' k) * x k) (fun k => v_cost (var g k) * F x k)
               (l * v_cost (var g j))); [ring|assumption| |].
    - intros k Lk Nk. rewrite (ch_other _ _ _ _ _ C) by assumption. unfold F. now rewrite (proj2 (Nat.eqb_neq k j)).
    - rewrite (ch_cost _ _ _ _ _ C). unfold F. rewrite Nat.eqb_refl. ring. }
  assert (FE : forall x, gfeasible g' x <-> gfeasible g (F x)).
  { intros x. unfold gfeasible. rewrite (ch_rows _ _ _ _ _ C), (ch_vars _ _ _ _ _ C).
    unfold row_type. rewrite (ch_types _ _ _ _ _ C).
    assert (R : forall t b d v, rel_holds t (b - d) v <-> rel_holds t b (v + d)).
    { intros [|r| |] b d v; cbn; split; intros H; try (destruct H; split); subst; try (ring_simplify; reflexivity); try qlra. }
    split; intros [A B]; split.
    - intros i Li. specialize (A i Li). rewrite (ch_b _ _ _ _ _ C i Li) in A. apply R in A. now rewrite RV.
    - intros k Lk. specialize (B k Lk). unfold F. destruct (Nat.eqb_spec k j) as [->|Nk].
      + now apply (ch_bounds _ _ _ _ _ C).
      + now rewrite (ch_other _ _ _ _ _ C) in B.
    - intros i Li. specialize (A i Li). rewrite RV in A. apply R in A. now rewrite (ch_b _ _ _ _ _ C i Li).
    - intros k Lk. specialize (B k Lk). unfold F in B. destruct (Nat.eqb_spec k j) as [Ek|Nk]; [subst k|].
      + now apply (ch_bounds _ _ _ _ _ C).
      + now rewrite (ch_other _ _ _ _ _ C). }
  assert (FX : forall x y, (forall k, (k < nr_vars g)%nat -> x k = y k) -> gfeasible g x -> gfeasible g y).
  { intros x y H [A B]. split.
    - intros i Li. replace (row_value g y i) with (row_value g x i); [now apply A|]. apply sum_ext. intros k Lk. now rewrite H.
    - intros k Lk. rewrite <- H by assumption. now apply B. }
  split; [constructor|].
  - intros x H. now apply FE.
  - intros x H. apply FE. apply (FX x); [|assumption]. intros; now rewrite FG.
  - exact CV.
  - intros x y H k Lk. unfold F. rewrite (ch_vars _ _ _ _ _ C) in H. now rewrite (H k).
  - intros x y H k Lk. unfold G. rewrite (ch_vars _ _ _ _ _ C) in Lk. now rewrite (H k).
  - intros x k _. apply FG.
  - intros _ x k _. apply GF.
  - intros x val. unfold completed. rewrite (ch_orig _ _ _ _ _ C).
    assert (V : forall k, own_value (var g' k) (x k) = own_value (var g k) (F x k)).
    { intros k. unfold F. destruct (Nat.eqb_spec k j) as [->|Nk]; [apply (ch_own _ _ _ _ _ C)|].
      now rewrite (ch_other _ _ _ _ _ C). }
    assert (EV : forall e, entry_value g' x val e = entry_value g (F x) val e).
    { intros [k|p q|[v|c lc]]; cbn [entry_value]; rewrite ?V; reflexivity. }
    split; intros H o name e He; [rewrite <- EV|rewrite EV]; now apply (H o name).
  - now rewrite (ch_orig _ _ _ _ _ C).
  - apply (ch_objective _ _ _ _ _ C).
  - intros o name r H. now rewrite (ch_orig _ _ _ _ _ C) in H.
  - intros a x y k Lk. unfold F, mix. destruct (Nat.eqb k j); ring.
  - destruct P as [PC PF PT PB PS PR PD PA PSp PFr]. constructor.
    + rewrite (ch_cols _ _ _ _ _ C), (ch_vars _ _ _ _ _ C). assumption.
    + rewrite (ch_from _ _ _ _ _ C), (ch_vars _ _ _ _ _ C). assumption.
    + rewrite (ch_types _ _ _ _ _ C), (ch_rows _ _ _ _ _ C). assumption.
    + rewrite (ch_lb _ _ _ _ _ C), (ch_rows _ _ _ _ _ C). assumption.
    + intros k Lk. rewrite (ch_vars _ _ _ _ _ C) in Lk. rewrite (ch_rows _ _ _ _ _ C).
      destruct (Nat.eq_dec k j) as [->|Nk]; [apply (ch_col _ _ _ _ _ C)|]. rewrite (ch_ocols _ _ _ _ _ C) by assumption. now apply PS.
    + unfold row_type. rewrite (ch_types _ _ _ _ _ C), (ch_rows _ _ _ _ _ C). assumption.
    + intros k a u Lk. rewrite (ch_vars _ _ _ _ _ C) in Lk. destruct (Nat.eq_dec k j) as [->|Nk]; [apply (ch_domain _ _ _ _ _ C)|].
      rewrite (ch_other _ _ _ _ _ C) by assumption. now apply PD.
    + rewrite (ch_orig _ _ _ _ _ C), (ch_vars _ _ _ _ _ C), (ch_from _ _ _ _ _ C). assumption.
    + rewrite (ch_orig _ _ _ _ _ C), (ch_vars _ _ _ _ _ C), (ch_from _ _ _ _ _ C). assumption.
    + intros k Lk. rewrite (ch_vars _ _ _ _ _ C) in Lk. rewrite (ch_orig _ _ _ _ _ C), (ch_from _ _ _ _ _ C).
      destruct (Nat.eq_dec k j) as [->|Nk]; [intros A B; exfalso; apply (ch_free _ _ _ _ _ C); now split|].
      rewrite (ch_other _ _ _ _ _ C) by assumption. now apply PFr.
Qed.

Lemma nth_upd_same {A} (l : list A) i x d : (i < length l)%nat -> nth i (upd l i x) d = x.
Proof. intros. rewrite upd_nth by assumption. now rewrite Nat.eqb_refl. Qed.
Lemma nth_upd_other {A} (l : list A) i k x d : (i < length l)%nat -> k <> i -> nth k (upd l i x) d = nth k l d.
Proof. intros. rewrite upd_nth by assumption. now rewrite (proj2 (Nat.eqb_neq k i)). Qed.
Lemma set_index_upd {A} (l : list A) i x : (i < length l)%nat -> set_index l i x = Ok (upd l i x).
Proof. intros H. unfold set_index. now rewrite (proj2 (Nat.ltb_lt _ _) H). Qed.

Lemma flip_one_corr g j : (j < nr_vars g)%nat -> general_ok g -> exists g', flip_one g j = Ok g' /\
  (forall k, k <> j -> var g' k = var g k) /\ nr_vars g' = nr_vars g /\ general_ok g' /\
  (~ freev (var g j) -> exists a, v_lower (var g' j) = Some a) /\
  exists F G, corr True g g' F G.
Proof.
  intros Lj P. unfold flip_one. rewrite (index_nth _ _ no_variable) by exact Lj. cbn [bind]. fold (var g j).
  destruct (v_lower (var g j)) as [a|] eqn:El.
  { exists g. split; [reflexivity|]. split; [reflexivity|]. split; [reflexivity|]. split; [assumption|].
    split; [intros _; exists a; assumption|]. exists (fun x => x), (fun x => x). apply corr_id. }
  destruct (v_upper (var g j)) as [u|] eqn:Eu.
  2:{ exists g. split; [reflexivity|]. split; [reflexivity|]. split; [reflexivity|]. split; [assumption|].
    split; [intros N; exfalso; apply N; now split|]. exists (fun x => x), (fun x => x). apply corr_id. }
  assert (Lc : (j < length (g_cols g))%nat) by now rewrite (gok_cols _ P).
  rewrite set_index_upd by exact Lj. cbn [bind]. rewrite (index_nth _ _ []) by exact Lc. cbn [bind].
  rewrite set_index_upd by exact Lc. cbn [bind].
  set (g' := mk_general _ _ _ _ _ _ _ _ _).
  assert (Vj : var g' j = mk_var (v_integer (var g j)) (v_cost (var g j) * - (1)) (Some (- u)) None (v_shift (var g j) * - (1)) (negb (v_flipped (var g j)))).
  { unfold var at 1. cbn [g_vars g']. now apply nth_upd_same. }
  assert (C : changed g g' j (- (1)) 0).
  { constructor; try reflexivity.
    - unfold nr_vars. cbn [g_vars g']. apply upd_length.
    - cbn [g_cols g']. apply upd_length.
    - intros k Nk. unfold var. cbn [g_vars g']. now apply nth_upd_other.
    - intros k Nk. cbn [g_cols g']. now apply nth_upd_other.
    - cbn [g_cols g']. rewrite nth_upd_same by assumption. apply smul_wfs; [intro H; qlra|]. now apply (gok_sorted _ P).
    - intros i. unfold coefficient. cbn [g_cols g']. rewrite nth_upd_same by assumption. rewrite den_smul. ring.
    - intros i Li. cbn [g_b g']. ring.
    - cbn [g_fixed g']. ring.
    - rewrite Vj. cbn [v_cost]. ring.
    - intros x. rewrite Vj. unfold in_bounds. cbn [v_lower v_upper]. rewrite El, Eu. split; intros [A B]; split; try congruence.
      + intros u' [= <-]. specialize (A _ eq_refl). qlra.
      + intros l' [= <-]. specialize (B _ eq_refl). qlra.
    - rewrite Vj. cbn. congruence.
    - intros x. rewrite Vj. unfold own_value. cbn [v_flipped v_shift]. destruct (v_flipped (var g j)); cbn [negb]; ring.
    - rewrite Vj. intros [A B]. discriminate. }
  destruct (changed_corr g g' j (- (1)) 0 Lj ltac:(ring) P C) as [CC PP].
  exists g'. split; [reflexivity|]. split; [apply (ch_other _ _ _ _ _ C)|]. split; [apply (ch_vars _ _ _ _ _ C)|].
  split; [assumption|]. split; [|eexists; eexists; exact CC]. intros _. exists (- u). rewrite Vj. reflexivity.
Qed.

Lemma shift_fold l m : forall c lo b, fwf lo m c -> length b = m -> exists b', foldM (shift_b l) c b = Ok b' /\ length b' = m /\
  forall i, (i < m)%nat -> nthq b' i = nthq b i - l * den c i.
Proof.
  induction c as [|[i v] c IH]; intros lo b H L; cbn [foldM].
  - exists b. split; [reflexivity|]. split; [assumption|]. intros i _. cbn. ring.
  - cbn in H. destruct H as (Li & Nv & H). unfold shift_b at 1. cbn [fst snd].
    rewrite (index_nth _ _ 0) by lia. cbn [bind]. rewrite set_index_upd by lia. cbn [bind].
    destruct (IH _ (upd b i (nth i b 0 - v * l)) H) as (b' & E & L' & N); [now rewrite upd_length|].
    exists b'. split; [assumption|]. split; [assumption|]. intros k Lk. rewrite N by assumption. unfold nthq at 1.
    rewrite upd_nth by lia. cbn [den]. destruct (Nat.eqb_spec k i) as [->|Nk]; unfold nthq; ring.
Qed.

Lemma shift_one_corr g j a : (j < nr_vars g)%nat -> general_ok g -> v_lower (var g j) = Some a -> exists g', shift_one g j = Ok g' /\
  (forall k, k <> j -> var g' k = var g k) /\ nr_vars g' = nr_vars g /\ general_ok g' /\
  v_lower (var g' j) = Some 0 /\ exists F G, corr True g g' F G.
Proof.
  intros Lj P El. unfold shift_one. rewrite (index_nth _ _ no_variable) by exact Lj. cbn [bind]. fold (var g j). rewrite El.
  assert (Lc : (j < length (g_cols g))%nat) by now rewrite (gok_cols _ P).
  rewrite (index_nth _ _ []) by exact Lc. cbn [bind].
  destruct (shift_fold a (g_rows g) (nth j (g_cols g) []) 0 (g_b g) (gok_sorted _ P j Lj) (gok_b _ P)) as (b' & Eb & Lb & Nb).
  rewrite Eb. cbn [bind]. rewrite set_index_upd by exact Lj. cbn [bind].
  set (g' := mk_general _ _ _ _ _ _ _ _ _).
  assert (Vj : var g' j = mk_var (v_integer (var g j)) (v_cost (var g j)) (Some 0)
     (match v_upper (var g j) with Some u => Some (u - a) | None => None end) (v_shift (var g j) - a) (v_flipped (var g j))).
  { unfold var at 1. cbn [g_vars g']. now apply nth_upd_same. }
  assert (C : changed g g' j 1 a).
  { constructor; try reflexivity.
    - unfold nr_vars. cbn [g_vars g']. apply upd_length.
    - cbn [g_b g']. rewrite Lb. symmetry. apply (gok_b _ P).
    - intros k Nk. unfold var. cbn [g_vars g']. now apply nth_upd_other.
    - cbn [g_cols g']. now apply (gok_sorted _ P).
    - intros i. unfold coefficient. cbn [g_cols g']. ring.
    - intros i Li. cbn [g_b g']. rewrite Nb by assumption. reflexivity.
    - rewrite Vj. cbn [v_cost]. ring.
    - intros x. rewrite Vj. unfold in_bounds. cbn [v_lower v_upper]. rewrite El.
      destruct (v_upper (var g j)) as [u|] eqn:Eu; split; intros [A B]; split; try congruence.
      + intros l' [= <-]. specialize (A _ eq_refl). qlra.
      + intros u' [= <-]. specialize (B _ eq_refl). qlra.
      + intros l' [= <-]. specialize (A _ eq_refl). qlra.
      + intros u' [= <-]. specialize (B _ eq_refl). qlra.
      + intros l' [= <-]. specialize (A _ eq_refl). qlra.
      + intros l' [= <-]. specialize (A _ eq_refl). qlra.
    - rewrite Vj. cbn [v_lower v_upper]. destruct (v_upper (var g j)) as [u|] eqn:Eu; [|congruence].
      pose proof (gok_domain _ P j a u Lj El Eu). intros ? ? [= <-] [= <-]. qlra.
    - intros x. rewrite Vj. unfold own_value. cbn [v_flipped v_shift]. destruct (v_flipped (var g j)); cbn [negb]; ring.
    - rewrite Vj. intros [A B]. discriminate. }
  destruct (changed_corr g g' j 1 a Lj ltac:(ring) P C) as [CC PP].
  exists g'. split; [reflexivity|]. split; [apply (ch_other _ _ _ _ _ C)|]. split; [apply (ch_vars _ _ _ _ _ C)|].
  split; [assumption|]. split; [|eexists; eexists; exact CC]. rewrite Vj. reflexivity.
Qed.

Lemma transform_fold l : forall g, (forall j, In j l -> (j < nr_vars g)%nat /\ ~ freev (var g j)) -> NoDup l -> general_ok g ->
  exists g', foldM transform_one l g = Ok g' /\ nr_vars g' = nr_vars g /\ general_ok g' /\
  (forall j, In j l -> v_lower (var g' j) = Some 0) /\ (forall j, ~ In j l -> var g' j = var g j) /\
  exists F G, corr True g g' F G.
Proof.
  induction l as [|j l IH]; intros g H ND P; cbn [foldM].
  - exists g. split; [reflexivity|]. split; [reflexivity|]. split; [assumption|]. split; [intros j []|]. split; [reflexivity|].
    exists (fun x => x), (fun x => x). apply corr_id.
  - inversion ND as [|a b Nj ND']; subst a b. destruct (H j (or_introl eq_refl)) as [Lj Fj].
    unfold transform_one at 1.
    destruct (flip_one_corr g j Lj P) as (g1 & E1 & O1 & N1 & P1 & Low & F1 & G1 & C1).
    destruct (Low Fj) as [a El]. rewrite E1. cbn [bind].
    destruct (shift_one_corr g1 j a ltac:(lia) P1 El) as (g2 & E2 & O2 & N2 & P2 & Low2 & F2 & G2 & C2).
    rewrite E2. cbn [bind].
    destruct (IH g2) as (g3 & E3 & N3 & P3 & I3 & O3 & F3 & G3 & C3); try assumption.
    { intros k Hk. assert (k <> j) by congruence. destruct (H k (or_intror Hk)) as [Lk Fk].
      rewrite O2, O1 by assumption. split; [lia|assumption]. }
    exists g3. split; [assumption|]. split; [lia|]. split; [assumption|]. split; [|split].
    + intros k [<-|Hk]; [|now apply I3]. rewrite O3 by assumption. assumption.
    + intros k Hk. rewrite O3 by (intro; apply Hk; now right). assert (k <> j) by (intro; apply Hk; now left).
      rewrite O2, O1 by assumption. reflexivity.
    + exists (fun x => F1 (F2 (F3 x))), (fun x => G3 (G2 (G1 x))).
      apply (corr_trans True g g2 g3 (fun x => F1 (F2 x)) (fun x => G2 (G1 x)) F3 G3); [|assumption].
      apply (corr_trans True g g1 g2 F1 G1 F2 G2); assumption.
Qed.

Definition no_free (g : general) : Prop := forall j, (j < nr_vars g)%nat -> ~ freev (var g j).
Lemma transform_corr g : general_ok g -> exists g', transform_variables g = Ok g' /\ general_ok g' /\
  (forall j, (j < nr_vars g')%nat -> v_lower (var g' j) = Some 0) /\ exists F G, corr (no_free g) g g' F G.
Proof.
  intros P. unfold transform_variables.
  destruct (split_free_corr g P) as (g1 & E1 & [P1 B1] & F1 & G1 & C1). rewrite E1. cbn [bind].
  destruct (transform_fold (range 0 (length (g_vars g1))) g1) as (g2 & E2 & N2 & P2 & I2 & _ & F2 & G2 & C2); try assumption.
  { intros j Hj. apply In_range in Hj. split; [unfold nr_vars; lia|]. apply B1. unfold nr_vars; lia. }
  { apply seq_NoDup. }
  exists g2. split; [assumption|]. split; [assumption|]. split.
  - intros j Lj. apply I2. apply In_range. rewrite N2 in Lj. unfold nr_vars in Lj. lia.
  - exists (fun x => F1 (F2 x)), (fun x => G2 (G1 x)). apply (corr_trans _ g g1 g2 F1 G1 F2 G2); [exact C1|].
    eapply corr_weaken; [|exact C2]. trivial.
Qed.
