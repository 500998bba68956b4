(** * Scaling never makes the total exponent of a factor larger, if the columns are scaled the right way *)
From Verif Require Import SpecScale ScaleP SearchP PowerP FactorP ScaleRunP StandardQ StandardP SparseP.
From Coq Require Import Sorted.
Local Open Scope Z_scope.

Lemma general_sizes g : general_ok g -> sizes_agree g.
Proof.
  intros K. split; [apply K|]. split; [apply K|]. split; [apply K|]. intros c i v HC HI. apply (In_nth _ _ []) in HC. destruct HC as (j & L & <-). rewrite (gok_cols g K) in L. pose proof (gok_sorted g K j L) as W. now apply (den_In _ _ _ i v W HI).
Qed.
Lemma general_entries g c i v : general_ok g -> In c (g_cols g) -> In (i, v) c -> v <> 0%Qc.
Proof.
  intros K HC HI. apply (In_nth _ _ []) in HC. destruct HC as (j & L & <-). rewrite (gok_cols g K) in L. pose proof (gok_sorted g K j L) as W. now apply (den_In _ _ _ i v W HI).
Qed.

(** ** Removing factors from a factorization *)
Lemma increasing_app a l l' : zincreasing a (l ++ l') -> zincreasing a l /\ forall x y, In x l -> In y l' -> x < y.
Proof.
  revert a. induction l as [|b l IH]; intros a H; [split; [exact I|intros x y []]|]. cbn [app] in H. destruct H as [H1 H2]. pose proof (zincreasing_above _ _ H2) as AB. apply IH in H2. destruct H2 as [H2 H3]. split; [now split|].
  intros x y [<-|HX] HY; [apply AB; apply in_or_app; now right|now apply H3].
Qed.
Lemma last_case (l : factorization) : l = [] \/ exists l0 f k, l = l0 ++ [(f, k)] /\ last_entry l = Some (f, k) /\ removelast l = l0.
Proof.
  destruct l as [|x l]; [now left|]. right. destruct (exists_last (l := x :: l)) as (l0 & [f k] & E); [discriminate|]. exists l0, f, k. rewrite E. split; [reflexivity|]. split; [|apply removelast_last].
  unfold last_entry. rewrite app_length. cbn [length]. rewrite nth_error_app2 by lia. replace (length l0 + 1 - 1 - length l0)%nat with 0%nat by lia. reflexivity.
Qed.
Lemma power_not_in p l : ~ In p (map fst l) -> power p l = 0.
Proof. induction l as [|[f k] l IH]; intros N; [reflexivity|]. cbn [power map fst In] in *. destruct (Z.eqb_spec f p); [tauto|]. apply IH. tauto. Qed.
Lemma power_app p l l' : power p (l ++ l') = if existsb (Z.eqb p) (map fst l) then power p l else power p l'.
Proof.
  induction l as [|[f k] l IH]; [reflexivity|]. cbn [app power map fst existsb]. rewrite (Z.eqb_sym p f). destruct (f =? p); cbn [orb]; [reflexivity|]. exact IH.
Qed.
Lemma remove_factor_spec q l : zincreasing 0 (map fst l) -> (forall f, In f (map fst l) -> f <= q) ->
  zincreasing 0 (map fst (remove_factor q l)) /\ (forall f, In f (map fst (remove_factor q l)) -> In f (map fst l) /\ f <> q) /\ forall p, p <> q -> power p (remove_factor q l) = power p l.
Proof.
  intros S B. unfold remove_factor. destruct (last_case l) as [->|(l0 & f & k & -> & E & R)]; [split; [exact I|split; [intros f []|reflexivity]]|]. rewrite E, R. rewrite map_app in S. cbn [map fst] in S. destruct (increasing_app _ _ _ S) as [S0 AB].
  destruct (Z.eqb_spec f q) as [->|N].
  - split; [exact S0|]. split.
    + intros f HF. split; [rewrite map_app; apply in_or_app; now left|]. pose proof (AB f q HF (or_introl eq_refl)). lia.
    + intros p NP. rewrite power_app. destruct (existsb _ _) eqn:EX; [reflexivity|]. cbn [power]. destruct (Z.eqb_spec q p); [congruence|]. apply power_not_in. intros HI. apply Bool.not_true_iff_false in EX. apply EX. apply existsb_exists. exists p. split; [assumption|apply Z.eqb_refl].
  - split; [rewrite map_app; exact S|]. split; [|reflexivity]. intros x HX. split; [assumption|]. rewrite map_app in HX. apply in_app_or in HX. destruct HX as [HX|[<-|[]]]; [|assumption].
    pose proof (AB x f HX (or_introl eq_refl)). assert (f <= q) by (apply B; rewrite map_app; apply in_or_app; right; now left). lia.
Qed.
Lemma initial_power p l : zincreasing 0 (map fst l) -> (forall f, In f (map fst l) -> f <= p) -> initial_exponent p l = power p l.
Proof.
  intros S B. unfold initial_exponent. destruct (last_case l) as [->|(l0 & f & k & -> & E & R)]; [reflexivity|]. rewrite E. rewrite map_app in S. cbn [map fst] in S. destruct (increasing_app _ _ _ S) as [S0 AB]. rewrite power_app.
  assert (EX : existsb (Z.eqb p) (map fst l0) = false).
  { apply Bool.not_true_iff_false. intros EX. apply existsb_exists in EX. destruct EX as (x & HX & EQ). apply Z.eqb_eq in EQ. subst x. pose proof (AB p f HX (or_introl eq_refl)). assert (f <= p) by (apply B; rewrite map_app; apply in_or_app; right; now left). lia. }
  rewrite EX. reflexivity.
Qed.
Definition cut (before : list Z) (l : factorization) : factorization := fold_left (fun l q => remove_factor q l) before l.
Lemma cut_power p : forall before l, StronglySorted Z.gt before -> (forall q, In q before -> p < q) -> zincreasing 0 (map fst l) -> (forall f, In f (map fst l) -> In f before \/ f <= p) -> initial_exponent p (cut before l) = power p l.
Proof.
  induction before as [|q before IH]; intros l SS AB S B.
  - cbn [cut fold_left]. apply initial_power; [assumption|]. intros f HF. destruct (B f HF) as [[]|H]. assumption.
  - inversion SS as [|? ? SS' FA]; subst. rewrite Forall_forall in FA. assert (LE : forall f, In f (map fst l) -> f <= q).
    { intros f HF. destruct (B f HF) as [[<-|HB]|H]; [lia|apply FA in HB; lia|pose proof (AB q (or_introl eq_refl)); lia]. }
    destruct (remove_factor_spec q l S LE) as (S' & IN & PW). change (cut (q :: before) l) with (cut before (remove_factor q l)). rewrite IH; [apply PW; pose proof (AB q (or_introl eq_refl)); lia|assumption|intros r HR; apply AB; now right|assumption|].
    intros f HF. destruct (IN f HF) as [HF' NF]. destruct (B f HF') as [[E|HB]|H]; [congruence|now left|now right].
Qed.
(** ** The program that a factor is looked for in *)
Lemma removed_is before : forall fa, fa_b (removed before fa) = map (option_map (cut before)) (fa_b fa) /\ fa_c (removed before fa) = map (option_map (cut before)) (fa_c fa) /\
  fa_bounds (removed before fa) = map (fun '(l, u) => (option_map (cut before) l, option_map (cut before) u)) (fa_bounds fa) /\ fa_constraints (removed before fa) = map (map (fun '(i, l) => (i, cut before l))) (fa_constraints fa).
Proof.
  induction before as [|q before IH]; intros fa.
  - cbn [removed]. unfold cut. cbn [fold_left].
    assert (O : forall o : option factorization, option_map (fun l => l) o = o) by (intros [l|]; reflexivity).
    repeat split.
    + rewrite <- (map_id (fa_b fa)) at 1. apply map_ext. intros o. symmetry. apply O.
    + rewrite <- (map_id (fa_c fa)) at 1. apply map_ext. intros o. symmetry. apply O.
    + rewrite <- (map_id (fa_bounds fa)) at 1. apply map_ext. intros [l u]. now rewrite !O.
    + rewrite <- (map_id (fa_constraints fa)) at 1. apply map_ext. intros c. rewrite <- (map_id c) at 1. apply map_ext. intros [i l]. reflexivity.
  - cbn [removed]. destruct (IH (remove_factor_info q fa)) as (H1 & H2 & H3 & H4). rewrite H1, H2, H3, H4. cbn [remove_factor_info fa_b fa_c fa_bounds fa_constraints]. rewrite !map_map.
    assert (O : forall o : option factorization, option_map (cut before) (option_map (remove_factor q) o) = option_map (cut (q :: before)) o) by (intros [l|]; reflexivity).
    repeat split; apply map_ext.
    + exact O.
    + exact O.
    + intros [l u]. now rewrite !O.
    + intros c. rewrite map_map. apply map_ext. intros [i l]. reflexivity.
Qed.

(** ** Exponents of the values of a program *)
Section Exponents.
Variable fac : Qc -> factorization.
Variable p : Z.
Definition vpen (v : Qc) (d : Z) : Z := if qzero v then 0 else Z.abs (power p (fac v) + d).
Definition open (o : option Qc) (d : Z) : Z := match o with Some v => vpen v d | None => 0 end.
Definition expo (g : general) (k : Z) (rows cols : list Z) : Z :=
  zsumf (fun j => vpen (v_cost (var g j)) (k + zat cols j) + zsumf (fun '(i, v) => vpen v (zat rows i + zat cols j)) (nth j (g_cols g) []) +
                  (open (v_lower (var g j)) (- zat cols j) + open (v_upper (var g j)) (- zat cols j))) (seq 0 (nr_vars g)) +
  zsumf (fun i => vpen (nthq (g_b g) i) (zat rows i)) (seq 0 (g_rows g)).
Lemma zsumf_nth {A} (f : A -> Z) (d : A) l : zsumf f l = zsumf (fun j => f (nth j l d)) (seq 0 (length l)).
Proof.
  assert (G : forall s, zsumf f l = zsumf (fun j => f (nth (j - s) l d)) (seq s (length l))).
  { induction l as [|a l IH]; intros s; [reflexivity|]. cbn [length seq]. rewrite !zsumf_cons, Nat.sub_diag. cbn [nth]. f_equal. rewrite (IH (S s)). apply zsumf_ext. intros k K. apply in_seq in K. replace (k - s)%nat with (S (k - S s)) by lia. reflexivity. }
  rewrite (G 0%nat). apply zsumf_ext. intros k _. now rewrite Nat.sub_0_r.
Qed.
Lemma total_is g : sizes_agree g -> total_exponent fac p g = expo g 0 [] [].
Proof.
  intros A. unfold total_exponent, values. change (zsum (map (fun v => Z.abs (power p (fac v))) ?l)) with (zsumf (fun v => Z.abs (power p (fac v))) l).
  assert (F : forall l, zsumf (fun v => Z.abs (power p (fac v))) (filter (fun v => negb (qzero v)) l) = zsumf (fun v => vpen v 0) l).
  { induction l as [|v l IH]; [reflexivity|]. cbn [filter]. rewrite zsumf_cons, <- IH. unfold vpen. destruct (qzero v); cbn [negb]; [reflexivity|]. rewrite zsumf_cons. lia. }
  rewrite F. rewrite !zsumf_app, zsumf_map, !zsumf_flat_map. unfold expo. rewrite !zsumf_plus.
  assert (O : forall (h : variable -> option Qc), zsumf (fun a => zsumf (fun v => vpen v 0) (some_value (h a))) (g_vars g) = zsumf (fun j => open (h (var g j)) (- zat [] j)) (seq 0 (nr_vars g))).
  { intros h. rewrite (zsumf_nth _ no_variable). apply zsumf_ext. intros j _. fold (var g j). rewrite zat_nil. destruct (h (var g j)) as [v|]; cbn [some_value open]; [rewrite zsumf_cons, zsumf_nil; cbn; lia|reflexivity]. }
  rewrite (O v_lower), (O v_upper).
  assert (B : zsumf (fun v => vpen v 0) (g_b g) = zsumf (fun i => vpen (nthq (g_b g) i) (zat [] i)) (seq 0 (g_rows g))).
  { rewrite (zsumf_nth _ 0%Qc). replace (length (g_b g)) with (g_rows g) by (symmetry; apply A). apply zsumf_ext. intros i _. now rewrite zat_nil. }
  assert (C : zsumf (fun a => vpen (v_cost a) 0) (g_vars g) = zsumf (fun j => vpen (v_cost (var g j)) (0 + zat [] j)) (seq 0 (nr_vars g))).
  { rewrite (zsumf_nth _ no_variable). apply zsumf_ext. intros i _. now rewrite zat_nil. }
  assert (E : zsumf (fun v => vpen v 0) (concat (map (map snd) (g_cols g))) = zsumf (fun j => zsumf (fun '(i, v) => vpen v (zat [] i + zat [] j)) (nth j (g_cols g) [])) (seq 0 (nr_vars g))).
  { rewrite <- flat_map_concat_map, zsumf_flat_map. rewrite (zsumf_nth _ []). replace (length (g_cols g)) with (nr_vars g) by (symmetry; apply A). apply zsumf_ext. intros j _. rewrite zsumf_map. apply zsumf_ext. intros [i v] _. cbn [snd]. now rewrite !zat_nil. }
  rewrite B, C, E. lia.
Qed.
Section Stage.
Variable g : general.
Hypothesis K : general_ok g.
Hypothesis FZ : factorizes fac g.
Notation fa := (factorize fac g).
Lemma value_b i : (i < g_rows g)%nat -> nthq (g_b g) i <> 0%Qc -> In (nthq (g_b g) i) (values g).
Proof.
  intros L N. unfold values. apply filter_In. split; [|destruct (qzero _) eqn:Q; [apply qeqb_true in Q; congruence|reflexivity]]. apply in_or_app. left. apply nth_In. rewrite (gok_b g K). exact L.
Qed.
Lemma value_of v l : In v l -> v <> 0%Qc -> In v (filter (fun v => negb (qzero v)) l).
Proof. intros H N. apply filter_In. split; [assumption|]. destruct (qzero v) eqn:Q; [apply qeqb_true in Q; congruence|reflexivity]. Qed.
Lemma var_in j : (j < nr_vars g)%nat -> In (var g j) (g_vars g). Proof. intros L. apply nth_In. exact L. Qed.
Lemma value_cost j : (j < nr_vars g)%nat -> v_cost (var g j) <> 0%Qc -> In (v_cost (var g j)) (values g).
Proof. intros L N. apply value_of; [|assumption]. apply in_or_app. right. apply in_or_app. left. apply in_map. now apply var_in. Qed.
Lemma value_lower j v : (j < nr_vars g)%nat -> v_lower (var g j) = Some v -> v <> 0%Qc -> In v (values g).
Proof. intros L E N. apply value_of; [|assumption]. do 2 (apply in_or_app; right). apply in_or_app. left. apply in_flat_map. exists (var g j). split; [now apply var_in|]. rewrite E. now left. Qed.
Lemma value_upper j v : (j < nr_vars g)%nat -> v_upper (var g j) = Some v -> v <> 0%Qc -> In v (values g).
Proof. intros L E N. apply value_of; [|assumption]. do 3 (apply in_or_app; right). apply in_or_app. left. apply in_flat_map. exists (var g j). split; [now apply var_in|]. rewrite E. now left. Qed.
Lemma value_entry c i v : In c (g_cols g) -> In (i, v) c -> In v (values g).
Proof. intros HC HI. apply value_of; [|now apply (general_entries g c i v K)]. do 4 (apply in_or_app; right). apply in_concat. exists (map snd c). split; [now apply in_map|]. apply (in_map snd _ _ HI). Qed.
(** all factorizations are those of values *)
Lemma entries_in {A} (l : list (option A)) x : In x (entries l) <-> In (Some x) l.
Proof. unfold entries. rewrite in_flat_map. split; [intros (o & H & E); destruct o as [y|]; [destruct E as [->|[]]; assumption|destruct E]|]. intros H. exists (Some x). split; [assumption|now left]. Qed.
Lemma factorize_some v l : factorize_value fac v = Some l -> v <> 0%Qc /\ l = fac v.
Proof. unfold factorize_value. destruct (qzero v) eqn:Q; [discriminate|]. intros E. split; [intros ->; discriminate|congruence]. Qed.
Lemma factor_of v : In v (values g) -> forall f, In f (map fst (fac v)) -> In f (fa_factors fa).
Proof.
  intros HV f HF. apply in_map_iff in HF. destruct HF as ([f' k] & E & HF). cbn in E. subst f'. unfold factorize. cbn [fa_factors]. apply collect_in. exists (fac v), k. split; [|assumption].
  unfold values in HV. apply filter_In in HV. destruct HV as [HV NZ]. assert (FV : factorize_value fac v = Some (fac v)) by (unfold factorize_value; destruct (qzero v); [discriminate|reflexivity]).
  apply in_app_or in HV. destruct HV as [H|HV]; [apply in_or_app; left; apply entries_in; rewrite <- FV; now apply in_map|]. apply in_or_app. right.
  apply in_app_or in HV. destruct HV as [H|HV]; [apply in_or_app; left; apply entries_in; apply in_map_iff in H; destruct H as (x & <- & H); rewrite <- FV; apply (in_map (fun v => factorize_value fac (v_cost v)) _ _ H)|]. apply in_or_app. right.
  apply in_app_or in HV. destruct HV as [H|HV].
  { apply in_or_app. left. apply entries_in. rewrite map_map. cbn [fst]. apply in_flat_map in H. destruct H as (x & HX & HS). destruct (v_lower x) as [w|] eqn:EL; [|destruct HS]. destruct HS as [->|[]]. apply in_map_iff. exists x. split; [rewrite EL; exact FV|assumption]. }
  apply in_or_app. right. apply in_app_or in HV. destruct HV as [H|H].
  { apply in_or_app. left. apply entries_in. rewrite map_map. cbn [snd]. apply in_flat_map in H. destruct H as (x & HX & HS). destruct (v_upper x) as [w|] eqn:EL; [|destruct HS]. destruct HS as [->|[]]. apply in_map_iff. exists x. split; [rewrite EL; exact FV|assumption]. }
  apply in_or_app. right. rewrite map_map. apply in_concat in H. destruct H as (c & HC & HI). apply in_map_iff in HC. destruct HC as (c0 & <- & HC). apply in_map_iff in HI. destruct HI as ([i v'] & E & HI). cbn in E. subst v'.
  apply in_concat. exists (map snd (map (fun '(i, v) => (i, fac v)) c0)). split; [apply (in_map (fun x => map snd (map (fun '(i, v) => (i, fac v)) x)) _ _ HC)|]. rewrite map_map. apply in_map_iff. exists (i, v). split; [reflexivity|assumption].
Qed.
Lemma factor_from f : In f (fa_factors fa) -> exists v, In v (values g) /\ In f (map fst (fac v)).
Proof.
  unfold factorize. cbn [fa_factors]. intros H. apply collect_in in H. destruct H as (x & k & HX & HF). assert (HM : In f (map fst x)) by (apply (in_map fst _ _ HF)).
  apply in_app_or in HX. destruct HX as [HX|HX].
  { apply entries_in, in_map_iff in HX. destruct HX as (v & E & HV). apply factorize_some in E. destruct E as [N ->]. exists v. split; [|assumption]. apply value_of; [|assumption]. apply in_or_app. now left. }
  apply in_app_or in HX. destruct HX as [HX|HX].
  { apply entries_in, in_map_iff in HX. destruct HX as (v & E & HV). apply factorize_some in E. destruct E as [N ->]. exists (v_cost v). split; [|assumption]. apply value_of; [|assumption]. apply in_or_app. right. apply in_or_app. left. now apply in_map. }
  apply in_app_or in HX. destruct HX as [HX|HX].
  { apply entries_in in HX. rewrite map_map in HX. cbn [fst] in HX. apply in_map_iff in HX. destruct HX as (v & E & HV). unfold factorize_bound in E. destruct (v_lower v) as [w|] eqn:EL; [|discriminate]. apply factorize_some in E. destruct E as [N ->]. exists w. split; [|assumption]. apply value_of; [|assumption].
    do 2 (apply in_or_app; right). apply in_or_app. left. apply in_flat_map. exists v. split; [assumption|]. rewrite EL. now left. }
  apply in_app_or in HX. destruct HX as [HX|HX].
  { apply entries_in in HX. rewrite map_map in HX. cbn [snd] in HX. apply in_map_iff in HX. destruct HX as (v & E & HV). unfold factorize_bound in E. destruct (v_upper v) as [w|] eqn:EL; [|discriminate]. apply factorize_some in E. destruct E as [N ->]. exists w. split; [|assumption]. apply value_of; [|assumption].
    do 3 (apply in_or_app; right). apply in_or_app. left. apply in_flat_map. exists v. split; [assumption|]. rewrite EL. now left. }
  apply in_concat in HX. destruct HX as (c & HC & HI). rewrite map_map in HC. apply in_map_iff in HC. destruct HC as (c0 & <- & HC). rewrite map_map in HI. apply in_map_iff in HI. destruct HI as ([i v] & E & HI). cbn in E. subst x. exists v. split; [now apply (value_entry c0 i v)|assumption].
Qed.
Lemma factors_sorted : zincreasing 0 (fa_factors fa).
Proof.
  unfold factorize. cbn [fa_factors]. apply collect_sorted. intros x f k HX HF. destruct (factor_from f) as (v & HV & HM); [unfold factorize; cbn [fa_factors]; apply collect_in; now exists x, k|].
  pose proof (FZ v HV) as S. now apply (zincreasing_above _ _ S).
Qed.
Variables before after : list Z.
Hypothesis BA : rev (fa_factors fa) = before ++ p :: after.
Lemma stage_sorted : StronglySorted Z.gt before /\ (forall q, In q before -> p < q) /\ forall q, In q after -> q < p.
Proof.
  assert (E : fa_factors fa = rev after ++ p :: rev before) by (rewrite <- (rev_involutive (fa_factors fa)), BA, rev_app_distr; cbn [rev]; rewrite <- app_assoc; reflexivity).
  pose proof factors_sorted as S. rewrite E in S. split; [|split].
  - assert (T : exists a, zincreasing a (rev before)).
    { revert S. clear. generalize 0. induction (rev after) as [|a t IH]; intros lo S; cbn [app] in S; destruct S as [S1 S2]; [now exists p|now apply (IH a)]. }
    destruct T as [a T]. clear - T. revert a T. induction before as [|q b IH] using rev_ind; intros a T; [constructor|]. rewrite rev_app_distr in T. cbn [rev app] in T. destruct T as [T1 T2]. pose proof (zincreasing_above _ _ T2) as AB. apply IH in T2.
    clear - T2 AB. induction b as [|x b IH]; cbn [app]; [repeat constructor|]. inversion T2 as [|? ? S F]; subst. constructor.
    + apply IH; [assumption|]. intros y HY. apply AB. cbn [rev]. apply in_or_app. now left.
    + apply Forall_app. split; [assumption|]. constructor; [|constructor]. assert (q < x) by (apply AB; cbn [rev]; apply in_or_app; right; now left). lia.
  - intros q HQ. replace (rev after ++ p :: rev before) with ((rev after ++ [p]) ++ rev before) in S by (rewrite <- app_assoc; reflexivity). destruct (increasing_app _ _ _ S) as [_ AB]. apply AB; [apply in_or_app; right; now left|now apply -> in_rev].
  - intros q HQ. destruct (increasing_app _ _ _ S) as [_ AB]. apply AB; [now apply -> in_rev|now left].
Qed.
Lemma stage_power v : In v (values g) -> initial_exponent p (cut before (fac v)) = power p (fac v).
Proof.
  intros HV. destruct stage_sorted as (SS & AB & BE). apply cut_power; [exact SS|exact AB|now apply FZ|]. intros f HF. pose proof (factor_of v HV f HF) as H. apply in_rev in H. rewrite BA in H. apply in_app_or in H. destruct H as [H|[<-|H]]; [now left|right; lia|right]. apply BE in H. lia.
Qed.
Lemma stage_pen v h d : (v <> 0%Qc -> In v (values g)) -> (forall e, h e = Z.abs (e + d)) -> pen (option_map (cut before) (factorize_value fac v)) (fun l => h (initial_exponent p l)) = vpen v d.
Proof.
  intros HV HD. unfold factorize_value, vpen. destruct (qzero v) eqn:Q; [reflexivity|]. cbn [option_map pen]. rewrite stage_power, HD; [reflexivity|]. apply HV. intros ->. discriminate.
Qed.
Lemma stage_open o h d : (forall v, o = Some v -> v <> 0%Qc -> In v (values g)) -> (forall e, h e = Z.abs (e + d)) -> pen (option_map (cut before) (factorize_bound fac o)) (fun l => h (initial_exponent p l)) = open o d.
Proof. intros HV HD. destruct o as [v|]; [|reflexivity]. cbn [factorize_bound open]. apply stage_pen; [now apply HV|assumption]. Qed.
Theorem stage_is k rows cols : penalty p (removed before fa) k rows cols = expo g k rows cols.
Proof.
  destruct (removed_is before fa) as (H1 & H2 & H3 & H4). unfold penalty, expo. rewrite H1, H2, !map_length. pose proof (fa_b_length fac g (general_sizes g K)) as LB. pose proof (fa_c_length fac g) as LC.
  cbn [factorize fa_b fa_c] in LB, LC |- *. rewrite LB, LC. f_equal.
  - apply zsumf_ext. intros j J. apply in_seq in J. unfold column_penalty. f_equal; [f_equal|].
    + unfold column_cost. rewrite H2. replace (nth j (map (option_map (cut before)) (fa_c fa)) None) with (option_map (cut before) (factorize_value fac (v_cost (var g j)))).
      * apply (stage_pen _ (fun e => Z.abs (e + k + zat cols j))); [apply value_cost; lia|intros; f_equal; lia].
      * rewrite (nth_indep _ None (option_map (cut before) (factorize_value fac (v_cost no_variable)))) by (cbn; rewrite !map_length; unfold nr_vars in *; lia). cbn [factorize fa_c]. rewrite map_map. rewrite (map_nth (fun v => option_map (cut before) (factorize_value fac (v_cost v)))). reflexivity.
    + unfold column_entries, column_of. rewrite H4. cbn [factorize fa_constraints]. rewrite map_map. change (@nil (nat * factorization)) with (map (fun '(i, l) => (i, cut before l)) (map (fun '(i, v) => (i, fac v)) (@nil (nat * Qc)))).
      rewrite (map_nth (fun x => map (fun '(i, l) => (i, cut before l)) (map (fun '(i, v) => (i, fac v)) x))). rewrite !zsumf_map. apply zsumf_ext. intros [i v] HI. 
      assert (HC : In (nth j (g_cols g) []) (g_cols g)) by (apply nth_In; rewrite (gok_cols g K); unfold nr_vars in *; lia).
      rewrite stage_power by (now apply (value_entry _ i v HC)). unfold vpen. destruct (qzero v) eqn:Q; [|f_equal; lia]. apply qeqb_true in Q. now elim (general_entries g _ i v K HC HI).
    + unfold column_bounds. rewrite H3. cbv zeta. replace (nth j (map (fun '(l, u) => (option_map (cut before) l, option_map (cut before) u)) (fa_bounds fa)) (None, None)) with (option_map (cut before) (factorize_bound fac (v_lower (var g j))), option_map (cut before) (factorize_bound fac (v_upper (var g j)))).
      * cbn [fst snd]. f_equal.
        -- apply (stage_open _ (fun e => Z.abs (e - zat cols j))); [intros v E N; apply (value_lower j v); [lia|assumption|assumption]|intros; f_equal; lia].
        -- apply (stage_open _ (fun e => Z.abs (e - zat cols j))); [intros v E N; apply (value_upper j v); [lia|assumption|assumption]|intros; f_equal; lia].
      * cbn [factorize fa_bounds]. rewrite map_map. rewrite (nth_indep _ (None, None) ((fun v => (option_map (cut before) (factorize_bound fac (v_lower v)), option_map (cut before) (factorize_bound fac (v_upper v)))) no_variable)) by (rewrite map_length; unfold nr_vars in *; lia).
        rewrite (map_nth (fun v => (option_map (cut before) (factorize_bound fac (v_lower v)), option_map (cut before) (factorize_bound fac (v_upper v))))). reflexivity.
  - apply zsumf_ext. intros i I0. apply in_seq in I0. unfold row_bound. rewrite H1. replace (nth i (map (option_map (cut before)) (fa_b fa)) None) with (option_map (cut before) (factorize_value fac (nthq (g_b g) i))).
    + apply (stage_pen _ (fun e => Z.abs (e + zat rows i))); [apply value_b; lia|intros; reflexivity].
    + rewrite (nth_indep _ None (option_map (cut before) (factorize_value fac 0%Qc))) by (cbn; rewrite !map_length; rewrite (gok_b g K); lia). cbn [factorize fa_b]. rewrite map_map. rewrite (map_nth (fun v => option_map (cut before) (factorize_value fac v))). reflexivity.
Qed.
End Stage.
End Exponents.
