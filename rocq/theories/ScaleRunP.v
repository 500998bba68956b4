(** * The scaling that is found *)
From Verif Require Import SpecScale ScaleP SearchP PowerP FactorP StandardQ.
Local Open Scope Z_scope.

(** ** More fuel does not change a result *)
Lemma improve_more count : forall fuel c made r, improve fuel count c made = Ok r -> forall fuel', (fuel <= fuel')%nat -> improve fuel' count c made = Ok r.
Proof.
  induction fuel as [|fuel IH]; intros c made r E fuel' L; [discriminate|]. destruct fuel' as [|fuel']; [lia|]. cbn [improve] in *. destruct (count c) as [inc dec]. destruct ((inc <? 0) || (dec <? 0)); [|assumption]. eapply IH; [eassumption|lia].
Qed.
Lemma column_more p fa s j fuel r : update_column p fa fuel s j = Ok r -> forall fuel', (fuel <= fuel')%nat -> update_column p fa fuel' s j = Ok r.
Proof. unfold update_column. intros E fuel' L. destruct (improve fuel _ _ _) as [x| |] eqn:EI; try discriminate. rewrite (improve_more _ _ _ _ _ EI fuel' L). exact E. Qed.
Lemma row_more p fa ix s j fuel r : do_constraint p fa ix fuel s j = Ok r -> forall fuel', (fuel <= fuel')%nat -> do_constraint p fa ix fuel' s j = Ok r.
Proof. unfold do_constraint. intros E fuel' L. destruct (improve fuel _ _ _) as [x| |] eqn:EI; try discriminate. rewrite (improve_more _ _ _ _ _ EI fuel' L). exact E. Qed.
Lemma cost_more p fa s fuel r : do_cost p fa fuel s = Ok r -> forall fuel', (fuel <= fuel')%nat -> do_cost p fa fuel' s = Ok r.
Proof. unfold do_cost. intros E fuel' L. destruct (improve fuel _ _ _) as [x| |] eqn:EI; try discriminate. rewrite (improve_more _ _ _ _ _ EI fuel' L). exact E. Qed.
Lemma step_more p fa ix s fuel r : search_step p fa ix fuel s = Ok r -> forall fuel', (fuel <= fuel')%nat -> search_step p fa ix fuel' s = Ok r.
Proof.
  unfold search_step. intros E fuel' L.
  assert (RM : forall (q : row_item) s0 x, match q with Some i => do_constraint p fa ix fuel s0 i | None => do_cost p fa fuel s0 end = Ok x -> match q with Some i => do_constraint p fa ix fuel' s0 i | None => do_cost p fa fuel' s0 end = Ok x).
  { intros [i|] s0 x; [intros H; now apply (row_more _ _ _ _ _ fuel)|intros H; now apply (cost_more _ _ _ fuel)]. }
  destruct (se_rowq s) as [|q rowq]; destruct (se_colq s) as [|j colq]; try exact E; match type of E with (if ?b then _ else _) = _ => destruct b end; try exact E.
  - destruct (update_column p fa fuel _ j) as [x| |] eqn:EU; try discriminate. now rewrite (column_more _ _ _ _ _ _ EU fuel' L).
  - match type of E with bind ?t _ = _ => destruct t as [x| |] eqn:EU; try discriminate end. apply RM in EU. rewrite EU. exact E.
  - match type of E with bind ?t _ = _ => destruct t as [x| |] eqn:EU; try discriminate end. apply RM in EU. rewrite EU. exact E.
  - destruct (update_column p fa fuel _ j) as [x| |] eqn:EU; try discriminate. now rewrite (column_more _ _ _ _ _ _ EU fuel' L).
Qed.
Lemma loop_more p fa ix : forall fuel s r, search_loop p fa ix fuel s = Ok r -> forall fuel', (fuel <= fuel')%nat -> search_loop p fa ix fuel' s = Ok r.
Proof.
  induction fuel as [|fuel IH]; intros s r E fuel' L; [discriminate|]. destruct fuel' as [|fuel']; [lia|]. cbn [search_loop] in *. destruct (search_step p fa ix (S fuel) s) as [x| |] eqn:ES; try discriminate.
  rewrite (step_more _ _ _ _ _ _ ES (S fuel') L). cbn [bind] in *. destruct x as [s'|]; [|assumption]. eapply IH; [eassumption|lia].
Qed.
Lemma factors_more ix fuel fuel' : (fuel <= fuel')%nat -> forall factors fa l, solve_factors fuel ix factors fa = Ok l -> solve_factors fuel' ix factors fa = Ok l.
Proof.
  intros L. induction factors as [|p factors IH]; intros fa l E; [assumption|]. cbn [solve_factors] in *. unfold solve_single in *. destruct (search_loop p fa ix fuel _) as [s| |] eqn:ES; try discriminate. rewrite (loop_more _ _ _ _ _ _ ES fuel' L). cbn [bind] in *.
  destruct (solve_factors fuel ix factors _) as [t| |] eqn:ET; try discriminate. rewrite (IH _ _ ET). exact E.
Qed.
Lemma scaling_more fa fuel l : solve_scaling fuel fa = Ok l -> forall fuel', (fuel <= fuel')%nat -> solve_scaling fuel' fa = Ok l.
Proof. unfold solve_scaling. intros E fuel' L. destruct (build_index fa) as [ix| |]; try discriminate. cbn [bind] in *. now apply (factors_more ix fuel). Qed.

(** ** The search ends *)
Section Run.
Variable fac : Qc -> factorization.
Variable g : general.
Hypothesis A : sizes_agree g.
Notation fa := (factorize fac g).
Lemma fa_b_length : length (fa_b fa) = g_rows g. Proof. cbn. rewrite map_length. apply A. Qed.
Lemma fa_c_length : length (fa_c fa) = nr_vars g. Proof. cbn. now rewrite map_length. Qed.
Lemma fa_constraints_length : length (fa_constraints fa) = nr_vars g. Proof. cbn. rewrite map_length. apply A. Qed.
Lemma fa_rows : rows_in_range fa.
Proof.
  intros c i l HC HI. rewrite fa_b_length. cbn in HC. apply in_map_iff in HC. destruct HC as (c0 & <- & HC). apply in_map_iff in HI. destruct HI as ([i0 v] & E & HI). injection E as -> _. destruct A as (_ & _ & _ & K). now apply (K c0 i v).
Qed.
Theorem search_ends : (0 < nr_vars g)%nat -> exists fuel0 l, (forall fuel, (fuel0 <= fuel)%nat -> solve_scaling fuel fa = Ok l) /\ map fst l = rev (fa_factors fa) /\
  (forall r, In r l -> length (snd (fst (snd r))) = g_rows g /\ length (snd (snd r)) = nr_vars g) /\
  forall before p after, rev (fa_factors fa) = before ++ p :: after -> exists r, In r l /\ factor_done (removed before fa) p r.
Proof.
  intros NZ. destruct (build_index_ok fa fa_rows) as (ix & EI & V). destruct (factors_done ix (rev (fa_factors fa)) fa fa_rows) as (f0 & l & E & M & LE & D); [now rewrite fa_constraints_length, fa_c_length|now rewrite fa_c_length|exact V|].
  rewrite fa_b_length, fa_c_length in LE. exists f0, l. split; [|split; [assumption|split; assumption]]. intros fuel F. unfold solve_scaling. rewrite EI. cbn [bind]. now apply E.
Qed.
Lemma combined_lengths m n l sc : (forall r : factor_result, In r l -> length (snd (fst (snd r))) = m /\ length (snd (snd r)) = n) -> length (sc_rows sc) = m -> length (sc_cols sc) = n ->
  length (sc_rows (fold_left combine_one l sc)) = m /\ length (sc_cols (fold_left combine_one l sc)) = n.
Proof.
  assert (Z : forall B C D (f : B -> C -> D) a b, length a = length b -> length (zip_with f a b) = length a) by (intros B C D f; induction a as [|x a IH]; intros [|y b] H; try discriminate; cbn in *; auto).
  revert sc. induction l as [|[p [[k r] c]] l IH]; intros sc LE L1 L2; [split; assumption|]. cbn [fold_left]. destruct (LE (p, (k, r, c)) (or_introl eq_refl)) as [H1 H2]. cbn [fst snd] in H1, H2. apply IH.
  - intros q H. apply LE. now right.
  - cbn [combine_one sc_rows]. rewrite Z; congruence.
  - cbn [combine_one sc_cols]. rewrite Z; congruence.
Qed.
Lemma combine_lengths l sc : (forall r : factor_result, In r l -> length (snd (fst (snd r))) = g_rows g /\ length (snd (snd r)) = nr_vars g) -> combine_factors l = Ok sc -> length (sc_rows sc) = g_rows g /\ length (sc_cols sc) = nr_vars g.
Proof.
  intros LE E. destruct l as [|[p [[k r] c]] l]; [discriminate|]. unfold combine_factors in E. assert (X : fold_left combine_one ((p, (k, r, c)) :: l) (mk_scaling 1%Qc (repeat 1%Qc (length r)) (repeat 1%Qc (length c))) = sc) by (injection E as E; exact E). subst sc.
  destruct (LE (p, (k, r, c)) (or_introl eq_refl)) as [H1 H2]. cbn [fst snd] in H1, H2. apply combined_lengths; [exact LE|cbn; now rewrite repeat_length|cbn; now rewrite repeat_length].
Qed.
(** without variables *)
Lemma no_variables_panic fuel : (0 < fuel)%nat -> nr_vars g = 0%nat -> scale fac fuel g = Panic.
Proof.
  intros F N. unfold scale, solve_scaling. destruct (build_index_ok fa fa_rows) as (ix & -> & _). cbn [bind]. destruct (rev (fa_factors fa)) as [|p t]; [reflexivity|]. cbn [solve_factors].
  assert (E : solve_single p fa ix fuel = Panic); [|now rewrite E]. unfold solve_single. destruct fuel as [|fuel]; [lia|]. cbn [search_loop]. unfold start_search, search_step. cbn [se_rowq se_colq]. rewrite fa_c_length, N.
  change (range 0 0) with (@nil nat). destruct (map Some (range 0 (length (fa_b fa))) ++ [None]) as [|q t'] eqn:Q; [destruct (map Some _); discriminate|].
  cbn [length]. rewrite Nat.mul_0_r, Nat.mul_0_l. reflexivity.
Qed.
Theorem scale_ends : exists fuel0 r, r <> Fuel /\ forall fuel, (fuel0 <= fuel)%nat -> scale fac fuel g = r.
Proof.
  destruct (Nat.eq_dec (nr_vars g) 0) as [N|N].
  - exists 1%nat, Panic. split; [discriminate|]. intros fuel F. now apply no_variables_panic.
  - destruct search_ends as (f0 & l & E & _ & LE & _); [lia|]. exists f0. exists (let* sc := combine_factors l in let* g0 := apply_scaling Qcmult Qcdiv g sc in Ok (g0, sc)). split.
    + destruct (combine_factors l) as [sc| |] eqn:EC; [|discriminate|destruct l as [|[p [[k r] c]] l]; discriminate]. destruct (combine_lengths l sc LE EC) as [L1 L2]. cbn [bind]. rewrite apply_ok by assumption. discriminate.
    + intros fuel F. unfold scale. rewrite (E fuel F). reflexivity.
Qed.
Theorem scale_works : (0 < nr_vars g)%nat -> fa_factors fa <> [] -> exists fuel0 g' sc, forall fuel, (fuel0 <= fuel)%nat -> scale fac fuel g = Ok (g', sc).
Proof.
  intros NZ NF. destruct search_ends as (f0 & l & E & M & LE & _); [assumption|]. destruct (combine_factors l) as [sc| |] eqn:EC; try (destruct l as [|[p [[k r] c]] l]; try discriminate; cbn [map] in M; apply (f_equal (@rev Z)) in M; rewrite rev_involutive in M; cbn [rev] in M; congruence).
  destruct (combine_lengths l sc LE EC) as [L1 L2]. exists f0, (scaled Qcmult Qcdiv g sc), sc. intros fuel F. unfold scale. rewrite (E fuel F). cbn [bind]. rewrite EC. cbn [bind]. rewrite apply_ok by assumption. reflexivity.
Qed.
(** what a result is *)
Lemma scale_inv fuel g' sc : scale fac fuel g = Ok (g', sc) -> exists l, combine_factors l = Ok sc /\ g' = scaled Qcmult Qcdiv g sc /\ (0 < nr_vars g)%nat /\ map fst l = rev (fa_factors fa) /\
  (forall r, In r l -> length (snd (fst (snd r))) = g_rows g /\ length (snd (snd r)) = nr_vars g) /\
  forall before p after, rev (fa_factors fa) = before ++ p :: after -> exists r, In r l /\ factor_done (removed before fa) p r.
Proof.
  intros H. destruct fuel as [|fuel]; [|].
  { unfold scale, solve_scaling in H. destruct (build_index fa) as [ix| |]; try discriminate. cbn [bind] in H. destruct (rev (fa_factors fa)); discriminate. }
  destruct (Nat.eq_dec (nr_vars g) 0) as [N|N]; [rewrite no_variables_panic in H by (lia || assumption); discriminate|].
  destruct search_ends as (f0 & l & E & M & LE & D); [lia|]. exists l. unfold scale in H. destruct (solve_scaling (S fuel) fa) as [l'| |] eqn:ES; try discriminate.
  assert (l' = l) by (pose proof (scaling_more _ _ _ ES (Nat.max f0 (S fuel)) ltac:(lia)) as X; rewrite E in X by lia; congruence). subst l'. cbn [bind] in H. destruct (combine_factors l) as [sc'| |] eqn:EC; try discriminate. cbn [bind] in H.
  destruct (combine_lengths l sc' LE EC) as [L1 L2]. rewrite apply_ok in H by assumption. cbn [bind] in H. assert (sc' = sc) by congruence. subst sc'. split; [reflexivity|]. split; [congruence|]. split; [lia|]. split; [assumption|split; assumption].
Qed.
End Run.

(** ** The combined factors *)
Definition powers (sel : factor_result -> Z) (l : list factor_result) : Qc := product (map (fun r => (fst r, sel r)) l).
Definition cost_power (r : factor_result) : Z := fst (fst (snd r)).
Definition row_power (i : nat) (r : factor_result) : Z := zat (snd (fst (snd r))) i.
Definition column_power (j : nat) (r : factor_result) : Z := zat (snd (snd r)) j.
Lemma nth_zip (f : Qc -> Z -> Qc) : forall a b i, length a = length b -> (i < length a)%nat -> nthq (zip_with f a b) i = f (nthq a i) (zat b i).
Proof. unfold nthq, zat. induction a as [|x a IH]; intros [|y b] i L LI; try discriminate; cbn [length] in *; [lia|]. destruct i as [|i]; cbn [zip_with nth]; [reflexivity|]. apply IH; lia. Qed.
Lemma combined_values m n l : (forall r : factor_result, In r l -> fst r <> 0 /\ length (snd (fst (snd r))) = m /\ length (snd (snd r)) = n) -> forall sc, length (sc_rows sc) = m -> length (sc_cols sc) = n ->
  (sc_cost (fold_left combine_one l sc) = sc_cost sc * powers cost_power l /\
   (forall i, (i < m)%nat -> nthq (sc_rows (fold_left combine_one l sc)) i = nthq (sc_rows sc) i * powers (row_power i) l) /\
   (forall j, (j < n)%nat -> nthq (sc_cols (fold_left combine_one l sc)) j = nthq (sc_cols sc) j * powers (fun r => (- column_power j r)%Z) l))%Qc.
Proof.
  induction l as [|[p [[k r] c]] l IH]; intros LE sc L1 L2.
  - cbn [fold_left]. unfold powers. cbn [map product fold_right]. split; [ring|]. split; intros; ring.
  - destruct (LE (p, (k, r, c)) (or_introl eq_refl)) as (NP & H1 & H2). cbn [fst snd] in NP, H1, H2. cbn [fold_left].
    destruct (combined_lengths m n [(p, (k, r, c))] sc) as [L1' L2']; [intros q [<-|[]]; split; assumption|assumption|assumption|]. cbn [fold_left] in L1', L2'.
    destruct (IH (fun q H => LE q (or_intror H)) _ L1' L2') as (IC & IR & IV). unfold powers in *. cbn [map product fold_right fst]. split; [|split].
    + rewrite IC. cbn [combine_one sc_cost]. rewrite times_power_is by assumption. unfold cost_power. cbn [fst snd]. unfold product. ring.
    + intros i LI. rewrite IR by assumption. cbn [combine_one sc_rows]. rewrite nth_zip by lia. rewrite times_power_is by assumption. unfold row_power. cbn [fst snd]. unfold product. ring.
    + intros j LJ. rewrite IV by assumption. cbn [combine_one sc_cols]. rewrite nth_zip by lia. rewrite times_power_is by assumption. unfold column_power. cbn [fst snd]. unfold product. ring.
Qed.
Lemma combine_values m n l sc : (forall r : factor_result, In r l -> fst r <> 0 /\ length (snd (fst (snd r))) = m /\ length (snd (snd r)) = n) -> combine_factors l = Ok sc ->
  sc_cost sc = powers cost_power l /\ (forall i, (i < m)%nat -> nthq (sc_rows sc) i = powers (row_power i) l) /\ (forall j, (j < n)%nat -> nthq (sc_cols sc) j = powers (fun r => - column_power j r) l).
Proof.
  intros LE E. destruct l as [|[p [[k r] c]] l]; [discriminate|]. unfold combine_factors in E. assert (X : fold_left combine_one ((p, (k, r, c)) :: l) (mk_scaling 1%Qc (repeat 1%Qc (length r)) (repeat 1%Qc (length c))) = sc) by (injection E as E; exact E). subst sc.
  destruct (LE (p, (k, r, c)) (or_introl eq_refl)) as (_ & H1 & H2). cbn [fst snd] in H1, H2.
  destruct (combined_values m n _ LE (mk_scaling 1%Qc (repeat 1%Qc (length r)) (repeat 1%Qc (length c)))) as (C1 & C2 & C3); [cbn; now rewrite repeat_length|cbn; now rewrite repeat_length|].
  assert (R1 : forall q i, (i < q)%nat -> nthq (repeat 1%Qc q) i = 1%Qc) by (intros q i L; unfold nthq; apply (repeat_spec q); apply nth_In; now rewrite repeat_length).
  split; [etransitivity; [exact C1|]; cbn [sc_cost]; ring|]. split.
  - intros i L. etransitivity; [exact (C2 i L)|]. cbn [sc_rows]. rewrite R1 by lia. ring.
  - intros j L. etransitivity; [exact (C3 j L)|]. cbn [sc_cols]. rewrite R1 by lia. ring.
Qed.
Lemma powers_pos sel l : (forall r : factor_result, In r l -> 0 < fst r) -> (0 < powers sel l)%Qc.
Proof.
  unfold powers. induction l as [|r l IH]; intros P; cbn [map product fold_right]; [reflexivity|]. pose proof (zq_pos _ (P r (or_introl eq_refl))) as H. apply (qpower_pos _ (sel r)) in H. specialize (IH (fun q HQ => P q (or_intror HQ))).
  fold (product (map (fun r => (fst r, sel r)) l)). set (a := qpower _ _) in *. set (b := product _) in *. clearbody a b. qnra.
Qed.
Lemma powers_opp sel l : (forall r : factor_result, In r l -> fst r <> 0) -> powers (fun r => - sel r) l = (/ powers sel l)%Qc.
Proof.
  unfold powers. induction l as [|r l IH]; intros P; cbn [map product fold_right]; [reflexivity|]. pose proof (zq_nonzero _ (P r (or_introl eq_refl))) as N. specialize (IH (fun q HQ => P q (or_intror HQ))). unfold product in *. rewrite IH. rewrite qpower_opp by assumption. symmetry. apply Qcinv_mult_distr.
Qed.

(** ** The factors *)
Lemma add_factor_in f l x : In x (add_factor f l) <-> x = f \/ In x l.
Proof.
  induction l as [|a l IH]; cbn [add_factor]; [cbn; intuition|]. destruct (Z.eqb_spec f a) as [->|]; [cbn; intuition|]. destruct (f <? a); cbn; [intuition|]. rewrite IH. intuition.
Qed.
Lemma add_factor_sorted f l a : a < f -> zincreasing a l -> zincreasing a (add_factor f l).
Proof.
  revert a. induction l as [|b l IH]; intros a H S; cbn [add_factor]; [now split|]. destruct S as [S1 S2]. destruct (Z.eqb_spec f b) as [->|N]; [now split|]. destruct (Z.ltb_spec f b); [split; [assumption|now split]|]. split; [assumption|]. apply IH; [lia|assumption].
Qed.
Lemma collect_in l f : In f (collect l) <-> exists x k, In x l /\ In (f, k) x.
Proof.
  unfold collect. assert (G : forall t, In f (fold_right add_factor [] t) <-> In f t) by (induction t as [|a t IH]; cbn [fold_right]; [reflexivity|]; rewrite add_factor_in, IH; cbn; intuition).
  rewrite G. rewrite in_map_iff. split.
  - intros ([f' k] & E & H). cbn in E. subst f'. apply in_concat in H. destruct H as (x & HX & HI). now exists x, k.
  - intros (x & k & HX & HI). exists (f, k). split; [reflexivity|]. apply in_concat. now exists x.
Qed.
Lemma collect_sorted lo l : (forall x f k, In x l -> In (f, k) x -> lo < f) -> zincreasing lo (collect l).
Proof.
  intros H. unfold collect. assert (G : forall t, (forall f, In f t -> lo < f) -> zincreasing lo (fold_right add_factor [] t)).
  { induction t as [|a t IH]; intros P; cbn [fold_right]; [exact I|]. apply add_factor_sorted; [apply P; now left|apply IH; intros f HF; apply P; now right]. }
  apply G. intros f HF. apply in_map_iff in HF. destruct HF as ([f' k] & E & HC). cbn in E. subst f'. apply in_concat in HC. destruct HC as (x & HX & HI). now apply (H x f k).
Qed.
