(** * Reading right-hand sides, ranges and bounds of an MPS file *)
From Verif Require Import SpecParse MpsParse NumberP TextP PermP RangesP ParseP.
Local Open Scope string_scope.
Local Open Scope list_scope.

Section Groups.
Context {A : Type}.
Variable at_ : nat -> string.
Variable bound : nat.

Definition group_values (l : list (group A)) : list (string * string * A) := flat_map (fun g => map (fun '(i, v) => (grp_name g, at_ i, v)) (grp_values g)) l.
Definition groups_of (s : groups_state A) : list (group A) :=
  gs_done s ++ match gs_active s with Some g => [mk_group g (gs_values s)] | None => [] end.
Definition told (s : groups_state A) := group_values (groups_of s).
Record groups_inv (s : groups_state A) : Prop := mk_gi {
  gi_idle : gs_active s = None -> gs_values s = [];
  gi_index : forall i v, In (i, v) (ungroup (groups_of s)) -> (i < bound)%nat
}.
Lemma group_values_perm l l' : Forall2 (fun g g' => grp_name g = grp_name g' /\ Permutation (grp_values g) (grp_values g')) l l' ->
  Permutation (group_values l) (group_values l') /\ Permutation (ungroup l) (ungroup l').
Proof.
  induction 1 as [|g g' l l' [N P] F [IH1 IH2]]; [split; constructor|]. split; unfold group_values, ungroup; cbn [flat_map]; apply Permutation_app; try assumption. rewrite N. now apply Permutation_map.
Qed.
Lemma group_nodup g (l : list (nat * A)) : NoDup (map fst (map (fun '(i, v) => (g, at_ i, v)) l : list (string * string * A))) -> NoDup (map fst l).
Proof. intros N. apply (NoDup_map_inv (fun i => (g, at_ i))). rewrite map_map in *. erewrite map_ext; [exact N|]. intros [i v]. reflexivity. Qed.
Lemma group_save_ok duplicates s new : groups_inv s -> (duplicates = false -> NoDup (map fst (told s))) ->
  exists s', save_to_group_collector duplicates new s = Got s' /\ gs_values s' = [] /\ gs_active s' = new /\
    Permutation (group_values (gs_done s')) (told s) /\ Permutation (ungroup (gs_done s')) (ungroup (groups_of s)).
Proof.
  intros I N. unfold save_to_group_collector. destruct (gs_active s) as [g|] eqn:E.
  - assert (D : negb duplicates && adjacent same_index (sort_by fst (gs_values s)) = false).
    { destruct duplicates; [reflexivity|]. cbn [negb andb]. specialize (N eq_refl). unfold told, groups_of, group_values in N. rewrite E, flat_map_app, map_app in N. apply NoDup_app_r in N.
      cbn [flat_map grp_name grp_values] in N. rewrite app_nil_r in N. apply group_nodup in N. apply (adjacent_nodup fst); [intros x y X; now apply Nat.eqb_eq|].
      apply NoDup_fst_perm with (gs_values s); [apply Permutation_sym, sort_by_perm|assumption]. }
    rewrite D. eexists. split; [reflexivity|]. split; [reflexivity|]. split; [reflexivity|]. cbn [gs_done]. unfold told, groups_of. rewrite E. apply group_values_perm.
    apply Forall2_app; [|constructor; [split; [reflexivity|apply sort_by_perm]|constructor]]. clear. induction (gs_done s); constructor; [split; [reflexivity|apply Permutation_refl]|assumption].
  - eexists. split; [reflexivity|]. cbn [gs_values gs_active gs_done]. rewrite (gi_idle s I E). split; [reflexivity|]. split; [reflexivity|].
    unfold told, groups_of. rewrite E, app_nil_r. split; apply Permutation_refl.
Qed.
Lemma change_ok duplicates s g : groups_inv s -> (duplicates = false -> NoDup (map fst (told s))) ->
  exists s', change_group duplicates g s = Got s' /\ groups_inv s' /\ gs_active s' = Some g /\ Permutation (told s') (told s) /\ Permutation (ungroup (groups_of s')) (ungroup (groups_of s)).
Proof.
  intros I N. assert (ST : forall s', gs_values s' = [] -> gs_active s' = Some g -> told s' = group_values (gs_done s') /\ ungroup (groups_of s') = ungroup (gs_done s')).
  { intros s' V E. unfold told, groups_of, group_values, ungroup. rewrite E, !flat_map_app. cbn [flat_map grp_values map]. rewrite V. cbn [map]. rewrite !app_nil_r. split; reflexivity. }
  unfold change_group. destruct (gs_active s) as [a|] eqn:E.
  - destruct (String.eqb_spec a g) as [Eq|Ne].
    + subst a. exists s. split; [reflexivity|]. split; [assumption|]. split; [assumption|]. split; apply Permutation_refl.
    + destruct (group_save_ok duplicates s (Some g) I N) as (s' & S & V & AC & P & U). exists s'. split; [assumption|]. destruct (ST s' V AC) as [T1 T2]. rewrite T1, T2.
      split; [|split; [assumption|split; assumption]]. constructor; [congruence|]. rewrite T2. intros i v H. apply (Permutation_in _ U) in H. now apply (gi_index s I i v).
  - eexists. split; [reflexivity|]. pose proof (gi_idle s I E) as V. destruct (ST (mk_groups (gs_done s) (gs_values s) (Some g)) V eq_refl) as [T1 T2]. cbn [gs_done] in *. rewrite T1, T2.
    assert (Q : groups_of s = gs_done s) by (unfold groups_of; now rewrite E, app_nil_r).
    split; [constructor; [discriminate|]; rewrite T2, <- Q; apply I|]. split; [reflexivity|]. unfold told. rewrite Q. split; apply Permutation_refl.
Qed.
Lemma add_ok s g i v : groups_inv s -> gs_active s = Some g -> (i < bound)%nat ->
  groups_inv (add_value i v s) /\ gs_active (add_value i v s) = Some g /\ Permutation (told (add_value i v s)) (told s ++ [(g, at_ i, v)]).
Proof.
  intros I E L. split; [|split; [assumption|]].
  - constructor; [cbn; congruence|]. unfold groups_of, add_value. cbn [gs_active gs_done gs_values]. rewrite E. unfold ungroup. rewrite flat_map_app. cbn [flat_map grp_values]. rewrite app_nil_r.
    intros j w H. pose proof (gi_index s I j w) as G. unfold ungroup, groups_of in G. rewrite E, flat_map_app in G. cbn [flat_map grp_values] in G. rewrite app_nil_r in G.
    apply in_app_or in H. destruct H as [H|H]; [apply G; apply in_or_app; now left|]. apply in_app_or in H. destruct H as [H|[H|[]]]; [apply G; apply in_or_app; now right|]. injection H as <- _. exact L.
  - unfold told, groups_of, add_value, group_values. cbn [gs_active gs_done gs_values]. rewrite E, !flat_map_app. cbn [flat_map grp_name grp_values]. rewrite !app_nil_r, map_app, <- app_assoc. apply Permutation_refl.
Qed.
End Groups.

Section Reader.
Variable R : reader.
Variable b : build.

(** ** Right-hand sides and ranges *)
Section Values.
Variable rows : list mrow.
Notation row_at i := (row_name (nth i rows (mk_mrow "" KEqual))).
Notation told := (told (fun i => row_at i)).
Definition reads_values (item : string * list (string * Qc)) (l : string) : Prop :=
  is_part_of_same_section l = true /\ exists r text rest, two_through_four R l = Got (fst item, r, text, rest) /\ reads_pairs R b r text rest (snd item).
Definition item_values (item : string * list (string * Qc)) : list (string * string * Qc) := let '(g, values) := item in map (fun '(r, v) => (g, r, v)) values.
Lemma group_pair_ok s g r text v : groups_inv (length rows) s -> gs_active s = Some g -> parse_number b text = Got v -> In r (map row_name rows) ->
  exists s', save_group_pair b rows r text s = Got s' /\ groups_inv (length rows) s' /\ gs_active s' = Some g /\ Permutation (told s') (told s ++ [(g, r, v)]).
Proof.
  intros I E P K. unfold save_group_pair. destruct (row_index_In rows r K) as (i & -> & L & <-). rewrite P. eexists. split; [reflexivity|].
  apply (add_ok (fun i => row_at i) (length rows) s g i v I E L).
Qed.
Lemma values_line_ok s item l : groups_inv (length rows) s -> reads_values item l -> NoDup (map fst (told s ++ item_values item)) -> (forall g r v, In (g, r, v) (item_values item) -> In r (map row_name rows)) ->
  exists s', parse_value_section_line b R rows l s = Got s' /\ groups_inv (length rows) s' /\ Permutation (told s') (told s ++ item_values item).
Proof.
  destruct item as [g values]. intros I (_ & r & text & rest & E & v & P & V) N K. cbn [fst snd item_values] in *. unfold parse_value_section_line. rewrite E. cbn [obind].
  destruct (change_ok (fun i => row_at i) (length rows) false s g I) as (s1 & -> & I1 & A1 & P1 & _); [intros _; rewrite map_app in N; now apply NoDup_app_l in N|]. cbn [obind].
  assert (Kr : In r (map row_name rows)) by (destruct V as [(-> & _)|(r' & t' & v' & _ & _ & ->)]; apply (K g r v); now left).
  destruct (group_pair_ok s1 g r text v I1 A1 P Kr) as (s2 & -> & I2 & A2 & P2). cbn [obind].
  destruct V as [(-> & F)|(r' & t' & v' & F & P' & ->)]; rewrite F; cbn [obind].
  - exists s2. split; [reflexivity|]. split; [assumption|]. rewrite P2. now apply Permutation_app_tail.
  - destruct (group_pair_ok s2 g r' t' v' I2 A2 P') as (s3 & -> & I3 & A3 & P3); [apply (K g r' v'); right; now left|]. exists s3. split; [reflexivity|]. split; [assumption|].
    rewrite P3, P2, <- app_assoc. now apply Permutation_app_tail.
Qed.
Theorem values_read valid items ls : Forall2 reads_values items ls -> forall s header next rest,
  is_part_of_same_section header = false -> try_parse_next_section header valid = Got next ->
  groups_inv (length rows) s -> NoDup (map fst (told s ++ flat_map item_values items)) -> (forall g r v, In (g, r, v) (flat_map item_values items) -> In r (map row_name rows)) ->
  exists groups, parse_optional_section b R valid rows (ls ++ header :: rest) s = Got (groups, next, rest) /\
    Permutation (group_values (fun i => row_at i) groups) (told s ++ flat_map item_values items) /\
    (forall i v, In (i, v) (ungroup groups) -> (i < length rows)%nat).
Proof.
  induction 1 as [|item l items ls RV F IH]; intros s header next rest NP TP I N K; cbn [app parse_optional_section flat_map].
  - rewrite NP, TP. cbn [obind]. cbn [flat_map] in N. rewrite app_nil_r in N. destruct (group_save_ok (fun i => row_at i) (length rows) false s None I) as (s' & -> & V & A & P & U); [intros _; exact N|]. cbn [obind].
    exists (gs_done s'). split; [reflexivity|]. rewrite app_nil_r. split; [assumption|]. intros i v H. apply (Permutation_in _ U) in H. now apply (gi_index _ s I i v).
  - destruct RV as [P RV]. rewrite P. cbn [flat_map] in N, K. destruct (values_line_ok s item l I (conj P RV)) as (s1 & -> & I1 & P1).
    { rewrite app_assoc, map_app in N. now apply NoDup_app_l in N. }
    { intros g r v H. apply (K g r v). apply in_or_app. now left. }
    cbn [obind]. destruct (IH s1 header next rest NP TP I1) as (groups & E & PM & D).
    { apply (NoDup_fst_perm (told s ++ item_values item ++ flat_map item_values items)); [|assumption]. rewrite P1, <- app_assoc. apply Permutation_refl. }
    { intros g r v X. apply (K g r v). apply in_or_app. now right. }
    exists groups. split; [assumption|]. split; [|assumption]. rewrite PM, P1, <- app_assoc. apply Permutation_refl.
Qed.
End Values.

(** ** Bounds *)
Section Bounds.
Variable columns : list mcolumn.
Notation column_at j := (col_name (nth j columns (mk_mcolumn "" false []))).
Lemma column_index_In : forall cols name, In name (map col_name cols) -> exists j, column_index cols name = Some j /\ (j < length cols)%nat /\ col_name (nth j cols (mk_mcolumn "" false [])) = name.
Proof.
  induction cols as [|c cols IH]; intros name H; [destruct H|]. cbn [column_index]. destruct (column_index cols name) as [j|] eqn:E.
  - exists (S j). split; [reflexivity|]. cbn [length nth]. assert (G : (j < length cols)%nat /\ col_name (nth j cols (mk_mcolumn "" false [])) = name); [|split; [lia|apply G]].
    clear IH H c. revert j E. induction cols as [|c cols IH]; intros j E; [discriminate|]. cbn [column_index] in E. destruct (column_index cols name) as [k|].
    + injection E as <-. destruct (IH k eq_refl). cbn [length nth]. split; [lia|assumption].
    + destruct (String.eqb_spec (col_name c) name) as [Eq|]; [|discriminate]. injection E as <-. cbn. split; [lia|assumption].
  - cbn [map] in H. destruct H as [<-|H]; [rewrite String.eqb_refl; exists 0%nat; cbn; repeat split; lia|]. destruct (IH name H) as (j & E' & _). congruence.
Qed.
Definition reads_bound (item : bound_type * string * string) (l : string) : Prop :=
  is_part_of_same_section l = true /\ exists key rest, one_through_three R l = Got (key, snd (fst item), snd item, rest) /\ bound_type_of b R key rest = Got (fst (fst item)).
Definition bound_value (item : bound_type * string * string) : string * string * bound_type := let '(t, g, c) := item in (g, c, t).
Lemma bound_line_ok s item l : groups_inv (length columns) s -> reads_bound item l -> In (snd item) (map col_name columns) ->
  exists s', parse_bound_line b R columns l s = Got s' /\ groups_inv (length columns) s' /\ Permutation (told (fun j => column_at j) s') (told (fun j => column_at j) s ++ [bound_value item]).
Proof.
  destruct item as [[t g] c]. intros I (_ & key & rest & E & T) K. cbn [fst snd bound_value] in *. unfold parse_bound_line. rewrite E. cbn [obind].
  destruct (column_index_In columns c K) as (j & -> & L & <-).
  destruct (change_ok (fun j => column_at j) (length columns) true s g I) as (s1 & -> & I1 & A1 & P1 & _); [discriminate|]. cbn [obind]. rewrite T. cbn [obind]. eexists. split; [reflexivity|].
  destruct (add_ok (fun j => column_at j) (length columns) s1 g j t I1 A1 L) as (I2 & A2 & P2). split; [assumption|]. rewrite P2. now apply Permutation_app_tail.
Qed.
Theorem bounds_read items ls : Forall2 reads_bound items ls -> forall s rest, groups_inv (length columns) s -> (forall t g c, In (t, g, c) items -> In c (map col_name columns)) ->
  exists groups, parse_bounds_section b R columns (ls ++ "ENDATA" :: rest) s = Got (groups, rest) /\
    Permutation (group_values (fun j => column_at j) groups) (told (fun j => column_at j) s ++ map bound_value items) /\
    (forall j t, In (j, t) (ungroup groups) -> (j < length columns)%nat).
Proof.
  induction 1 as [|item l items ls RB F IH]; intros s rest I K; cbn [app parse_bounds_section map].
  - destruct (group_save_ok (fun j => column_at j) (length columns) true s None I) as (s' & E & V & A & P & U); [discriminate|].
    replace (is_part_of_same_section "ENDATA") with false by reflexivity. replace (try_parse_next_section "ENDATA" []) with (Got SEndata) by reflexivity. cbn [obind]. rewrite E. cbn [obind].
    exists (gs_done s'). split; [reflexivity|]. rewrite app_nil_r. split; [assumption|]. intros i v H. apply (Permutation_in _ U) in H. now apply (gi_index _ s I i v).
  - destruct RB as [P RB]. rewrite P. destruct (bound_line_ok s item l I (conj P RB)) as (s1 & -> & I1 & P1).
    { destruct item as [[t g] c]. apply (K t g c). now left. }
    cbn [obind]. destruct (IH s1 rest I1) as (groups & E & PM & D); [intros t g c H; apply (K t g c); now right|].
    exists groups. split; [assumption|]. split; [|assumption]. rewrite PM, P1, <- app_assoc. apply Permutation_refl.
Qed.
End Bounds.
End Reader.
