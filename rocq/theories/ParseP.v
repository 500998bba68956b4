(** * Reading the sections of an MPS file, for any way of splitting lines into fields *)
From Verif Require Import SpecParse MpsParse NumberP TextP PermP RangesP.
Local Open Scope string_scope.
Local Open Scope list_scope.

(** ** Lists *)
Lemma increasing_snoc : forall l lo j, increasing_from lo l -> (lo <= j)%nat -> (forall x, In x l -> (x < j)%nat) -> increasing_from lo (l ++ [j]).
Proof.
  induction l as [|a l IH]; intros lo j I L B; cbn; [split; [assumption|exact Logic.I]|]. destruct I as [I1 I2]. split; [assumption|]. apply IH; [assumption| |intros x X; apply B; now right].
  apply B. now left.
Qed.
Lemma adjacent_nodup {A B} (key : A -> B) (same : A -> A -> bool) : (forall a b, same a b = true -> key a = key b) -> forall l, NoDup (map key l) -> adjacent same l = false.
Proof.
  intros S. induction l as [|a [|b l] IH]; intros N; [reflexivity|reflexivity|]. cbn [adjacent]. inversion N as [|x y X Y]; subst. apply orb_false_iff. split; [|now apply IH].
  destruct (same a b) eqn:E; [|reflexivity]. apply S in E. elim X. rewrite E. now left.
Qed.
Lemma NoDup_fst_perm {A B} (l l' : list (A * B)) : Permutation l l' -> NoDup (map fst l) -> NoDup (map fst l').
Proof. intros P N. apply (Permutation_NoDup (Permutation_map fst P) N). Qed.
Lemma NoDup_app_l {A} (a b : list A) : NoDup (a ++ b) -> NoDup a.
Proof. induction a as [|x a IH]; intros N; [constructor|]. inversion N; subst. constructor; [intros H; apply H1; apply in_or_app; now left|now apply IH]. Qed.
Lemma NoDup_app_r {A} (a b : list A) : NoDup (a ++ b) -> NoDup b.
Proof. induction a as [|x a IH]; intros N; [assumption|]. inversion N; subst. now apply IH. Qed.
Lemma NoDup_app_not {A} (a b : list A) x : NoDup (a ++ b) -> In x a -> ~ In x b.
Proof. induction a as [|y a IH]; intros N H; [destruct H|]. inversion N; subst. destruct H as [->|H]; [intros X; apply H2; apply in_or_app; now right|now apply IH]. Qed.

(** ** Rows *)
Lemma insert_row_perm r : forall l, Permutation (insert_row r l) (r :: l).
Proof. induction l as [|a l IH]; cbn; [constructor; constructor|]. destruct (String.leb (row_name r) (row_name a)); [apply Permutation_refl|]. rewrite IH. apply perm_swap. Qed.
Lemma sort_rows_perm l : Permutation (sort_rows l) l.
Proof. induction l as [|a l IH]; cbn; [constructor|]. fold (sort_rows l). rewrite insert_row_perm. now apply perm_skip. Qed.
Lemma row_index_spec : forall rows name, match row_index rows name with
  | Some i => (i < length rows)%nat /\ row_name (nth i rows (mk_mrow "" KEqual)) = name
  | None => ~ In name (map row_name rows) end.
Proof.
  induction rows as [|r rows IH]; intros name; cbn [row_index]; [intros []|]. destruct (String.eqb_spec (row_name r) name) as [E|N]; [cbn; split; [lia|assumption]|].
  specialize (IH name). destruct (row_index rows name) as [i|]; cbn; [destruct IH; split; [lia|assumption]|]. intros [X|X]; [now apply N|now apply IH].
Qed.
Lemma row_index_In rows name : In name (map row_name rows) -> exists i, row_index rows name = Some i /\ (i < length rows)%nat /\ row_name (nth i rows (mk_mrow "" KEqual)) = name.
Proof. intros H. pose proof (row_index_spec rows name) as S. destruct (row_index rows name) as [i|]; [exists i; now repeat split|contradiction]. Qed.

Section Reader.
Variable R : reader.
Variable b : build.

Definition reads_row (row : option relation_kind * string) (l : string) : Prop :=
  is_part_of_same_section l = true /\ exists t, one_and_two R l = Got (t, snd row) /\ row_type_of t = Got (fst row).
Definition rows_of (l : list (option relation_kind * string)) : list mrow := flat_map (fun '(k, r) => match k with Some k => [mk_mrow r k] | None => [] end) l.
Definition costs_of (l : list (option relation_kind * string)) : list string := flat_map (fun '(k, r) => match k with Some _ => [] | None => [r] end) l.
Lemma rows_read items ls : Forall2 reads_row items ls -> forall rest cost rows,
  (length match cost with Some c => c :: costs_of items | None => costs_of items end <= 1)%nat ->
  parse_row_section R (ls ++ "COLUMNS" :: rest) cost rows = Got (match cost with Some c => Some c | None => hd_error (costs_of items) end, rows ++ rows_of items, rest).
Proof.
  induction 1 as [|[k r] l items ls (S & t & E & T) F IH]; intros rest cost rows L; [cbn; rewrite app_nil_r; destruct cost; reflexivity|].
  cbn [fst snd] in *. cbn [app parse_row_section]. rewrite S, E. cbn [obind]. rewrite T. cbn [obind]. destruct k as [k|].
  - rewrite IH by exact L. f_equal. f_equal. f_equal. rewrite <- app_assoc. reflexivity.
  - destruct cost as [c|]; [cbn in L; lia|]. rewrite IH by exact L. reflexivity.
Qed.
Lemma rows_checked cost rows : NoDup (cost :: map row_name rows) -> check_row_section_consistency (Some cost) rows = Got (cost, sort_rows rows).
Proof.
  intros N. inversion N as [|x y X Y]; subst. cbn [check_row_section_consistency]. pose proof (sort_rows_perm rows) as P.
  replace (existsb (fun r => String.eqb (row_name r) cost) (sort_rows rows)) with false.
  2:{ symmetry. apply not_true_is_false. intros H. apply existsb_exists in H. destruct H as (r & I & E). apply String.eqb_eq in E. apply X. rewrite <- E. apply in_map. now apply (Permutation_in _ P). }
  rewrite (adjacent_nodup row_name); [reflexivity| |].
  - intros a c E. now apply String.eqb_eq.
  - apply (Permutation_NoDup (Permutation_map row_name (Permutation_sym P)) Y).
Qed.

(** ** Pairs of a row and a value *)
Definition reads_pairs (r text : string) (rest : rest_of_line R) (values : list (string * Qc)) : Prop :=
  exists v, parse_number b text = Got v /\
  ((values = [(r, v)] /\ five_and_six R rest = Got None) \/
   exists r' text' v', five_and_six R rest = Got (Some (r', text')) /\ parse_number b text' = Got v' /\ values = [(r, v); (r', v')]).

(** ** Columns *)
Variable cost : string.
Variable rows : list mrow.
Notation row_at i := (row_name (nth i rows (mk_mrow "" KEqual))).
Definition column_name (l : list mcolumn) (j : nat) : string := col_name (nth j l (mk_mcolumn "" false [])).
Definition said_by (cols : list mcolumn) (costs : list (nat * Qc)) : list (string * string * Qc) :=
  flat_map (fun c => map (fun '(i, v) => (col_name c, row_at i, v)) (col_values c)) cols ++ map (fun '(j, v) => (column_name cols j, cost, v)) costs.
(** the columns with the one that is being read *)
Definition cols_of (s : columns_state) : list mcolumn :=
  cs_done s ++ match cs_active s with Some c => [mk_mcolumn c (cs_integer s) (cs_values s)] | None => [] end.
Definition said (s : columns_state) := said_by (cols_of s) (cs_costs s).
Definition known (r : string) : Prop := r = cost \/ In r (map row_name rows).
Definition entry_indices (l : list (nat * Qc)) : Prop := forall i v, In (i, v) l -> (i < length rows)%nat.
Record cols_inv (s : columns_state) : Prop := mk_ci {
  ci_idle : cs_active s = None -> cs_values s = [];
  ci_values : entry_indices (cs_values s);
  ci_done : forall c, In c (cs_done s) -> increasing_from 0 (map fst (col_values c)) /\ entry_indices (col_values c);
  ci_costs : increasing_from 0 (map fst (cs_costs s));
  ci_cost : forall j v, In (j, v) (cs_costs s) -> (j < length (cols_of s))%nat
}.
Definition heads (l : list mcolumn) : list (string * bool) := map (fun c => (col_name c, col_integer c)) l.

Lemma column_name_ext l l' j : map col_name l = map col_name l' -> column_name l j = column_name l' j.
Proof. intros E. unfold column_name. rewrite <- !(map_nth col_name). cbn [col_name]. now rewrite E. Qed.
Lemma column_name_app l l' j : (j < length l)%nat -> column_name (l ++ l') j = column_name l j.
Proof. intros L. unfold column_name. now rewrite app_nth1. Qed.
Lemma said_perm cols cols' costs : Forall2 (fun c c' => col_name c = col_name c' /\ Permutation (col_values c) (col_values c')) cols cols' -> Permutation (said_by cols costs) (said_by cols' costs).
Proof.
  intros F. unfold said_by. assert (N : map col_name cols = map col_name cols') by (induction F as [|a c l l' [E _] F IH]; cbn; congruence).
  apply Permutation_app; [|erewrite map_ext; [apply Permutation_refl|]; intros [j v]; now rewrite (column_name_ext _ _ j N)].
  clear N. induction F as [|a c l l' [E P] F IH]; cbn [flat_map]; [constructor|]. apply Permutation_app; [|assumption]. rewrite E. now apply Permutation_map.
Qed.
Lemma said_app_empty cols c costs : (forall j v, In (j, v) costs -> (j < length cols)%nat) -> col_values c = [] -> said_by (cols ++ [c]) costs = said_by cols costs.
Proof.
  intros B E. unfold said_by. rewrite flat_map_app. cbn [flat_map]. rewrite E. cbn [map app]. rewrite app_nil_r. f_equal. apply map_ext_in. intros [j v] H. rewrite column_name_app by now apply (B j v). reflexivity.
Qed.
Lemma values_nodup c l : NoDup (map fst (map (fun '(i, v) => (c, row_at i, v)) l : list (string * string * Qc))) -> NoDup (map fst l).
Proof.
  intros N. apply (NoDup_map_inv (fun i => (c, row_at i))). rewrite map_map in N. rewrite map_map. erewrite map_ext; [exact N|]. intros [i v]. reflexivity.
Qed.
Lemma sorted_ok l : NoDup (map fst l) -> adjacent same_index (sort_by fst l : list (nat * Qc)) = false.
Proof.
  intros N. apply (adjacent_nodup fst); [intros x y E; now apply Nat.eqb_eq|]. apply NoDup_fst_perm with l; [apply Permutation_sym, sort_by_perm|assumption].
Qed.
Lemma save_ok s new : cols_inv s -> NoDup (map fst (said s)) ->
  exists s', save_to_column_collector new s = Got s' /\ cols_inv (mk_cols (cs_done s') (cs_values s') (cs_costs s') None (cs_integer s')) /\ cs_values s' = [] /\
    cs_costs s' = cs_costs s /\ cs_active s' = new /\ cs_integer s' = cs_integer s /\
    heads (cs_done s') = heads (cols_of s) /\ Permutation (said_by (cs_done s') (cs_costs s')) (said s).
Proof.
  intros I N. unfold save_to_column_collector. destruct (cs_active s) as [c|] eqn:A.
  - unfold said, said_by, cols_of in N. rewrite A, flat_map_app in N. cbn [flat_map col_values col_name] in N. rewrite app_nil_r, <- app_assoc in N.
    rewrite map_app in N. apply NoDup_app_r in N. rewrite map_app in N. apply NoDup_app_l in N. apply values_nodup in N.
    rewrite (sorted_ok _ N). eexists. split; [reflexivity|]. cbn [cs_done cs_values cs_costs cs_active cs_integer].
    split; [|split; [reflexivity|split; [reflexivity|split; [reflexivity|split; [reflexivity|split]]]]].
    + constructor; cbn [cs_done cs_values cs_costs cs_active cs_integer]; [reflexivity|intros i v []| |apply I|].
      * intros x X. apply in_app_or in X. destruct X as [X|[<-|[]]]; [now apply I|]. cbn [col_values]. split; [now apply sort_by_increasing|].
        intros i v H. apply sort_by_In in H. now apply (ci_values s I i v).
      * intros j v H. apply (ci_cost s I) in H. unfold cols_of in *. rewrite A in H. cbn [cs_done cs_active]. rewrite !app_length in *. cbn [length] in *. lia.
    + unfold heads, cols_of. rewrite A, !map_app. reflexivity.
    + apply said_perm. unfold cols_of. rewrite A. apply Forall2_app; [|constructor; [split; [reflexivity|apply sort_by_perm]|constructor]].
      clear. induction (cs_done s); constructor; [split; [reflexivity|apply Permutation_refl]|assumption].
  - eexists. split; [reflexivity|]. cbn [cs_done cs_values cs_costs cs_active cs_integer]. pose proof (ci_idle s I A) as V. rewrite V.
    split; [|split; [reflexivity|split; [reflexivity|split; [reflexivity|split; [reflexivity|split]]]]].
    + constructor; cbn [cs_done cs_values cs_costs cs_active cs_integer]; [reflexivity|intros i v []|apply I|apply I|].
      intros j v H. apply (ci_cost s I) in H. unfold cols_of in *. now rewrite A in H.
    + unfold heads, cols_of. rewrite A, app_nil_r. reflexivity.
    + unfold said, cols_of. rewrite A, app_nil_r. apply Permutation_refl.
Qed.
(** starting a column *)
Lemma start_ok s c : cs_values s = [] -> cols_inv (mk_cols (cs_done s) (cs_values s) (cs_costs s) None (cs_integer s)) -> cs_active s = Some c ->
  cols_inv s /\ heads (cols_of s) = heads (cs_done s) ++ [(c, cs_integer s)] /\ said s = said_by (cs_done s) (cs_costs s).
Proof.
  intros V I A. assert (B : forall j v, In (j, v) (cs_costs s) -> (j < length (cs_done s))%nat).
  { intros j v H. pose proof (ci_cost _ I j v H) as L. unfold cols_of in L. cbn [cs_done cs_active] in L. now rewrite app_nil_r in L. }
  split; [|split].
  - constructor; [congruence|rewrite V; intros i v []|exact (ci_done _ I)|exact (ci_costs _ I)|]. intros j v H. apply B in H. unfold cols_of. rewrite app_length. lia.
  - unfold heads, cols_of. rewrite A, map_app. reflexivity.
  - unfold said, cols_of. rewrite A. apply said_app_empty; [assumption|]. exact V.
Qed.
Lemma pair_ok s c r text v : cols_inv s -> cs_active s = Some c -> parse_number b text = Got v -> known r -> NoDup (map fst (said s ++ [(c, r, v)])) ->
  exists s', save_column_pair b cost rows r text s = Got s' /\ cols_inv s' /\ cs_active s' = Some c /\ cs_integer s' = cs_integer s /\
    heads (cols_of s') = heads (cols_of s) /\ Permutation (said s') (said s ++ [(c, r, v)]).
Proof.
  intros I A P K N. unfold save_column_pair. rewrite P. cbn [obind]. pose proof (row_index_spec rows r) as RI. destruct (row_index rows r) as [i|].
  - destruct RI as [L E]. eexists. split; [reflexivity|]. split; [|split; [assumption|split; [reflexivity|split]]].
    + constructor; cbn [cs_done cs_values cs_costs cs_active cs_integer].
      * congruence.
      * intros i' v' H. apply in_app_or in H. destruct H as [H|[H|[]]]; [now apply (ci_values s I i' v')|]. injection H as <- <-. exact L.
      * apply I.
      * apply I.
      * intros j w H. apply (ci_cost s I) in H. unfold cols_of in *. cbn [cs_done cs_active]. rewrite A in *. rewrite app_length in *. exact H.
    + unfold heads, cols_of. cbn [cs_done cs_active]. rewrite A, !map_app. reflexivity.
    + unfold said, said_by, cols_of. cbn [cs_done cs_active cs_values cs_costs cs_integer]. rewrite A, !flat_map_app. cbn [flat_map col_values col_name]. rewrite !app_nil_r, map_app. cbn [map].
      rewrite E, <- !app_assoc. apply Permutation_app_head. apply Permutation_app_head.
      replace (map (fun '(j, w) => (column_name (cs_done s ++ [mk_mcolumn c (cs_integer s) (cs_values s ++ [(i, v)])]) j, cost, w)) (cs_costs s))
        with (map (fun '(j, w) => (column_name (cs_done s ++ [mk_mcolumn c (cs_integer s) (cs_values s)]) j, cost, w)) (cs_costs s)).
      2:{ apply map_ext. intros [j w]. erewrite column_name_ext; [reflexivity|]. rewrite !map_app. reflexivity. }
      apply Permutation_app_comm.
  - destruct K as [->|K]; [|contradiction]. rewrite String.eqb_refl. eexists. split; [reflexivity|].
    assert (J : forall j w, In (j, w) (cs_costs s) -> (j < length (cs_done s))%nat).
    { intros j w H. pose proof (ci_cost s I j w H) as L. unfold cols_of in L. rewrite A, app_length in L. cbn [length] in L.
      destruct (Nat.eq_dec j (length (cs_done s))) as [Eq|]; [|lia]. exfalso. rewrite map_app in N. cbn [map fst] in N.
      eapply (NoDup_app_not _ _ _ N); [|now left]. unfold said, said_by. rewrite map_app. apply in_or_app. right. rewrite map_map. apply in_map_iff. exists (j, w). split; [|assumption].
      cbn [fst]. unfold column_name, cols_of. rewrite A, Eq, nth_middle. reflexivity. }
    split; [|split; [assumption|split; [reflexivity|split]]].
    + constructor; cbn [cs_done cs_values cs_costs cs_active cs_integer]; [congruence|apply I|apply I| |].
      * rewrite map_app. apply increasing_snoc; [apply I|lia|]. intros x X. apply in_map_iff in X. destruct X as ([j w] & <- & X). now apply (J j w).
      * intros j w H. apply in_app_or in H. unfold cols_of. cbn [cs_done cs_active]. rewrite A, app_length. cbn [length]. destruct H as [H|[H|[]]]; [apply J in H; lia|]. injection H as <- _. lia.
    + reflexivity.
    + unfold said, said_by, cols_of. cbn [cs_done cs_active cs_values cs_costs cs_integer]. rewrite A, map_app. cbn [map]. unfold column_name at 2. rewrite nth_middle. cbn [col_name]. rewrite app_assoc. apply Permutation_refl.
Qed.

Definition reads_column (item : column_item) (l : string) : Prop :=
  is_part_of_same_section l = true /\
  match item with
  | Entries c values => exists r text rest, is_column_marker_line R l = Got (Data c r text rest) /\ reads_pairs r text rest values
  | StartInteger => is_column_marker_line R l = Got (Marker "'INTORG'")
  | EndInteger => is_column_marker_line R l = Got (Marker "'INTEND'")
  end.
Definition item_entries (item : column_item) : list (string * string * Qc) :=
  match item with Entries c values => map (fun '(r, v) => (c, r, v)) values | _ => [] end.

Lemma column_line_ok s item l : cols_inv s -> reads_column item l -> NoDup (map fst (said s ++ item_entries item)) -> (forall c r v, In (c, r, v) (item_entries item) -> known r) ->
  exists s', column_section_line b R cost rows l s = Got s' /\ cols_inv s' /\ Permutation (said s') (said s ++ item_entries item) /\
    forall rem, heads (cols_of s') ++ columns_from (cs_integer s') (cs_active s') rem = heads (cols_of s) ++ columns_from (cs_integer s) (cs_active s) (item :: rem).
Proof.
  intros I (_ & RC) N K. unfold column_section_line. destruct item as [c values| |]; cbn [item_entries] in *.
  - destruct RC as (r & text & rest & E & v & P & V). rewrite E. cbn [obind].
    assert (Kr : known r) by (destruct V as [(-> & _)|(r' & t' & v' & _ & _ & ->)]; apply (K c r v); now left).
    assert (Nv : NoDup (map fst (said s ++ [(c, r, v)]))).
    { destruct V as [(-> & _)|(r' & t' & v' & _ & _ & ->)]; [exact N|]. cbn [map] in N. rewrite map_app in N. cbn [map fst] in N. change [(c, r); (c, r')] with ([(c, r)] ++ [(c, r')]) in N. rewrite app_assoc in N. apply NoDup_app_l in N. rewrite map_app. exact N. }
    assert (ST : exists s1, match cs_active s with
        | Some active => if String.eqb active c then Got s else save_to_column_collector (Some c) s
        | None => Got (mk_cols (cs_done s) (cs_values s) (cs_costs s) (Some c) (cs_integer s)) end = Got s1 /\
        cols_inv s1 /\ cs_active s1 = Some c /\ Permutation (said s1) (said s) /\ cs_integer s1 = cs_integer s /\
        forall rem, heads (cols_of s1) ++ columns_from (cs_integer s) (Some c) rem = heads (cols_of s) ++ columns_from (cs_integer s) (cs_active s) (Entries c values :: rem)).
    { destruct (cs_active s) as [a|] eqn:A.
      - destruct (String.eqb_spec a c) as [Eq|Ne].
        + subst a. exists s. split; [reflexivity|]. split; [assumption|]. split; [assumption|]. split; [apply Permutation_refl|]. split; [reflexivity|]. intros rem. cbn [columns_from]. now rewrite String.eqb_refl.
        + destruct (save_ok s (Some c) I) as (s1 & S1 & I1 & V1 & C1 & A1 & G1 & H1 & P1); [rewrite map_app in N; now apply NoDup_app_l in N|]. exists s1. split; [assumption|].
          destruct (start_ok s1 c V1 I1 A1) as (I1' & H1' & E1). split; [assumption|]. split; [assumption|]. split; [now rewrite E1|]. split; [assumption|]. intros rem.
          rewrite H1', H1, G1, <- app_assoc. cbn [columns_from]. destruct (String.eqb_spec a c); [congruence|reflexivity].
      - eexists. split; [reflexivity|]. pose proof (ci_idle s I A) as V0.
        destruct (start_ok (mk_cols (cs_done s) (cs_values s) (cs_costs s) (Some c) (cs_integer s)) c) as (I1 & H1 & E1); [exact V0| |reflexivity|].
        { cbn [cs_done cs_values cs_costs cs_integer]. rewrite <- A. destruct s. exact I. }
        cbn [cs_done cs_values cs_costs cs_integer cs_active] in *. split; [assumption|]. split; [reflexivity|]. split; [rewrite E1; unfold said, cols_of; rewrite A, app_nil_r; apply Permutation_refl|]. split; [reflexivity|].
        intros rem. rewrite H1. unfold cols_of. rewrite A, app_nil_r, <- app_assoc. reflexivity. }
    destruct ST as (s1 & -> & I1 & A1 & P1 & G1 & H1). cbn [obind].
    destruct (pair_ok s1 c r text v I1 A1 P Kr) as (s2 & -> & I2 & A2 & G2 & H2 & P2).
    { apply (NoDup_fst_perm (said s ++ [(c, r, v)])); [|assumption]. apply Permutation_app_tail. now apply Permutation_sym. }
    cbn [obind]. destruct V as [(-> & F)|(r' & t' & v' & F & P' & ->)]; rewrite F; cbn [obind].
    + exists s2. split; [reflexivity|]. split; [assumption|]. split; [rewrite P2; now apply Permutation_app_tail|]. intros rem. rewrite H2, A2, G2, G1. apply H1.
    + assert (P12 : Permutation (said s2) (said s ++ [(c, r, v)])) by (rewrite P2; now apply Permutation_app_tail).
      destruct (pair_ok s2 c r' t' v' I2 A2 P') as (s3 & -> & I3 & A3 & G3 & H3 & P3).
      { apply (K c r' v'). right. now left. }
      { apply (NoDup_fst_perm (said s ++ [(c, r, v); (c, r', v')])); [|assumption]. rewrite P12, <- app_assoc. apply Permutation_refl. }
      exists s3. split; [reflexivity|]. split; [assumption|]. split; [rewrite P3, P12, <- app_assoc; apply Permutation_refl|]. intros rem. rewrite H3, H2, A3, G3, G2, G1. apply H1.
  - rewrite RC. cbn [obind]. destruct (save_ok s None I) as (s1 & -> & I1 & V1 & C1 & A1 & G1 & H1 & P1); [rewrite map_app in N; now apply NoDup_app_l in N|]. cbn [obind]. eexists. split; [reflexivity|].
    split; [|split].
    + rewrite A1. constructor; [intros _; exact V1|apply I1|apply I1|apply I1|]. intros j v H. apply (ci_cost _ I1 j v H).
    + unfold said, cols_of. cbn [cs_active cs_done cs_costs]. rewrite A1, !app_nil_r. exact P1.
    + intros rem. unfold cols_of at 1. cbn [cs_active cs_done cs_integer columns_from]. now rewrite A1, app_nil_r, H1.
  - rewrite RC. cbn [obind]. destruct (save_ok s None I) as (s1 & -> & I1 & V1 & C1 & A1 & G1 & H1 & P1); [rewrite map_app in N; now apply NoDup_app_l in N|]. cbn [obind]. eexists. split; [reflexivity|].
    split; [|split].
    + rewrite A1. constructor; [intros _; exact V1|apply I1|apply I1|apply I1|]. intros j v H. apply (ci_cost _ I1 j v H).
    + unfold said, cols_of. cbn [cs_active cs_done cs_costs]. rewrite A1, !app_nil_r. exact P1.
    + intros rem. unfold cols_of at 1. cbn [cs_active cs_done cs_integer columns_from]. now rewrite A1, app_nil_r, H1.
Qed.
Theorem columns_read items ls : Forall2 reads_column items ls -> forall s header next rest,
  is_part_of_same_section header = false -> try_parse_next_section header [SRhs; SRanges; SBounds] = Got next ->
  cols_inv s -> NoDup (map fst (said s ++ flat_map item_entries items)) -> (forall c r v, In (c, r, v) (flat_map item_entries items) -> known r) ->
  exists cols costs, parse_column_section b R cost rows (ls ++ header :: rest) s = Got (cols, costs, next, rest) /\
    heads cols = heads (cols_of s) ++ columns_from (cs_integer s) (cs_active s) items /\
    Permutation (said_by cols costs) (said s ++ flat_map item_entries items) /\
    (forall c, In c cols -> increasing_from 0 (map fst (col_values c)) /\ entry_indices (col_values c)) /\
    increasing_from 0 (map fst costs) /\ (forall j v, In (j, v) costs -> (j < length cols)%nat).
Proof.
  induction 1 as [|item l items ls RC F IH]; intros s header next rest NP TP I N K; cbn [app parse_column_section flat_map].
  - rewrite NP, TP. cbn [obind]. cbn [flat_map] in N. rewrite app_nil_r in N. destruct (save_ok s None I N) as (s' & -> & I' & V & C & A & G & H & P). cbn [obind].
    exists (cs_done s'), (cs_costs s'). split; [reflexivity|]. cbn [columns_from]. rewrite !app_nil_r. split; [assumption|]. split; [assumption|]. split; [exact (ci_done _ I')|]. split; [exact (ci_costs _ I')|].
    intros j v X. pose proof (ci_cost _ I' j v X) as Y. unfold cols_of in Y. cbn [cs_done cs_active] in Y. now rewrite app_nil_r in Y.
  - destruct RC as [P RC]. rewrite P. cbn [flat_map] in N, K. destruct (column_line_ok s item l I (conj P RC)) as (s1 & -> & I1 & P1 & H1).
    { rewrite app_assoc, map_app in N. now apply NoDup_app_l in N. }
    { intros c r v H. apply (K c r v). apply in_or_app. now left. }
    cbn [obind]. destruct (IH s1 header next rest NP TP I1) as (cols & costs & E & H & PM & D).
    { apply (NoDup_fst_perm (said s ++ item_entries item ++ flat_map item_entries items)); [|assumption]. rewrite P1, <- app_assoc. apply Permutation_refl. }
    { intros c r v X. apply (K c r v). apply in_or_app. now right. }
    exists cols, costs. split; [assumption|]. split; [now rewrite H, H1|]. split; [|assumption]. rewrite PM, P1, <- app_assoc. apply Permutation_refl.
Qed.
End Reader.
