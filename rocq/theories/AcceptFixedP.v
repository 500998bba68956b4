(** * Accepted MPS files in fixed format *)
From Verif Require Import SpecFixed MpsParse NumberP TextP PermP RangesP ParseP GroupP FileP AcceptP AcceptFileP AcceptFreeP.
Local Open Scope string_scope.
Local Open Scope list_scope.

Lemma slice_got l i j s : slice l i j = Got s -> s = substring i (j - i) l /\ (i <= j)%nat /\ (j <= String.length l)%nat.
Proof.
  unfold slice. destruct (i <=? j)%nat eqn:L; [|discriminate]. apply Nat.leb_le in L. destruct (boundary l i); [|discriminate]. destruct (boundary l j) eqn:B; [|discriminate]. cbn [andb]. intros H. injection H as <-. split; [reflexivity|]. split; [assumption|].
  unfold boundary in B. destruct (String.get j l) as [c|] eqn:G; [|apply Nat.eqb_eq in B; lia]. clear - G. revert j G. induction l as [|d l IH]; intros j G; [destruct j; discriminate|]. destruct j as [|j]; [lia|]. cbn in *. apply IH in G. lia.
Qed.
Lemma substring_long : forall l k n, (String.length l <= k + n)%nat -> substring k n l = substring k (String.length l - k) l.
Proof.
  induction l as [|c l IH]; intros k n H; [destruct k, n; reflexivity|]. destruct k as [|k].
  - cbn [String.length Nat.sub] in *. destruct n as [|n]; [lia|]. cbn [substring]. f_equal. rewrite (IH 0%nat n) by lia. now rewrite Nat.sub_0_r.
  - cbn [String.length Nat.sub substring] in *. apply IH. lia.
Qed.
Lemma substring_none : forall l n, substring (String.length l) n l = "".
Proof. induction l as [|c l IH]; intros n; [destruct n; reflexivity|]. cbn. apply IH. Qed.
Lemma substring_tail : forall l k i n, substring i n (substring k (String.length l - k) l) = substring (k + i) n l.
Proof.
  induction l as [|c l IH]; intros k i n; [destruct k, i, n; reflexivity|]. destruct k as [|k].
  - rewrite Nat.sub_0_r, substring_all. reflexivity.
  - cbn [String.length Nat.sub substring Nat.add]. apply IH.
Qed.
Lemma substring_head_head : forall l n, substring 0 1 (substring n 2 l) = substring n 1 l.
Proof.
  induction l as [|c l IH]; intros n; [destruct n; reflexivity|]. destruct n as [|n]; [|apply IH]. cbn. destruct l; reflexivity.
Qed.
Lemma substring_length : forall l k n, (k + n <= String.length l)%nat -> String.length (substring k n l) = n.
Proof.
  induction l as [|c l IH]; intros k n H; [cbn in H; replace k with 0%nat by lia; replace n with 0%nat by lia; reflexivity|]. destruct k as [|k].
  - destruct n as [|n]; [reflexivity|]. cbn in *. f_equal. apply (IH 0%nat). lia.
  - cbn in *. apply IH. lia.
Qed.
Lemma trim_end_last : forall s c, String.get (String.length (trim_end s) - 1) (trim_end s) = Some c -> ~ white c.
Proof.
  induction s as [|d s IH]; intros c G; [discriminate|]. cbn [trim_end] in G. destruct (trim_end s) as [|e t] eqn:E.
  - destruct (is_blank d) eqn:B; [discriminate|]. cbn in G. injection G as <-. now apply is_blank_not.
  - apply IH. cbn [String.length Nat.sub String.get] in *. rewrite Nat.sub_0_r. exact G.
Qed.
Lemma trim_name_in s : name_in s (trim_end s).
Proof. destruct (trim_end_white s) as (w & E & W). exists w. split; [assumption|]. split; [assumption|]. apply trim_end_last. Qed.
Lemma trim_number_in s v : parse_number Checked (trim_start s) = Got v -> number_in s v.
Proof. intros H. apply number_accepted in H. destruct (trim_start_white s) as (w & E & W). exists w, (trim_start s). split; [assumption|]. split; [assumption|exact H]. Qed.
Lemma trim_end_empty s : trim_end s = "" -> whites s.
Proof. intros E. destruct (trim_end_white s) as (w & H & W). rewrite E in H. cbn in H. now subst w. Qed.
Lemma trim_start_empty s : trim_start s = "" -> whites s.
Proof. intros E. destruct (trim_start_white s) as (w & H & W). rewrite E, append_nil in H. now subst w. Qed.
Lemma indented_line l : is_part_of_same_section l = true -> indented l.
Proof. intros P. apply prefix_split in P. destruct P as (t & ->). reflexivity. Qed.

Lemma fixed_row_accepted row l : reads_row fixed row l -> loose_fixed_row row l.
Proof.
  destruct row as [k r]. intros (P & t & E & T). cbn [one_and_two fixed fst snd] in *. unfold fixed_one_and_two in E. destruct (4 <? String.length l)%nat eqn:L; [|discriminate]. apply Nat.ltb_lt in L. got E as ty S1. got E as name S2.
  apply slice_got in S1. apply slice_got in S2. destruct S1 as (-> & _). destruct S2 as (-> & _).
  assert (N : substring 4 (Nat.min 12 (String.length l) - 4) l = field_2 l).
  { unfold field_2. destruct (Nat.le_gt_cases 12 (String.length l)) as [X|X]; [now rewrite Nat.min_l|]. rewrite Nat.min_r by lia. symmetry. apply substring_long. lia. }
  rewrite N in E. assert (E' : t = field_1 l /\ r = trim_end (field_2 l) /\ r <> "").
  { destruct (trim_end (field_2 l)) eqn:Q; [discriminate|]. injection E as <- <-. repeat split; discriminate. }
  destruct E' as (-> & -> & NE). split; [now apply indented_line|]. split; [|split; [apply trim_name_in|assumption]].
  unfold row_type_of in T. got T as first S. apply slice_got in S. destruct S as (-> & _). cbn [Nat.sub] in T. cbn [fst].
  revert T. generalize (substring 0 1 (field_1 l)). intros first' T.
  destruct (first' =? "N")%string eqn:QN; [apply String.eqb_eq in QN; injection T as <-; exact QN|]. destruct (first' =? "L")%string eqn:QL; [apply String.eqb_eq in QL; injection T as <-; exact QL|].
  destruct (first' =? "E")%string eqn:QE; [apply String.eqb_eq in QE; injection T as <-; exact QE|]. destruct (first' =? "G")%string eqn:QG; [apply String.eqb_eq in QG; injection T as <-; exact QG|]. discriminate.
Qed.
Lemma fixed_pairs_accepted l name r text rest values : is_part_of_same_section l = true -> (36 <= String.length l)%nat -> name = trim_end (field_2 l) -> r = trim_end (field_3 l) -> text = trim_start (field_4 l) -> rest = substring 36 (String.length l - 36) l ->
  reads_pairs fixed Checked r text rest values -> loose_fixed_pairs name values l.
Proof.
  intros P L -> -> -> -> (v & V & H). split; [now apply indented_line|]. split; [assumption|]. split; [apply trim_name_in|]. cbn [five_and_six fixed] in H. unfold fixed_five_and_six in H.
  set (rest := substring 36 (String.length l - 36) l) in *. assert (LR : String.length rest = (String.length l - 36)%nat) by (apply substring_length; lia). rewrite LR in H.
  assert (F5 : substring 3 8 rest = field_5 l) by (unfold rest; rewrite substring_tail; reflexivity). assert (F6 : substring 13 12 rest = field_6 l) by (unfold rest; rewrite substring_tail; reflexivity).
  destruct (25 <=? String.length l - 36)%nat eqn:C.
  - apply Nat.leb_le in C. destruct H as [[-> H]|(r' & text' & v' & H & V' & ->)].
    + split; [apply trim_name_in|]. split; [now apply trim_number_in|]. right. got H as five S1. got H as six S2. apply slice_got in S1. apply slice_got in S2. destruct S1 as (-> & _). destruct S2 as (-> & _). cbn [Nat.sub] in H. rewrite F5, F6 in H.
      destruct (trim_end (field_5 l)) eqn:E5; [left; now apply trim_end_empty|]. destruct (trim_start (field_6 l)) eqn:E6; [right; now apply trim_start_empty|]. discriminate.
    + got H as five S1. got H as six S2. apply slice_got in S1. apply slice_got in S2. destruct S1 as (-> & _). destruct S2 as (-> & _). cbn [Nat.sub] in H. rewrite F5, F6 in H.
      assert (Q : r' = trim_end (field_5 l) /\ text' = trim_start (field_6 l) /\ r' <> "").
      { destruct (trim_end (field_5 l)); [discriminate|]. destruct (trim_start (field_6 l)); [discriminate|]. injection H as <- <-. repeat split; discriminate. }
      destruct Q as (-> & -> & NE). split; [apply trim_name_in|]. split; [now apply trim_number_in|]. split; [lia|]. split; [apply trim_name_in|]. split; [assumption|now apply trim_number_in].
  - apply Nat.leb_gt in C. destruct H as [[-> H]|(r' & text' & v' & H & _)]; [|discriminate]. split; [apply trim_name_in|]. split; [now apply trim_number_in|]. left. lia.
Qed.
Lemma fixed_column_accepted item l : reads_column fixed Checked item l -> loose_fixed_column item l.
Proof.
  intros (P & H). unfold loose_fixed_column. cbn [is_column_marker_line fixed] in H. unfold fixed_is_column_marker_line in H.
  destruct (36 <=? String.length l)%nat eqn:L; [|destruct item; [destruct H as (? & ? & ? & H & _)| |]; discriminate]. apply Nat.leb_le in L.
  destruct (slice l 14 22) as [three| |] eqn:S3; cbn [obind] in H; try (destruct item; [destruct H as (? & ? & ? & H & _)| |]; discriminate). apply slice_got in S3. destruct S3 as (-> & _). cbn [Nat.sub] in H. change (substring 14 8 l) with (field_3 l) in H.
  destruct (String.eqb_spec (field_3 l) column_marker) as [M|M].
  - assert (K : forall k : string, (if (47 <=? String.length l)%nat then let~ five := slice l 39 47 in Got (Marker five) else Rejected Syntax) = Got (@Marker string k) -> field_5 l = k).
    { intros k E. destruct (47 <=? String.length l)%nat; [|discriminate]. got E as five S. apply slice_got in S. destruct S as (-> & _). injection E as <-. reflexivity. }
    destruct item as [c values| |]; [| |].
    + destruct H as (r & text & rest & H & _). destruct (47 <=? String.length l)%nat; [|discriminate]. got H as five S. discriminate.
    + split; [now apply indented_line|]. split; [assumption|now apply K].
    + split; [now apply indented_line|]. split; [assumption|now apply K].
  - assert (Z : (exists k : string, (let~ two := slice l 4 12 in let~ four := slice l 24 36 in let~ rest := slice_from l 36 in Got (Data (trim_end two) (trim_end (field_3 l)) (trim_start four) rest)) = Got (Marker k)) -> False).
    { intros (k & E). got E as two S2. got E as four S4. got E as rest S5. discriminate. }
    destruct item as [c values| |]; [|elim Z; eexists; exact H|elim Z; eexists; exact H]. clear Z. destruct H as (r & text & rest & H & RP).
    got H as two S2. got H as four S4. got H as rest' S5. apply slice_got in S2. destruct S2 as (-> & _). apply slice_got in S4. destruct S4 as (-> & _). unfold slice_from in S5. apply slice_got in S5. destruct S5 as (-> & _).
    injection H as <- <- <- <-. split; [|exact M]. now apply fixed_pairs_accepted with (6 := eq_refl) (7 := RP).
Qed.
Lemma fixed_value_accepted item l : reads_values fixed Checked item l -> loose_fixed_value item l.
Proof.
  destruct item as [g values]. intros (P & r & text & rest & H & RP). cbn [two_through_four fixed fst snd] in *. unfold fixed_two_through_four in H. destruct (36 <=? String.length l)%nat eqn:L; [|discriminate]. apply Nat.leb_le in L.
  got H as two S2. got H as three S3. got H as four S4. got H as rest' S5. apply slice_got in S2. destruct S2 as (-> & _). apply slice_got in S3. destruct S3 as (-> & _). apply slice_got in S4. destruct S4 as (-> & _). unfold slice_from in S5. apply slice_got in S5. destruct S5 as (-> & _).
  injection H as <- <- <- <-. unfold loose_fixed_value. cbn [fst snd]. now apply fixed_pairs_accepted with (6 := eq_refl) (7 := RP).
Qed.
Lemma fixed_bound_accepted item l : reads_bound fixed Checked item l -> loose_fixed_bound item l.
Proof.
  destruct item as [[t g] c]. intros (P & key & rest & H & T). cbn [one_through_three fixed fst snd] in *. unfold fixed_one_through_three in H. destruct (14 <=? String.length l)%nat eqn:L; [|discriminate].
  got H as one S1. got H as two S2. got H as three S3. got H as rest' S5. apply slice_got in S1. destruct S1 as (-> & _). apply slice_got in S2. destruct S2 as (-> & _). apply slice_got in S3. destruct S3 as (-> & _ & L22). unfold slice_from in S5. apply slice_got in S5. destruct S5 as (-> & _).
  injection H as <- <- <- <-. unfold bound_type_of in T. cbn [four fixed] in T. set (rest := substring 22 (String.length l - 22) l) in *. cbn [Nat.sub] in T. change (substring 1 2 l) with (field_1 l) in T. cbn beta in T.
  split; [now apply indented_line|]. split; [apply trim_name_in|]. split; [apply trim_name_in|]. split; [assumption|]. cbv zeta.
  assert (V : forall f, (let~ value := fixed_four rest in let~ v := parse_number Checked value in Got (f v)) = Got t -> exists v, t = f v /\ (36 <= String.length l)%nat /\ number_in (field_4 l) v).
  { intros f H. got H as value E. got H as v E'. injection H as <-. unfold fixed_four in E. assert (LR : String.length rest = (String.length l - 22)%nat) by (apply substring_length; lia). rewrite LR in E.
    destruct (14 <=? String.length l - 22)%nat eqn:L14; [|discriminate]. apply Nat.leb_le in L14. got E as val S. apply slice_got in S. destruct S as (-> & _). injection E as <-. exists v. split; [reflexivity|]. split; [lia|].
    apply trim_number_in. replace (field_4 l) with (substring 2 (14 - 2) rest); [assumption|]. unfold rest. rewrite substring_tail. reflexivity. }
  repeat match type of T with context [String.eqb (field_1 l) ?k] => let Q := fresh "Q" in destruct (String.eqb (field_1 l) k) eqn:Q; [apply String.eqb_eq in Q|clear Q] end; try discriminate;
    first [injection T as <-; assumption|apply V in T; destruct T as (v & -> & LL & N); split; [assumption|split; assumption]].
Qed.
Theorem fixed_accepted text m : parse_fixed Checked text = Got m -> exists f, fixed_loosely_spells text f /\ file_consistent f /\ (NoDup (map fst (m_costs m)) -> describes m f).
Proof.
  intros H. destruct (file_accepted fixed Checked text m H) as (f & name_line & sense & rows & header & columns & rhs & ranges & bounds & d & IL & NM & SE & FS & FR & HC & FC & FH & FG & FB & CO & D).
  exists f. split; [|split; assumption]. exists (lines text), (into_lines text). split; [now apply (lines_laid_out (String.length text))|]. split; [apply filter_kept|].
  assert (NM' : exists t extra, name_line = "NAME" +++ t /\ worded t (f_name f :: extra)) by exact (free_name_line name_line (f_name f) NM). destruct NM' as (t & extra & -> & W). apply sense_accepted in SE. rewrite <- FS in SE.
  exists t, extra, rows, sense, header, columns, rhs, ranges, bounds. split; [assumption|]. split; [assumption|]. split; [apply (forall_loose _ _ _ _ fixed_row_accepted FR)|]. split; [assumption|].
  split; [apply (forall_loose _ _ _ _ fixed_column_accepted FC)|]. split; [apply (section_loose _ _ _ _ _ fixed_value_accepted FH)|]. split; [apply (section_loose _ _ _ _ _ fixed_value_accepted FG)|]. split; [apply (section_loose _ _ _ _ _ fixed_bound_accepted FB)|]. exact IL.
Qed.
