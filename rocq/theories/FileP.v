(** * Reading a whole MPS file *)
From Verif Require Import SpecParse MpsParse NumberP TextP PermP RangesP ParseP GroupP MpsP.
Local Open Scope string_scope.
Local Open Scope list_scope.

Section Reader.
Variable R : reader.
Variable b : build.

Definition reads_section {A} (header : string) (reads : A -> string -> Prop) (items : list A) (ls : list string) : Prop :=
  (items = [] /\ ls = []) \/ exists body, ls = header :: body /\ Forall2 reads items body.
Definition is_header (h : string) (s : section) : Prop := is_part_of_same_section h = false /\ section_of h = Got s.
Lemma header_next h s valid : is_header h s -> s = SEndata \/ In s valid -> try_parse_next_section h valid = Got s.
Proof.
  intros [_ E] V. unfold try_parse_next_section. rewrite E. cbn [obind]. destruct V as [->|V]; [reflexivity|]. replace (existsb (section_eqb s) valid) with true; [now rewrite orb_true_r|].
  symmetry. apply existsb_exists. exists s. split; [assumption|]. destruct s; reflexivity.
Qed.

Lemma bounds_stage columns items ls : reads_section "BOUNDS" (reads_bound R b) items ls -> (forall t g c, In (t, g, c) items -> In c (map col_name columns)) ->
  exists h next rest groups, ls ++ ["ENDATA"] = h :: rest /\ is_header h next /\ (next = SBounds \/ next = SEndata) /\
    (if section_eqb next SBounds then parse_bounds_section b R columns rest no_groups else Got ([], rest)) = Got (groups, []) /\
    Permutation (group_values (column_name columns) groups) (map bound_value items) /\ (forall j t, In (j, t) (ungroup groups) -> (j < length columns)%nat).
Proof.
  intros [(-> & ->)|(body & -> & F)] K.
  - exists "ENDATA", SEndata, [], []. split; [reflexivity|]. split; [split; reflexivity|]. split; [now right|]. split; [reflexivity|]. split; [constructor|intros j t []].
  - destruct (bounds_read R b columns items body F no_groups [] ) as (groups & E & P & D); [constructor; [reflexivity|intros i v []]|assumption|].
    exists "BOUNDS", SBounds, (body ++ ["ENDATA"]), groups. split; [reflexivity|]. split; [split; reflexivity|]. split; [now left|]. split; [exact E|]. split; [exact P|exact D].
Qed.
Lemma values_stage name sec valid rows items ls h next rest : reads_section name (reads_values R b) items ls -> is_header name sec -> sec <> next -> is_header h next -> next = SEndata \/ In next valid ->
  NoDup (map fst (flat_map item_values items)) -> (forall g r v, In (g, r, v) (flat_map item_values items) -> In r (map row_name rows)) ->
  exists h' next' rest' groups, ls ++ h :: rest = h' :: rest' /\ is_header h' next' /\ (next' = sec \/ next' = next) /\
    (if section_eqb next' sec then parse_optional_section b R valid rows rest' no_groups else Got ([], next', rest')) = Got (groups, next, rest) /\
    Permutation (group_values (fun i => row_name (nth i rows (mk_mrow "" KEqual))) groups) (flat_map item_values items) /\ (forall i v, In (i, v) (ungroup groups) -> (i < length rows)%nat).
Proof.
  intros [(-> & ->)|(body & -> & F)] H1 NE H2 V N K.
  - exists h, next, rest, []. split; [reflexivity|]. split; [assumption|]. split; [now right|]. split; [|split; [constructor|intros i v []]]. destruct (section_eqb next sec) eqn:E; [|reflexivity]. destruct next, sec; try discriminate E; congruence.
  - destruct (values_read R b rows valid items body F no_groups h next rest) as (groups & E & P & D); [apply H2|now apply header_next|constructor; [reflexivity|intros i v []]|exact N|exact K|].
    exists name, sec, (body ++ h :: rest), groups. split; [reflexivity|]. split; [assumption|]. split; [now left|]. split; [|split; [exact P|exact D]]. replace (section_eqb sec sec) with true by now destruct sec. exact E.
Qed.

Lemma vector_items l : vector_values l = flat_map item_values l.
Proof. reflexivity. Qed.
Lemma coefficient_items f : coefficients f = flat_map item_entries (f_columns f).
Proof. reflexivity. Qed.
Lemma costs_one l cost : NoDup (map snd l) -> In (None, cost) l -> (forall cost', In (None, cost') l -> cost' = cost) -> costs_of l = [cost].
Proof.
  induction l as [|[[k|] r] l IH]; intros N I U; [destruct I| |].
  - cbn [costs_of flat_map app]. apply IH; [now inversion N| |intros c C; apply U; now right]. destruct I as [I|I]; [discriminate|assumption].
  - assert (r = cost) by (apply U; now left). subst r. cbn [costs_of flat_map]. fold (costs_of l). replace (costs_of l) with (@nil string); [reflexivity|]. symmetry.
    assert (X : forall c, ~ In (None, c) l).
    { intros c C. assert (c = cost) by (apply U; now right). subst c. inversion N as [|x y NI ND]; subst. apply NI. apply in_map_iff. exists (None, cost). split; [reflexivity|assumption]. }
    clear -X. induction l as [|[[k|] r] l IH]; [reflexivity| |].
    + cbn. apply IH. intros c C. apply (X c). now right.
    + elim (X r). now left.
Qed.
Lemma rows_names l : forall r, In r (map row_name (rows_of l)) -> In r (map snd l).
Proof.
  induction l as [|[[k|] n'] l IH]; intros r H; cbn in *; [assumption| |right; now apply IH]. destruct H as [<-|H]; [now left|right; now apply IH].
Qed.
Lemma rows_nodup l cost : NoDup (map snd l) -> In (None, cost) l -> NoDup (cost :: map row_name (rows_of l)).
Proof.
  induction l as [|[[k|] r] l IH]; intros N I; [destruct I| |]; inversion N as [|x y NI ND]; subst.
  - destruct I as [I|I]; [discriminate|]. specialize (IH ND I). inversion IH as [|x y X Y]; subst. cbn. constructor.
    + intros [E|H]; [|contradiction]. subst r. apply NI. apply in_map_iff. exists (None, cost). split; [reflexivity|assumption].
    + constructor; [|assumption]. intros H. apply NI. cbn [snd]. now apply rows_names.
  - destruct I as [I|I].
    + injection I as <-. cbn. constructor; [intros H; apply NI; cbn [snd]; now apply rows_names|]. clear -ND. induction l as [|[[k|] r'] l IH]; cbn; [constructor| |inversion ND; now apply IH].
      inversion ND as [|x y X Y]; subst. constructor; [intros H; apply X; cbn [snd]; now apply rows_names|now apply IH].
    + cbn. now apply IH.
Qed.
Lemma known_rows l cost r : In (None, cost) l -> (forall cost', In (None, cost') l -> cost' = cost) -> In r (map snd l) -> r = cost \/ In r (map row_name (rows_of l)).
Proof.
  intros I U H. apply in_map_iff in H. destruct H as ([[k|] r'] & <- & H); [|left; now apply U]. right. cbn [snd]. clear -H.
  induction l as [|[[k'|] x] l IH]; cbn; [destruct H| |]; (destruct H as [H|H]; [|try right; now apply IH]); [injection H as -> ->; now left|discriminate].
Qed.
Lemma has_duplicate_false l : NoDup l -> has_duplicate l = false.
Proof.
  induction l as [|a l IH]; intros N; [reflexivity|]. inversion N as [|x y X Y]; subst. cbn [has_duplicate]. rewrite (IH Y), orb_false_r. destruct (memb a l) eqn:E; [|reflexivity].
  elim X. unfold memb in E. apply existsb_exists in E. destruct E as (z & I & Z). apply Nat.eqb_eq in Z. now subst z.
Qed.

Theorem file_read f text name_line sense rows columns rhs ranges bounds :
  file_rules f ->
  into_lines text = [name_line] ++ sense ++ rows ++ ["COLUMNS"] ++ columns ++ rhs ++ ranges ++ bounds ++ ["ENDATA"] ->
  (forall rest, parse_program_name R (name_line :: rest) = Got (f_name f, rest)) ->
  (forall rest, parse_objsense_section (sense ++ rest) = Got (match f_sense f with Some d => d | None => Minimize end, rest)) ->
  Forall2 (reads_row R) (f_rows f) rows ->
  Forall2 (reads_column R b) (f_columns f) columns ->
  reads_section "RHS" (reads_values R b) (f_rhs f) rhs ->
  reads_section "RANGES" (reads_values R b) (f_ranges f) ranges ->
  reads_section "BOUNDS" (reads_bound R b) (f_bounds f) bounds ->
  exists m, parse_with R b text = Got m /\ describes m f.
Proof.
  intros OK IL NM SE FR FC FH FG FB. destruct (fr_cost f OK) as (cost & CI & CU). unfold parse_with. rewrite IL. cbn [app]. rewrite NM. cbn [obind]. rewrite SE. cbn [obind].
  pose proof (costs_one _ _ (fr_rows f OK) CI CU) as C1.
  rewrite (rows_read R _ _ FR) by (rewrite C1; cbn; lia). rewrite C1. cbn [hd_error obind app].
  pose proof (rows_nodup _ _ (fr_rows f OK) CI) as RN. rewrite (rows_checked cost (rows_of (f_rows f)) RN). cbn [obind].
  set (srows := sort_rows (rows_of (f_rows f))). assert (PR : Permutation srows (rows_of (f_rows f))) by apply sort_rows_perm.
  assert (CN : ~ In cost (map row_name srows)).
  { intros H. inversion RN as [|x y X Y]; subst. apply X. apply (Permutation_in _ (Permutation_map row_name PR) H). }
  assert (RK : forall r, In r (map row_name (constraint_rows f)) -> In r (map row_name srows)) by (intros r H; apply (Permutation_in _ (Permutation_map row_name (Permutation_sym PR)) H)).
  (* the shape of the tail *)
  assert (NB : exists hb nb rb, bounds ++ ["ENDATA"] = hb :: rb /\ is_header hb nb /\ (nb = SBounds \/ nb = SEndata)).
  { destruct FB as [(_ & ->)|(body & -> & _)]; [exists "ENDATA", SEndata, []|exists "BOUNDS", SBounds, (body ++ ["ENDATA"])]; (split; [reflexivity|split; [split; reflexivity|tauto]]). }
  destruct NB as (hb & nb & rb & EB & HB & VB). rewrite EB.
  destruct (values_stage "RANGES" SRanges [SBounds] srows (f_ranges f) ranges hb nb rb) as (hg & ng & rg & groups_g & EG & HG & VG & PG & SG & DG);
    [assumption|split; reflexivity|destruct VB as [-> | ->]; discriminate|assumption|destruct VB as [->| ->]; [right; now left|now left]| | |].
  { rewrite <- vector_items. apply (NoDup_map_inv snd). pose proof (fr_ranges f OK) as N. rewrite map_map. erewrite map_ext; [exact N|]. intros [[g r] v]. reflexivity. }
  { intros g r v H. apply RK. rewrite <- vector_items in H. now apply (fr_range_rows f OK g r v). }
  destruct (values_stage "RHS" SRhs [SRanges; SBounds] srows (f_rhs f) rhs hg ng rg) as (hh & nh & rh & groups_h & EH & HH & VH & PH & SH & DH);
    [assumption|split; reflexivity|destruct VG as [->|E]; [discriminate|subst ng; destruct VB as [->| ->]; discriminate]|assumption| |rewrite <- vector_items; apply (fr_rhs f OK)| |].
  { destruct VG as [->|E]; [right; now left|]. subst ng. destruct VB as [->| ->]; [right; right; now left|now left]. }
  { intros g r v H. apply RK. rewrite <- vector_items in H. now apply (fr_rhs_rows f OK g r v). }
  rewrite EG, EH.
  assert (SV : nh = SEndata \/ In nh [SRhs; SRanges; SBounds]) by (destruct VH as [->|E]; [right; now left|subst nh]; destruct VG as [->|E]; [cbn; tauto|subst ng]; destruct VB as [->| ->]; cbn; tauto).
  destruct (columns_read R b cost srows (f_columns f) columns FC (mk_cols [] [] [] None false) hh nh rh) as (cols & costs & EC & HC & PC & DC & IC & BC).
  { apply HH. } { now apply header_next. }
  { constructor; cbn; [reflexivity|intros i v []|intros c []|exact Logic.I|intros j v []]. }
  { exact (fr_coefficients f OK). }
  { intros c r v H. rewrite <- coefficient_items in H. pose proof (fr_coefficient_rows f OK c r v H) as K. apply (known_rows _ cost r CI CU) in K. destruct K as [->|K]; [now left|right; now apply RK]. }
  rewrite EC. cbn [obind]. rewrite PH. cbn [obind]. rewrite PG. cbn [obind].
  assert (RU : NoDup (map fst (ungroup groups_g))).
  { pose proof (fr_ranges f OK) as N. apply (NoDup_map_inv (fun i => row_name (nth i srows (mk_mrow "" KEqual)))).
    apply (Permutation_NoDup (l := map (fun '(_, r, _) => r) (vector_values (f_ranges f)))); [|assumption]. rewrite vector_items.
    eapply Permutation_trans; [apply Permutation_map, Permutation_sym, SG|]. unfold group_values, ungroup. clear. induction groups_g as [|g l IH]; [constructor|]. cbn [flat_map]. rewrite !map_app. apply Permutation_app; [|assumption].
    rewrite !map_map. erewrite map_ext; [apply Permutation_refl|]. intros [i v]. reflexivity. }
  unfold check_ranges_consistency. rewrite (has_duplicate_false _ RU). cbn [obind].
  assert (HCC : map (fun c => (col_name c, col_integer c)) cols = columns_of f) by exact HC.
  assert (BK : forall t g c, In (t, g, c) (f_bounds f) -> In c (map col_name cols)).
  { intros t g c H. apply (fr_bound_columns f OK) in H. rewrite <- HCC, map_map in H. exact H. }
  destruct (bounds_stage cols (f_bounds f) bounds FB BK) as (hb' & nb' & rb' & groups_b & EB' & HB' & _ & PB & SB & DB).
  rewrite EB in EB'. injection EB' as <- <-. assert (nb' = nb) by (destruct HB as [_ HB]; destruct HB' as [_ HB']; congruence). subst nb'. rewrite PB. cbn [obind].
  eexists. split; [reflexivity|].
  assert (BS : forall t g c, In (t, g, c) (f_bounds f) -> ~ is_semi t) by (intros t g c H; now apply (fr_bound_types f OK) in H).
  constructor; cbn [m_name m_objective m_cost_name m_costs m_rows m_columns m_rhss m_ranges m_bounds].
  - reflexivity.
  - reflexivity.
  - exact CI.
  - exact PR.
  - exact HCC.
  - exact PC.
  - exact SH.
  - exact SG.
  - apply (Permutation_map (fun '(g, c, t) => (t, g, c))) in SB. rewrite map_map in SB.
    replace (map (fun x => let '(g, c, t) := bound_value x in (t, g, c)) (f_bounds f)) with (f_bounds f) in SB by (rewrite <- (map_id (f_bounds f)) at 1; apply map_ext; intros [[t g] c]; reflexivity).
    replace (said_bounds _) with (map (fun '(g, c, t) => (t, g, c)) (group_values (column_name cols) groups_b)); [exact SB|].
    change (said_bounds _) with (flat_map (fun g => map (fun '(j, t) => (t, grp_name g, column_name cols j)) (grp_values g)) groups_b). unfold group_values. clear. induction groups_b as [|g l IH]; [reflexivity|]. cbn [flat_map]. rewrite map_app, IH. f_equal. rewrite map_map. apply map_ext. intros [j t]. reflexivity.
  - constructor; cbn [m_costs m_columns m_rows]; [assumption|assumption| | |].
    + intros i v H. now apply (DH i v).
    + intros i v H. now apply (DG i v).
    + intros j t H. cbn [m_columns]. unfold stated in H. cbn [m_bounds] in H. split; [now apply (DB j t)|].
      apply in_flat_map in H. destruct H as (g & G1 & G2). assert (X : In (grp_name g, column_name cols j, t) (group_values (column_name cols) groups_b)).
      { apply in_flat_map. exists g. split; [assumption|]. apply in_map_iff. exists (j, t). split; [reflexivity|assumption]. }
      apply (Permutation_in _ SB) in X. apply in_map_iff in X. destruct X as ([[t' g'] c'] & E & X). cbn in E. assert (t' = t) by congruence. subst t'. now apply (BS t g' c').
  - intros c H. destruct (DC c H) as [D1 D2]. split; [assumption|exact D2].
Qed.
(** the lines of a text are those of the content [f] *)
Definition layout (f : file) (text : string) : Prop := exists name_line sense rows columns rhs ranges bounds,
  into_lines text = [name_line] ++ sense ++ rows ++ ["COLUMNS"] ++ columns ++ rhs ++ ranges ++ bounds ++ ["ENDATA"] /\
  (forall rest, parse_program_name R (name_line :: rest) = Got (f_name f, rest)) /\
  (forall rest, parse_objsense_section (sense ++ rest) = Got (match f_sense f with Some d => d | None => Minimize end, rest)) /\
  Forall2 (reads_row R) (f_rows f) rows /\
  Forall2 (reads_column R b) (f_columns f) columns /\
  reads_section "RHS" (reads_values R b) (f_rhs f) rhs /\
  reads_section "RANGES" (reads_values R b) (f_ranges f) ranges /\
  reads_section "BOUNDS" (reads_bound R b) (f_bounds f) bounds.
Theorem layout_read f text : file_rules f -> layout f text -> exists m, parse_with R b text = Got m /\ describes m f.
Proof. intros OK (name_line & sense & rows & columns & rhs & ranges & bounds & H). destruct H as (A & B & C & D & E & F & G & H). now apply (file_read f text name_line sense rows columns rhs ranges bounds). Qed.
End Reader.

(** ** Free format *)
Lemma number_ok t v : number t v -> name_ok t.
Proof.
  intros (l & (A & B & N & _) & -> & _). unfold literal_text, fraction_of in *. assert (DV : forall ds c, all_digits ds -> In c (chars (digit_text ds)) -> visible c).
  { intros ds c D I. destruct (digit_text_chars c ds D I) as (d & L & ->). do 10 (destruct d as [|d]; [vm_compute; split; discriminate|]). lia. }
  split.
  - intros E. apply (f_equal String.length) in E. rewrite !append_length in E. destruct N as [N|N].
    + destruct (lit_whole l); [congruence|]. cbn in E. lia.
    + destruct (lit_fraction l) as [[|d fr]|]; [congruence| |congruence]. cbn in E. lia.
  - intros c H. rewrite !chars_append in H. apply in_app_or in H. destruct H as [H|H]; [destruct (lit_minus l); [destruct H as [<-|[]]; vm_compute; split; discriminate|destruct H]|].
    apply in_app_or in H. destruct H as [H|H]; [now apply (DV _ _ A)|]. destruct (lit_fraction l) as [fr|]; [|destruct H]. cbn [String.append list_ascii_of_string] in H. destruct H as [<-|H]; [vm_compute; split; discriminate|]. now apply (DV _ _ B).
Qed.
Lemma number_parse b t v : number t v -> parse_number b t = Got v.
Proof. intros (l & OK & -> & ->). now apply number_exact. Qed.

Section Free.
Variable b : build.
Lemma free_rows row l : row_line row l -> reads_row free row l /\ is_comment l = false.
Proof.
  intros D. destruct (data_words _ _ D) as [W P]. split; [split; [assumption|]; exists (row_letter (fst row)); split|].
  - cbn [one_and_two free]. unfold free_one_and_two. rewrite W. reflexivity.
  - destruct row as [[[]|] r]; reflexivity.
  - apply (data_not_comment _ _ _ D). destruct row as [[[]|] r]; discriminate.
Qed.
Lemma free_pairs values ws : one_or_two values -> pairs values ws -> exists r text rest, ws = r :: text :: rest /\ reads_pairs free b r text rest values.
Proof.
  intros O P. destruct P as [|r v text l ws N P]; [destruct O; discriminate|]. exists r, text, ws. split; [reflexivity|]. exists v. split; [now apply number_parse|].
  destruct P as [|r' v' text' l ws N' P]; [left; split; reflexivity|]. destruct P as [|r'' v'' text'' l ws N'' P]; [|destruct O as [O|O]; cbn in O; lia].
  right. exists r', text', v'. split; [reflexivity|]. split; [now apply number_parse|reflexivity].
Qed.
Lemma free_columns item l : column_line_of item l -> (match item with Entries c values => first_ok c /\ forall r v, In (r, v) values -> r <> "'MARKER'" | _ => True end) ->
  reads_column free b item l /\ is_comment l = false.
Proof.
  intros C K. destruct item as [c values| |].
  - destruct C as (O & ws & P & D). destruct (data_words _ _ D) as [W PT]. destruct (free_pairs values ws O P) as (r & text & rest & -> & RP). split; [|apply (data_not_comment _ _ _ D); apply K].
    split; [assumption|]. exists r, text, rest. split; [|assumption]. cbn [is_column_marker_line free]. unfold free_is_column_marker_line. rewrite W.
    replace (String.eqb r column_marker) with false; [reflexivity|]. symmetry. apply String.eqb_neq. destruct RP as (v & _ & V). destruct K as [_ K]. destruct V as [(-> & _)|(r' & t' & v' & _ & _ & ->)]; apply (K r v); now left.
  - destruct C as (label & L & D). destruct (data_words _ _ D) as [W PT]. split; [|apply (data_not_comment _ _ _ D); apply L]. split; [assumption|]. cbn [is_column_marker_line free]. unfold free_is_column_marker_line. now rewrite W.
  - destruct C as (label & L & D). destruct (data_words _ _ D) as [W PT]. split; [|apply (data_not_comment _ _ _ D); apply L]. split; [assumption|]. cbn [is_column_marker_line free]. unfold free_is_column_marker_line. now rewrite W.
Qed.
Lemma free_values item l : value_line item l -> first_ok (fst item) -> reads_values free b item l /\ is_comment l = false.
Proof.
  intros (O & ws & P & D) K. destruct (data_words _ _ D) as [W PT]. destruct (free_pairs _ ws O P) as (r & text & rest & -> & RP). split; [|apply (data_not_comment _ _ _ D); apply K].
  split; [assumption|]. exists r, text, rest. split; [|assumption]. cbn [two_through_four free]. unfold free_three. now rewrite W.
Qed.
Lemma free_bounds item l : bound_line item l -> reads_bound free b item l /\ is_comment l = false.
Proof.
  destruct item as [[t g] c]. intros (ws & BW & D). destruct (data_words _ _ D) as [W PT].
  assert (X : exists key rest, ws = key :: g :: c :: rest /\ bound_type_of b free key rest = Got t /\ String.get 0 key <> Some "*"%char).
  { unfold bound_words in BW. destruct t; try contradiction;
      first [destruct BW as (text & N & ->); apply (number_parse b) in N; eexists; exists [text]; split; [reflexivity|]; split; [|discriminate]; unfold bound_type_of; cbn [String.eqb Ascii.eqb Bool.eqb four free free_four obind]; rewrite N; reflexivity
            |subst ws; eexists; exists []; split; [reflexivity|]; split; [reflexivity|discriminate]]. }
  destruct X as (key & rest & -> & T & G). split; [|now apply (data_not_comment _ _ _ D)]. split; [assumption|]. exists key, rest. split; [|assumption]. cbn [one_through_three free fst snd]. unfold free_three. now rewrite W.
Qed.
Lemma free_name name w extra : spaced name (w :: extra) -> (forall rest, parse_program_name free (("NAME" +++ name) :: rest) = Got (w, rest)) /\ is_comment ("NAME" +++ name) = false.
Proof.
  intros S. split; [|reflexivity]. intros rest. unfold parse_program_name. rewrite append_length. cbn [String.length].
  replace (4 + String.length name <? 4)%nat with false by (symmetry; apply Nat.ltb_ge; lia).
  change (slice ("NAME" +++ name) 0 4) with (slice ("NAME" +++ name) 0 (String.length "NAME")). change (slice_from ("NAME" +++ name) 4) with (slice_from ("NAME" +++ name) (String.length "NAME")).
  rewrite (slice_head "NAME" name) by (try exact (spaced_head _ _ S); intros c G; injection G as <-; reflexivity). cbn [obind]. rewrite String.eqb_refl.
  rewrite (slice_tail "NAME" name) by exact (spaced_head _ _ S). cbn [obind two_or_three free]. unfold free_two_or_three. rewrite (spaced_words _ _ S). reflexivity.
Qed.
Lemma sense_read sense ls : sense_lines sense ls -> (forall rest, parse_objsense_section (ls ++ rest) = Got (match sense with Some d => d | None => Minimize end, rest)) /\ (forall l, In l ls -> is_comment l = false).
Proof.
  intros (s & B & H). destruct sense as [d|].
  - destruct H as (s1 & s2 & word & B1 & B2 & W & ->). split.
    + intros rest. cbn [app parse_objsense_section]. rewrite (trim_end_app "OBJSENSE" s1 B1). replace (trim_end "OBJSENSE") with "OBJSENSE" by reflexivity.
      replace (String.eqb "OBJSENSE" "ROWS") with false by reflexivity. rewrite String.eqb_refl. rewrite (prefix_app "ROWS" s).
      change ("  " +++ word +++ s2) with ("  " +++ (word +++ s2)). rewrite <- append_assoc. rewrite (trim_end_app ("  " +++ word) s2 B2).
      destruct d; cbn [In] in W; destruct W as [<-|[<-|[]]]; reflexivity.
    + assert (IC : is_comment ("  " +++ word +++ s2) = false).
      { unfold is_comment. replace (trim_start ("  " +++ word +++ s2)) with (word +++ s2); [destruct d; cbn [In] in W; destruct W as [<-|[<-|[]]]; reflexivity|].
        symmetry. transitivity (trim_start (word +++ s2)); [apply (trim_skip "  "); intros c [<-|[<-|[]]]; now left|]. destruct d; cbn [In] in W; destruct W as [<-|[<-|[]]]; reflexivity. }
      intros l [<-|[<-|[<-|[]]]]; [reflexivity|exact IC|reflexivity].
  - subst ls. split.
    + intros rest. cbn [app parse_objsense_section]. rewrite (trim_end_app "ROWS" s B). reflexivity.
    + intros l [<-|[]]. reflexivity.
Qed.
Lemma section_reads {A} header (line : A -> string -> Prop) (reads : A -> string -> Prop) items ls : is_comment header = false ->
  (forall x l, In x items -> line x l -> reads x l /\ is_comment l = false) -> section_lines header line items ls -> reads_section header reads items ls /\ forall l, In l ls -> is_comment l = false.
Proof.
  intros HC K [(-> & ->)|(body & -> & F)]; [split; [left; split; reflexivity|intros l []]|].
  assert (G : Forall2 reads items body /\ forall l, In l body -> is_comment l = false).
  { clear HC. induction F as [|x l items body X F IH]; [split; [constructor|intros l []]|]. destruct IH as [IH1 IH2]; [intros y k Y; apply K; now right|]. destruct (K x l (or_introl eq_refl) X) as [K1 K2].
    split; [now constructor|]. intros y [<-|Y]; [assumption|now apply IH2]. }
  split; [right; exists body; split; [reflexivity|apply G]|]. intros l [<-|L]; [assumption|now apply G].
Qed.
Lemma forall_reads {A} (line : A -> string -> Prop) (reads : A -> string -> Prop) items ls :
  (forall x l, In x items -> line x l -> reads x l /\ is_comment l = false) -> Forall2 line items ls -> Forall2 reads items ls /\ forall l, In l ls -> is_comment l = false.
Proof.
  intros K F. induction F as [|x l items body X F IH]; [split; [constructor|intros l []]|]. destruct IH as [IH1 IH2]; [intros y k Y; apply K; now right|]. destruct (K x l (or_introl eq_refl) X) as [K1 K2].
  split; [now constructor|]. intros y [<-|Y]; [assumption|now apply IH2].
Qed.
Lemma file_ok_rules f : file_ok f -> file_rules f.
Proof.
  intros [A1 A2 A3 A4 A5 A6 A7 A8 A9 A10 A11 A12 A13 A14 A15 A16]. constructor; try assumption. intros t g c H. now apply A11 in H.
Qed.
Theorem free_layout f text : file_ok f -> spells text f -> layout free b f text.
Proof.
  intros OK (ls & (name & extra & rows & sense & columns & rhs & ranges & bounds & NM & SE & FR & FC & FH & FG & FB & ->) & T).
  destruct (free_name name (f_name f) extra NM) as [N1 N2]. destruct (sense_read _ _ SE) as [S1 S2].
  destruct (forall_reads row_line (reads_row free) _ _ (fun x l _ => free_rows x l) FR) as [R1 R2].
  destruct (forall_reads column_line_of (reads_column free b) (f_columns f) columns) as [C1 C2]; [|assumption|].
  { intros item l H C. apply free_columns; [assumption|]. destruct item as [c values| |]; [|exact Logic.I|exact Logic.I]. split; [now apply (fo_column_names f OK c values)|]. intros r v V.
    assert (X : In r (map snd (f_rows f))) by (apply (fo_coefficient_rows f OK c r v); apply in_flat_map; exists (Entries c values); split; [assumption|]; apply in_map_iff; exists (r, v); split; [reflexivity|assumption]).
    apply in_map_iff in X. destruct X as ([k r'] & <- & X). cbn [snd]. now apply (fo_row_names f OK) in X. }
  destruct (section_reads "RHS" value_line (reads_values free b) (f_rhs f) rhs) as [H1 H2]; [reflexivity| |assumption|].
  { intros [g values] l H V. apply free_values; [assumption|]. now apply (fo_rhs_names f OK g values). }
  destruct (section_reads "RANGES" value_line (reads_values free b) (f_ranges f) ranges) as [G1 G2]; [reflexivity| |assumption|].
  { intros [g values] l H V. apply free_values; [assumption|]. now apply (fo_range_names f OK g values). }
  destruct (section_reads "BOUNDS" bound_line (reads_bound free b) (f_bounds f) bounds) as [B1 B2]; [reflexivity| |assumption|].
  { intros item l H V. now apply free_bounds. }
  exists ("NAME" +++ name), sense, rows, columns, rhs, ranges, bounds. split; [|exact (conj N1 (conj S1 (conj R1 (conj C1 (conj H1 (conj G1 B1))))))].
  apply text_lines with (1 := T). intros l H.
  apply in_app_or in H. destruct H as [[<-|[]]|H]; [exact N2|]. apply in_app_or in H. destruct H as [H|H]; [now apply S2|]. apply in_app_or in H. destruct H as [H|H]; [now apply R2|].
  apply in_app_or in H. destruct H as [[<-|[]]|H]; [reflexivity|]. apply in_app_or in H. destruct H as [H|H]; [now apply C2|]. apply in_app_or in H. destruct H as [H|H]; [now apply H2|].
  apply in_app_or in H. destruct H as [H|H]; [now apply G2|]. apply in_app_or in H. destruct H as [H|[<-|[]]]; [now apply B2|reflexivity].
Qed.
Theorem free_read f text : file_ok f -> spells text f -> exists m, parse_free b text = Got m /\ describes m f.
Proof. intros OK T. apply layout_read; [now apply file_ok_rules|now apply free_layout]. Qed.
End Free.
