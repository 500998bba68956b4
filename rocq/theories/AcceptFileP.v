(** * Accepted MPS files *)
From Coq Require Import Sorted.
From Verif Require Import SpecParse MpsParse NumberP TextP PermP RangesP ParseP GroupP FileP AcceptP.
Local Open Scope string_scope.
Local Open Scope list_scope.

Lemma section_header s h : section_of h = Got s ->
  h = match s with SRows => "ROWS" | SColumns => "COLUMNS" | SRhs => "RHS" | SBounds => "BOUNDS" | SRanges => "RANGES" | SEndata => "ENDATA" end.
Proof.
  unfold section_of. destruct (String.eqb_spec h "ROWS") as [->|_]; [intros H; injection H as <-; reflexivity|]. destruct (String.eqb_spec h "COLUMNS") as [->|_]; [intros H; injection H as <-; reflexivity|].
  destruct (String.eqb_spec h "RHS") as [->|_]; [intros H; injection H as <-; reflexivity|]. destruct (String.eqb_spec h "BOUNDS") as [->|_]; [intros H; injection H as <-; reflexivity|].
  destruct (String.eqb_spec h "RANGES") as [->|_]; [intros H; injection H as <-; reflexivity|]. destruct (String.eqb_spec h "ENDATA") as [->|_]; [intros H; injection H as <-; reflexivity|]. discriminate.
Qed.
Lemma bound_type_not_semi b R text rest t : bound_type_of b R text rest = Got t -> ~ is_semi t.
Proof.
  unfold bound_type_of. intros H S. repeat match type of H with context [if ?c then _ else _] => destruct c end; try discriminate;
    try (apply obind_got in H; destruct H as (v & _ & H); apply obind_got in H; destruct H as (w & _ & H)); try (injection H as <-); destruct S.
Qed.
Lemma has_duplicate_nodup l : has_duplicate l = false -> NoDup l.
Proof.
  induction l as [|a l IH]; intros E; [constructor|]. cbn in E. apply orb_false_iff in E. destruct E as [E1 E2]. constructor; [|now apply IH].
  intros H. assert (memb a l = true); [|congruence]. apply existsb_exists. exists a. split; [assumption|apply Nat.eqb_refl].
Qed.
Lemma group_values_rows (at_ : nat -> string) (groups : list (group Qc)) : map (fun '(_, r, _) => r) (group_values at_ groups) = map at_ (map fst (ungroup groups)).
Proof.
  unfold group_values, ungroup. induction groups as [|g l IH]; [reflexivity|]. cbn [flat_map]. rewrite !map_app, IH. f_equal. rewrite !map_map. apply map_ext. intros [i v]. reflexivity.
Qed.
Lemma nodup_at (at_ : nat -> string) n l : NoDup (map at_ (seq 0 n)) -> (forall i, In i l -> (i < n)%nat) -> NoDup l -> NoDup (map at_ l).
Proof.
  intros N B D. induction D as [|a l X D IH]; [constructor|]. cbn. constructor; [|apply IH; intros i H; apply B; now right].
  intros H. apply in_map_iff in H. destruct H as (c & E & H). assert (c = a); [|subst; contradiction].
  assert (G : forall l, NoDup (map at_ l) -> forall x y, In x l -> In y l -> at_ x = at_ y -> x = y).
  { clear. induction l as [|z l IH]; intros N x y X Y E; [destruct X|]. inversion N as [|p q P Q]; subst. destruct X as [<-|X]; destruct Y as [<-|Y].
    - reflexivity. - elim P. rewrite E. now apply in_map. - elim P. rewrite <- E. now apply in_map. - now apply IH. }
  apply (G (seq 0 n) N); [apply in_seq; split; [lia|]; cbn; apply B; now right|apply in_seq; split; [lia|]; cbn; apply B; now left|assumption].
Qed.
Lemma names_at (rows : list mrow) : map (fun i => row_name (nth i rows (mk_mrow "" KEqual))) (seq 0 (length rows)) = map row_name rows.
Proof.
  rewrite <- (map_map (fun i => nth i rows (mk_mrow "" KEqual)) row_name). f_equal. induction rows as [|r rows IH]; [reflexivity|]. cbn [length seq map nth]. f_equal. rewrite <- seq_shift, map_map. exact IH.
Qed.
Lemma costs_in items c : costs_of items = [c] -> In (None, c) items /\ forall c', In (None, c') items -> c' = c.
Proof.
  intros E. split.
  - assert (H : In c (costs_of items)) by (rewrite E; now left). apply in_flat_map in H. destruct H as ([[k|] r] & I & H); [destruct H|destruct H as [<-|[]]; assumption].
  - intros c' H. assert (G : In c' (costs_of items)) by (apply in_flat_map; exists (None, c'); split; [assumption|now left]). rewrite E in G. destruct G as [<-|[]]; reflexivity.
Qed.
Lemma row_names_perm items : Permutation (map snd items) (costs_of items ++ map row_name (rows_of items)).
Proof.
  induction items as [|[[k|] r] items IH]; [constructor| |]; cbn [map snd costs_of rows_of flat_map app row_name]; fold (costs_of items) (rows_of items).
  - apply Permutation_cons_app. exact IH.
  - now apply perm_skip.
Qed.

Section Reader.
Variable R : reader.
Variable b : build.
Theorem file_accepted text m : parse_with R b text = Got m -> exists f name_line sense rows header columns rhs ranges bounds d,
  into_lines text = [name_line] ++ sense ++ rows ++ [header] ++ columns ++ rhs ++ ranges ++ bounds ++ ["ENDATA"] /\
  parse_program_name R [name_line] = Got (f_name f, []) /\ parse_objsense_section sense = Got (d, []) /\ (f_sense f = if match sense with [_] => true | _ => false end then None else Some d) /\
  Forall2 (reads_row R) (f_rows f) rows /\ (header = "COLUMNS" \/ header = "ENDATA") /\ Forall2 (reads_column R b) (f_columns f) columns /\
  reads_section "RHS" (reads_values R b) (f_rhs f) rhs /\ reads_section "RANGES" (reads_values R b) (f_ranges f) ranges /\ reads_section "BOUNDS" (reads_bound R b) (f_bounds f) bounds /\
  file_consistent f /\ (NoDup (map fst (m_costs m)) -> describes m f).
Proof.
  unfold parse_with. intros H. got H as [name ls1] E1. got H as [d ls2] E2. got H as [[cost0 rows0] ls3] E3. got H as [cost srows] E4. got H as [[[cols costs] nc] ls4] E5. got H as [[gh nh] ls5] E6. got H as [[gg ng] ls6] E7. got H as u E8. got H as [gb ls7] E9.
  destruct ls7; [|discriminate]. injection H as <-.
  (* the name *)
  destruct (into_lines text) as [|name_line ls0] eqn:IL; [discriminate|].
  assert (NM : ls1 = ls0 /\ parse_program_name R [name_line] = Got (name, [])).
  { unfold parse_program_name in *. destruct (String.length name_line <? 4)%nat; [discriminate|]. destruct (slice name_line 0 4) as [head| |]; cbn [obind] in *; try discriminate. destruct (String.eqb head "NAME"); [|discriminate].
    destruct (slice_from name_line 4) as [tail| |]; cbn [obind] in *; try discriminate. destruct (two_or_three R tail) as [nm| |]; cbn [obind] in *; try discriminate. injection E1 as <- <-. split; reflexivity. }
  destruct NM as [-> NM].
  (* the direction *)
  assert (SE : exists sense, ls0 = sense ++ ls2 /\ parse_objsense_section sense = Got (d, []) /\ (match sense with [_] => true | _ => false end = true -> d = Minimize)).
  { unfold parse_objsense_section in *. destruct ls0 as [|l1 ls0]; [discriminate|]. destruct (String.eqb (trim_end l1) "ROWS") eqn:Q.
    - injection E2 as <- <-. exists [l1]. rewrite Q. repeat split.
    - destruct (String.eqb (trim_end l1) "OBJSENSE") eqn:Q'; [|discriminate]. destruct ls0 as [|l2 [|l3 ls0]]; try discriminate. destruct (prefix "ROWS" l3) eqn:PX; [|discriminate].
      exists [l1; l2; l3]. cbn [app]. rewrite Q, Q', PX. destruct (String.eqb (trim_end l2) "  MINIMIZE" || String.eqb (trim_end l2) "  MIN"); [injection E2 as <- <-; repeat split; discriminate|].
      destruct (String.eqb (trim_end l2) "  MAXIMIZE" || String.eqb (trim_end l2) "  MAX"); [injection E2 as <- <-; repeat split; discriminate|discriminate]. }
  destruct SE as (sense & -> & SE & SD). clear E1 E2.
  (* the rows *)
  destruct (rows_accepted R _ _ _ _ _ _ E3) as (row_items & row_lines & header & hs & -> & FR & [HH HV] & RE & CE). cbn [app] in RE. subst rows0.
  destruct (checked_rows _ _ _ _ E4) as (-> & -> & RN). set (srows := sort_rows (rows_of row_items)) in *. assert (PR : Permutation srows (rows_of row_items)) by apply sort_rows_perm.
  assert (HC : header = "COLUMNS" \/ header = "ENDATA").
  { destruct HH as [_ HH]. apply section_header in HH. destruct HV as [->|[<-|[]]]; tauto. }
  (* the columns *)
  destruct (columns_accepted R b cost srows _ _ _ _ _ _ (mk_ck srows (mk_cols [] [] [] None false) (fun _ => eq_refl) (fun i v (H : In (i, v) []) => match H with end) (fun c (H : In c []) => match H with end) (SSorted_nil le) (fun j v (H : In (j, v) []) => match H with end)) E5)
    as (items & column_lines & hc & -> & FC & [HCH HCV] & KC & HD & PC & DC & SC & BC). cbn [cols_of heads cs_done cs_active cs_integer map app] in HD. cbn [said said_by cols_of cs_done cs_active cs_costs flat_map map app] in PC.
  (* right-hand sides *)
  assert (GI : forall A n, groups_inv n (@no_groups A)) by (intros A n; constructor; [reflexivity|intros i v []]).
  assert (ST : forall header s valid ls next groups next' ls', section_of header = Got s -> is_header header next \/ True ->
    (if section_eqb next s then parse_optional_section b R valid srows ls no_groups else Got ([], next, ls)) = Got (groups, next', ls') -> forall h, is_header h next ->
    exists vals body h', h :: ls = body ++ h' :: ls' /\ reads_section header (reads_values R b) vals body /\ is_header h' next' /\ (next = s /\ (next' = SEndata \/ In next' valid) \/ next <> s /\ next' = next) /\
      (forall g r v, In (g, r, v) (vector_values vals) -> In r (map row_name srows)) /\ Permutation (group_values (fun i => row_name (nth i srows (mk_mrow "" KEqual))) groups) (vector_values vals) /\
      (forall i v, In (i, v) (ungroup groups) -> (i < length srows)%nat)).
  { intros hd s valid ls next groups next' ls' HS _ E h HHN. destruct (section_eqb next s) eqn:Q.
    - assert (next = s) by (destruct next, s; try discriminate; reflexivity). subst next. destruct (values_accepted R b srows valid ls no_groups groups next' ls' (GI _ _) E) as (vals & body & h' & -> & F & [V1 V2] & K & P & B & _).
      exists vals, (h :: body), h'. split; [reflexivity|]. split; [right; exists body; split; [|assumption]; f_equal; destruct HHN as [_ X]; apply section_header in X; apply section_header in HS; congruence|].
      split; [assumption|]. split; [left; split; [reflexivity|assumption]|]. rewrite vector_items. split; [assumption|]. split; [exact P|exact B].
    - injection E as <- <- <-. exists [], [], h. split; [reflexivity|]. split; [left; split; reflexivity|]. split; [assumption|]. split; [right; split; [intros ->; destruct s; discriminate|reflexivity]|].
      split; [intros g r v []|]. split; [constructor|intros i v []]. }
  destruct (ST "RHS" SRhs _ _ _ _ _ _ eq_refl (or_intror Logic.I) E6 hc HCH) as (vh & lh & hh & EH & FH & HHH & NH & KH & PH & BH).
  destruct (ST "RANGES" SRanges _ _ _ _ _ _ eq_refl (or_intror Logic.I) E7 hh HHH) as (vg & lg & hg & EG & FG & HHG & NG & KG & PG & BG). clear ST.
  assert (BO : exists vb lb, hg :: ls6 = lb ++ ["ENDATA"] /\ reads_section "BOUNDS" (reads_bound R b) vb lb /\ (forall t g c, In (t, g, c) vb -> In c (map col_name cols)) /\
    Permutation (group_values (fun j => col_name (nth j cols (mk_mcolumn "" false []))) gb) (map bound_value vb) /\ (forall j t, In (j, t) (ungroup gb) -> (j < length cols)%nat) /\ forall t g c, In (t, g, c) vb -> ~ is_semi t).
  { destruct HHG as [HG1 HG2]. pose proof (section_header _ _ HG2) as HG3. destruct (section_eqb ng SBounds) eqn:Q.
    - assert (ng = SBounds) by (destruct ng; try discriminate; reflexivity). subst ng. destruct (bounds_accepted R b cols ls6 no_groups gb [] (GI _ _) E9) as (vb & body & h & -> & F & [[V1 V2] _] & K & P & B).
      apply section_header in V2. subst h hg. exists vb, ("BOUNDS" :: body). split; [reflexivity|]. split; [right; exists body; split; [reflexivity|assumption]|]. split; [assumption|]. split; [exact P|]. split; [exact B|].
      clear - F. intros t g c H. induction F as [|x l vb body X F IH]; [destruct H|]. destruct H as [->|H]; [|now apply IH]. destruct X as (_ & key & rest & _ & T). cbn [fst] in T. now apply bound_type_not_semi in T.
    - injection E9 as <- ->. exists [], []. split.
      + assert (ng = SEndata); [|subst ng; subst hg; reflexivity].
        assert (XC : nc = SRhs \/ nc = SRanges \/ nc = SBounds \/ nc = SEndata) by (cbn in HCV; destruct HCV as [->|[<-|[<-|[<-|[]]]]]; tauto).
        assert (XH : nh = SRanges \/ nh = SBounds \/ nh = SEndata).
        { destruct NH as [[_ [->|[<-|[<-|[]]]]]|[N ->]]; [tauto|tauto|tauto|]. destruct XC as [->|X]; [congruence|tauto]. }
        destruct NG as [[_ [->|[<-|[]]]]|[N ->]]; [reflexivity|discriminate|]. destruct XH as [->|[->| ->]]; [congruence|discriminate|reflexivity].
      + split; [left; split; reflexivity|]. split; [intros t g c []|]. split; [constructor|]. split; [intros j t []|intros t g c []]. }
  destruct BO as (vb & lb & EB & FB & KB & PB & BB & SB).
  set (f := mk_file name (if match sense with [_] => true | _ => false end then None else Some d) row_items items vh vg vb).
  assert (CO : costs_of row_items = [cost]) by exact CE. destruct (costs_in _ _ CO) as [CI CU].
  assert (KR : forall r, In r (map row_name srows) -> In r (map row_name (constraint_rows f))) by (intros r; apply (Permutation_in _ (Permutation_map row_name PR))).
  assert (HH' : map (fun c => (col_name c, col_integer c)) cols = columns_of f) by exact HD.
  assert (PC' : Permutation (said_by cost srows cols costs) (coefficients f)) by exact PC.
  exists f, name_line, sense, row_lines, header, column_lines, lh, lg, lb, d. cbn [f f_name f_sense f_rows f_columns f_rhs f_ranges f_bounds].
  split; [|split; [assumption|split; [assumption|split; [reflexivity|split; [assumption|split; [assumption|split; [assumption|split; [assumption|split; [assumption|split; [assumption|split]]]]]]]]]].
  - cbn [app]. rewrite EH, EG, EB. reflexivity.
  - constructor.
    + cbn [f f_rows]. apply (Permutation_NoDup (Permutation_sym (row_names_perm row_items))). rewrite CO. cbn [app]. eapply Permutation_NoDup; [|exact RN]. apply perm_skip. now apply Permutation_map.
    + exists cost. split; assumption.
    + cbn [f f_ranges]. apply (Permutation_NoDup (Permutation_map _ PG)). rewrite group_values_rows. apply nodup_at with (length srows).
      * rewrite names_at. now inversion RN.
      * intros i X. apply in_map_iff in X. destruct X as ([i' v] & <- & X). now apply (BG i' v).
      * unfold check_ranges_consistency in E8. destruct (has_duplicate (map fst (ungroup gg))) eqn:DU; [discriminate|]. now apply has_duplicate_nodup.
    + intros c r v X. cbn [f f_rows]. apply (Permutation_in _ (Permutation_sym (row_names_perm row_items))). rewrite CO. apply in_or_app. destruct (KC c r v X) as [->|Y]; [left; now left|right]. apply (Permutation_in _ (Permutation_map row_name PR) Y).
    + intros g r v X. apply KR. now apply (KH g r v).
    + intros g r v X. apply KR. now apply (KG g r v).
    + intros t g c X. rewrite <- HH', map_map. cbn [fst]. now apply (KB t g c).
  - intros ND. constructor; cbn [m_name m_objective m_cost_name m_costs m_rows m_columns m_rhss m_ranges m_bounds].
    + reflexivity.
    + cbn [f f_sense]. destruct (match sense with [_] => true | _ => false end) eqn:Q; [now apply SD|reflexivity].
    + exact CI.
    + exact PR.
    + exact HH'.
    + exact PC'.
    + exact PH.
    + exact PG.
    + apply (Permutation_map (fun '(g, c, t) => (t, g, c))) in PB. rewrite map_map in PB. cbn [f f_bounds].
      replace (map (fun x => let '(g, c, t) := bound_value x in (t, g, c)) vb) with vb in PB by (rewrite <- (map_id vb) at 1; apply map_ext; intros [[t g] c]; reflexivity).
      replace (said_bounds _) with (map (fun '(g, c, t) => (t, g, c)) (group_values (column_name cols) gb)); [exact PB|].
      change (said_bounds _) with (flat_map (fun g => map (fun '(j, t) => (t, grp_name g, column_name cols j)) (grp_values g)) gb). unfold group_values. clear. induction gb as [|g l IH]; [reflexivity|]. cbn [flat_map]. rewrite map_app, IH. f_equal. rewrite map_map. apply map_ext. intros [j t]. reflexivity.
    + constructor; cbn [m_costs m_columns m_rows]; [| exact BC| | |].
      * apply increasing_sorted; [assumption|assumption|intros x _; lia].
      * intros i v X. now apply (BH i v).
      * intros i v X. now apply (BG i v).
      * intros j t X. cbn [m_columns]. unfold stated in X. cbn [m_bounds] in X. split; [now apply (BB j t)|].
        apply in_flat_map in X. destruct X as (g & G1 & G2). assert (X : In (grp_name g, column_name cols j, t) (group_values (column_name cols) gb)).
        { apply in_flat_map. exists g. split; [assumption|]. apply in_map_iff. exists (j, t). split; [reflexivity|assumption]. }
        apply (Permutation_in _ PB) in X. apply in_map_iff in X. destruct X as ([[t' g'] c'] & E & X). cbn in E. assert (t' = t) by congruence. subst t'. now apply (SB t g' c').
    + intros c X. destruct (DC c X) as [D1 D2]. split; [assumption|exact D2].
Qed.
End Reader.
