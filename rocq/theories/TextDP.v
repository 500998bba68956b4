(** * Builds with debug assertions: reading and converting a file (proofs about TextD.v) *)
From Coq Require Import Sorted.
From Verif Require Import SpecParse MpsParse NumberP TextP PermP RangesP BoundsP ParseP GroupP FileP AcceptP AcceptFileP.
From Verif Require Export TextD SpecTextDebug.
Local Open Scope string_scope.
Local Open Scope list_scope.

(** ** A debug build panics or does what a release build does *)
Definition or_crash {A} (x y : out A) : Prop := x = Crashed \/ x = y.
Lemma oc_same {A} (x : out A) : or_crash x x. Proof. now right. Qed.
Lemma oc_bind {A B} (x y : out A) (f g : A -> out B) : or_crash x y -> (forall a, y = Got a -> or_crash (f a) (g a)) -> or_crash (obind x f) (obind y g).
Proof. intros [->| ->] H; [now left|]. destruct y; cbn; [now apply H|now right|now left]. Qed.
Lemma oc_skip {A} (x : out unit) (f : out A) y : x = Got tt \/ x = Crashed -> or_crash f y -> or_crash (obind x (fun _ => f)) y.
Proof. intros [->| ->] H; [exact H|now left]. Qed.
Lemma oassert_cases b : oassert b = Got tt \/ oassert b = Crashed. Proof. destruct b; [now left|now right]. Qed.
Lemma oasserted {A} b (f : unit -> out A) : b = true -> obind (oassert b) f = f tt. Proof. intros ->. reflexivity. Qed.
Lemma oassert_got {A} b (f : unit -> out A) y : obind (oassert b) f = Got y -> b = true /\ f tt = Got y.
Proof. destruct b; [now split|discriminate]. Qed.
Ltac skip := apply oc_skip; [apply oassert_cases|].
Lemma oc_same_section {A} line (f g : bool -> out A) : (forall b, or_crash (f b) (g b)) -> or_crash (obind (same_section_d line) f) (g (is_part_of_same_section line)).
Proof. intros H. unfold same_section_d. destruct (negb _); cbn; [apply H|now left]. Qed.
Lemma oc_rows R : forall ls cost rows, or_crash (parse_row_section_d R ls cost rows) (parse_row_section R ls cost rows).
Proof.
  induction ls as [|l ls IH]; intros cost rows; [apply oc_same|]. cbn [parse_row_section_d parse_row_section].
  apply (oc_same_section l _ (fun b : bool => if b then _ else _)). intros [|]; [|apply oc_same].
  apply oc_bind; [apply oc_same|]. intros [t name] _. apply oc_bind; [apply oc_same|]. intros [k|] _; [apply IH|]. destruct cost; [apply oc_same|apply IH].
Qed.
Lemma oc_column_line R cost rows l s : or_crash (column_section_line_d R cost rows l s) (column_section_line Checked R cost rows l s).
Proof.
  unfold column_section_line_d, column_section_line. destruct (is_column_marker_line R l) as [[text|c r v rest]| |]; cbn [obind]; [|apply oc_same|apply oc_same|apply oc_same].
  apply oc_bind; [apply oc_same|]. intros s' _. destruct (String.eqb text "'INTORG'"); cbn [obind]; [skip; apply oc_same|]. destruct (String.eqb text "'INTEND'"); cbn [obind]; [skip; apply oc_same|apply oc_same].
Qed.
Lemma oc_columns R cost rows : forall ls s, or_crash (parse_column_section_d R cost rows ls s) (parse_column_section Checked R cost rows ls s).
Proof.
  induction ls as [|l ls IH]; intros s; [apply oc_same|]. cbn [parse_column_section_d parse_column_section].
  apply (oc_same_section l _ (fun b : bool => if b then _ else _)). intros [|].
  - apply oc_bind; [apply oc_column_line|]. intros s' _. apply IH.
  - apply oc_bind; [apply oc_same|]. intros next _. apply oc_bind; [apply oc_same|]. intros s' _. skip. apply oc_same.
Qed.
Lemma oc_values R valid rows : forall ls s, or_crash (parse_optional_section_d R valid rows ls s) (parse_optional_section Checked R valid rows ls s).
Proof.
  induction ls as [|l ls IH]; intros s; [apply oc_same|]. cbn [parse_optional_section_d parse_optional_section].
  apply (oc_same_section l _ (fun b : bool => if b then _ else _)). intros [|]; [|apply oc_same]. apply oc_bind; [apply oc_same|]. intros s' _. apply IH.
Qed.
Lemma oc_bounds R columns : forall ls s, or_crash (parse_bounds_section_d R columns ls s) (parse_bounds_section Checked R columns ls s).
Proof.
  induction ls as [|l ls IH]; intros s; [apply oc_same|]. cbn [parse_bounds_section_d parse_bounds_section].
  apply (oc_same_section l _ (fun b : bool => if b then _ else _)). intros [|]; [|apply oc_same]. apply oc_bind; [apply oc_same|]. intros s' _. apply IH.
Qed.
Lemma parse_or_crash R text : or_crash (parse_with_d R text) (parse_with R Checked text).
Proof.
  unfold parse_with_d, parse_with. apply oc_bind; [apply oc_same|]. intros [name ls] _. apply oc_bind; [apply oc_same|]. intros [d ls2] _. apply oc_bind; [apply oc_rows|]. intros [[cost rows] ls3] _.
  apply oc_bind; [apply oc_same|]. intros [cn rows'] _. apply oc_skip.
  { unfold build_row_index_d. destruct (distinct_names _); cbn; [apply oassert_cases|now right]. }
  apply oc_bind; [apply oc_columns|]. intros [[[cols costs] next] ls4] _. skip.
  apply oc_bind; [destruct (section_eqb next SRhs); [apply oc_values|apply oc_same]|]. intros [[rhss n1] ls5] _.
  apply oc_bind; [destruct (section_eqb n1 SRanges); [apply oc_values|apply oc_same]|]. intros [[ranges n2] ls6] _. apply oc_bind; [apply oc_same|]. intros u _.
  apply oc_bind; [destruct (section_eqb n2 SBounds); [apply oc_bounds|apply oc_same]|]. intros [bounds ls7] _. apply oc_same.
Qed.

(** ** Lines are not empty *)
Definition filled (ls : list string) : Prop := forall l, In l ls -> l <> "".
Lemma into_lines_filled text : filled (into_lines text).
Proof. intros l H. unfold into_lines in H. apply filter_In in H. destruct H as [_ H]. intros ->. discriminate. Qed.
Lemma filled_cons l ls : filled (l :: ls) -> l <> "" /\ filled ls.
Proof. intros F. split; [apply F; now left|intros x H; apply F; now right]. Qed.
Lemma same_section_filled l : l <> "" -> same_section_d l = Got (is_part_of_same_section l).
Proof. unfold same_section_d. destruct l; [congruence|reflexivity]. Qed.
Lemma rows_d R : forall ls cost rows, filled ls -> parse_row_section_d R ls cost rows = parse_row_section R ls cost rows.
Proof.
  induction ls as [|l ls IH]; intros cost rows F; [reflexivity|]. destruct (filled_cons _ _ F) as [N F']. cbn [parse_row_section_d parse_row_section]. rewrite same_section_filled by assumption. cbn [obind].
  destruct (is_part_of_same_section l); [|reflexivity]. destruct (one_and_two R l) as [[t name]| |]; cbn [obind]; try reflexivity. destruct (row_type_of t) as [[k|]| |]; cbn [obind]; try reflexivity; [now apply IH|].
  destruct cost; [reflexivity|now apply IH].
Qed.
Lemma values_d R valid rows : forall ls s, filled ls -> parse_optional_section_d R valid rows ls s = parse_optional_section Checked R valid rows ls s.
Proof.
  induction ls as [|l ls IH]; intros s F; [reflexivity|]. destruct (filled_cons _ _ F) as [N F']. cbn [parse_optional_section_d parse_optional_section]. rewrite same_section_filled by assumption. cbn [obind].
  destruct (is_part_of_same_section l); [|reflexivity]. destruct (parse_value_section_line Checked R rows l s) as [s'| |]; cbn [obind]; try reflexivity. now apply IH.
Qed.
Lemma bounds_d R columns : forall ls s, filled ls -> parse_bounds_section_d R columns ls s = parse_bounds_section Checked R columns ls s.
Proof.
  induction ls as [|l ls IH]; intros s F; [reflexivity|]. destruct (filled_cons _ _ F) as [N F']. cbn [parse_bounds_section_d parse_bounds_section]. rewrite same_section_filled by assumption. cbn [obind].
  destruct (is_part_of_same_section l); [|reflexivity]. destruct (parse_bound_line Checked R columns l s) as [s'| |]; cbn [obind]; try reflexivity. now apply IH.
Qed.
(** what a section leaves is part of what it was given *)
Lemma filled_app a b : filled (a ++ b) -> filled b.
Proof. intros F l H. apply F. apply in_or_app. now right. Qed.
Lemma filled_tail a h b : filled (a ++ h :: b) -> filled b.
Proof. intros F. apply filled_app in F. now apply filled_cons in F. Qed.

(** ** Names *)
Lemma distinct_names_spec l : distinct_names l = true <-> NoDup l.
Proof.
  induction l as [|x l IH]; cbn [distinct_names]; [split; [constructor|reflexivity]|]. rewrite andb_true_iff, negb_true_iff, IH, NoDup_cons_iff.
  assert (E : existsb (String.eqb x) l = true <-> In x l).
  { rewrite existsb_exists. split; [intros (y & H & E); apply String.eqb_eq in E; now subst y|intros H; exists x; split; [assumption|apply String.eqb_refl]]. }
  rewrite <- E. destruct (existsb (String.eqb x) l); split; intros [A B]; (split; [congruence|assumption]).
Qed.
Lemma row_index_d cost rows : NoDup (cost :: map row_name rows) -> build_row_index_d cost rows = Got tt.
Proof.
  intros N. apply NoDup_cons_iff in N. destruct N as [A B]. unfold build_row_index_d. apply distinct_names_spec in B. rewrite B. cbn [oassert obind].
  destruct (existsb (String.eqb cost) (map row_name rows)) eqn:E; [|reflexivity]. apply existsb_exists in E. destruct E as (y & H & E). apply String.eqb_eq in E. subst y. contradiction.
Qed.
Lemma sorted_le_b l : StronglySorted le l -> is_sorted l = true.
Proof.
  induction 1 as [|x l S IH F]; [reflexivity|]. unfold is_sorted in *. cbn [windows]. destruct l as [|y l]; [reflexivity|]. rewrite IH, andb_true_r. apply Nat.leb_le. now inversion F.
Qed.

(** ** Columns: the markers *)
Lemma section_line_integer R cost rows c r v rest l s s' : is_column_marker_line R l = Got (Data c r v rest) -> column_section_line Checked R cost rows l s = Got s' -> cs_integer s' = cs_integer s.
Proof.
  assert (SP : forall r v s s', save_column_pair Checked cost rows r v s = Got s' -> cs_integer s' = cs_integer s).
  { intros r0 v0 s0 s0' H. unfold save_column_pair in H. got H as x E. destruct (row_index rows r0); [injection H as <-; reflexivity|]. destruct (String.eqb r0 cost); [injection H as <-; reflexivity|discriminate]. }
  intros E H. unfold column_section_line in H. rewrite E in H. cbn [obind] in H. got H as s1 S1. got H as s2 S2. got H as more M.
  transitivity (cs_integer s2); [destruct more as [[r' v']|]; [now apply SP in H|injection H as <-; reflexivity]|]. transitivity (cs_integer s1); [now apply SP in S2|].
  destruct (cs_active s) as [a|] eqn:A; [|injection S1 as <-; reflexivity]. destruct (String.eqb a c); [injection S1 as <-; reflexivity|]. unfold save_to_column_collector in S1. rewrite A in S1.
  destruct (adjacent _ _); [discriminate|injection S1 as <-; reflexivity].
Qed.
Lemma save_integer s new s' : save_to_column_collector new s = Got s' -> cs_integer s' = cs_integer s.
Proof. unfold save_to_column_collector. destruct (cs_active s); [destruct (adjacent _ _); [discriminate|]|]; intros H; injection H as <-; reflexivity. Qed.
Lemma columns_d R cost rows : forall items body, Forall2 (reads_column R Checked) items body -> forall h rest s cols costs next ls, is_part_of_same_section h = false -> h <> "" -> filled body ->
  cols_keep rows s -> parse_column_section Checked R cost rows (body ++ h :: rest) s = Got (cols, costs, next, ls) ->
  ls = rest /\ (alternating (cs_integer s) items -> parse_column_section_d R cost rows (body ++ h :: rest) s = Got (cols, costs, next, ls)) /\
  (parse_column_section_d R cost rows (body ++ h :: rest) s <> Crashed -> alternating (cs_integer s) items).
Proof.
  induction 1 as [|item l items body RC F IH]; intros h rest s cols costs next ls PH NH FB KS H; cbn [app parse_column_section parse_column_section_d] in *.
  - rewrite same_section_filled by assumption. cbn [obind]. rewrite PH in *. got H as nx T. got H as s1 S. injection H as <- <- <- <-. split; [reflexivity|]. split; [|intros _; exact Logic.I]. intros _.
    rewrite T. cbn [obind]. rewrite S. cbn [obind]. destruct (save_accepted cost rows s None s1 KS S) as (I1 & _). rewrite oasserted; [reflexivity|]. apply sorted_le_b. exact (ck_costs _ _ I1).
  - destruct (filled_cons _ _ FB) as [NL FB']. rewrite same_section_filled by assumption. cbn [obind].
    assert (PL : is_part_of_same_section l = true) by (destruct item; apply RC). rewrite PL in *. got H as s1 S.
    destruct (column_line_accepted R Checked cost rows s l s1 KS PL S) as (_ & _ & _ & K1 & _). specialize (IH h rest s1 cols costs next ls PH NH FB' K1 H). destruct IH as (-> & IH1 & IH2). split; [reflexivity|].
    destruct item as [c values| |].
    + destruct RC as (_ & r & text & more & E & _). assert (Q : cs_integer s1 = cs_integer s) by exact (section_line_integer R cost rows c r text more l s s1 E S).
      assert (Z : column_section_line_d R cost rows l s = Got s1) by (unfold column_section_line_d; rewrite E; exact S). rewrite Z. cbn [obind alternating]. rewrite <- Q. now split.
    + destruct RC as (_ & E). unfold column_section_line_d, column_section_line in *. rewrite E in *. cbn [obind] in *. got S as s0 S0. pose proof (save_integer _ _ _ S0) as Q. rewrite S0. cbn [obind] in *. cbn [String.eqb Ascii.eqb Bool.eqb obind] in *. injection S as <-.
      cbn [cs_integer] in IH1, IH2. cbn [alternating]. rewrite <- Q. destruct (cs_integer s0); cbn [Bool.eqb negb oassert obind].
      * split; [intros [X _]; discriminate|congruence].
      * split; [intros [_ X]; now apply IH1|intros X; split; [reflexivity|now apply IH2]].
    + destruct RC as (_ & E). unfold column_section_line_d, column_section_line in *. rewrite E in *. cbn [obind] in *. got S as s0 S0. pose proof (save_integer _ _ _ S0) as Q. rewrite S0. cbn [obind] in *. cbn [String.eqb Ascii.eqb Bool.eqb obind] in *. injection S as <-.
      cbn [cs_integer] in IH1, IH2. cbn [alternating]. rewrite <- Q. destruct (cs_integer s0); cbn [Bool.eqb negb oassert obind].
      * split; [intros [_ X]; now apply IH1|intros X; split; [reflexivity|now apply IH2]].
      * split; [intros [X _]; discriminate|congruence].
Qed.

(** ** Files *)
(** where the lines of the sections are, for a text that is accepted *)
Lemma split_unique {A} (P : A -> bool) : forall a x r b y q, (forall z, In z a -> P z = true) -> P x = false -> (forall z, In z b -> P z = true) -> P y = false ->
  a ++ x :: r = b ++ y :: q -> a = b /\ x = y /\ r = q.
Proof.
  induction a as [|z a IH]; intros x r [|w b] y q HA HX HB HY E; cbn [app] in E.
  - injection E as -> ->. repeat split.
  - injection E as -> ->. specialize (HB w (or_introl eq_refl)). congruence.
  - injection E as -> _. specialize (HA y (or_introl eq_refl)). congruence.
  - injection E as -> E. destruct (IH x r b y q) as (-> & -> & ->); try assumption; [intros u U; apply HA; now right|intros u U; apply HB; now right|]. repeat split.
Qed.
Lemma reads_rows_data R items ls : Forall2 (reads_row R) items ls -> forall l, In l ls -> is_part_of_same_section l = true.
Proof. induction 1 as [|x l items ls X F IH]; intros z Z; [destruct Z|]. destruct Z as [<-|Z]; [apply X|now apply IH]. Qed.
Lemma header_not_data h s : is_header h s -> is_part_of_same_section h = false /\ h <> "".
Proof. intros [A B]. split; [assumption|]. intros ->. discriminate. Qed.
(** the tail of a file starts with a header *)
Lemma section_start {A} header s (reads : A -> string -> Prop) items ls h rest : is_header header s -> reads_section header reads items ls -> is_part_of_same_section h = false /\ h <> "" ->
  exists h' rest', ls ++ h :: rest = h' :: rest' /\ is_part_of_same_section h' = false /\ h' <> "".
Proof.
  intros HH [(_ & ->)|(body & -> & _)] H; [exists h, rest; now split|]. exists header, (body ++ h :: rest). split; [reflexivity|]. now apply header_not_data with s.
Qed.
Lemma replay R text m f name_line sense rows header columns rhs ranges bounds d :
  into_lines text = [name_line] ++ sense ++ rows ++ [header] ++ columns ++ rhs ++ ranges ++ bounds ++ ["ENDATA"] ->
  parse_objsense_section sense = Got (d, []) ->
  Forall2 (reads_row R) (f_rows f) rows -> (header = "COLUMNS" \/ header = "ENDATA") -> Forall2 (reads_column R Checked) (f_columns f) columns ->
  reads_section "RHS" (reads_values R Checked) (f_rhs f) rhs -> reads_section "RANGES" (reads_values R Checked) (f_ranges f) ranges -> reads_section "BOUNDS" (reads_bound R Checked) (f_bounds f) bounds ->
  parse_with R Checked text = Got m ->
  (parse_with_d R text = Got m <-> alternating false (f_columns f) /\ NoDup (map col_name (m_columns m))).
Proof.
  intros IL SE FR HC FC FH FG FB H. pose proof (into_lines_filled text) as FL. unfold parse_with, parse_with_d in *.
  got H as [name ls1] E1. got H as [d' ls2] E2. got H as [[cost0 rows0] ls3] E3. got H as [cost srows] E4. got H as [[[cols costs] nc] ls4] E5. got H as [[gh nh] ls5] E6. got H as [[gg ng] ls6] E7. got H as u E8. got H as [gb ls7] E9.
  destruct ls7; [|discriminate]. injection H as <-. cbn [m_columns]. rewrite E1. cbn [obind]. rewrite E2. cbn [obind]. rewrite IL in E1, FL.
  assert (N1 : ls1 = sense ++ rows ++ [header] ++ columns ++ rhs ++ ranges ++ bounds ++ ["ENDATA"]).
  { cbn [app] in E1. unfold parse_program_name in E1. destruct (String.length name_line <? 4)%nat; [discriminate|]. got E1 as hd1 Q1. destruct (String.eqb hd1 "NAME"); [|discriminate]. got E1 as tl Q2. got E1 as nm Q3. now injection E1. }
  assert (N2 : ls2 = rows ++ [header] ++ columns ++ rhs ++ ranges ++ bounds ++ ["ENDATA"]).
  { rewrite N1 in E2. clear - SE E2. unfold parse_objsense_section in SE, E2. destruct sense as [|l1 sense]; [discriminate|]. cbn [app] in E2. destruct (String.eqb (trim_end l1) "ROWS").
    - injection SE as _ ->. injection E2 as _ <-. reflexivity.
    - destruct (String.eqb (trim_end l1) "OBJSENSE"); [|discriminate]. destruct sense as [|l2 [|l3 sense]]; try discriminate. cbn [app] in E2. destruct (prefix "ROWS" l3); [|discriminate].
      destruct (String.eqb (trim_end l2) "  MINIMIZE" || String.eqb (trim_end l2) "  MIN"); [injection SE as _ ->; injection E2 as _ <-; reflexivity|].
      destruct (String.eqb (trim_end l2) "  MAXIMIZE" || String.eqb (trim_end l2) "  MAX"); [injection SE as _ ->; injection E2 as _ <-; reflexivity|discriminate]. }
  rewrite N2 in *. assert (F2 : filled (rows ++ [header] ++ columns ++ rhs ++ ranges ++ bounds ++ ["ENDATA"])) by (apply filled_app with sense; exact (proj2 (filled_cons _ _ FL))).
  rewrite rows_d by assumption. rewrite E3. cbn [obind].
  destruct (rows_accepted R _ _ _ _ _ _ E3) as (items' & body' & h' & s' & EQ & FR' & [HH' _] & _).
  assert (NHd : is_part_of_same_section header = false) by (destruct HC as [->| ->]; reflexivity).
  destruct (split_unique is_part_of_same_section rows header (columns ++ rhs ++ ranges ++ bounds ++ ["ENDATA"]) body' h' ls3) as (_ & _ & N3);
    [exact (reads_rows_data _ _ _ FR)|exact NHd|exact (reads_rows_data _ _ _ FR')|exact (proj1 HH')|exact EQ|]. rewrite <- N3 in *.
  rewrite E4. cbn [obind]. destruct (checked_rows _ _ _ _ E4) as (_ & _ & RN). rewrite (row_index_d _ _ RN). cbn [obind].
  assert (F3 : filled (columns ++ rhs ++ ranges ++ bounds ++ ["ENDATA"])) by (apply filled_tail with rows header; exact F2).
  (* the next header *)
  destruct (section_start "BOUNDS" SBounds (reads_bound R Checked) (f_bounds f) bounds "ENDATA" []) as (hb & rb & EB & HB); [split; reflexivity|assumption|split; [reflexivity|discriminate]|].
  destruct (section_start "RANGES" SRanges (reads_values R Checked) (f_ranges f) ranges hb rb) as (hg & rg & EG & HG); [split; reflexivity|assumption|assumption|].
  destruct (section_start "RHS" SRhs (reads_values R Checked) (f_rhs f) rhs hg rg) as (hh & rh & EH & HH); [split; reflexivity|assumption|assumption|].
  rewrite EB, EG, EH in *.
  assert (CK : cols_keep srows (mk_cols [] [] [] None false)).
  { constructor; cbn [cs_done cs_values cs_costs cs_active]; [reflexivity|intros i v []|intros c []|constructor|intros j v []]. }
  assert (FC3 : filled columns) by (intros l X; apply F3; apply in_or_app; now left).
  destruct (columns_d R cost srows (f_columns f) columns FC hh rh (mk_cols [] [] [] None false) cols costs nc ls4 (proj1 HH) (proj2 HH) FC3 CK E5) as (-> & AL & NA). cbn [cs_integer] in AL, NA.
  assert (F4 : filled rh) by (now apply filled_tail in F3).
  assert (F5 : filled ls5).
  { destruct (section_eqb nc SRhs); [|injection E6 as _ _ <-; assumption]. destruct (values_accepted R Checked srows _ _ _ _ _ _ (mk_gi (length srows) no_groups (fun _ => eq_refl) (fun i v (X : In (i, v) []) => match X with end)) E6) as (? & body & h & -> & _). now apply filled_tail in F4. }
  assert (F6 : filled ls6).
  { destruct (section_eqb nh SRanges); [|injection E7 as _ _ <-; assumption]. destruct (values_accepted R Checked srows _ _ _ _ _ _ (mk_gi (length srows) no_groups (fun _ => eq_refl) (fun i v (X : In (i, v) []) => match X with end)) E7) as (? & body & h & -> & _). now apply filled_tail in F5. }
  split.
  - intros G. assert (A : alternating false (f_columns f)).
    { apply NA. intros X. rewrite X in G. discriminate. }
    rewrite (AL A) in G. cbn [obind] in G. unfold build_column_index_d in G. apply oassert_got in G. destruct G as [G _]. split; [assumption|]. now apply distinct_names_spec.
  - intros [A N]. rewrite (AL A). cbn [obind]. unfold build_column_index_d. rewrite oasserted by now apply distinct_names_spec.
    rewrite values_d by assumption. rewrite E6. cbn [obind]. rewrite values_d by assumption. rewrite E7. cbn [obind]. rewrite E8. cbn [obind]. rewrite bounds_d by assumption. rewrite E9. reflexivity.
Qed.
