(** * Reading MPS files in fixed format *)
From Verif Require Import SpecFixed MpsParse NumberP TextP PermP RangesP ParseP GroupP MpsP FileP.
Local Open Scope string_scope.
Local Open Scope list_scope.

Definition simple (s : string) : Prop := forall c, In c (chars s) -> visible c \/ c = " "%char.
Lemma simple_app a b : simple (a +++ b) <-> simple a /\ simple b.
Proof. unfold simple. rewrite chars_append. split; [intros H; split; intros c C; apply H, in_or_app; tauto|intros [A B] c C; apply in_app_or in C; destruct C; auto]. Qed.
Ltac split_simple := repeat match goal with |- simple (_ +++ _) => apply simple_app; split end.
Lemma simple_gap n : simple (gap n).
Proof. induction n as [|n IH]; intros c C; [destruct C|]. destruct C as [<-|C]; [now right|now apply IH]. Qed.
Lemma simple_left k s : simple s -> simple (left k s).
Proof. intros H. apply simple_app. split; [assumption|apply simple_gap]. Qed.
Lemma simple_right k s : simple s -> simple (right k s).
Proof. intros H. apply simple_app. split; [apply simple_gap|assumption]. Qed.
Lemma simple_number t v : number t v -> simple t.
Proof. intros H c C. left. now apply (number_ok t v H). Qed.
Lemma simple_name s : fixed_name s -> simple s.
Proof. intros (_ & H & _). exact H. Qed.
Lemma simple_boundary s i : simple s -> (i <= String.length s)%nat -> boundary s i = true.
Proof.
  intros H L. unfold boundary. destruct (String.get i s) as [c|] eqn:G.
  - assert (C : In c (chars s)). { clear L H. revert i G. induction s as [|d s IH]; intros i G; [destruct i; discriminate|]. destruct i as [|i]; [injection G as <-; now left|right; now apply (IH i)]. }
    destruct (H c C) as [V| ->]; [now rewrite visible_ascii|reflexivity].
  - apply Nat.eqb_eq. clear H. revert i L G. induction s as [|d s IH]; intros i L G; [cbn in *; lia|]. destruct i as [|i]; [discriminate|]. cbn in *. f_equal. apply IH; [lia|assumption].
Qed.
Lemma substring_mid : forall a s t, substring (String.length a) (String.length s) (a +++ s +++ t) = s.
Proof. induction a as [|c a IH]; intros s t; cbn [String.length String.append substring]; [apply substring_head|apply IH]. Qed.
Lemma slice_mid l a s t i j : l = (a +++ s +++ t) -> simple l -> String.length a = i -> (i + String.length s)%nat = j -> slice l i j = Got s.
Proof.
  intros E H <- <-. unfold slice. subst l. rewrite !simple_boundary; try assumption; [|rewrite !append_length; lia|rewrite !append_length; lia].
  replace (String.length a <=? String.length a + String.length s)%nat with true by (symmetry; apply Nat.leb_le; lia). cbn [andb]. f_equal.
  replace (String.length a + String.length s - String.length a)%nat with (String.length s) by lia. apply substring_mid.
Qed.
Lemma slice_rest l a s i : l = (a +++ s) -> simple l -> String.length a = i -> slice_from l i = Got s.
Proof.
  intros E H L. unfold slice_from. apply slice_mid with a ""; [now rewrite append_nil|assumption|assumption|]. subst l i. rewrite append_length. reflexivity.
Qed.
Lemma gap_length n : String.length (gap n) = n. Proof. induction n as [|n IH]; [reflexivity|]. cbn. now rewrite IH. Qed.
Lemma gap_app a b : gap (a + b) = (gap a +++ gap b). Proof. induction a as [|a IH]; [reflexivity|]. cbn. now rewrite IH. Qed.
Lemma gap_blanks n : blanks (gap n). Proof. induction n as [|n IH]; intros c C; [destruct C|]. destruct C as [<-|C]; [now left|now apply IH]. Qed.
Lemma left_length k s : (String.length s <= k)%nat -> String.length (left k s) = k.
Proof. intros H. unfold left. rewrite append_length, gap_length. lia. Qed.
Lemma right_length k s : (String.length s <= k)%nat -> String.length (right k s) = k.
Proof. intros H. unfold right. rewrite append_length, gap_length. lia. Qed.
Lemma trim_name s : (forall c, String.get (String.length s - 1) s = Some c -> visible c) -> trim_end s = s.
Proof.
  induction s as [|c s IH]; intros V; [reflexivity|]. cbn [trim_end]. destruct s as [|d s].
  - cbn [trim_end]. now rewrite visible_not_blank by (apply V; reflexivity).
  - rewrite IH; [reflexivity|]. intros x X. apply V. cbn [String.length Nat.sub String.get] in *. rewrite Nat.sub_0_r in *. exact X.
Qed.
Lemma trim_left k s : fixed_name s -> trim_end (left k s) = s.
Proof. intros (_ & _ & V). unfold left. rewrite trim_end_app by apply gap_blanks. now apply trim_name. Qed.
Lemma trim_first s x : fixed_first s -> trim_start (s +++ x) = (s +++ x).
Proof. intros (c & t & -> & V & _). cbn. now rewrite visible_not_blank. Qed.
Lemma trim_right k t v : number t v -> trim_start (right k t) = t.
Proof.
  intros N. unfold right. rewrite trim_skip by apply gap_blanks. destruct (name_ok_cons t (number_ok t v N)) as (c & x & -> & V). cbn. now rewrite visible_not_blank.
Qed.
Lemma first_not_comment s n x : fixed_first s -> is_comment (gap n +++ s +++ x) = false.
Proof.
  intros F. unfold is_comment. rewrite trim_skip by apply gap_blanks. rewrite trim_first by assumption. destruct F as (c & t & -> & V & N). cbn [String.append prefix]. destruct (ascii_dec "*" c); [congruence|reflexivity].
Qed.

Lemma part_space x : is_part_of_same_section (String " " x) = true.
Proof. unfold is_part_of_same_section. cbn. apply prefix_nil. Qed.
Section Fixed.
Variable b : build.
Lemma fixed_rows row l : fixed_name (snd row) -> snd row <> "" -> fixed_row row l -> reads_row fixed row l /\ is_comment l = false.
Proof.
  destruct row as [k r]. cbn [fst snd]. intros F NE (n & E). cbn [fst snd] in E.
  assert (L1 : String.length (row_letter k) = 1%nat) by (destruct k as [[]|]; reflexivity).
  assert (S : simple l).
  { rewrite E. split_simple; [apply (simple_gap 1)| |apply (simple_gap 2)|now apply simple_name|apply simple_gap]. destruct k as [[]|]; intros c [<-|[]]; left; vm_compute; split; discriminate. }
  assert (LL : String.length l = (4 + String.length r + n)%nat) by (rewrite E, !append_length, gap_length, L1; cbn [String.length]; lia).
  assert (RP : (0 < String.length r)%nat) by (destruct r; [congruence|cbn; lia]).
  split; [split; [rewrite E; apply part_space|]|].
  - exists (row_letter k +++ " "). split; [|destruct k as [[]|]; reflexivity]. cbn [one_and_two fixed]. unfold fixed_one_and_two. rewrite LL.
    replace (4 <? 4 + String.length r + n)%nat with true by (symmetry; apply Nat.ltb_lt; lia).
    rewrite (slice_mid l " " (row_letter k +++ " ") (" " +++ r +++ gap n)); [|rewrite E; rewrite append_assoc; reflexivity|assumption|reflexivity|rewrite append_length, L1; reflexivity]. cbn [obind].
    assert (NS : exists m p, slice l 4 (Nat.min 12 (4 + String.length r + n)) = Got (r +++ gap m) /\ n = (m + p)%nat).
    { destruct F as (F & _). exists (Nat.min n (8 - String.length r)), (n - Nat.min n (8 - String.length r))%nat. split; [|lia].
      apply slice_mid with (" " +++ row_letter k +++ "  ") (gap (n - Nat.min n (8 - String.length r))).
      - rewrite E. rewrite !append_assoc. rewrite <- gap_app. replace (Nat.min n (8 - String.length r) + (n - Nat.min n (8 - String.length r)))%nat with n by lia. reflexivity.
      - assumption.
      - rewrite !append_length, L1. reflexivity.
      - rewrite append_length, gap_length. lia. }
    destruct NS as (m & p & -> & _). cbn [obind]. rewrite trim_end_app by apply gap_blanks. rewrite trim_name by apply F. destruct r; [congruence|reflexivity].
  - rewrite E. destruct k as [[]|]; reflexivity.
Qed.
Lemma second_none n : fixed_five_and_six (gap n) = Got None.
Proof.
  unfold fixed_five_and_six. rewrite gap_length. destruct (25 <=? n)%nat eqn:L; [|reflexivity]. apply Nat.leb_le in L.
  rewrite (slice_mid (gap n) (gap 3) (gap 8) (gap (n - 11))); [|rewrite <- !gap_app; f_equal; lia|apply simple_gap|reflexivity|reflexivity]. cbn [obind].
  rewrite (slice_mid (gap n) (gap 13) (gap 12) (gap (n - 25))); [|rewrite <- !gap_app; f_equal; lia|apply simple_gap|reflexivity|reflexivity]. cbn [obind].
  rewrite (trim_end_blanks (gap 8)) by apply gap_blanks. reflexivity.
Qed.
Lemma second_some r text v n : fixed_name r -> r <> "" -> short_number text v -> fixed_five_and_six ("   " +++ name_and_number r text +++ gap n) = Got (Some (r, text)).
Proof.
  intros F NE [N L]. assert (FL : (String.length r <= 8)%nat) by apply F. set (l := "   " +++ name_and_number r text +++ gap n). assert (S : simple l).
  { unfold l, name_and_number. split_simple; [apply (simple_gap 3)|apply simple_left, simple_name, F|apply (simple_gap 2)|apply simple_right, (simple_number _ _ N)|apply simple_gap]. }
  assert (LL : String.length l = (25 + n)%nat) by (unfold l, name_and_number; rewrite !append_length, gap_length, left_length, right_length by assumption; cbn [String.length]; lia).
  unfold fixed_five_and_six. rewrite LL. replace (25 <=? 25 + n)%nat with true by (symmetry; apply Nat.leb_le; lia).
  rewrite (slice_mid l "   " (left 8 r) ("  " +++ right 12 text +++ gap n)); [|unfold l, name_and_number; rewrite !append_assoc; reflexivity|assumption|reflexivity|rewrite left_length by assumption; reflexivity]. cbn [obind].
  rewrite (slice_mid l ("   " +++ left 8 r +++ "  ") (right 12 text) (gap n));
    [|unfold l, name_and_number; rewrite !append_assoc; reflexivity|assumption|rewrite !append_length, left_length by assumption; reflexivity|rewrite right_length by assumption; reflexivity]. cbn [obind].
  rewrite trim_left by assumption. rewrite (trim_right 12 text v) by assumption. destruct r; [congruence|]. destruct (name_ok_cons text (number_ok text v N)) as (c & x & -> & _). reflexivity.
Qed.
(** the fields of a line with a name and one or two pairs *)
Lemma fields_read name r text v tail : fixed_name name -> fixed_name r -> short_number text v -> simple tail ->
  let l := "    " +++ left 8 name +++ "  " +++ name_and_number r text +++ tail in
  (36 <=? String.length l)%nat = true /\ slice l 4 12 = Got (left 8 name) /\ slice l 14 22 = Got (left 8 r) /\ slice l 24 36 = Got (right 12 text) /\ slice_from l 36 = Got tail.
Proof.
  intros FN FR [N L] T l. assert (LN : (String.length name <= 8)%nat) by apply FN. assert (LR : (String.length r <= 8)%nat) by apply FR.
  assert (S : simple l).
  { unfold l, name_and_number. split_simple; [apply (simple_gap 4)|apply simple_left, simple_name, FN|apply (simple_gap 2)|apply simple_left, simple_name, FR|apply (simple_gap 2)|apply simple_right, (simple_number _ _ N)|assumption]. }
  assert (LL : String.length l = (36 + String.length tail)%nat) by (unfold l, name_and_number; rewrite !append_length, !left_length, right_length by assumption; cbn [String.length]; lia).
  split; [rewrite LL; apply Nat.leb_le; lia|]. split; [|split; [|split]].
  - apply slice_mid with "    " ("  " +++ name_and_number r text +++ tail); [reflexivity|assumption|reflexivity|rewrite left_length by assumption; reflexivity].
  - apply slice_mid with ("    " +++ left 8 name +++ "  ") ("  " +++ right 12 text +++ tail); [unfold l, name_and_number; rewrite !append_assoc; reflexivity|assumption| |rewrite left_length by assumption; reflexivity].
    rewrite !append_length, left_length by assumption. reflexivity.
  - apply slice_mid with ("    " +++ left 8 name +++ "  " +++ left 8 r +++ "  ") tail; [unfold l, name_and_number; rewrite !append_assoc; reflexivity|assumption| |rewrite right_length by assumption; reflexivity].
    rewrite !append_length, !left_length by assumption. reflexivity.
  - apply slice_rest with ("    " +++ left 8 name +++ "  " +++ name_and_number r text); [unfold l, name_and_number; rewrite !append_assoc; reflexivity|assumption|].
    unfold name_and_number. rewrite !append_length, !left_length, right_length by assumption. reflexivity.
Qed.
Lemma simple_pair r text v : fixed_name r -> short_number text v -> simple (name_and_number r text).
Proof. intros F [N _]. unfold name_and_number. split_simple; [apply simple_left, simple_name, F|apply (simple_gap 2)|apply simple_right, (simple_number _ _ N)]. Qed.
Lemma pairs_read name values l : fixed_name name -> (forall r v, In (r, v) values -> fixed_name r /\ r <> "") -> fixed_pairs name values l ->
  exists r text rest, reads_pairs fixed b r text rest values /\ is_part_of_same_section l = true /\ (36 <=? String.length l)%nat = true /\
    slice l 4 12 = Got (left 8 name) /\ slice l 14 22 = Got (left 8 r) /\ slice l 24 36 = Got (right 12 text) /\ slice_from l 36 = Got rest /\ trim_start (right 12 text) = text /\ fixed_name r /\
    (exists v, In (r, v) values) /\ hd "" (map fst values) = r /\ exists tail, l = ("    " +++ left 8 name +++ "  " +++ name_and_number r text +++ tail).
Proof.
  intros FN K (n & H). destruct values as [|[r v] [|[r' v'] [|]]]; try contradiction.
  - destruct H as (text & N & ->). destruct (K r v (or_introl eq_refl)) as [FR _]. destruct (fields_read name r text v (gap n) FN FR N (simple_gap n)) as (A & B & C & D & E).
    exists r, text, (gap n). split; [|split; [apply part_space|split; [assumption|split; [assumption|split; [assumption|split; [assumption|split; [assumption|split; [apply (trim_right 12 text v), N|split; [assumption|split; [exists v; now left|split; [reflexivity|now exists (gap n)]]]]]]]]]]].
    exists v. split; [apply number_parse, N|]. left. split; [reflexivity|apply second_none].
  - destruct H as (text & text' & N & N' & ->). destruct (K r v (or_introl eq_refl)) as [FR _]. destruct (K r' v' (or_intror (or_introl eq_refl))) as [FR' NE].
    assert (T : simple ("   " +++ name_and_number r' text' +++ gap n)) by (split_simple; [apply (simple_gap 3)|now apply simple_pair with v'|apply simple_gap]).
    destruct (fields_read name r text v _ FN FR N T) as (A & B & C & D & E).
    exists r, text, ("   " +++ name_and_number r' text' +++ gap n). split; [|split; [apply part_space|split; [assumption|split; [assumption|split; [assumption|split; [assumption|split; [assumption|split; [apply (trim_right 12 text v), N|split; [assumption|split; [exists v; now left|split; [reflexivity|eexists; reflexivity]]]]]]]]]]].
    exists v. split; [apply number_parse, N|]. right. exists r', text', v'. split; [now apply second_some with v'|]. split; [apply number_parse, N'|reflexivity].
Qed.
Lemma left_marker r : fixed_name r -> r <> "'MARKER'" -> String.eqb (left 8 r) column_marker = false.
Proof. intros F N. apply String.eqb_neq. intros E. apply N. rewrite <- (trim_left 8 r F), E. reflexivity. Qed.
Lemma line_not_comment name x : fixed_first name -> is_comment ("    " +++ left 8 name +++ x) = false.
Proof. intros F. unfold left. rewrite append_assoc. now apply (first_not_comment name 4). Qed.
Lemma empty_not_comment r x : fixed_first r -> is_comment ("    " +++ left 8 "" +++ "  " +++ left 8 r +++ x) = false.
Proof. intros F. unfold left at 2. rewrite append_assoc. now apply (first_not_comment r 14). Qed.
Lemma marker_read kind l : String.length kind = 8%nat -> simple kind -> fixed_marker kind l -> is_part_of_same_section l = true /\ is_column_marker_line fixed l = Got (Marker kind) /\ is_comment l = false.
Proof.
  intros LK SK (label & n & FN & FF & ->). set (l := "    " +++ left 8 label +++ "  " +++ "'MARKER'" +++ gap 17 +++ kind +++ gap n). split; [apply part_space|]. split; [|now apply line_not_comment].
  assert (LN : (String.length label <= 8)%nat) by apply FN.
  assert (S : simple l).
  { unfold l. split_simple; [apply (simple_gap 4)|apply simple_left, simple_name, FN|apply (simple_gap 2)| |apply simple_gap|assumption|apply simple_gap].
    intros c C. left. cbn in C. repeat (destruct C as [<-|C]; [vm_compute; split; discriminate|]). destruct C. }
  assert (LL : String.length l = (47 + n)%nat) by (unfold l; rewrite !append_length, !gap_length, left_length, LK by assumption; cbn [String.length]; lia).
  cbn [is_column_marker_line fixed]. unfold fixed_is_column_marker_line. rewrite LL. replace (36 <=? 47 + n)%nat with true by (symmetry; apply Nat.leb_le; lia). replace (47 <=? 47 + n)%nat with true by (symmetry; apply Nat.leb_le; lia).
  rewrite (slice_mid l ("    " +++ left 8 label +++ "  ") "'MARKER'" (gap 17 +++ kind +++ gap n)); [|unfold l; rewrite !append_assoc; reflexivity|assumption|rewrite !append_length, left_length by assumption; reflexivity|reflexivity].
  cbn [obind]. unfold column_marker. rewrite String.eqb_refl.
  rewrite (slice_mid l ("    " +++ left 8 label +++ "  " +++ "'MARKER'" +++ gap 17) kind (gap n)); [reflexivity|unfold l; rewrite !append_assoc; reflexivity|assumption|rewrite !append_length, left_length, gap_length by assumption; reflexivity|rewrite LK; reflexivity].
Qed.
Lemma fixed_columns item l : fixed_column item l -> (match item with Entries c values => (fixed_name c /\ fixed_first c) /\ forall r v, In (r, v) values -> fixed_name r /\ r <> "" /\ r <> "'MARKER'" | _ => True end) ->
  reads_column fixed b item l /\ is_comment l = false.
Proof.
  assert (SK : forall s, s = "'INTORG'" \/ s = "'INTEND'" -> simple s) by (intros s [->| ->] c C; left; cbn in C; repeat (destruct C as [<-|C]; [vm_compute; split; discriminate|]); destruct C).
  intros C K. destruct item as [c values| |]; cbn [fixed_column] in C.
  - destruct K as [[FN FF] K]. assert (K' : forall r v, In (r, v) values -> fixed_name r /\ r <> "") by (intros r v X; destruct (K r v X); tauto).
    destruct (pairs_read c values l FN K' C) as (r & text & rest & RP & SS & LL & S2 & S3 & S4 & S5 & TT & FR & (v & IN) & _ & tail & E). split; [split; [assumption|]|].
    + exists r, text, rest. split; [|assumption]. cbn [is_column_marker_line fixed]. unfold fixed_is_column_marker_line. rewrite LL, S3. cbn [obind]. rewrite left_marker; [|assumption|now apply (K r v)].
      rewrite S2. cbn [obind]. rewrite S4. cbn [obind]. rewrite S5. cbn [obind]. now rewrite !trim_left, TT.
    + rewrite E. now apply line_not_comment.
  - destruct (marker_read "'INTORG'" l eq_refl (SK _ (or_introl eq_refl)) C) as (A & B & D). split; [split; assumption|assumption].
  - destruct (marker_read "'INTEND'" l eq_refl (SK _ (or_intror eq_refl)) C) as (A & B & D). split; [split; assumption|assumption].
Qed.
Lemma fixed_values item l : fixed_value item l -> vector_ok (fst item) (snd item) -> (forall r v, In (r, v) (snd item) -> fixed_name r /\ r <> "") -> reads_values fixed b item l /\ is_comment l = false.
Proof.
  destruct item as [g values]. cbn [fst snd]. intros V [FN FF] K.
  destruct (pairs_read g values l FN K V) as (r & text & rest & RP & SS & LL & S2 & S3 & S4 & S5 & TT & FR & _ & HD & tail & E). split; [split; [assumption|]|].
  - exists r, text, rest. split; [|assumption]. cbn [two_through_four fixed fst]. unfold fixed_two_through_four. rewrite LL, S2. cbn [obind]. rewrite S3. cbn [obind]. rewrite S4. cbn [obind]. rewrite S5. cbn [obind]. now rewrite !trim_left, TT.
  - rewrite E. destruct FF as [FF|[-> FF]]; [now apply line_not_comment|]. rewrite HD in FF. unfold name_and_number. rewrite append_assoc. now apply empty_not_comment.
Qed.
Lemma key_read key g c tail : String.length key = 2%nat -> simple key -> fixed_name g -> fixed_name c -> simple tail ->
  fixed_one_through_three (" " +++ key +++ " " +++ left 8 g +++ "  " +++ left 8 c +++ tail) = Got (key, g, c, tail).
Proof.
  intros LK SK FG FC ST. set (l := " " +++ key +++ " " +++ left 8 g +++ "  " +++ left 8 c +++ tail). assert (LG : (String.length g <= 8)%nat) by apply FG. assert (LC : (String.length c <= 8)%nat) by apply FC.
  assert (S : simple l) by (unfold l; split_simple; [apply (simple_gap 1)|assumption|apply (simple_gap 1)|apply simple_left, simple_name, FG|apply (simple_gap 2)|apply simple_left, simple_name, FC|assumption]).
  assert (LL : String.length l = (22 + String.length tail)%nat) by (unfold l; rewrite !append_length, !left_length, LK by assumption; cbn [String.length]; lia).
  unfold fixed_one_through_three. rewrite LL. replace (14 <=? 22 + String.length tail)%nat with true by (symmetry; apply Nat.leb_le; lia).
  rewrite (slice_mid l " " key (" " +++ left 8 g +++ "  " +++ left 8 c +++ tail)); [|reflexivity|assumption|reflexivity|rewrite LK; reflexivity]. cbn [obind].
  rewrite (slice_mid l (" " +++ key +++ " ") (left 8 g) ("  " +++ left 8 c +++ tail)); [|unfold l; rewrite !append_assoc; reflexivity|assumption|rewrite !append_length, LK; reflexivity|rewrite left_length by assumption; reflexivity]. cbn [obind].
  rewrite (slice_mid l (" " +++ key +++ " " +++ left 8 g +++ "  ") (left 8 c) tail); [|unfold l; rewrite !append_assoc; reflexivity|assumption|rewrite !append_length, LK, left_length by assumption; reflexivity|rewrite left_length by assumption; reflexivity]. cbn [obind].
  rewrite (slice_rest l (" " +++ key +++ " " +++ left 8 g +++ "  " +++ left 8 c) tail); [|unfold l; rewrite !append_assoc; reflexivity|assumption|rewrite !append_length, LK, !left_length by assumption; reflexivity]. cbn [obind].
  now rewrite !trim_left.
Qed.
Lemma four_read text v n : short_number text v -> fixed_four ("  " +++ right 12 text +++ gap n) = Got text.
Proof.
  intros [N L]. set (l := "  " +++ right 12 text +++ gap n). assert (S : simple l) by (unfold l; split_simple; [apply (simple_gap 2)|apply simple_right, (simple_number _ _ N)|apply simple_gap]).
  assert (LL : String.length l = (14 + n)%nat) by (unfold l; rewrite !append_length, right_length, gap_length by assumption; cbn [String.length]; lia).
  unfold fixed_four. rewrite LL. replace (14 <=? 14 + n)%nat with true by (symmetry; apply Nat.leb_le; lia).
  rewrite (slice_mid l "  " (right 12 text) (gap n)); [|reflexivity|assumption|reflexivity|rewrite right_length by assumption; reflexivity]. cbn [obind]. now rewrite (trim_right 12 text v).
Qed.
Lemma fixed_bounds item l : fixed_bound item l -> fixed_name (snd (fst item)) -> fixed_name (snd item) -> reads_bound fixed b item l /\ is_comment l = false.
Proof.
  destruct item as [[t g] c]. cbn [fst snd]. intros BD FG FC.
  assert (PL : forall key n, In key ["FR"; "MI"; "PL"; "BV"] -> l = (" " +++ key +++ " " +++ left 8 g +++ "  " +++ left 8 c +++ gap n) ->
    is_part_of_same_section l = true /\ one_through_three fixed l = Got (key, g, c, gap n) /\ is_comment l = false).
  { intros key n I ->. cbn [one_through_three fixed]. assert (Q : simple key) by (destruct I as [<-|[<-|[<-|[<-|[]]]]]; intros x X; left; cbn in X; repeat (destruct X as [<-|X]; [vm_compute; split; discriminate|]); destruct X).
    split; [apply part_space|]. split; [|destruct I as [<-|[<-|[<-|[<-|[]]]]]; reflexivity].
    apply key_read; [destruct I as [<-|[<-|[<-|[<-|[]]]]]; reflexivity|assumption|assumption|assumption|apply simple_gap]. }
  assert (VL : forall key text v n, In key ["LO"; "UP"; "FX"; "LI"; "UI"] -> short_number text v -> l = (" " +++ key +++ " " +++ left 8 g +++ "  " +++ name_and_number c text +++ gap n) ->
    is_part_of_same_section l = true /\ one_through_three fixed l = Got (key, g, c, "  " +++ right 12 text +++ gap n) /\ is_comment l = false).
  { intros key text v n I N ->. cbn [one_through_three fixed]. assert (Q : simple key) by (destruct I as [<-|[<-|[<-|[<-|[<-|[]]]]]]; intros x X; left; cbn in X; repeat (destruct X as [<-|X]; [vm_compute; split; discriminate|]); destruct X).
    split; [apply part_space|]. split; [|destruct I as [<-|[<-|[<-|[<-|[<-|[]]]]]]; reflexivity].
    unfold name_and_number. rewrite !append_assoc. apply key_read; [destruct I as [<-|[<-|[<-|[<-|[<-|[]]]]]]; reflexivity|assumption|assumption|assumption|].
    split_simple; [apply (simple_gap 2)|apply simple_right, (simple_number _ v), N|apply simple_gap]. }
  unfold fixed_bound in BD. cbv zeta in BD.
  assert (VT : forall key (f : Qc -> bound_type) v, In key ["LO"; "UP"; "FX"; "LI"; "UI"] -> (forall rest text, fixed_four rest = Got text -> parse_number b text = Got v -> bound_type_of b fixed key rest = Got (f v)) ->
    (exists text n, short_number text v /\ l = (" " +++ key +++ " " +++ left 8 g +++ "  " +++ name_and_number c text +++ gap n)) -> t = f v -> reads_bound fixed b (t, g, c) l /\ is_comment l = false).
  { intros key f v I T (text & n & N & E) ->. destruct (VL key text v n I N E) as (A & B & C). split; [|assumption]. split; [assumption|]. exists key, ("  " +++ right 12 text +++ gap n). split; [exact B|].
    cbn [fst]. apply (T _ text); [now apply four_read with v|apply number_parse, N]. }
  assert (PT : forall key, In key ["FR"; "MI"; "PL"; "BV"] -> (forall rest, bound_type_of b fixed key rest = Got t) ->
    (exists n, l = (" " +++ key +++ " " +++ left 8 g +++ "  " +++ left 8 c +++ gap n)) -> reads_bound fixed b (t, g, c) l /\ is_comment l = false).
  { intros key I T (n & E). destruct (PL key n I E) as (A & B & C). split; [|assumption]. split; [assumption|]. exists key, (gap n). split; [exact B|]. apply T. }
  destruct t as [value|value|value| | | | |value|value|value]; try contradiction.
  - apply (VT "LO" LowerContinuous value); [cbn; tauto|intros rest text F4 PN; unfold bound_type_of; cbn [String.eqb Ascii.eqb Bool.eqb four fixed]; rewrite F4; cbn [obind]; rewrite PN; reflexivity|exact BD|reflexivity].
  - apply (VT "UP" UpperContinuous value); [cbn; tauto|intros rest text F4 PN; unfold bound_type_of; cbn [String.eqb Ascii.eqb Bool.eqb four fixed]; rewrite F4; cbn [obind]; rewrite PN; reflexivity|exact BD|reflexivity].
  - apply (VT "FX" Fixed value); [cbn; tauto|intros rest text F4 PN; unfold bound_type_of; cbn [String.eqb Ascii.eqb Bool.eqb four fixed]; rewrite F4; cbn [obind]; rewrite PN; reflexivity|exact BD|reflexivity].
  - apply (PT "FR"); [cbn; tauto|intros rest; reflexivity|exact BD].
  - apply (PT "MI"); [cbn; tauto|intros rest; reflexivity|exact BD].
  - apply (PT "PL"); [cbn; tauto|intros rest; reflexivity|exact BD].
  - apply (PT "BV"); [cbn; tauto|intros rest; reflexivity|exact BD].
  - apply (VT "LI" LowerInteger value); [cbn; tauto|intros rest text F4 PN; unfold bound_type_of; cbn [String.eqb Ascii.eqb Bool.eqb four fixed]; rewrite F4; cbn [obind]; rewrite PN; reflexivity|exact BD|reflexivity].
  - apply (VT "UI" UpperInteger value); [cbn; tauto|intros rest text F4 PN; unfold bound_type_of; cbn [String.eqb Ascii.eqb Bool.eqb four fixed]; rewrite F4; cbn [obind]; rewrite PN; reflexivity|exact BD|reflexivity].
Qed.
Theorem fixed_layout f text : fixed_ok f -> fixed_spells text f -> layout fixed b f text.
Proof.
  intros OK (ls & (name & extra & rows & sense & columns & rhs & ranges & bounds & NM & SE & FR & FC & FH & FG & FB & ->) & T). pose proof (xo_rules f OK) as RU.
  assert (N1 : (forall rest, parse_program_name fixed (("NAME" +++ name) :: rest) = Got (f_name f, rest)) /\ is_comment ("NAME" +++ name) = false) by exact (free_name name (f_name f) extra NM). destruct N1 as [N1 N2]. destruct (sense_read _ _ SE) as [S1 S2].
  destruct (forall_reads fixed_row (reads_row fixed) (f_rows f) rows) as [R1 R2]; [|assumption|].
  { intros [k r] l H X. apply fixed_rows; [| |assumption]; now apply (xo_row_names f OK) in H. }
  assert (RN : forall r, In r (map snd (f_rows f)) -> fixed_name r /\ r <> "" /\ r <> "'MARKER'") by (intros r X; apply in_map_iff in X; destruct X as ([k r'] & <- & X); now apply (xo_row_names f OK k)).
  assert (CN : forall r, In r (map row_name (constraint_rows f)) -> fixed_name r /\ r <> "") by (intros r X; apply rows_names in X; destruct (RN r X); tauto).
  destruct (forall_reads fixed_column (reads_column fixed b) (f_columns f) columns) as [C1 C2]; [|assumption|].
  { intros item l H C. apply fixed_columns; [assumption|]. destruct item as [c values| |]; [|exact Logic.I|exact Logic.I]. split; [now apply (xo_column_names f OK c values)|]. intros r v V.
    apply RN, (fr_coefficient_rows f RU c r v). apply in_flat_map. exists (Entries c values). split; [assumption|]. apply in_map_iff. exists (r, v). split; [reflexivity|assumption]. }
  destruct (section_reads "RHS" fixed_value (reads_values fixed b) (f_rhs f) rhs) as [H1 H2]; [reflexivity| |assumption|].
  { intros [g values] l H V. apply fixed_values; [assumption|now apply (xo_rhs_names f OK)|]. intros r v X. apply CN, (fr_rhs_rows f RU g r v). apply in_flat_map. exists (g, values). split; [assumption|]. apply in_map_iff. exists (r, v). split; [reflexivity|assumption]. }
  destruct (section_reads "RANGES" fixed_value (reads_values fixed b) (f_ranges f) ranges) as [G1 G2]; [reflexivity| |assumption|].
  { intros [g values] l H V. apply fixed_values; [assumption|now apply (xo_range_names f OK)|]. intros r v X. apply CN, (fr_range_rows f RU g r v). apply in_flat_map. exists (g, values). split; [assumption|]. apply in_map_iff. exists (r, v). split; [reflexivity|assumption]. }
  destruct (section_reads "BOUNDS" fixed_bound (reads_bound fixed b) (f_bounds f) bounds) as [B1 B2]; [reflexivity| |assumption|].
  { intros [[t g] c] l H V. apply fixed_bounds; [assumption|now apply (xo_bound_names f OK t g c)|]. cbn [snd]. pose proof (fr_bound_columns f RU t g c H) as X.
    unfold columns_of in X. apply in_map_iff in X. destruct X as ([c' i] & <- & X). assert (Y : exists values, In (Entries c' values) (f_columns f)).
    { clear -X. revert X. generalize false as z. generalize (@None string) as o. induction (f_columns f) as [|[c values| |] l IH]; intros o z X; cbn [columns_from] in X; [destruct X| | |].
      - destruct (match o with Some l0 => (l0 =? c)%string | None => false end); [apply IH in X; destruct X as (w & X); exists w; now right|]. destruct X as [E|X]; [injection E as <- <-; exists values; now left|apply IH in X; destruct X as (w & X); exists w; now right].
      - apply IH in X; destruct X as (w & X); exists w; now right.
      - apply IH in X; destruct X as (w & X); exists w; now right. }
    destruct Y as (values & Y). now apply (xo_column_names f OK c' values). }
  exists ("NAME" +++ name), sense, rows, columns, rhs, ranges, bounds. split; [|exact (conj N1 (conj S1 (conj R1 (conj C1 (conj H1 (conj G1 B1))))))].
  apply text_lines with (1 := T). intros l H.
  apply in_app_or in H. destruct H as [[<-|[]]|H]; [exact N2|]. apply in_app_or in H. destruct H as [H|H]; [now apply S2|]. apply in_app_or in H. destruct H as [H|H]; [now apply R2|].
  apply in_app_or in H. destruct H as [[<-|[]]|H]; [reflexivity|]. apply in_app_or in H. destruct H as [H|H]; [now apply C2|]. apply in_app_or in H. destruct H as [H|H]; [now apply H2|].
  apply in_app_or in H. destruct H as [H|H]; [now apply G2|]. apply in_app_or in H. destruct H as [H|[<-|[]]]; [now apply B2|reflexivity].
Qed.
Theorem fixed_read f text : fixed_ok f -> fixed_spells text f -> exists m, parse_fixed b text = Got m /\ describes m f.
Proof. intros OK T. apply layout_read; [exact (xo_rules f OK)|now apply fixed_layout]. Qed.
End Fixed.
