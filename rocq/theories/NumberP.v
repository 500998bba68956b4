(** * Reading numbers *)
From Verif Require Import SpecMps.
Local Open Scope Z_scope.

Lemma digit_of_char d : (d < 10)%nat -> digit_of (digit_char d) = Some (Z.of_nat d).
Proof. intros H. do 10 (destruct d as [|d]; [reflexivity|]). lia. Qed.
Lemma digit_of_some c z : digit_of c = Some z -> exists d, (d < 10)%nat /\ c = digit_char d /\ z = Z.of_nat d.
Proof.
  intros H. exists (Z.to_nat z). revert H. destruct c as [b0 b1 b2 b3 b4 b5 b6 b7].
  destruct b0, b1, b2, b3, b4, b5, b6, b7; vm_compute; intros H; try discriminate; injection H as <-; repeat split; lia.
Qed.
Definition accumulate (acc : Z) (l : list nat) : Z := fold_left (fun acc d => 10 * acc + Z.of_nat d) l acc.
Lemma digits_text : forall l acc, all_digits l -> digits acc (digit_text l) = Some (accumulate acc l).
Proof.
  induction l as [|d l IH]; intros acc H; [reflexivity|]. cbn [digit_text fold_right digits]. rewrite digit_of_char by (apply H; now left). apply IH. intros e K. apply H. now right.
Qed.
Lemma digits_some : forall t acc z, digits acc t = Some z -> exists l, all_digits l /\ t = digit_text l /\ z = accumulate acc l.
Proof.
  induction t as [|c t IH]; intros acc z; cbn.
  - intros E. injection E as <-. exists []. repeat split. intros d [].
  - destruct (digit_of c) as [e|] eqn:D; [|discriminate]. intros E. apply digit_of_some in D. destruct D as (d & Ld & -> & ->).
    destruct (IH _ _ E) as (l & A & -> & ->). exists (d :: l). repeat split. intros x [<-|K]; [assumption|now apply A].
Qed.
Lemma accumulate_ge : forall l acc, 0 <= acc -> acc <= accumulate acc l.
Proof. induction l as [|d l IH]; intros acc H; [cbn; lia|]. specialize (IH (10 * acc + Z.of_nat d)). unfold accumulate in IH. cbn [accumulate fold_left]. unfold accumulate. cbn [fold_left]. lia. Qed.
Lemma accumulate_split : forall l acc, accumulate acc l = acc * 10 ^ Z.of_nat (length l) + decimal l.
Proof.
  induction l as [|d l IH]; intros acc; cbn [accumulate fold_left length].
  - rewrite Z.pow_0_r. cbn. lia.
  - change (fold_left (fun acc0 d0 => 10 * acc0 + Z.of_nat d0) l (10 * acc + Z.of_nat d)) with (accumulate (10 * acc + Z.of_nat d) l).
    unfold decimal. cbn [fold_left]. change (fold_left (fun acc0 d0 => 10 * acc0 + Z.of_nat d0) l (10 * 0 + Z.of_nat d)) with (accumulate (10 * 0 + Z.of_nat d) l).
    rewrite !IH. rewrite Nat2Z.inj_succ, Z.pow_succ_r by lia. ring.
Qed.
Lemma decimal_app a b : decimal (a ++ b) = decimal a * 10 ^ Z.of_nat (length b) + decimal b.
Proof. unfold decimal at 1. rewrite fold_left_app. apply (accumulate_split b (decimal a)). Qed.
Lemma decimal_nonneg l : 0 <= decimal l. Proof. apply accumulate_ge. lia. Qed.
Lemma digit_text_length l : String.length (digit_text l) = length l.
Proof. induction l as [|d l IH]; [reflexivity|]. change (digit_text (d :: l)) with (String (digit_char d) (digit_text l)). cbn [String.length length]. now rewrite IH. Qed.
Lemma digit_char_not d c : (d < 10)%nat -> digit_of c = None -> Ascii.eqb (digit_char d) c = false.
Proof. intros H N. apply Ascii.eqb_neq. intros E. rewrite <- E, digit_of_char in N by assumption. discriminate. Qed.

Lemma parse_part_ok l : all_digits l -> decimal l < two64 -> parse_part (digit_text l) = Got (decimal l).
Proof.
  intros A L. destruct l as [|d l]; [reflexivity|]. unfold parse_part, str_to_u64. cbn [digit_text fold_right].
  rewrite digit_char_not; [|apply A; now left|reflexivity].
  change (String (digit_char d) (fold_right (fun d0 t => String (digit_char d0) t) EmptyString l)) with (digit_text (d :: l)).
  rewrite digits_text by assumption. cbn [in_u64]. change (accumulate 0 (d :: l)) with (decimal (d :: l)).
  apply Z.ltb_lt in L. now rewrite L.
Qed.
Lemma parse_part_got t z : parse_part t = Got z -> part t z.
Proof.
  unfold parse_part. destruct t as [|c t]; [intros E; injection E as <-; now left|]. unfold str_to_u64.
  destruct (Ascii.eqb_spec c "+") as [->|N].
  - destruct t as [|c t]; [discriminate|]. destruct (digits 0 (String c t)) as [y|] eqn:D; [|discriminate]. cbn [in_u64].
    destruct (Z.ltb_spec y two64); [|discriminate]. intros E. injection E as <-. right. apply digits_some in D. destruct D as (l & A & E & ->).
    exists true, l. split; [assumption|]. split; [intros ->; discriminate|]. split; [now rewrite E|]. split; [reflexivity|assumption].
  - destruct (digits 0 (String c t)) as [y|] eqn:D; [|discriminate]. cbn [in_u64].
    destruct (Z.ltb_spec y two64); [|discriminate]. intros E. injection E as <-. right. apply digits_some in D. destruct D as (l & A & E & ->).
    exists false, l. split; [assumption|]. split; [intros ->; discriminate|]. split; [exact E|]. split; [reflexivity|assumption].
Qed.
Lemma part_parse t z : part t z -> parse_part t = Got z.
Proof.
  intros [[-> ->]|(plus & l & A & N & -> & -> & L)]; [reflexivity|]. destruct plus; [|now apply parse_part_ok].
  unfold parse_part, str_to_u64. cbn [String.append]. rewrite Ascii.eqb_refl. destruct (digit_text l) as [|c t] eqn:T; [destruct l; [congruence|discriminate]|].
  rewrite <- T. rewrite digits_text by assumption. change (accumulate 0 l) with (decimal l). cbn [in_u64]. apply Z.ltb_lt in L. now rewrite L.
Qed.
Lemma part_nonneg t z : part t z -> 0 <= z.
Proof. intros [[_ ->]|(p & l & _ & _ & _ & -> & _)]; [lia|apply decimal_nonneg]. Qed.
Lemma parse_part_no_crash t : parse_part t <> Crashed.
Proof. unfold parse_part. destruct t; [discriminate|]. destruct (str_to_u64 _); discriminate. Qed.
Lemma split_digits : forall l rest, all_digits l -> split_point (digit_text l ++ rest) = (digit_text l ++ fst (split_point rest), snd (split_point rest))%string.
Proof.
  induction l as [|d l IH]; intros rest H; [cbn; now destruct (split_point rest)|]. change (digit_text (d :: l)) with (String (digit_char d) (digit_text l)). cbn [String.append split_point].
  rewrite digit_char_not by (try reflexivity; apply H; now left). rewrite IH by (intros e K; apply H; now right). reflexivity.
Qed.
Lemma split_part t z rest : part t z -> split_point (t ++ rest) = (t ++ fst (split_point rest), snd (split_point rest))%string.
Proof.
  intros [[-> _]|(plus & l & A & _ & -> & _)]; [cbn; now destruct (split_point rest)|].
  destruct plus; cbn; [|now apply split_digits]. rewrite split_digits by assumption. reflexivity.
Qed.
Lemma split_join : forall t a b, split_point t = (a, b) -> t = match b with Some r => (a ++ "." ++ r)%string | None => a end.
Proof.
  induction t as [|c t IH]; intros a b; cbn.
  - intros E. injection E as <- <-. reflexivity.
  - destruct (Ascii.eqb_spec c ".") as [->|N].
    + intros E. injection E as <- <-. reflexivity.
    + destruct (split_point t) as [a' b']. intros E. injection E as <- <-. rewrite (IH a' b' eq_refl). destruct b'; reflexivity.
Qed.
Lemma append_nil (s : string) : (s ++ "")%string = s. Proof. induction s; cbn; congruence. Qed.
Lemma u64_small b z : z < two64 -> u64 b z = Got z.
Proof. intros H. unfold u64. apply Z.ltb_lt in H. now rewrite H. Qed.
Lemma pow10_pos k : 0 < 10 ^ Z.of_nat k. Proof. apply Z.pow_pos_nonneg; lia. Qed.

Lemma zq_add a b : zq_ (a + b) = (zq_ a + zq_ b)%Qc.
Proof. apply Qc_is_canon. change (Qred (inject_Z (a + b)) == Qred (Qred (inject_Z a) + Qred (inject_Z b)))%Q. rewrite !Qred_correct. rewrite inject_Z_plus. reflexivity. Qed.
Lemma zq_mul a b : zq_ (a * b) = (zq_ a * zq_ b)%Qc.
Proof. apply Qc_is_canon. change (Qred (inject_Z (a * b)) == Qred (Qred (inject_Z a) * Qred (inject_Z b)))%Q. rewrite !Qred_correct. rewrite inject_Z_mult. reflexivity. Qed.
Lemma zq_nonzero a : a <> 0 -> zq_ a <> 0%Qc.
Proof.
  intros N E. apply N. assert (K : (inject_Z a == 0)%Q).
  { rewrite <- (Qred_correct (inject_Z a)). change (Qred (inject_Z a)) with (this (zq_ a)). rewrite E. reflexivity. }
  unfold Qeq in K. cbn in K. lia.
Qed.

(** the two forms of a number *)
Lemma number_plain b (minus : bool) whole z : part whole z -> (minus = false -> whole <> EmptyString) ->
  parse_number b ((if minus then "-" else "") ++ whole)%string = Got (if minus then - zq_ z else zq_ z)%Qc.
Proof.
  intros P N. pose proof (split_part whole z "" P) as SP. rewrite append_nil in SP. cbn in SP. rewrite append_nil in SP.
  assert (V : (zq_ z / zq_ 1)%Qc = zq_ z) by (change (zq_ 1) with 1%Qc; field; discriminate).
  assert (F : forall mn, raw_to_number b (mk_raw mn z 0) = Got (if mn then - zq_ z else zq_ z)%Qc).
  { intros mn. unfold raw_to_number. cbn [r_steps r_integer r_minus]. rewrite u64_small by reflexivity. cbn [obind].
    destruct (Z.eqb_spec (10 ^ Z.of_nat 0) 0); [discriminate|]. change (10 ^ Z.of_nat 0) with 1. rewrite V. reflexivity. }
  unfold parse_number. destruct minus; cbn [String.append raw_from].
  - change (128 <=? Z.of_N (N_of_ascii "-")) with false. cbn iota. change (Ascii.eqb "-" "-") with true. cbn iota.
    rewrite SP. rewrite (part_parse _ _ P). cbn [obind]. apply F.
  - destruct whole as [|c t]; [now destruct N|]. cbn [raw_from].
    assert (C : (128 <=? Z.of_N (N_of_ascii c)) = false /\ Ascii.eqb c "-" = false).
    { destruct P as [[Q _]|(plus & l & A & Nl & Q & _)]; [discriminate|]. destruct plus; [injection Q as -> _; now split|].
      destruct l as [|d l]; [congruence|]. injection Q as -> _. assert (L : (d < 10)%nat) by (apply A; now left). clear -L.
      do 10 (destruct d as [|d]; [now split|]). lia. }
    destruct C as [C1 C2]. rewrite C1, C2. rewrite SP. rewrite (part_parse _ _ P). cbn [obind]. apply F.
Qed.
Lemma number_point b (minus : bool) whole z rest y : part whole z -> part rest y ->
  10 ^ Z.of_nat (String.length rest) < two64 -> z * 10 ^ Z.of_nat (String.length rest) + y < two64 ->
  parse_number b ((if minus then "-" else "") ++ whole ++ "." ++ rest)%string =
    Got (let w := zq_ z + zq_ y / zq_ (10 ^ Z.of_nat (String.length rest)) in if minus then - w else w)%Qc.
Proof.
  intros P R L1 L2. pose proof (part_nonneg _ _ P) as Z0. pose proof (part_nonneg _ _ R) as Y0. pose proof (pow10_pos (String.length rest)) as P0.
  pose proof (split_part whole z ("." ++ rest) P) as SP. cbn in SP. rewrite append_nil in SP.
  set (power := 10 ^ Z.of_nat (String.length rest)) in *.
  assert (F : forall mn, (let~ r := (let~ integer := parse_part whole in let~ mantissa := parse_part rest in let~ pw := u64 b (10 ^ Z.of_nat (String.length rest)) in
      let~ product := u64 b (integer * pw) in let~ s := u64 b (product + mantissa) in Got (mk_raw mn s (String.length rest))) in raw_to_number b r) =
      Got (let w := zq_ z + zq_ y / zq_ power in if mn then - w else w)%Qc).
  { intros mn. rewrite (part_parse _ _ P), (part_parse _ _ R). cbn [obind]. fold power. rewrite u64_small by assumption. cbn [obind].
    rewrite u64_small by lia. cbn [obind]. rewrite u64_small by assumption. cbn [obind]. unfold raw_to_number. cbn [r_steps r_integer r_minus].
    fold power. rewrite u64_small by assumption. cbn [obind]. destruct (Z.eqb_spec power 0); [lia|].
    assert (E : (zq_ (z * power + y) / zq_ power)%Qc = (zq_ z + zq_ y / zq_ power)%Qc).
    { rewrite zq_add, zq_mul. field. apply zq_nonzero. lia. }
    rewrite E. reflexivity. }
  unfold parse_number. destruct minus; cbn [String.append raw_from].
  - change (128 <=? Z.of_N (N_of_ascii "-")) with false. cbn iota. change (Ascii.eqb "-" "-") with true. cbn iota.
    cbn [String.append] in SP. rewrite SP. apply (F true).
  - destruct whole as [|c t].
    + cbn [String.append]. cbn [raw_from]. change (128 <=? Z.of_N (N_of_ascii ".")) with false. cbn iota. change (Ascii.eqb "." "-") with false. cbn iota.
      cbn [String.append] in SP. rewrite SP. apply (F false).
    + cbn [String.append raw_from].
      assert (C : (128 <=? Z.of_N (N_of_ascii c)) = false /\ Ascii.eqb c "-" = false).
      { destruct P as [[Q _]|(plus & l & A & Nl & Q & _)]; [discriminate|]. destruct plus; [injection Q as -> _; now split|].
        destruct l as [|d l]; [congruence|]. injection Q as -> _. assert (L : (d < 10)%nat) by (apply A; now left). clear -L.
        do 10 (destruct d as [|d]; [now split|]). lia. }
      destruct C as [C1 C2]. rewrite C1, C2. cbn [String.append] in SP. rewrite SP. apply (F false).
Qed.
Lemma digit_part l : all_digits l -> decimal l < two64 -> part (digit_text l) (decimal l).
Proof.
  intros A L. destruct l as [|d l]; [now left|]. right. exists false, (d :: l). repeat split; try assumption. discriminate.
Qed.
Theorem number_exact b l : literal_ok l -> parse_number b (literal_text l) = Got (literal_value l).
Proof.
  destruct l as [minus whole [f|]]; unfold literal_ok, literal_text, literal_value, fraction_of; cbn [lit_minus lit_whole lit_fraction]; intros (A & B & N & L1 & L2).
  - rewrite decimal_app in L1. pose proof (decimal_nonneg whole). pose proof (decimal_nonneg f). pose proof (pow10_pos (length f)).
    rewrite <- (digit_text_length f). apply number_point; rewrite ?digit_text_length; try assumption; apply digit_part; try assumption; nia.
  - rewrite app_nil_r in L1. rewrite append_nil. cbn [length]. change (decimal []) with 0. change (10 ^ Z.of_nat 0) with 1.
    replace (zq_ (decimal whole) + zq_ 0 / zq_ 1)%Qc with (zq_ (decimal whole)) by (change (zq_ 0) with 0%Qc; change (zq_ 1) with 1%Qc; field; discriminate).
    apply number_plain; [now apply digit_part|]. intros _ E. destruct N as [N|N]; [|congruence]. destruct whole; [congruence|discriminate].
Qed.
(** in a build that checks for overflow, nothing else is accepted *)
Theorem number_accepted text v : parse_number Checked text = Got v <-> text <> EmptyString /\ accepted text v.
Proof.
  split.
  - unfold parse_number, raw_from. destruct text as [|c t]; [discriminate|]. intros E. split; [discriminate|]. revert E.
    destruct (128 <=? Z.of_N (N_of_ascii c)); [discriminate|].
    set (mt := if Ascii.eqb c "-" then (true, t) else (false, String c t)).
    assert (M : String c t = ((if fst mt then "-" else "") ++ snd mt)%string).
    { unfold mt. destruct (Ascii.eqb_spec c "-") as [->|]; reflexivity. }
    destruct mt as [minus text]. cbn [fst snd] in M. destruct (split_point text) as [whole [rest|]] eqn:S; apply split_join in S; subst text.
    + destruct (parse_part whole) as [z| |] eqn:P; cbn [obind]; try discriminate. destruct (parse_part rest) as [y| |] eqn:R; cbn [obind]; try discriminate.
      apply parse_part_got in P, R. pose proof (part_nonneg _ _ P). pose proof (part_nonneg _ _ R).
      assert (U : forall z, u64 Checked z = if z <? two64 then Got z else Crashed) by reflexivity. rewrite !U.
      destruct (Z.ltb_spec (10 ^ Z.of_nat (String.length rest)) two64) as [L1|]; [|discriminate]. cbn [obind]. rewrite U.
      destruct (Z.ltb_spec (z * 10 ^ Z.of_nat (String.length rest)) two64) as [L2|]; [|discriminate]. cbn [obind]. rewrite U.
      destruct (Z.ltb_spec (z * 10 ^ Z.of_nat (String.length rest) + y) two64) as [L3|]; [|discriminate]. cbn [obind].
      unfold raw_to_number. cbn [r_steps r_integer r_minus]. rewrite U. apply Z.ltb_lt in L1 as L1'. rewrite L1'. cbn [obind].
      pose proof (pow10_pos (String.length rest)) as P0. destruct (Z.eqb_spec (10 ^ Z.of_nat (String.length rest)) 0); [lia|]. intros E. injection E as <-.
      exists minus, whole, z. split; [assumption|]. right. exists rest, y. split; [assumption|]. split; [exact M|]. cbv zeta. split; [assumption|]. split; [assumption|].
      assert (E : (zq_ (z * 10 ^ Z.of_nat (String.length rest) + y) / zq_ (10 ^ Z.of_nat (String.length rest)))%Qc = (zq_ z + zq_ y / zq_ (10 ^ Z.of_nat (String.length rest)))%Qc).
      { rewrite zq_add, zq_mul. field. apply zq_nonzero. lia. }
      rewrite E. reflexivity.
    + destruct (parse_part whole) as [z| |] eqn:P; cbn [obind]; try discriminate. apply parse_part_got in P. unfold raw_to_number. cbn [r_steps r_integer r_minus].
      rewrite u64_small by reflexivity. cbn [obind]. destruct (Z.eqb_spec (10 ^ Z.of_nat 0) 0); [discriminate|]. intros E. injection E as <-.
      exists minus, whole, z. split; [assumption|]. left. split; [exact M|]. change (10 ^ Z.of_nat 0) with 1.
      replace (zq_ z / zq_ 1)%Qc with (zq_ z) by (change (zq_ 1) with 1%Qc; field; discriminate). reflexivity.
  - intros [N (minus & whole & z & P & [[-> ->]|(rest & y & R & -> & L1 & L2 & ->)])].
    + apply number_plain; [assumption|]. intros -> ->. now apply N.
    + now apply number_point.
Qed.

(** texts of another shape are rejected, in both builds *)
Lemma parse_part_rejects t : (forall z, ~ part t z) -> parse_part t = Rejected Syntax.
Proof.
  intros N. destruct (parse_part t) as [z|e|] eqn:P.
  - apply parse_part_got in P. now apply N in P.
  - unfold parse_part in P. destruct t; [discriminate|]. destruct (str_to_u64 _); [discriminate|]. now injection P as <-.
  - now apply parse_part_no_crash in P.
Qed.
Lemma parse_part_cases t : (exists z, part t z /\ parse_part t = Got z) \/ parse_part t = Rejected Syntax.
Proof.
  destruct (parse_part t) as [z|e|] eqn:P.
  - left. exists z. split; [now apply parse_part_got|reflexivity].
  - right. unfold parse_part in P. destruct t; [discriminate|]. destruct (str_to_u64 _); [discriminate|]. now injection P as <-.
  - now apply parse_part_no_crash in P.
Qed.
Theorem number_rejected b c t : (N_of_ascii c < 128)%N -> ~ number_shaped (String c t) -> parse_number b (String c t) = Rejected Syntax.
Proof.
  intros A N. unfold parse_number, raw_from. destruct (Z.leb_spec 128 (Z.of_N (N_of_ascii c))); [lia|].
  set (mt := if Ascii.eqb c "-" then (true, t) else (false, String c t)).
  assert (M : String c t = ((if fst mt then "-" else "") ++ snd mt)%string).
  { unfold mt. destruct (Ascii.eqb_spec c "-") as [->|]; reflexivity. }
  destruct mt as [minus text]. cbn [fst snd] in M. rewrite M in N. destruct (split_point text) as [whole [rest|]] eqn:S; apply split_join in S; subst text.
  - destruct (parse_part_cases whole) as [(z & P & ->)| ->]; [|reflexivity]. destruct (parse_part_cases rest) as [(y & R & ->)| ->]; [|reflexivity].
    destruct N. exists minus, whole, z. split; [assumption|]. right. exists rest, y. now split.
  - destruct (parse_part_cases whole) as [(z & P & ->)| ->]; [|reflexivity]. destruct N. exists minus, whole, z. split; [assumption|]. now left.
Qed.
Lemma digit_text_chars c : forall l, all_digits l -> In c (list_ascii_of_string (digit_text l)) -> exists d, (d < 10)%nat /\ c = digit_char d.
Proof.
  induction l as [|d l IH]; intros A H; [destruct H|]. change (digit_text (d :: l)) with (String (digit_char d) (digit_text l)) in H.
  cbn [list_ascii_of_string] in H. destruct H as [<-|H]; [exists d; split; [apply A; now left|reflexivity]|]. apply IH; [|assumption]. intros e K. apply A. now right.
Qed.
Lemma chars_append : forall a b, list_ascii_of_string (a ++ b) = (list_ascii_of_string a ++ list_ascii_of_string b)%list.
Proof. induction a as [|c a IH]; intros b; cbn; [reflexivity|]. now rewrite IH. Qed.
Definition number_char (c : ascii) : Prop := c = "+"%char \/ c = "-"%char \/ c = "."%char \/ exists d, (d < 10)%nat /\ c = digit_char d.
Lemma part_chars t z c : part t z -> In c (list_ascii_of_string t) -> number_char c.
Proof.
  intros [[-> _]|(plus & l & A & _ & -> & _)] H; [destruct H|]. rewrite chars_append in H. apply in_app_or in H. destruct H as [H|H].
  - destruct plus; [|destruct H]. destruct H as [<-|[]]. now left.
  - right. right. right. now apply digit_text_chars in H.
Qed.
Lemma shaped_chars text c : number_shaped text -> In c (list_ascii_of_string text) -> number_char c.
Proof.
  intros (minus & whole & z & P & [->|(rest & y & R & ->)]) H; rewrite chars_append in H; apply in_app_or in H;
    (destruct H as [H|H]; [destruct minus; [destruct H as [<-|[]]; right; now left|destruct H]|]).
  - now apply (part_chars _ _ _ P) in H.
  - rewrite chars_append in H. apply in_app_or in H. destruct H as [H|H]; [now apply (part_chars _ _ _ P) in H|].
    cbn in H. destruct H as [<-|H]; [right; right; now left|]. now apply (part_chars _ _ _ R) in H.
Qed.
