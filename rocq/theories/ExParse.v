(** * MPS files: checking that a text spells a content, and examples *)
From Verif Require Import SpecParse MpsParse NumberP TextP.
Local Open Scope string_scope.
Local Open Scope list_scope.

(** ** Checking *)
Definition visibleb (c : ascii) : bool := let k := N_of_ascii c in ((33 <=? k) && (k <=? 126))%N.
Definition blankb (c : ascii) : bool := Ascii.eqb c " " || Ascii.eqb c (ascii_of_nat 9).
Definition line_char (c : ascii) : bool := visibleb c || blankb c.
Definition text_char (c : ascii) : bool := line_char c || Ascii.eqb c newline.
Lemma visibleb_true c : visibleb c = true -> visible c.
Proof. unfold visibleb, visible. intros H. apply andb_true_iff in H. destruct H as [A B]. apply N.leb_le in A, B. lia. Qed.
Lemma blankb_true c : blankb c = true -> blank c.
Proof. unfold blankb, blank. intros H. apply orb_true_iff in H. destruct H as [H|H]; apply Ascii.eqb_eq in H; tauto. Qed.
Definition name_okb (s : string) : bool := negb (is_empty s) && forallb visibleb (chars s).
Lemma name_okb_ok s : name_okb s = true -> name_ok s.
Proof.
  unfold name_okb. intros H. apply andb_true_iff in H. destruct H as [A B]. split; [intros ->; discriminate|]. rewrite forallb_forall in B. intros c C. apply visibleb_true. now apply B.
Qed.
Definition first_okb (s : string) : bool := name_okb s && negb (prefix "*" s).
Lemma first_okb_ok s : first_okb s = true -> first_ok s.
Proof.
  unfold first_okb. intros H. apply andb_true_iff in H. destruct H as [A B]. split; [now apply name_okb_ok|]. destruct s as [|c t]; [discriminate|]. intros E. injection E as ->. cbn in B. rewrite prefix_nil in B. discriminate.
Qed.
Lemma spaced_blank c t ws : blank c -> spaced t ws -> spaced (String c t) ws.
Proof.
  intros B S. destruct S as [s S|s w t ws S W T E].
  - apply spaced_end. apply blanks_cons. now split.
  - change (String c (s +++ w +++ t)) with (String c s +++ w +++ t). apply spaced_word; [apply blanks_cons; now split|assumption|assumption|assumption].
Qed.
Lemma spaced_split : forall t, forallb line_char (chars t) = true -> spaced t (split_whitespace t).
Proof.
  intros t. assert (G : forallb line_char (chars t) = true -> exists t', t = fst (words_from t) +++ t' /\ spaced t' (snd (words_from t)) /\ (forall c, String.get 0 t' = Some c -> blank c) /\ (forall c, In c (chars (fst (words_from t))) -> visible c)).
  2:{ intros H. destruct (G H) as (t' & E & S & B & V). unfold split_whitespace. destruct (words_from t) as [w ws]. cbn [fst snd] in *. destruct w as [|c w]; [cbn in *; now subst t'|].
      rewrite E. cbn [add_word]. change (String c w +++ t') with ("" +++ String c w +++ t'). apply spaced_word; [intros x []|split; [discriminate|assumption]|assumption|assumption]. }
  induction t as [|c t IH]; intros H; [exists ""; split; [reflexivity|]; split; [apply spaced_end; intros x []|]; split; [discriminate|intros x []]|].
  cbn [list_ascii_of_string forallb] in H. apply andb_true_iff in H. destruct H as [Hc Ht]. destruct (IH Ht) as (t' & E & S & B & V). cbn [words_from]. destruct (words_from t) as [w ws] eqn:WF. cbn [fst snd] in *.
  unfold line_char in Hc. destruct (visibleb c) eqn:VC.
  - apply visibleb_true in VC. rewrite visible_not_blank by assumption. cbn [fst snd]. exists t'. split; [cbn; now rewrite E at 1|]. split; [assumption|]. split; [assumption|]. intros x [<-|X]; [assumption|now apply V].
  - cbn [orb] in Hc. apply blankb_true in Hc. rewrite is_blank_true by assumption. cbn [fst snd]. exists (String c t). split; [reflexivity|]. split; [|split; [intros x X; injection X as <-; assumption|intros x []]].
    apply spaced_blank; [assumption|]. destruct w as [|d w]; [cbn in *; now subst t'|]. rewrite E. cbn [add_word]. change (String d w +++ t') with ("" +++ String d w +++ t').
    apply spaced_word; [intros x []|split; [discriminate|assumption]|assumption|assumption].
Qed.
(** a data line by its words *)
Definition data_lineb (l : string) (ws : list string) : bool :=
  match l with String c t => Ascii.eqb c " " && forallb line_char (chars t) && if list_eq_dec string_dec (split_whitespace t) ws then true else false | _ => false end.
Lemma data_lineb_ok l ws : data_lineb l ws = true -> data_line l ws.
Proof.
  unfold data_lineb. destruct l as [|c t]; [discriminate|]. intros H. apply andb_true_iff in H. destruct H as [H1 H2]. apply andb_true_iff in H1. destruct H1 as [E F]. apply Ascii.eqb_eq in E. subst c.
  destruct (list_eq_dec string_dec (split_whitespace t) ws) as [<-|]; [|discriminate]. exists t. split; [reflexivity|]. now apply spaced_split.
Qed.
(** texts of visible characters, blanks and line feeds *)
Lemma trim_start_split : forall l, forallb line_char (chars l) = true -> exists s, blanks s /\ l = s +++ trim_start l.
Proof.
  induction l as [|c l IH]; intros H; [exists ""; split; [intros x []|reflexivity]|]. cbn [list_ascii_of_string forallb] in H. apply andb_true_iff in H. destruct H as [Hc Hl]. cbn [trim_start].
  destruct (is_blank c) eqn:B.
  - destruct (IH Hl) as (s & BS & E). exists (String c s). split; [|cbn; now rewrite <- E]. apply blanks_cons. split; [|assumption]. unfold line_char in Hc. apply orb_true_iff in Hc. destruct Hc as [V|V]; [|now apply blankb_true].
    apply visibleb_true in V. apply visible_not_blank in V. congruence.
  - exists "". split; [intros x []|reflexivity].
Qed.
Lemma prefix_split : forall p s, prefix p s = true -> exists t, s = p +++ t.
Proof.
  induction p as [|c p IH]; intros s H; [exists s; reflexivity|]. destruct s as [|d s]; [discriminate|]. cbn in H. destruct (ascii_dec c d) as [Eq|]; [|discriminate]. subst d. destruct (IH s H) as (t & ->). exists t. reflexivity.
Qed.
Lemma is_comment_ok l : forallb line_char (chars l) = true -> is_comment l = true -> comment l.
Proof. intros H C. destruct (trim_start_split l H) as (s & B & E). destruct (prefix_split _ _ C) as (t & T). exists s, t. split; [assumption|]. now rewrite <- T. Qed.
Lemma line_chars_line l : forallb line_char (chars l) = true -> on_one_line l /\ no_return l.
Proof. rewrite forallb_forall. intros H. split; intros X; apply H in X; discriminate X. Qed.
Theorem text_split : forall text, forallb text_char (chars text) = true -> text_of (into_lines text) text.
Proof.
  assert (G : forall n text, (String.length text <= n)%nat -> forallb text_char (chars text) = true -> text_of (into_lines text) text).
  2:{ intros text. now apply (G (String.length text)). }
  induction n as [|n IH]; intros text L H; [destruct text; [constructor|cbn in L; lia]|].
  assert (S : exists l, forallb line_char (chars l) = true /\ (text = l \/ exists t, text = l +++ String newline t)).
  { clear -H. induction text as [|c t IH]; [exists ""; split; [reflexivity|now left]|]. cbn [list_ascii_of_string forallb] in H. apply andb_true_iff in H. destruct H as [Hc Ht].
    unfold text_char in Hc. destruct (line_char c) eqn:LC.
    - destruct (IH Ht) as (l & A & [->|(t' & ->)]); exists (String c l); (split; [cbn; now rewrite LC|]); [now left|right; exists t'; reflexivity].
    - cbn [orb] in Hc. apply Ascii.eqb_eq in Hc. subst c. exists "". split; [reflexivity|]. right. exists t. reflexivity. }
  destruct S as (l & C & [->|(t & ->)]); destruct (line_chars_line l C) as [O R].
  - destruct l as [|c l]; [constructor|]. set (k := String c l) in *. assert (N : k <> "") by discriminate. unfold into_lines. rewrite lines_single by assumption. rewrite drop_return_none by assumption. cbn [filter].
    destruct (is_comment k) eqn:IC; cbn [negb filter].
    + apply text_last_comment; [now apply is_comment_ok|assumption].
    + unfold k at 1 2. cbn [is_empty negb]. now apply text_last.
  - rewrite append_length in L. cbn [String.length] in L. rewrite chars_append, forallb_app in H. apply andb_true_iff in H. destruct H as [_ H]. cbn [list_ascii_of_string forallb] in H. apply andb_true_iff in H. destruct H as [_ H].
    assert (T : text_of (into_lines t) t) by (apply IH; [lia|assumption]).
    assert (E : line_end (String newline "")) by now left. change (l +++ String newline t) with (l +++ String newline "" +++ t).
    assert (IL : into_lines (l +++ String newline "" +++ t) = if is_comment l || is_empty l then into_lines t else l :: into_lines t).
    { change (String newline "" +++ t) with (String newline t). unfold into_lines at 1. rewrite lines_cons by assumption. rewrite drop_return_none by assumption. cbn [filter]. destruct (is_comment l); cbn [negb orb filter]; [reflexivity|].
      destruct (is_empty l); reflexivity. }
    rewrite IL. destruct (is_comment l) eqn:IC; cbn [orb].
    + apply text_skip; [right; now apply is_comment_ok|assumption|assumption|assumption].
    + destruct l as [|c l]; cbn [is_empty]; [apply text_skip; [now left|assumption|assumption|assumption]|]. apply text_line; [discriminate|assumption|assumption|assumption|assumption].
Qed.

(** ** The program that the tests of /repo read (src/io/mps/parse/mod.rs:848-874), with a range and a maximization *)
Definition sample : string := "
* Start of the file
NAME          TESTPROB

OBJSENSE
  MAX
ROWS
* This is the cost row
 N  COST
 L  LIM1
 G  LIM2
 E  MYEQN
COLUMNS
    XONE      COST                 1   LIM1                 1
    XONE      LIM2                 1
    MARKER0   'MARKER'      'INTORG'
    YTWO      COST                 4   LIM1                 1
    YTWO      MYEQN               -1
    MARKER0   'MARKER'      'INTEND'
    ZTHREE    COST               0.5   LIM2                 1
    ZTHREE    MYEQN                1
RHS
    RHS1      LIM1                 5   LIM2                10
    RHS1      MYEQN                7
RANGES
    RNG1      LIM1               2.5
BOUNDS
 UP BND1      XONE                 4
 LO BND1      YTWO                -1
 UP BND1      YTWO                 1
 FR BND1      ZTHREE
ENDATA
".
Definition q (z : Z) (d : positive) : Qc := Q2Qc (z # d).
Definition sample_file : file := {|
  f_name := "TESTPROB";
  f_sense := Some Maximize;
  f_rows := [(None, "COST"); (Some KLess, "LIM1"); (Some KGreater, "LIM2"); (Some KEqual, "MYEQN")];
  f_columns := [
    Entries "XONE" [("COST", q 1 1); ("LIM1", q 1 1)]; Entries "XONE" [("LIM2", q 1 1)]; StartInteger;
    Entries "YTWO" [("COST", q 4 1); ("LIM1", q 1 1)]; Entries "YTWO" [("MYEQN", q (-1) 1)]; EndInteger;
    Entries "ZTHREE" [("COST", q 1 2); ("LIM2", q 1 1)]; Entries "ZTHREE" [("MYEQN", q 1 1)]];
  f_rhs := [("RHS1", [("LIM1", q 5 1); ("LIM2", q 10 1)]); ("RHS1", [("MYEQN", q 7 1)])];
  f_ranges := [("RNG1", [("LIM1", q 5 2)])];
  f_bounds := [(UpperContinuous (q 4 1), "BND1", "XONE"); (LowerContinuous (q (-1) 1), "BND1", "YTWO"); (UpperContinuous (q 1 1), "BND1", "YTWO"); (Free, "BND1", "ZTHREE")]
|}.
Lemma number_at minus whole fraction text v : forallb (fun d => d <? 10)%nat (whole ++ match fraction with Some f => f | None => [] end) = true -> whole <> [] ->
  (decimal (whole ++ match fraction with Some f => f | None => [] end) <? two64)%Z = true -> (10 ^ Z.of_nat (length (match fraction with Some f => f | None => [] end)) <? two64)%Z = true ->
  literal_text (mk_literal minus whole fraction) = text -> qeqb v (literal_value (mk_literal minus whole fraction)) = true -> number text v.
Proof.
  intros D W A B <- V. exists (mk_literal minus whole fraction). split; [|split; [reflexivity|now apply qeqb_true]]. rewrite forallb_app in D. apply andb_true_iff in D. destruct D as [D1 D2]. rewrite forallb_forall in D1, D2.
  unfold literal_ok, fraction_of. cbn [lit_minus lit_whole lit_fraction]. split; [intros d H; apply D1 in H; now apply Nat.ltb_lt|]. split; [intros d H; apply D2 in H; now apply Nat.ltb_lt|]. split; [now left|].
  split; now apply Z.ltb_lt.
Qed.
Ltac num m w f := apply (number_at m w f); [vm_compute; reflexivity|discriminate|vm_compute; reflexivity|vm_compute; reflexivity|vm_compute; reflexivity|vm_compute; reflexivity].
Ltac dline := apply data_lineb_ok; vm_compute; reflexivity.
Lemma sample_ok : file_ok sample_file.
Proof.
  constructor; cbn [sample_file f_name f_sense f_rows f_columns f_rhs f_ranges f_bounds].
  - now apply name_okb_ok.
  - intros k r H. cbn in H. repeat (destruct H as [H|H]; [injection H as <- <-; split; [now apply name_okb_ok|discriminate]|]). destruct H.
  - cbn. repeat constructor; cbn; intuition discriminate.
  - intros c values H. cbn in H. repeat (destruct H as [H|H]; [first [discriminate H|injection H as <- <-; now apply first_okb_ok]|]). destruct H.
  - cbn. repeat constructor; cbn; intuition discriminate.
  - cbn. repeat constructor; cbn; intuition discriminate.
  - intros g values H. cbn in H. repeat (destruct H as [H|H]; [injection H as <- <-; now apply first_okb_ok|]). destruct H.
  - cbn. repeat constructor; cbn; intuition discriminate.
  - intros g values H. cbn in H. repeat (destruct H as [H|H]; [injection H as <- <-; now apply first_okb_ok|]). destruct H.
  - cbn. repeat constructor; cbn; intuition discriminate.
  - intros t g c H. cbn in H. repeat (destruct H as [H|H]; [injection H as <- <- <-; split; [now apply name_okb_ok|intros X; exact X]|]). destruct H.
  - exists "COST". split; [now left|]. intros c H. cbn in H. repeat (destruct H as [H|H]; [first [discriminate H|now injection H as <-]|]). destruct H.
  - intros c r v H. cbn in H. repeat (destruct H as [H|H]; [injection H as <- <- <-; cbn; tauto|]). destruct H.
  - intros c r v H. cbn in H. repeat (destruct H as [H|H]; [injection H as <- <- <-; cbn; tauto|]). destruct H.
  - intros c r v H. cbn in H. repeat (destruct H as [H|H]; [injection H as <- <- <-; cbn; tauto|]). destruct H.
  - intros t g c H. cbn in H. repeat (destruct H as [H|H]; [injection H as <- <- <-; cbn; tauto|]). destruct H.
Qed.
Lemma sample_spelled : spells sample sample_file.
Proof.
  assert (T : text_of (into_lines sample) sample) by (apply text_split; vm_compute; reflexivity).
  exists (into_lines sample). split; [|exact T]. clear T.
  exists "          TESTPROB", [], (firstn 4 (skipn 4 (into_lines sample))), (firstn 3 (skipn 1 (into_lines sample))), (firstn 8 (skipn 9 (into_lines sample))), (firstn 3 (skipn 17 (into_lines sample))),
    (firstn 2 (skipn 20 (into_lines sample))), (firstn 5 (skipn 22 (into_lines sample))).
  split; [apply (spaced_split "          TESTPROB"); reflexivity|].
  split; [vm_compute; exists ""; split; [intros x []|]; exists "", "", "MAX"; split; [intros x []|]; split; [intros x []|]; split; [right; now left|reflexivity]|].
  split; [vm_compute; repeat (constructor; [dline|]); constructor|].
  split.
  { set (ls := firstn 8 _). vm_compute in ls. subst ls. cbn [sample_file f_columns].
    constructor; [split; [now right|]; eexists; split; [constructor; [num false [1%nat] (@None (list nat))|constructor; [num false [1%nat] (@None (list nat))|constructor]]|dline]|].
    constructor; [split; [now left|]; eexists; split; [constructor; [num false [1%nat] (@None (list nat))|constructor]|dline]|].
    constructor; [exists "MARKER0"; split; [now apply first_okb_ok|dline]|].
    constructor; [split; [now right|]; eexists; split; [constructor; [num false [4%nat] (@None (list nat))|constructor; [num false [1%nat] (@None (list nat))|constructor]]|dline]|].
    constructor; [split; [now left|]; eexists; split; [constructor; [num true [1%nat] (@None (list nat))|constructor]|dline]|].
    constructor; [exists "MARKER0"; split; [now apply first_okb_ok|dline]|].
    constructor; [split; [now right|]; eexists; split; [constructor; [num false [0%nat] (Some [5%nat])|constructor; [num false [1%nat] (@None (list nat))|constructor]]|dline]|].
    constructor; [split; [now left|]; eexists; split; [constructor; [num false [1%nat] (@None (list nat))|constructor]|dline]|]. constructor. }
  split.
  { right. set (ls := firstn 3 (skipn 17 _)). vm_compute in ls. subst ls. eexists. split; [reflexivity|]. cbn [sample_file f_rhs].
    constructor; [split; [now right|]; eexists; split; [constructor; [num false [5%nat] (@None (list nat))|constructor; [num false [1%nat; 0%nat] (@None (list nat))|constructor]]|dline]|].
    constructor; [split; [now left|]; eexists; split; [constructor; [num false [7%nat] (@None (list nat))|constructor]|dline]|]. constructor. }
  split.
  { right. set (ls := firstn 2 (skipn 20 _)). vm_compute in ls. subst ls. eexists. split; [reflexivity|]. cbn [sample_file f_ranges].
    constructor; [split; [now left|]; eexists; split; [constructor; [num false [2%nat] (Some [5%nat])|constructor]|dline]|]. constructor. }
  split; [|vm_compute; reflexivity].
  right. set (ls := firstn 5 (skipn 22 _)). vm_compute in ls. subst ls. eexists. split; [reflexivity|]. cbn [sample_file f_bounds].
  constructor; [eexists; split; [eexists; split; [num false [4%nat] (@None (list nat))|reflexivity]|dline]|].
  constructor; [eexists; split; [eexists; split; [num true [1%nat] (@None (list nat))|reflexivity]|dline]|].
  constructor; [eexists; split; [eexists; split; [num false [1%nat] (@None (list nat))|reflexivity]|dline]|].
  constructor; [eexists; split; [reflexivity|dline]|]. constructor.
Qed.
