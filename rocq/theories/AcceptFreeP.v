(** * Accepted files in free format *)
From Verif Require Import SpecParse MpsParse NumberP TextP ParseP GroupP FileP AcceptP AcceptFileP.
Local Open Scope string_scope.
Local Open Scope list_scope.
Local Infix "+++" := String.append (at level 60, right associativity).
Local Notation chars := list_ascii_of_string.

(** ** Words *)
Lemma is_blank_white c : is_blank c = true <-> white c.
Proof.
  unfold is_blank, white. rewrite orb_true_iff, andb_true_iff, N.eqb_eq, !N.leb_le. tauto.
Qed.
Lemma is_blank_not c : is_blank c = false -> ~ white c.
Proof. intros E W. apply is_blank_white in W. congruence. Qed.
Lemma whites_cons c s : white c -> whites s -> whites (String c s).
Proof. intros H W x [<-|X]; [assumption|now apply W]. Qed.
Lemma worded_skip c s ws : white c -> worded s ws -> worded (String c s) ws.
Proof.
  intros C W. destruct W as [s B|s w t ws B N W G].
  - apply worded_end. now apply whites_cons.
  - change (String c (s +++ w +++ t)) with ((String c s) +++ w +++ t). apply worded_word; [now apply whites_cons|assumption|assumption|assumption].
Qed.
Lemma words_from_worded : forall s, let (w, ws) := words_from s in exists t, s = w +++ t /\ (forall c, In c (chars w) -> ~ white c) /\ worded t ws /\ (forall c, String.get 0 t = Some c -> white c).
Proof.
  induction s as [|c s IH]; cbn [words_from].
  - exists "". split; [reflexivity|]. split; [intros c []|]. split; [apply worded_end; intros c []|discriminate].
  - destruct (words_from s) as [w ws]. destruct IH as (t & -> & N & W & G). destruct (is_blank c) eqn:B.
    + apply is_blank_white in B. exists (String c (w +++ t)). split; [reflexivity|]. split; [intros x []|]. split; [|intros x X; cbn in X; injection X as <-; assumption].
      apply worded_skip; [assumption|]. destruct w as [|a w]; [exact W|]. cbn [add_word]. change (String a w +++ t) with ("" +++ String a w +++ t). apply worded_word; [intros x []|split; [discriminate|assumption]|assumption|assumption].
    + exists t. split; [reflexivity|]. split; [intros x [<-|X]; [now apply is_blank_not|now apply N]|]. split; assumption.
Qed.
Theorem split_worded s : worded s (split_whitespace s).
Proof.
  unfold split_whitespace. pose proof (words_from_worded s) as H. destruct (words_from s) as [w ws]. destruct H as (t & -> & N & W & G). destruct w as [|a w]; [exact W|].
  cbn [add_word]. change (String a w +++ t) with ("" +++ String a w +++ t). apply worded_word; [intros x []|split; [discriminate|assumption]|assumption|assumption].
Qed.
Lemma prefix_split : forall a s, prefix a s = true -> exists t, s = a +++ t.
Proof.
  induction a as [|c a IH]; intros s H; [exists s; reflexivity|]. destruct s as [|d s]; [discriminate|]. cbn in H. destruct (ascii_dec c d) as [<-|]; [|discriminate]. destruct (IH s H) as (t & ->). exists t. reflexivity.
Qed.
Lemma split_line l ws : is_part_of_same_section l = true -> split_whitespace l = ws -> line_words l ws.
Proof.
  intros P <-. split; [|apply split_worded]. apply prefix_split in P. destruct P as (t & ->). reflexivity.
Qed.

(** ** Lines *)
Lemma free_row row l : reads_row free row l -> loose_row row l.
Proof.
  destruct row as [k r]. intros (P & t & E & T). cbn [one_and_two free fst snd] in *. unfold free_one_and_two in E. destruct (split_whitespace l) as [|w [|r' more]] eqn:W; try discriminate. injection E as -> ->.
  exists t, more. split; [now apply split_line|]. cbn [fst]. unfold row_type_of in T. got T as first S. unfold slice in S. destruct (_ && _ && _) in S; [|discriminate]. cbn [Nat.sub] in S. injection S as S. rewrite S.
  destruct (String.eqb_spec first "N") as [->|_]; [injection T as <-; reflexivity|]. destruct (String.eqb_spec first "L") as [->|_]; [injection T as <-; reflexivity|]. destruct (String.eqb_spec first "E") as [->|_]; [injection T as <-; reflexivity|].
  destruct (String.eqb_spec first "G") as [->|_]; [injection T as <-; reflexivity|]. discriminate.
Qed.
Lemma free_pairs r text rest values : reads_pairs free Checked r text rest values -> one_or_two values /\ loose_pairs values (r :: text :: rest) /\ hd "" (map fst values) = r.
Proof.
  intros (v & V & [[-> F]|(r' & text' & v' & F & V' & ->)]); cbn [five_and_six free] in F; unfold free_five_and_six in F; apply number_accepted in V.
  - destruct rest as [|a [|c [|d rest]]]; try discriminate. split; [now left|]. split; [|reflexivity]. constructor; [assumption|constructor].
  - destruct rest as [|a [|c [|d rest]]]; try discriminate. injection F as -> ->. apply number_accepted in V'. split; [now right|]. split; [|reflexivity]. constructor; [assumption|]. constructor; [assumption|constructor].
Qed.
Lemma free_column item l : reads_column free Checked item l -> loose_column item l.
Proof.
  intros (P & H). unfold loose_column. cbn [is_column_marker_line free] in H. unfold free_is_column_marker_line in H. destruct (split_whitespace l) as [|two [|three [|four parts]]] eqn:W; [destruct item; [destruct H as (? & ? & ? & H & _)| |]; discriminate..|].
  destruct (String.eqb_spec three column_marker) as [->|N].
  - destruct item as [c values| |]; [destruct H as (? & ? & ? & H & _); discriminate| |]; injection H as ->; exists two, parts; now apply split_line.
  - destruct item as [c values| |]; [|discriminate|discriminate]. destruct H as (r & text & rest & H & RP). injection H as -> -> -> ->. apply free_pairs in RP. destruct RP as (O & L & HD).
    split; [assumption|]. split; [exists (r :: text :: rest); split; [assumption|now apply split_line]|]. rewrite HD. exact N.
Qed.
Lemma free_value item l : reads_values free Checked item l -> loose_value item l.
Proof.
  destruct item as [g values]. intros (P & r & text & rest & H & RP). cbn [two_through_four free fst snd] in *. unfold free_three in H. destruct (split_whitespace l) as [|two [|three [|four parts]]] eqn:W; try discriminate. injection H as -> -> -> ->.
  apply free_pairs in RP. destruct RP as (O & L & _). split; [assumption|]. exists (r :: text :: rest). split; [assumption|now apply split_line].
Qed.
Lemma free_bound item l : reads_bound free Checked item l -> loose_bound item l.
Proof.
  destruct item as [[t g] c]. intros (P & key & rest & H & T). cbn [one_through_three free fst snd] in *. unfold free_three in H. destruct (split_whitespace l) as [|one [|two [|three parts]]] eqn:W; try discriminate. injection H as -> -> -> ->.
  exists (key :: g :: c :: rest). split; [|now apply split_line]. unfold bound_type_of in T. cbn [four free] in T.
  assert (V : forall f, (let~ value := free_four rest in let~ v := parse_number Checked value in Got (f v)) = Got t -> exists v text more, t = f v /\ loose_number text v /\ rest = text :: more).
  { intros f H. got H as value E. got H as v E'. injection H as <-. unfold free_four in E. destruct rest as [|x rest]; [discriminate|]. injection E as ->. apply number_accepted in E'. exists v, value, rest. repeat split; apply E'. }
  repeat match type of T with context [String.eqb key ?k] => destruct (String.eqb_spec key k) as [->|_] end; try discriminate;
    first [injection T as <-; exists rest; reflexivity|apply V in T; destruct T as (v & text & more & -> & N & ->); exists text, more; split; [assumption|reflexivity]].
Qed.

(** ** The head of the file *)
Lemma substring_split : forall s n, (n <= String.length s)%nat -> s = substring 0 n s +++ substring n (String.length s - n) s.
Proof.
  induction s as [|c s IH]; intros n L; [cbn in L; replace n with 0%nat by lia; reflexivity|]. destruct n as [|n].
  - rewrite Nat.sub_0_r. change (substring 0 0 (String c s)) with "". cbn [append]. symmetry. apply substring_all.
  - cbn [String.length substring append Nat.sub] in *. f_equal. apply IH. lia.
Qed.
Lemma free_name_line line name : parse_program_name free [line] = Got (name, []) -> exists t extra, line = "NAME" +++ t /\ worded t (name :: extra).
Proof.
  unfold parse_program_name. destruct (Nat.ltb_spec (String.length line) 4) as [|L]; [discriminate|]. intros H. got H as head S. destruct (String.eqb_spec head "NAME") as [->|]; [|discriminate]. got H as tail S'. got H as nm W. injection H as ->.
  unfold slice_from, slice in *. destruct (_ && _ && _) in S; [|discriminate]. destruct (_ && _ && _) in S'; [|discriminate]. injection S as S. injection S' as S'. cbn [Nat.sub] in S.
  exists tail. cbn [two_or_three free] in W. unfold free_two_or_three in W. destruct (split_whitespace tail) as [|x extra] eqn:E; [discriminate|]. injection W as ->. exists extra. split; [|rewrite <- E; apply split_worded].
  rewrite <- S, <- S'. now apply substring_split.
Qed.
Lemma trim_end_white s : exists t, s = trim_end s +++ t /\ whites t.
Proof.
  induction s as [|c s (t & E & W)]; [exists ""; split; [reflexivity|intros c []]|]. cbn [trim_end]. destruct (trim_end s) as [|d s'] eqn:T.
  - cbn [append] in E. subst t. destruct (is_blank c) eqn:B; [|exists s; split; [reflexivity|assumption]]. exists (String c s). split; [reflexivity|]. apply whites_cons; [now apply is_blank_white|assumption].
  - exists t. split; [|assumption]. rewrite E at 1. reflexivity.
Qed.
Lemma trim_is s w : trim_end s = w -> exists t, s = w +++ t /\ whites t. Proof. intros <-. apply trim_end_white. Qed.
Lemma sense_accepted sense d : parse_objsense_section sense = Got (d, []) -> loose_sense (if match sense with [_] => true | _ => false end then None else Some d) sense.
Proof.
  unfold parse_objsense_section. destruct sense as [|l1 ls]; [discriminate|]. destruct (String.eqb_spec (trim_end l1) "ROWS") as [E|N].
  - intros H. injection H as <- ->. cbn. apply trim_is in E. destruct E as (t & -> & W). exists t. split; [assumption|reflexivity].
  - destruct (String.eqb_spec (trim_end l1) "OBJSENSE") as [E|]; [|discriminate]. destruct ls as [|l2 [|l3 ls]]; try discriminate. destruct (prefix "ROWS" l3) eqn:P; [|discriminate]. intros H.
    apply trim_is in E. destruct E as (t & -> & W). apply prefix_split in P. destruct P as (rest & ->).
    assert (X : ls = [] /\ exists word s2, whites s2 /\ In word match d with Minimize => ["MINIMIZE"; "MIN"] | Maximize => ["MAXIMIZE"; "MAX"] end /\ l2 = "  " +++ word +++ s2).
    { destruct (String.eqb_spec (trim_end l2) "  MINIMIZE") as [E|_]; [|destruct (String.eqb_spec (trim_end l2) "  MIN") as [E|_]; [|destruct (String.eqb_spec (trim_end l2) "  MAXIMIZE") as [E|_]; [|destruct (String.eqb_spec (trim_end l2) "  MAX") as [E|_]; [|discriminate]]]];
        cbn [orb] in H; injection H as <- ->; (split; [reflexivity|]); apply trim_is in E; destruct E as (s2 & -> & W2);
        [exists "MINIMIZE", s2|exists "MIN", s2|exists "MAXIMIZE", s2|exists "MAX", s2]; (split; [assumption|split; [cbn; tauto|reflexivity]]). }
    destruct X as (-> & word & s2 & W2 & I & ->). exists t, s2, word, rest. repeat split; assumption.
Qed.

(** ** The lines of the text *)
Lemma drop_return_ended l : exists e, l = drop_return l +++ e /\ ended (drop_return l) e.
Proof.
  induction l as [|c l (e & E & D)]; [exists ""; split; [reflexivity|]; right; split; [reflexivity|]; intros (t & T); destruct t; discriminate|].
  destruct l as [|a l].
  - cbn [drop_return]. destruct (Ascii.eqb_spec c (ascii_of_nat 13)) as [->|N].
    + exists (String (ascii_of_nat 13) ""). split; [reflexivity|now left].
    + exists "". split; [reflexivity|]. right. split; [reflexivity|]. intros (t & T). destruct t as [|x t]; [injection T as T; contradiction|]. injection T as _ T. destruct t; discriminate.
  - rewrite drop_return_cons by discriminate. exists e. split; [cbn [append]; f_equal; exact E|]. destruct D as [->|[-> D]]; [now left|]. right. split; [reflexivity|]. intros (t & T).
    destruct t as [|x t]; [assert (T' : drop_return (String a l) = "") by (injection T as _ T'; exact T'); assert (X : String a l = drop_return (String a l) +++ "") by exact E; rewrite T' in X; discriminate|]. assert (T' : drop_return (String a l) = t +++ String (ascii_of_nat 13) "") by (injection T as _ T'; exact T'). apply D. now exists t.
Qed.
Lemma on_line_drop l : on_one_line l -> on_one_line (drop_return l).
Proof. intros O H. destruct (drop_return_ended l) as (e & E & _). apply O. rewrite E, chars_append. apply in_or_app. now left. Qed.
Lemma lines_from_spec : forall s, let (l, ls) := lines_from s in on_one_line l /\
  (ls = [] /\ s = l \/ exists t, s = l +++ String newline t /\ (let (l', ls') := lines_from t in ls = l' :: ls')).
Proof.
  induction s as [|c s IH]; cbn [lines_from]; [split; [intros []|left; split; reflexivity]|]. destruct (lines_from s) as [l ls] eqn:LF. destruct IH as [O IH]. destruct (Ascii.eqb_spec c newline) as [->|N].
  - split; [intros []|]. right. exists s. split; [reflexivity|]. now rewrite LF.
  - split; [intros [H|H]; [contradiction|now apply O]|]. destruct IH as [[-> ->]|(t & -> & T)]; [left; split; reflexivity|]. right. exists t. split; [reflexivity|assumption].
Qed.
Lemma lines_laid_out : forall n s, (String.length s <= n)%nat -> laid_out (lines s) s.
Proof.
  induction n as [|n IH]; intros s L.
  - destruct s; [|cbn in L; lia]. apply laid_end.
  - unfold lines. pose proof (lines_from_spec s) as H. destruct (lines_from s) as [l ls]. destruct H as [O [[-> ->]|(t & -> & T)]].
    + cbn [drop_last_empty]. destruct l as [|c l]; [apply laid_end|]. cbn [map]. destruct (drop_return_ended (String c l)) as (e & E & D). rewrite E at 2. apply laid_last; [now apply on_line_drop|assumption|rewrite <- E; discriminate].
    + assert (X : map drop_return (drop_last_empty (l :: ls)) = drop_return l :: lines t).
      { unfold lines. destruct (lines_from t) as [l' ls']. subst ls. reflexivity. }
      rewrite X. destruct (drop_return_ended l) as (e & E & D). rewrite E at 2. rewrite append_assoc. apply laid_line; [now apply on_line_drop|assumption|]. apply IH.
      rewrite append_length in L. cbn [String.length] in L. lia.
Qed.
Lemma trim_start_white s : exists t, s = t +++ trim_start s /\ whites t.
Proof.
  induction s as [|c s (t & E & W)]; [exists ""; split; [reflexivity|intros c []]|]. cbn [trim_start]. destruct (is_blank c) eqn:B; [|exists ""; split; [reflexivity|intros x []]].
  exists (String c t). split; [cbn [append]; f_equal; exact E|]. apply whites_cons; [now apply is_blank_white|assumption].
Qed.
Lemma trim_start_skip : forall s x, whites s -> trim_start (s +++ x) = trim_start x.
Proof.
  induction s as [|c s IH]; intros x W; [reflexivity|]. cbn [append trim_start]. replace (is_blank c) with true by (symmetry; apply is_blank_white; apply W; now left). apply IH. intros d D. apply W. now right.
Qed.
Lemma skipped_spec l : is_comment l || is_empty l = true <-> skipped l.
Proof.
  unfold skipped. rewrite orb_true_iff. split.
  - intros [H|H]; [|left; destruct l; [reflexivity|discriminate]]. right. unfold is_comment in H. apply prefix_split in H. destruct H as (t & T). destruct (trim_start_white l) as (s & E & W). exists s, t. split; [assumption|]. now rewrite <- T.
  - intros [->|(s & t & W & ->)]; [now right|]. left. unfold is_comment. rewrite (trim_start_skip s _ W). apply (prefix_app "*" t).
Qed.
Lemma filter_kept ls : kept ls (filter (fun line => negb (is_empty line)) (filter (fun line => negb (is_comment line)) ls)).
Proof.
  induction ls as [|l ls IH]; [constructor|]. cbn [filter]. pose proof (skipped_spec l) as S. destruct (is_comment l) eqn:C; cbn [negb orb] in *; [apply kept_skip; [now apply S|assumption]|]. cbn [filter].
  destruct (is_empty l); cbn [negb]; [apply kept_skip; [now apply S|assumption]|]. apply kept_line; [|assumption]. intros X. apply S in X. discriminate.
Qed.
Lemma section_loose {A} header (reads loose : A -> string -> Prop) items ls : (forall x l, reads x l -> loose x l) -> reads_section header reads items ls -> section_lines header loose items ls.
Proof.
  intros K [E|(body & -> & F)]; [now left|]. right. exists body. split; [reflexivity|]. clear - K F. induction F; constructor; [now apply K|assumption].
Qed.
Lemma forall_loose {A} (reads loose : A -> string -> Prop) items ls : (forall x l, reads x l -> loose x l) -> Forall2 reads items ls -> Forall2 loose items ls.
Proof. intros K F. induction F; constructor; [now apply K|assumption]. Qed.
Theorem free_accepted text m : parse_free Checked text = Got m -> exists f, loosely_spells text f /\ file_consistent f /\ (NoDup (map fst (m_costs m)) -> describes m f).
Proof.
  intros H. destruct (file_accepted free Checked text m H) as (f & name_line & sense & rows & header & columns & rhs & ranges & bounds & d & IL & NM & SE & FS & FR & HC & FC & FH & FG & FB & CO & D).
  exists f. split; [|split; assumption]. exists (lines text), (into_lines text). split; [now apply (lines_laid_out (String.length text))|]. split; [apply filter_kept|].
  apply free_name_line in NM. destruct NM as (t & extra & -> & W). apply sense_accepted in SE. rewrite <- FS in SE.
  exists t, extra, rows, sense, header, columns, rhs, ranges, bounds. split; [assumption|]. split; [assumption|]. split; [apply (forall_loose _ _ _ _ free_row FR)|]. split; [assumption|].
  split; [apply (forall_loose _ _ _ _ free_column FC)|]. split; [apply (section_loose _ _ _ _ _ free_value FH)|]. split; [apply (section_loose _ _ _ _ _ free_value FG)|]. split; [apply (section_loose _ _ _ _ _ free_bound FB)|]. exact IL.
Qed.
