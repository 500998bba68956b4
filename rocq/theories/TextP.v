(** * Reading lines and words of MPS files *)
From Verif Require Import SpecParse MpsParse NumberP.
Local Open Scope string_scope.
Local Open Scope list_scope.

Notation chars := list_ascii_of_string.
Infix "+++" := String.append (right associativity, at level 60).

Lemma append_assoc : forall a b c, ((a +++ b) +++ c) = (a +++ b +++ c).
Proof. induction a as [|x a IH]; intros b c; cbn [String.append]; [reflexivity|now rewrite IH]. Qed.
Lemma append_length : forall a b, String.length (a +++ b) = (String.length a + String.length b)%nat.
Proof. induction a as [|x a IH]; intros b; cbn; [reflexivity|now rewrite IH]. Qed.
Lemma prefix_nil s : prefix "" s = true. Proof. destruct s; reflexivity. Qed.
Lemma prefix_app : forall a b, prefix a (a +++ b) = true.
Proof. induction a as [|c a IH]; intros b; [apply prefix_nil|]. cbn. destruct (ascii_dec c c); [apply IH|congruence]. Qed.
Lemma substring_all : forall s, substring 0 (String.length s) s = s.
Proof. induction s as [|c s IH]; cbn; [reflexivity|now rewrite IH]. Qed.
Lemma substring_skip : forall a b, substring (String.length a) (String.length b) (a +++ b) = b.
Proof. induction a as [|c a IH]; intros b; cbn; [apply substring_all|apply IH]. Qed.
Lemma substring_head : forall a b, substring 0 (String.length a) (a +++ b) = a.
Proof. induction a as [|c a IH]; intros b; cbn; [destruct b; reflexivity|now rewrite IH]. Qed.
Lemma get_skip : forall a b, String.get (String.length a) (a +++ b) = String.get 0 b.
Proof. induction a as [|c a IH]; intros b; cbn; [reflexivity|apply IH]. Qed.
Lemma get_length : forall s, String.get (String.length s) s = None.
Proof. induction s as [|c s IH]; cbn; [reflexivity|exact IH]. Qed.

(** ** Kinds of characters *)
Lemma is_blank_true c : blank c -> is_blank c = true. Proof. intros [->| ->]; reflexivity. Qed.
Lemma visible_not_blank c : visible c -> is_blank c = false.
Proof. unfold visible, is_blank. intros [A B]. apply orb_false_iff. split; [apply N.eqb_neq; lia|]. apply andb_false_iff. right. apply N.leb_gt. lia. Qed.
Lemma blank_ascii c : blank c -> is_continuation c = false. Proof. intros [->| ->]; reflexivity. Qed.
Lemma visible_ascii c : visible c -> is_continuation c = false.
Proof. unfold visible, is_continuation. intros [A B]. apply andb_false_iff. left. apply N.leb_gt. lia. Qed.
Lemma blanks_cons c s : blanks (String c s) <-> blank c /\ blanks s.
Proof. unfold blanks. cbn. split; [intros H; split; [apply H; now left|intros x X; apply H; now right]|intros [A B] x [<-|X]; auto]. Qed.

(** ** Words *)
Lemma words_skip s : blanks s -> forall x, split_whitespace (s +++ x) = split_whitespace x.
Proof.
  induction s as [|c s IH]; intros B x; [reflexivity|]. apply blanks_cons in B. destruct B as [Bc B]. cbn [String.append]. unfold split_whitespace at 1. cbn [words_from].
  specialize (IH B x). unfold split_whitespace in IH at 1. destruct (words_from (s +++ x)) as [w ws]. rewrite is_blank_true by assumption. exact IH.
Qed.
Lemma words_word : forall w x, (forall c, In c (chars w) -> visible c) -> words_from (w +++ x) = (w +++ fst (words_from x), snd (words_from x)).
Proof.
  induction w as [|c w IH]; intros x V; [cbn; now destruct (words_from x)|]. cbn [String.append words_from]. rewrite IH by (intros d D; apply V; now right).
  rewrite visible_not_blank by (apply V; now left). reflexivity.
Qed.
Lemma words_blank x : (forall c, String.get 0 x = Some c -> blank c) -> fst (words_from x) = "" /\ snd (words_from x) = split_whitespace x.
Proof.
  destruct x as [|c x]; intros H; [split; reflexivity|]. unfold split_whitespace. cbn [words_from]. destruct (words_from x) as [w ws]. rewrite is_blank_true by (apply H; reflexivity). split; reflexivity.
Qed.
Lemma name_ok_cons w : name_ok w -> exists c t, w = String c t /\ visible c.
Proof. intros [N V]. destruct w as [|c t]; [congruence|]. exists c, t. split; [reflexivity|]. apply V. now left. Qed.
Theorem spaced_words t ws : spaced t ws -> split_whitespace t = ws.
Proof.
  induction 1 as [s B|s w t ws B W S IH E].
  - rewrite <- (append_nil s). rewrite words_skip by assumption. reflexivity.
  - rewrite words_skip by assumption. unfold split_whitespace. rewrite words_word by apply W. destruct (words_blank t E) as [F G]. rewrite F, G, append_nil, IH.
    destruct (name_ok_cons w W) as (c & x & -> & _). reflexivity.
Qed.
Lemma data_words l ws : data_line l ws -> split_whitespace l = ws /\ is_part_of_same_section l = true.
Proof.
  intros (t & -> & S). split; [|cbn; now rewrite prefix_nil]. change (" " +++ t) with (String " " "" +++ t). rewrite words_skip; [now apply spaced_words|]. apply blanks_cons. split; [now left|intros c []].
Qed.

(** ** Comments *)
Lemma trim_skip s : blanks s -> forall x, trim_start (s +++ x) = trim_start x.
Proof. induction s as [|c s IH]; intros B x; [reflexivity|]. apply blanks_cons in B. cbn. rewrite is_blank_true by tauto. now apply IH. Qed.
Lemma comment_true l : comment l -> is_comment l = true.
Proof. intros (s & t & B & ->). unfold is_comment. rewrite trim_skip by assumption. cbn. now rewrite prefix_nil. Qed.
Lemma data_not_comment l w ws : data_line l (w :: ws) -> String.get 0 w <> Some "*"%char -> is_comment l = false.
Proof.
  intros (t & -> & S) N. inversion S as [|s w' t' ws' B W S' E]; subst. unfold is_comment. change (" " +++ s +++ w +++ t') with (String " " "" +++ s +++ w +++ t').
  rewrite trim_skip by (apply blanks_cons; split; [now left|intros c []]). rewrite trim_skip by assumption. destruct (name_ok_cons w W) as (c & x & -> & V).
  cbn [String.append trim_start]. rewrite visible_not_blank by assumption. cbn [prefix]. destruct (ascii_dec "*" c) as [Eq|]; [|reflexivity]. subst c. now elim N.
Qed.

(** ** Lines *)
Lemma lines_from_app : forall l x, on_one_line l -> lines_from (l +++ x) = (l +++ fst (lines_from x), snd (lines_from x)).
Proof.
  induction l as [|c l IH]; intros x O; [cbn; now destruct (lines_from x)|]. cbn [String.append lines_from]. rewrite IH by (intros H; apply O; now right).
  destruct (Ascii.eqb c newline) eqn:E; [|reflexivity]. apply Ascii.eqb_eq in E. subst c. elim O. now left.
Qed.
Lemma lines_cons l x : on_one_line l -> lines (l +++ String newline x) = drop_return l :: lines x.
Proof.
  intros O. unfold lines. rewrite lines_from_app by assumption. cbn [lines_from]. destruct (lines_from x) as [a b]. rewrite Ascii.eqb_refl. cbn [fst snd]. rewrite append_nil.
  cbn [drop_last_empty]. reflexivity.
Qed.
Lemma drop_return_none : forall l, no_return l -> drop_return l = l.
Proof.
  induction l as [|c l IH]; intros N; [reflexivity|]. assert (N' : no_return l) by (intros H; apply N; now right). specialize (IH N').
  cbn [drop_return]. destruct l as [|d l]; [|now rewrite IH]. destruct (Ascii.eqb c (ascii_of_nat 13)) eqn:E; [|reflexivity]. apply Ascii.eqb_eq in E. subst c. elim N. now left.
Qed.
Lemma drop_return_cons c t : t <> "" -> drop_return (String c t) = String c (drop_return t).
Proof. destruct t as [|d t]; [congruence|reflexivity]. Qed.
Lemma drop_return_end : forall l, drop_return (l +++ String (ascii_of_nat 13) "") = l.
Proof.
  induction l as [|c l IH]; [reflexivity|]. cbn [String.append]. rewrite drop_return_cons by (destruct l; discriminate). now rewrite IH.
Qed.
Lemma comment_drop l : comment l -> comment (drop_return l).
Proof.
  intros (s & t & B & ->). exists s, (drop_return t). split; [assumption|]. revert B. induction s as [|c s IH]; intros B.
  - cbn [String.append drop_return]. destruct t as [|d t]; reflexivity.
  - apply blanks_cons in B. destruct B as [_ B]. cbn [String.append]. rewrite drop_return_cons by (destruct s; discriminate). cbn [String.append] in IH. now rewrite (IH B).
Qed.
Lemma lines_single l : l <> "" -> on_one_line l -> lines l = [drop_return l].
Proof.
  intros N O. unfold lines. rewrite <- (append_nil l) at 1. rewrite lines_from_app by assumption. cbn [lines_from fst snd]. rewrite append_nil. cbn [drop_last_empty].
  destruct l; [congruence|reflexivity].
Qed.
Lemma into_lines_skip d x rest : d = "" \/ is_comment d = true -> lines x = d :: rest -> into_lines x = filter (fun l => negb (is_empty l)) (filter (fun l => negb (is_comment l)) rest).
Proof.
  intros H E. unfold into_lines. rewrite E. cbn [filter]. destruct H as [-> | ->]; [|reflexivity]. reflexivity.
Qed.
Lemma on_one_line_return l : on_one_line l -> on_one_line (l +++ String (ascii_of_nat 13) "").
Proof. intros O H. unfold on_one_line in O. rewrite chars_append in H. apply in_app_or in H. destruct H as [H|[H|[]]]; [contradiction|discriminate H]. Qed.
Lemma lines_with_end l e t : on_one_line l -> line_end e -> exists d, lines (l +++ e +++ t) = d :: lines t /\ (d = drop_return l \/ d = l).
Proof.
  intros O [->| ->].
  - exists (drop_return l). split; [|now left]. change (String (ascii_of_nat 10) "" +++ t) with (String newline t). now apply lines_cons.
  - exists l. split; [|now right]. change (String (ascii_of_nat 13) (String (ascii_of_nat 10) "") +++ t) with (String (ascii_of_nat 13) "" +++ String newline t).
    rewrite <- append_assoc. rewrite lines_cons by now apply on_one_line_return. now rewrite drop_return_end.
Qed.
Theorem text_lines ls text : text_of ls text -> (forall l, In l ls -> is_comment l = false) -> into_lines text = ls.
Proof.
  induction 1 as [|l N O R|l C O|l ls e t N O R E T IH|l ls e t S O E T IH]; intros K.
  - reflexivity.
  - unfold into_lines. rewrite lines_single, drop_return_none by assumption. cbn [filter]. rewrite K by now left. cbn [negb filter]. destruct l; [congruence|reflexivity].
  - assert (N : l <> "") by (destruct C as (s & t & _ & ->); destruct s; discriminate). unfold into_lines. rewrite lines_single by assumption. cbn [filter]. now rewrite comment_true by now apply comment_drop.
  - destruct (lines_with_end l e t O E) as (d & L & D). assert (Dl : d = l) by (destruct D as [->| ->]; [now apply drop_return_none|reflexivity]). subst d.
    unfold into_lines. rewrite L. cbn [filter]. rewrite K by now left. cbn [negb filter]. destruct l as [|c l]; [congruence|]. cbn [is_empty negb]. f_equal. apply IH. intros x X. apply K. now right.
  - destruct (lines_with_end l e t O E) as (d & L & D). rewrite (into_lines_skip d _ (lines t)); [now apply IH| |assumption].
    destruct S as [->|C]; [left; destruct D as [->| ->]; reflexivity|]. right. apply comment_true. destruct D as [->| ->]; [now apply comment_drop|assumption].
Qed.

(** ** Slices *)
Lemma slice_head a b : (forall c, String.get 0 b = Some c -> is_continuation c = false) -> (forall c, String.get 0 (a +++ b) = Some c -> is_continuation c = false) -> slice (a +++ b) 0 (String.length a) = Got a.
Proof.
  intros B A. unfold slice. cbn [Nat.leb andb]. assert (B0 : boundary (a +++ b) 0 = true).
  { unfold boundary. destruct (String.get 0 (a +++ b)) as [c|] eqn:G; [now rewrite (A c)|]. destruct (a +++ b); [reflexivity|discriminate]. }
  rewrite B0. unfold boundary. rewrite get_skip. destruct (String.get 0 b) as [c|] eqn:G.
  - rewrite (B c) by reflexivity. cbn [negb andb]. now rewrite Nat.sub_0_r, substring_head.
  - destruct b; [|discriminate]. rewrite append_nil, Nat.eqb_refl. cbn [andb]. now rewrite Nat.sub_0_r, substring_all.
Qed.
Lemma slice_tail a b : (forall c, String.get 0 b = Some c -> is_continuation c = false) -> slice_from (a +++ b) (String.length a) = Got b.
Proof.
  intros B. unfold slice_from, slice. rewrite append_length. replace (String.length a <=? String.length a + String.length b)%nat with true by (symmetry; apply Nat.leb_le; lia).
  assert (E : boundary (a +++ b) (String.length a + String.length b) = true).
  { unfold boundary. rewrite <- append_length. rewrite get_length. now rewrite Nat.eqb_refl. }
  rewrite E. unfold boundary. rewrite get_skip. replace (String.length a + String.length b - String.length a)%nat with (String.length b) by lia. destruct (String.get 0 b) as [c|] eqn:G.
  - rewrite (B c) by reflexivity. cbn [negb andb]. now rewrite substring_skip.
  - destruct b; [|discriminate]. cbn [String.length]. rewrite append_nil, Nat.eqb_refl. cbn [andb]. f_equal. pose proof (substring_skip a "") as Q. rewrite append_nil in Q. exact Q.
Qed.
Lemma spaced_head t ws : spaced t ws -> forall c, String.get 0 t = Some c -> is_continuation c = false.
Proof.
  intros S c G. destruct S as [s B|s w t ws B W S E].
  - destruct s as [|d s]; [discriminate|]. apply blanks_cons in B. injection G as ->. now apply blank_ascii.
  - destruct s as [|d s].
    + destruct (name_ok_cons w W) as (d & x & -> & V). injection G as ->. now apply visible_ascii.
    + apply blanks_cons in B. injection G as ->. now apply blank_ascii.
Qed.
Lemma trim_end_blanks : forall s, blanks s -> trim_end s = "".
Proof. induction s as [|c s IH]; intros B; [reflexivity|]. apply blanks_cons in B. cbn. rewrite IH by tauto. now rewrite is_blank_true. Qed.
Lemma trim_end_app : forall w s, blanks s -> trim_end (w +++ s) = trim_end w.
Proof. induction w as [|c w IH]; intros s B; [now apply trim_end_blanks|]. cbn. now rewrite IH. Qed.
