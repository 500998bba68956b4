(** * The lines that errors point to are at fault *)
From Verif Require Import SpecParse MpsErr TextP AcceptP AcceptFreeP MpsErrP.
Local Open Scope string_scope.
Local Open Scope list_scope.

(** ** Functions that consume lines *)
Definition bad {A} (x : tout A) : Prop := forall a, x <> TGot a.
(** not a mistake in the syntax *)
Definition fine {A} (x : tout A) : Prop := (exists a, x = TGot a) \/ exists text, x = TErr (Inconsistency text).
Definition leaves {A} (good : A -> Prop) (tail : list located) (x : tout (A * list located)) : Prop :=
  (exists a, good a /\ x = TGot (a, tail)) \/ exists text, x = TErr (Inconsistency text).
(** lines that continue a file *)
Definition plain (ls : list located) : Prop := forall x, In x ls -> In (snd x) ["NAME X"; "ROWS"; "  MIN"; "COLUMNS"; "ENDATA"].
Lemma plain_nil : plain []. Proof. intros x []. Qed.
Lemma plain_cons n l ls : In l ["NAME X"; "ROWS"; "  MIN"; "COLUMNS"; "ENDATA"] -> plain ls -> plain ((n, l) :: ls).
Proof. intros H P x [<-|I]; [exact H|now apply P]. Qed.
Ltac plain := repeat first [apply plain_nil | assumption | apply plain_cons; [cbn; tauto|]].
Definition local_at {A} (good : A -> Prop) (P : list located -> tout (A * list located)) (ls : list located) : Prop :=
  match P ls with
  | TGot (a, rest) => exists pre, ls = pre ++ rest /\ forall rest', P (pre ++ rest') = TGot (a, rest')
  | TErr e => forall place, In place (error_places e) -> exists pre post, ls = pre ++ place :: post
      /\ (forall post', bad (P (pre ++ place :: post'))) /\ forall tail, plain tail -> exists post', plain post' /\ leaves good tail (P (pre ++ post'))
  | TCrash => True
  end.
Definition local_end {A} (P : list located -> tout A) : Prop :=
  forall ls e place, P ls = TErr e -> In place (error_places e) -> exists pre post, ls = pre ++ place :: post
    /\ (forall post', bad (P (pre ++ place :: post'))) /\ exists post', plain post' /\ fine (P (pre ++ post')).
Lemma bad_bind {A B} (x : tout A) (f : A -> tout B) : bad x -> bad (tbind x f).
Proof. intros H b. destruct x; [now destruct (H a)|discriminate|discriminate]. Qed.
Lemma local_then {A B} (good : A -> Prop) (P : list located -> tout (A * list located)) (Q : A -> list located -> tout B) tail :
  (forall ls, local_at good P ls) -> (forall a, local_end (Q a)) -> plain tail -> (forall a, good a -> fine (Q a tail)) ->
  local_end (fun ls => let! (a, rest) := P ls in Q a rest).
Proof.
  intros LP LQ PT F ls e place E I. specialize (LP ls). unfold local_at in LP. destruct (P ls) as [[a rest]|e'|] eqn:EP; [| |discriminate E].
  - cbn in E. destruct LP as (pre & -> & G). destruct (LQ a rest e place E I) as (pre' & post & -> & Bd & post' & PP & N). exists (pre ++ pre'), post. split; [now rewrite app_assoc|]. split.
    + intros p. rewrite <- app_assoc, G. cbn. apply Bd.
    + exists post'. split; [exact PP|]. rewrite <- app_assoc, G. exact N.
  - cbn in E. injection E as <-. destruct (LP place I) as (pre & post & -> & Bd & N). exists pre, post. split; [reflexivity|]. split; [intros p; apply bad_bind, Bd|].
    destruct (N tail PT) as (post' & PP & [(a & Ga & X)|(text & X)]); exists post'; (split; [exact PP|]); rewrite X; cbn; [now apply F|]. right. now exists text.
Qed.
(** functions whose errors tell of no line *)
Definition silent {A} (x : tout A) : Prop := forall e, x = TErr e -> error_places e = [].
Lemma silent_end {A} (P : list located -> tout A) : (forall ls, silent (P ls)) -> local_end P.
Proof. intros H ls e place E I. rewrite (H ls e E) in I. destruct I. Qed.
Lemma silent_got {A} (a : A) : silent (TGot a). Proof. intros e H. discriminate H. Qed.
Lemma silent_crash {A} : silent (@TCrash A). Proof. intros e H. discriminate H. Qed.
Lemma silent_err {A} e : error_places e = [] -> silent (@TErr A e). Proof. intros P e' H. now injection H as <-. Qed.
Lemma silent_bind {A B} (x : tout A) (f : A -> tout B) : silent x -> (forall a, silent (f a)) -> silent (tbind x f).
Proof. intros X F e. destruct x as [a|e'|]; cbn; [apply F| |discriminate]. intros H. injection H as <-. now apply X. Qed.
Lemma silent_explain {A} (x : out A) e : error_places e = [] -> silent (explain x e).
Proof. intros P. destruct x; [apply silent_got|now apply silent_err|apply silent_crash]. Qed.
Ltac quiet := repeat first [apply silent_got | apply silent_crash | apply silent_err; reflexivity | apply silent_explain; reflexivity | assumption
  | apply silent_bind; [|intros ?]
  | match goal with |- silent (if ?c then _ else _) => destruct c end
  | match goal with |- silent (match ?c with _ => _ end) => destruct c end].
Lemma next_silent line acceptable : silent (try_parse_next_section_t line acceptable). Proof. unfold try_parse_next_section_t. quiet. Qed.
Lemma number_error_silent text : places (number_error text) = [].
Proof. unfold number_error. cbv zeta. destruct (split_point _) as [w [r|]]; [destruct (parse_part w)|]; reflexivity. Qed.
Lemma number_silent b text : silent (parse_number_t b text).
Proof. apply silent_explain. cbn. apply number_error_silent. Qed.
Lemma check_silent cost rows : silent (check_row_section_consistency_t cost rows). Proof. unfold check_row_section_consistency_t. cbv zeta. quiet. Qed.
Lemma save_silent new s : silent (save_to_column_collector_t new s). Proof. unfold save_to_column_collector_t. cbv zeta. quiet. Qed.
Lemma pair_silent b c rows row value s : silent (save_column_pair_t b c rows row value s).
Proof. unfold save_column_pair_t. apply silent_bind; [apply number_silent|intros v]. quiet. Qed.
Lemma group_silent {A} d new (s : groups_state A) : silent (save_to_group_collector_t d new s). Proof. unfold save_to_group_collector_t. cbv zeta. quiet. Qed.
Lemma change_silent {A} d name (s : groups_state A) : silent (change_group_t d name s).
Proof. unfold change_group_t. destruct (gs_active s); [|quiet]. destruct (String.eqb _ _); [quiet|apply group_silent]. Qed.
Lemma group_pair_silent b rows row value s : silent (save_group_pair_t b rows row value s).
Proof.
  unfold save_group_pair_t. pose proof (number_silent b value) as N. destruct (row_index rows row); destruct (parse_number_t b value) as [v|e|]; try solve [quiet].
  apply silent_err. now apply (N e).
Qed.
Section Silent.
Context (R : reader) (T : teller R) (b : build).
Lemma value_line_silent rows line s : silent (parse_value_section_line_t b R T rows line s).
Proof.
  unfold parse_value_section_line_t. apply silent_bind; [quiet|intros [[[name row] value] rest]]. apply silent_bind; [apply change_silent|intros s']. apply silent_bind; [apply group_pair_silent|intros s''].
  apply silent_bind; [quiet|intros [[row' value']|]]; [apply group_pair_silent|quiet].
Qed.
Lemma optional_silent valid rows : forall ls s, silent (parse_optional_section_t b R T valid rows ls s).
Proof.
  induction ls as [|[n line] ls IH]; intros s; [apply silent_err; reflexivity|]. cbn [parse_optional_section_t]. destruct (is_part_of_same_section line).
  - apply silent_bind; [apply value_line_silent|apply IH].
  - apply silent_bind; [apply next_silent|intros next]. apply silent_bind; [apply group_silent|intros s']. quiet.
Qed.
Lemma bound_type_silent text rest : silent (bound_type_of_t b R T text rest).
Proof.
  assert (V : forall f : Qc -> bound_type, silent (let! value := explain (four R rest) (SyntaxError (new (tell_four T rest))) in let! v := parse_number_t b value in TGot (f v))).
  { intros f. apply silent_bind; [quiet|intros value]. apply silent_bind; [apply number_silent|intros v]. quiet. }
  unfold bound_type_of_t. cbv zeta. repeat (match goal with |- silent (if ?c then _ else _) => destruct c end; [first [apply V|solve [quiet]]|]). quiet.
Qed.
Lemma bounds_silent columns : forall ls s, silent (parse_bounds_section_t b R T columns ls s).
Proof.
  induction ls as [|[n line] ls IH]; intros s; [apply silent_err; reflexivity|]. cbn [parse_bounds_section_t]. destruct (is_part_of_same_section line).
  - apply silent_bind; [|apply IH]. unfold parse_bound_line_t. apply silent_bind; [quiet|intros [[[t name] column] rest]]. destruct (column_index columns column); [|quiet].
    apply silent_bind; [apply change_silent|intros s']. apply silent_bind; [apply bound_type_silent|intros bt]. quiet.
  - apply silent_bind; [apply next_silent|intros next]. apply silent_bind; [apply group_silent|intros s']. quiet.
Qed.

(** ** The sections *)
Lemma at_cons {A} (good : A -> Prop) P P' x ls : (forall l, P (x :: l) = P' l) -> local_at good P' ls -> local_at good P (x :: ls).
Proof.
  intros E. unfold local_at. rewrite E. destruct (P' ls) as [[a rest]|e|].
  - intros (pre & -> & G). exists (x :: pre). split; [reflexivity|]. intros rest'. cbn [app]. now rewrite E.
  - intros H place I. destruct (H place I) as (pre & post & -> & B & N). exists (x :: pre), post. split; [reflexivity|]. split; [intros p; cbn [app]; rewrite E; apply B|].
    intros tail PT. destruct (N tail PT) as (p & PP & L). exists p. split; [exact PP|]. cbn [app]. now rewrite E.
  - trivial.
Qed.
(** the first line is wrong whatever comes after it *)
Lemma at_here {A} (good : A -> Prop) P x ls e : (forall l, P (x :: l) = TErr e) -> (forall place, In place (error_places e) -> place = x) ->
  (forall tail, plain tail -> exists post', plain post' /\ leaves good tail (P post')) -> local_at good P (x :: ls).
Proof.
  intros E S N. unfold local_at. rewrite E. intros place I. rewrite (S place I). exists [], ls. split; [reflexivity|]. split; [|exact N]. intros p a. cbn [app]. rewrite E. discriminate.
Qed.
Lemma at_silent {A} (good : A -> Prop) P ls : (forall a, P ls <> TGot a) -> silent (P ls) -> local_at good P ls.
Proof. intros G S. unfold local_at. destruct (P ls) as [[a rest]|e|] eqn:E; [now destruct (G (a, rest))| |trivial]. rewrite (S e eq_refl). intros place []. Qed.
Lemma at_last {A} (good : A -> Prop) P x ls a : (forall l, P (x :: l) = TGot (a, l)) -> local_at good P (x :: ls).
Proof. intros E. unfold local_at. rewrite E. exists [x]. split; [reflexivity|]. intros r. apply E. Qed.

Definition anything {A} (a : A) : Prop := True.
Context (named : exists name, two_or_three R " X" = Got name).
Lemma name_local : forall ls, local_at anything (parse_program_name_t R) ls.
Proof.
  assert (N : forall tail, plain tail -> exists post', plain post' /\ leaves anything tail (parse_program_name_t R post')).
  { intros tail PT. exists ((0%nat, "NAME X") :: tail). split; [plain|]. destruct named as (name & E). left. exists name. split; [exact I|]. cbn. now rewrite E. }
  intros [|[n line] ls]; [apply at_silent; [discriminate|apply silent_err; reflexivity]|]. destruct (String.length line <? 4)%nat eqn:L.
  { eapply at_here; [intros l; cbn [parse_program_name_t]; rewrite L; reflexivity|cbn; intros place [<-|[]]; reflexivity|exact N]. }
  destruct (slice line 0 4) as [head|e|] eqn:SH.
  2:{ apply at_silent; cbn [parse_program_name_t]; rewrite L, SH; [discriminate|apply silent_err; reflexivity]. }
  2:{ apply at_silent; cbn [parse_program_name_t]; rewrite L, SH; [discriminate|apply silent_crash]. }
  destruct (String.eqb head "NAME") eqn:EN.
  2:{ eapply at_here; [intros l; cbn [parse_program_name_t]; rewrite L, SH; cbn [explain tbind]; rewrite EN; reflexivity|cbn; intros place [<-|[]]; reflexivity|exact N]. }
  destruct (slice_from line 4) as [tail|e|] eqn:ST.
  2:{ apply at_silent; cbn [parse_program_name_t]; rewrite L, SH; cbn [explain tbind]; rewrite EN, ST; [discriminate|apply silent_err; reflexivity]. }
  2:{ apply at_silent; cbn [parse_program_name_t]; rewrite L, SH; cbn [explain tbind]; rewrite EN, ST; [discriminate|apply silent_crash]. }
  destruct (two_or_three R tail) as [name|e|] eqn:TT.
  - apply (at_last _ _ _ _ name). intros l. cbn [parse_program_name_t]. rewrite L, SH. cbn [explain tbind]. rewrite EN, ST. cbn [explain tbind]. now rewrite TT.
  - eapply at_here; [intros l; cbn [parse_program_name_t]; rewrite L, SH; cbn [explain tbind]; rewrite EN, ST; cbn [explain tbind]; rewrite TT; reflexivity|cbn; intros place [<-|[]]; reflexivity|exact N].
  - apply at_silent; cbn [parse_program_name_t]; rewrite L, SH; cbn [explain tbind]; rewrite EN, ST; cbn [explain tbind]; rewrite TT; [discriminate|apply silent_crash].
Qed.
Lemma objsense_local : forall ls, local_at anything parse_objsense_section_t ls.
Proof.
  intros [|[n line] ls]; [apply at_silent; [discriminate|apply silent_err; reflexivity]|]. destruct (String.eqb (trim_end line) "ROWS") eqn:E1.
  { apply (at_last _ _ _ _ Minimize). intros l. cbn [parse_objsense_section_t]. now rewrite E1. }
  destruct (String.eqb (trim_end line) "OBJSENSE") eqn:E2.
  2:{ eapply at_here; [intros l; cbn [parse_objsense_section_t]; rewrite E1, E2; reflexivity|cbn; intros place [<-|[]]; reflexivity|].
      intros tail PT. exists ((0%nat, "ROWS") :: tail). split; [plain|]. left. exists Minimize. split; [exact I|]. reflexivity. }
  destruct ls as [|[n' line'] [|[n'' next] ls]].
  { apply at_silent; cbn [parse_objsense_section_t]; rewrite E1, E2; [discriminate|apply silent_err; reflexivity]. }
  { apply at_silent; cbn [parse_objsense_section_t]; rewrite E1, E2; [discriminate|apply silent_err; reflexivity]. }
  destruct (prefix "ROWS" next) eqn:EP.
  2:{ apply at_silent; cbn [parse_objsense_section_t]; rewrite E1, E2, EP; [discriminate|apply silent_err; reflexivity]. }
  destruct (String.eqb (trim_end line') "  MINIMIZE" || String.eqb (trim_end line') "  MIN") eqn:E3; [|destruct (String.eqb (trim_end line') "  MAXIMIZE" || String.eqb (trim_end line') "  MAX") eqn:E4].
  - unfold local_at. cbn [parse_objsense_section_t]. rewrite E1, E2, EP. cbv zeta. rewrite E3. exists [(n, line); (n', line'); (n'', next)]. split; [reflexivity|]. intros r. cbn [app parse_objsense_section_t]. rewrite E1, E2, EP. cbv zeta. now rewrite E3.
  - unfold local_at. cbn [parse_objsense_section_t]. rewrite E1, E2, EP. cbv zeta. rewrite E3, E4. exists [(n, line); (n', line'); (n'', next)]. split; [reflexivity|]. intros r. cbn [app parse_objsense_section_t]. rewrite E1, E2, EP. cbv zeta. now rewrite E3, E4.
  - unfold local_at. cbn [parse_objsense_section_t]. rewrite E1, E2, EP. cbv zeta. rewrite E3, E4. cbn. intros place [<-|[]]. exists [(n, line)], ((n'', next) :: ls). split; [reflexivity|]. split.
    + intros p a. cbn [app parse_objsense_section_t]. rewrite E1, E2. destruct p as [|[k l] p]; [discriminate|]. destruct (prefix "ROWS" l); [|discriminate]. rewrite E3, E4. discriminate.
    + intros tail PT. exists ((0%nat, "  MIN") :: (0%nat, "ROWS") :: tail). split; [plain|]. left. exists Minimize. split; [exact I|]. cbn [app parse_objsense_section_t]. rewrite E1, E2. reflexivity.
Qed.
Lemma rows_local : forall ls cost rows, local_at anything (fun l => parse_row_section_t R T l cost rows) ls.
Proof.
  induction ls as [|[n line] ls IH]; intros cost rows; [apply at_silent; [discriminate|apply silent_err; reflexivity]|].
  assert (N : forall tail, plain tail -> exists post', plain post' /\ leaves anything tail (parse_row_section_t R T post' cost rows)).
  { intros tail PT. exists ((0%nat, "COLUMNS") :: tail). split; [plain|]. left. exists (cost, rows). split; [exact I|]. reflexivity. }
  destruct (is_part_of_same_section line) eqn:E.
  - destruct (one_and_two R line) as [[t name]|e|] eqn:E1.
    2:{ apply at_silent; cbn [parse_row_section_t]; rewrite E, E1; [discriminate|apply silent_err; reflexivity]. }
    2:{ apply at_silent; cbn [parse_row_section_t]; rewrite E, E1; [discriminate|apply silent_crash]. }
    destruct (row_type_of t) as [k|e|] eqn:E2.
    2:{ eapply at_here; [intros l; cbn [parse_row_section_t]; rewrite E, E1; cbn [explain tbind]; rewrite E2; reflexivity|cbn; intros place [<-|[]]; reflexivity|exact N]. }
    2:{ apply at_silent; cbn [parse_row_section_t]; rewrite E, E1; cbn [explain tbind]; rewrite E2; [discriminate|apply silent_crash]. }
    destruct k as [k|]; [|destruct cost as [c|]].
    + apply (at_cons _ _ (fun l => parse_row_section_t R T l cost (rows ++ [mk_mrow name k]))); [|apply IH]. intros l. cbn [parse_row_section_t]. rewrite E, E1. cbn [explain tbind]. now rewrite E2.
    + eapply at_here; [intros l; cbn [parse_row_section_t]; rewrite E, E1; cbn [explain tbind]; rewrite E2; reflexivity|cbn; intros place [<-|[]]; reflexivity|exact N].
    + apply (at_cons _ _ (fun l => parse_row_section_t R T l (Some name) rows)); [|apply IH]. intros l. cbn [parse_row_section_t]. rewrite E, E1. cbn [explain tbind]. now rewrite E2.
  - pose proof (next_silent line [SColumns]) as S. destruct (try_parse_next_section_t line [SColumns]) as [next|e|] eqn:E1.
    + apply (at_last _ _ _ _ (cost, rows)). intros l. cbn [parse_row_section_t]. now rewrite E, E1.
    + apply at_silent; cbn [parse_row_section_t]; rewrite E, E1; [discriminate|]. now apply silent_err, S.
    + apply at_silent; cbn [parse_row_section_t]; rewrite E, E1; [discriminate|apply silent_crash].
Qed.
Lemma column_line_places cost_name rows x s e place : column_section_line_t b R T cost_name rows x s = TErr e -> In place (error_places e) -> place = x.
Proof.
  destruct x as [n line]. unfold column_section_line_t. destruct (is_column_marker_line R line) as [content|k|]; cbn [explain tbind]; [|intros H; injection H as <-; cbn; intros [<-|[]]; reflexivity|discriminate].
  destruct content as [text|column row value rest].
  - pose proof (save_silent None s) as S. destruct (save_to_column_collector_t None s) as [s'|e'|]; cbn [tbind]; [|intros H; injection H as <-; rewrite (S e' eq_refl); intros []|discriminate].
    destruct (String.eqb _ _); [discriminate|]. destruct (String.eqb _ _); [discriminate|]. intros H; injection H as <-. cbn. intros [<-|[]]. reflexivity.
  - match goal with |- tbind ?x _ = _ -> _ => assert (S : silent x) by (destruct (cs_active s); [destruct (String.eqb _ _); [apply silent_got|apply save_silent]|apply silent_got]); destruct x as [s'|e'|] end;
      cbn [tbind]; [|intros H; injection H as <-; rewrite (S e' eq_refl); intros []|discriminate].
    pose proof (pair_silent b cost_name rows row value s') as S1. destruct (save_column_pair_t b cost_name rows row value s') as [s1|e'|]; cbn [tbind]; [|intros H; injection H as <-; rewrite (S1 e' eq_refl); intros []|discriminate].
    destruct (five_and_six R rest) as [[[row' value']|]|k|]; cbn [explain tbind]; [|discriminate|intros H; injection H as <-; cbn; intros [<-|[]]; reflexivity|discriminate].
    intros H. rewrite (pair_silent b cost_name rows row' value' s1 e H). intros [].
Qed.
Definition at_end (x : list mcolumn * list (nat * Qc) * section) : Prop := snd x = SEndata.
Lemma columns_local cost_name rows : forall ls s, local_at at_end (fun l => parse_column_section_t b R T cost_name rows l s) ls.
Proof.
  induction ls as [|[n line] ls IH]; intros s; [apply at_silent; [discriminate|apply silent_err; reflexivity]|].
  assert (N : forall tail, plain tail -> exists post', plain post' /\ leaves at_end tail (parse_column_section_t b R T cost_name rows post' s)).
  { intros tail PT. exists ((0%nat, "ENDATA") :: tail). split; [plain|]. cbn. unfold save_to_column_collector_t. destruct (cs_active s); [cbv zeta; destruct (adjacent _ _)|].
    - right. eexists. reflexivity.
    - left. eexists. split; [|reflexivity]. reflexivity.
    - left. eexists. split; [|reflexivity]. reflexivity. }
  destruct (is_part_of_same_section line) eqn:E.
  - destruct (column_section_line_t b R T cost_name rows (n, line) s) as [s'|e|] eqn:E1.
    + apply (at_cons _ _ (fun l => parse_column_section_t b R T cost_name rows l s')); [|apply IH]. intros l. cbn [parse_column_section_t snd]. now rewrite E, E1.
    + eapply at_here; [intros l; cbn [parse_column_section_t snd]; rewrite E, E1; reflexivity|intros place; now apply (column_line_places _ _ _ _ _ _ E1)|exact N].
    + apply at_silent; cbn [parse_column_section_t snd]; rewrite E, E1; [discriminate|apply silent_crash].
  - pose proof (next_silent line [SRhs; SRanges; SBounds]) as S. destruct (try_parse_next_section_t line [SRhs; SRanges; SBounds]) as [next|e|] eqn:E1.
    + pose proof (save_silent None s) as S1. destruct (save_to_column_collector_t None s) as [s'|e|] eqn:E2.
      * apply (at_last _ _ _ _ (cs_done s', cs_costs s', next)). intros l. cbn [parse_column_section_t snd]. rewrite E, E1. cbn [tbind]. now rewrite E2.
      * apply at_silent; cbn [parse_column_section_t snd]; rewrite E, E1; cbn [tbind]; rewrite E2; [discriminate|]. now apply silent_err, S1.
      * apply at_silent; cbn [parse_column_section_t snd]; rewrite E, E1; cbn [tbind]; rewrite E2; [discriminate|apply silent_crash].
    + apply at_silent; cbn [parse_column_section_t snd]; rewrite E, E1; [discriminate|]. now apply silent_err, S.
    + apply at_silent; cbn [parse_column_section_t snd]; rewrite E, E1; [discriminate|apply silent_crash].
Qed.

(** ** The whole file *)
Lemma local_ext {A} (P P' : list located -> tout A) : (forall l, P l = P' l) -> local_end P -> local_end P'.
Proof.
  intros E H ls e place G I. rewrite <- E in G. destruct (H ls e place G I) as (pre & post & F & B & p & N). exists pre, post. split; [exact F|]. split; [intros q; rewrite <- E; apply B|].
  destruct N as [PP N]. exists p. split; [exact PP|]. now rewrite <- E.
Qed.
Definition from_columns name objective cost_name rows (ls : list located) : tout mps :=
  let! (columns, costs, next, lines) := parse_column_section_t b R T cost_name rows ls (mk_cols [] [] [] None false) in
  let! (rhss, next, lines) :=
    (if section_eqb next SRhs then parse_optional_section_t b R T [SRanges; SBounds] rows lines no_groups else TGot ([], next, lines)) in
  let! (ranges, next, lines) :=
    (if section_eqb next SRanges then parse_optional_section_t b R T [SBounds] rows lines no_groups else TGot ([], next, lines)) in
  let! _ := check_ranges_consistency_t ranges in
  let! (bounds, lines) :=
    (if section_eqb next SBounds then parse_bounds_section_t b R T columns lines no_groups else TGot ([], lines)) in
  match lines with
  | [] => TGot (mk_mps name objective cost_name costs rows columns rhss ranges bounds)
  | _ :: _ => TErr (SyntaxError (new "File parsed successfully, but it has nonempty lines at the end"))
  end.
Lemma from_columns_local name objective cost_name rows : local_end (from_columns name objective cost_name rows).
Proof.
  pose proof (local_then at_end (fun l => parse_column_section_t b R T cost_name rows l (mk_cols [] [] [] None false))
    (fun '(columns, costs, next) lines =>
  let! (rhss, next, lines) :=
    (if section_eqb next SRhs then parse_optional_section_t b R T [SRanges; SBounds] rows lines no_groups else TGot ([], next, lines)) in
  let! (ranges, next, lines) :=
    (if section_eqb next SRanges then parse_optional_section_t b R T [SBounds] rows lines no_groups else TGot ([], next, lines)) in
  let! _ := check_ranges_consistency_t ranges in
  let! (bounds, lines) :=
    (if section_eqb next SBounds then parse_bounds_section_t b R T columns lines no_groups else TGot ([], lines)) in
  match lines with
  | [] => TGot (mk_mps name objective cost_name costs rows columns rhss ranges bounds)
  | _ :: _ => TErr (SyntaxError (new "File parsed successfully, but it has nonempty lines at the end"))
  end) []) as G.
  eapply local_ext; [|apply G].
  - intros l. unfold from_columns. destruct (parse_column_section_t _ _ _ _ _ _ _) as [[[[columns costs] next] lines]|e|]; reflexivity.
  - intros ls. apply columns_local.
  - intros [[columns costs] next]. apply silent_end. intros ls. apply silent_bind; [destruct (section_eqb _ _); [apply optional_silent|quiet]|intros [[rhss next1] l1]].
    apply silent_bind; [destruct (section_eqb _ _); [apply optional_silent|quiet]|intros [[ranges next2] l2]]. apply silent_bind; [apply silent_explain; reflexivity|intros _].
    apply silent_bind; [destruct (section_eqb _ _); [apply bounds_silent|quiet]|intros [bounds l3]]. quiet.
  - apply plain_nil.
  - intros [[columns costs] next] E. cbv [at_end snd] in E. subst next. left. eexists. reflexivity.
Qed.
Definition endata : located := (0%nat, "ENDATA").
Lemma from_columns_fine name objective cost_name rows : fine (from_columns name objective cost_name rows [endata]).
Proof. left. eexists. reflexivity. Qed.
Definition from_rows name objective (ls : list located) : tout mps :=
  let! (cost, rows, lines) := parse_row_section_t R T ls None [] in
  let! (cost_name, rows) := check_row_section_consistency_t cost rows in from_columns name objective cost_name rows lines.
Lemma after_check name objective cost rows : local_end (fun lines => let! (cost_name, rows) := check_row_section_consistency_t cost rows in from_columns name objective cost_name rows lines).
Proof.
  pose proof (check_silent cost rows) as S. destruct (check_row_section_consistency_t cost rows) as [[cost_name rows']|e|]; cbn [tbind].
  - apply from_columns_local.
  - apply silent_end. intros _. now apply silent_err, S.
  - apply silent_end. intros _. apply silent_crash.
Qed.
Lemma after_check_fine name objective cost rows : fine (let! (cost_name, rows) := check_row_section_consistency_t cost rows in from_columns name objective cost_name rows [endata]).
Proof.
  unfold check_row_section_consistency_t. destruct cost as [c|]; [|right; eexists; reflexivity]. cbv zeta. destruct (existsb _ _); [right; eexists; reflexivity|]. destruct (first_adjacent _ _); [right; eexists; reflexivity|].
  apply from_columns_fine.
Qed.
Lemma from_rows_local name objective : local_end (from_rows name objective).
Proof.
  eapply local_ext; [|apply (local_then anything (fun l => parse_row_section_t R T l None [])
    (fun '(cost, rows) lines => let! (cost_name, rows) := check_row_section_consistency_t cost rows in from_columns name objective cost_name rows lines) [endata])].
  - intros l. unfold from_rows. destruct (parse_row_section_t _ _ _ _ _) as [[[cost rows] lines]|e|]; reflexivity.
  - intros ls. apply rows_local.
  - intros [cost rows]. apply after_check.
  - unfold endata. plain.
  - intros [cost rows] _. apply after_check_fine.
Qed.
Definition columns_line : located := (0%nat, "COLUMNS").
Lemma from_rows_fine name objective : fine (from_rows name objective [columns_line; endata]).
Proof. right. eexists. reflexivity. Qed.
Theorem lines_local : local_end (parse_lines_t R T b).
Proof.
  eapply local_ext; [|apply (local_then anything (parse_program_name_t R) (fun name lines => let! (objective, lines) := parse_objsense_section_t lines in from_rows name objective lines)
    [(0%nat, "ROWS"); columns_line; endata])].
  - intros l. unfold parse_lines_t. destruct (parse_program_name_t R l) as [[name lines]|e|]; [|reflexivity|reflexivity]. cbn [tbind]. destruct (parse_objsense_section_t lines) as [[objective lines1]|e|]; reflexivity.
  - apply name_local.
  - intros name. apply (local_then anything _ (fun objective lines => from_rows name objective lines) [columns_line; endata]); [apply objsense_local|intros objective; apply from_rows_local|unfold columns_line, endata; plain|].
    intros objective _. apply from_rows_fine.
  - unfold columns_line, endata. plain.
  - intros name _. cbn [parse_objsense_section_t tbind]. apply from_rows_fine.
Qed.
End Silent.

(** ** From lines to texts *)
Lemma numbered f : forall L k pre n l post, filter f (number_lines k L) = pre ++ (n, l) :: post ->
  (k <= n)%nat /\ nth_error L (n - k) = Some l /\ filter f (number_lines k (firstn (n - k) L)) = pre
  /\ forall L', firstn (S (n - k)) L' = firstn (S (n - k)) L -> exists post', filter f (number_lines k L') = pre ++ (n, l) :: post'.
Proof.
  induction L as [|a L IH]; intros k pre n l post E; cbn [number_lines filter] in E; [now destruct pre|]. destruct (f (k, a)) eqn:F.
  - destruct pre as [|x pre].
    + cbn [app] in E. injection E as <- <- _. split; [lia|]. rewrite Nat.sub_diag. split; [reflexivity|]. split; [reflexivity|].
      intros [|a' L'] H; [discriminate|]. cbn [firstn] in H. injection H as ->. cbn [number_lines filter]. rewrite F. eexists. reflexivity.
    + cbn [app] in E. injection E as <- E. destruct (IH (S k) pre n l post E) as (K & N & G & C). split; [lia|]. replace (n - k)%nat with (S (n - S k)) by lia. split; [exact N|].
      split; [cbn [firstn number_lines filter]; rewrite F; now f_equal|].
      intros [|a' L'] H; [discriminate|]. cbn [firstn] in H. injection H as -> H. destruct (C L') as (p & P); [exact H|]. cbn [number_lines filter]. rewrite F, P. exists p. reflexivity.
  - destruct (IH (S k) pre n l post E) as (K & N & G & C). split; [lia|]. replace (n - k)%nat with (S (n - S k)) by lia. split; [exact N|].
    split; [cbn [firstn number_lines filter]; now rewrite F|].
    intros [|a' L'] H; [discriminate|]. cbn [firstn] in H. injection H as -> H. destruct (C L') as (p & P); [exact H|]. cbn [number_lines filter]. rewrite F, P. exists p. reflexivity.
Qed.
Definition is_kept (x : located) : bool := negb (is_comment (snd x)) && negb (is_empty (snd x)).
Lemma into_lines_kept text : into_lines_t text = filter is_kept (number_lines 1 (lines text)).
Proof.
  unfold into_lines_t. generalize (number_lines 1 (lines text)). induction l as [|x l IH]; [reflexivity|]. cbn [filter]. unfold is_kept at 1. destruct (negb (is_comment (snd x))); cbn [andb filter]; [|exact IH].
  destruct (negb (is_empty (snd x))); [now rewrite IH|exact IH].
Qed.
Lemma number_app : forall L k M, number_lines k (L ++ M) = number_lines k L ++ number_lines (k + length L) M.
Proof. induction L as [|a L IH]; intros k M; [cbn; now rewrite Nat.add_0_r|]. cbn [app number_lines length]. rewrite IH. replace (S k + length L)%nat with (k + S (length L))%nat by lia. reflexivity. Qed.
Lemma number_snd : forall L k, map snd (number_lines k L) = L.
Proof. induction L as [|a L IH]; intros k; [reflexivity|]. cbn. now rewrite IH. Qed.
Lemma plain_kept ls : plain ls -> forall k, filter is_kept (number_lines k (map snd ls)) = number_lines k (map snd ls).
Proof.
  induction ls as [|[n l] ls IH]; intros P k; [reflexivity|]. cbn [map number_lines filter snd]. rewrite IH by (intros x I; apply P; now right).
  assert (K : is_kept (k, l) = true). { specialize (P (n, l) (or_introl eq_refl)). cbn [snd] in P. cbn in P. repeat (destruct P as [<-|P]; [reflexivity|]). destruct P. }
  now rewrite K.
Qed.
(** a text with given lines *)
Fixpoint text_with (ls : list string) : string :=
  match ls with [] => "" | l :: t => (l ++ String (ascii_of_nat 13) (String newline (text_with t)))%string end.
Lemma text_with_lines : forall ls, (forall l, In l ls -> on_one_line l) -> lines (text_with ls) = ls.
Proof.
  induction ls as [|l ls IH]; intros O; [reflexivity|]. cbn [text_with]. replace (l ++ String (ascii_of_nat 13) (String newline (text_with ls)))%string with ((l ++ String (ascii_of_nat 13) "") ++ String newline (text_with ls))%string.
  - rewrite lines_cons by (apply on_one_line_return, O; now left). rewrite drop_return_end, IH; [reflexivity|]. intros x I. apply O. now right.
  - rewrite append_assoc. reflexivity.
Qed.
Lemma laid_one_line ls text : laid_out ls text -> forall l, In l ls -> on_one_line l.
Proof. induction 1 as [|l' e O D N|l' ls e t O D L IH]; intros l I; [destruct I|destruct I as [<-|[]]; exact O|destruct I as [<-|I]; [exact O|now apply IH]]. Qed.
Lemma lines_one_line text l : In l (lines text) -> on_one_line l.
Proof. apply (laid_one_line _ text), (lines_laid_out (String.length text)). lia. Qed.
Theorem error_places_right (R : reader) (T : teller R) b : syntactic R -> (exists name, two_or_three R " X" = Got name) -> forall text e n l,
  parse_with_t R T b text = TErr e -> In (n, l) (error_places e) ->
  (1 <= n)%nat /\ nth_error (lines text) (n - 1) = Some l
  /\ (forall text', firstn n (lines text') = firstn n (lines text) -> forall m, parse_with R b text' <> Got m)
  /\ exists text', firstn (n - 1) (lines text') = firstn (n - 1) (lines text) /\ parse_with R b text' <> Rejected Syntax /\ parse_with R b text' <> Crashed.
Proof.
  intros SR Nm text e n l E I. unfold parse_with_t in E. destruct (lines_local R T b Nm (into_lines_t text) e (n, l) E I) as (pre & post & F & Bd & post' & PP & N).
  rewrite into_lines_kept in F. destruct (numbered is_kept (lines text) 1 pre n l post F) as (K & Nt & G & C). split; [exact K|]. split; [exact Nt|]. split.
  - intros text' H m M. replace (S (n - 1)) with n in C by lia. destruct (C (lines text') H) as (p & P). rewrite <- (text_forget R T b SR) in M. unfold parse_with_t in M. rewrite into_lines_kept, P in M.
    specialize (Bd p). destruct (parse_lines_t R T b (pre ++ (n, l) :: p)) as [m'|[e'|e']|]; try discriminate M. now apply (Bd m').
  - exists (text_with (firstn (n - 1) (lines text) ++ map snd post')).
    assert (L : lines (text_with (firstn (n - 1) (lines text) ++ map snd post')) = firstn (n - 1) (lines text) ++ map snd post').
    { apply text_with_lines. intros x Ix. apply in_app_or in Ix. destruct Ix as [Ix|Ix].
      - apply (lines_one_line text). rewrite <- (firstn_skipn (n - 1)). apply in_or_app. now left.
      - apply in_map_iff in Ix. destruct Ix as (y & <- & Iy). apply PP in Iy. intros H. cbn in Iy. repeat (destruct Iy as [Iy|Iy]; [rewrite <- Iy in H; cbn in H; repeat (destruct H as [H|H]; [discriminate H|]); destruct H|]). destruct Iy. }
    assert (LE : length (firstn (n - 1) (lines text)) = (n - 1)%nat).
    { apply firstn_length_le. assert (n - 1 < length (lines text))%nat; [|lia]. apply nth_error_Some. now rewrite Nt. }
    split.
    { rewrite L. rewrite <- LE at 1. rewrite firstn_app, Nat.sub_diag, firstn_all. cbn [firstn]. now rewrite app_nil_r. }
    assert (V : parse_with R b (text_with (firstn (n - 1) (lines text) ++ map snd post')) = forget (parse_lines_t R T b (pre ++ post'))).
    { rewrite <- (text_forget R T b SR). unfold parse_with_t. rewrite into_lines_kept, L, number_app, filter_app, G, plain_kept by exact PP.
      rewrite !(lines_forget R T b SR), !map_app, number_snd. reflexivity. }
    rewrite V. destruct N as [(m & ->)|(t & ->)]; split; discriminate.
Qed.
