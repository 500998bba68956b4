(** * Errors of reading MPS files: without their messages they are those of MpsParse.v, and they point to a line at fault *)
From Verif Require Import MpsErr AcceptP.
Local Open Scope string_scope.
Local Open Scope list_scope.

(** ** Leaving out the messages *)
Definition forget {A} (x : tout A) : out A :=
  match x with
  | TGot a => Got a
  | TErr (SyntaxError _) => Rejected Syntax
  | TErr (Inconsistency _) => Rejected Inconsistent
  | TCrash => Crashed
  end.
Definition omap {A B} (f : A -> B) (x : out A) : out B := let~ a := x in Got (f a).
Lemma forget_bind {A B} (x : tout A) (f : A -> tout B) : forget (tbind x f) = obind (forget x) (fun a => forget (f a)).
Proof. destruct x as [a|[e|e]|]; reflexivity. Qed.
Definition only_syntax {A} (x : out A) : Prop := forall e, x = Rejected e -> e = Syntax.
Lemma forget_explain {A} (x : out A) e : only_syntax x -> forget (explain x (SyntaxError e)) = x.
Proof. intros H. destruct x as [a|k|]; [reflexivity| |reflexivity]. cbn. now rewrite (H k eq_refl). Qed.
Lemma only_got {A} (a : A) : only_syntax (Got a). Proof. intros e H. discriminate H. Qed.
Lemma only_rejected {A} : only_syntax (@Rejected A Syntax). Proof. intros e H. now injection H. Qed.
Lemma only_crashed {A} : only_syntax (@Crashed A). Proof. intros e H. discriminate H. Qed.
Lemma only_bind {A B} (x : out A) (f : A -> out B) : only_syntax x -> (forall a, only_syntax (f a)) -> only_syntax (obind x f).
Proof. intros X F e. destruct x as [a|k|]; cbn; [apply F| |discriminate]. intros H. injection H as ->. now apply X. Qed.
Ltac syn_only := repeat first [apply only_got | apply only_rejected | apply only_crashed | apply only_bind; [|intros ?] | assumption
  | match goal with |- only_syntax (if ?c then _ else _) => destruct c end
  | match goal with |- only_syntax (match ?c with _ => _ end) => destruct c end ].
Lemma slice_only s a b : only_syntax (slice s a b). Proof. unfold slice. syn_only. Qed.
Lemma slice_from_only s a : only_syntax (slice_from s a). Proof. apply slice_only. Qed.
Lemma row_type_only w : only_syntax (row_type_of w). Proof. unfold row_type_of. apply only_bind; [apply slice_only|]. intros t. syn_only. Qed.
Lemma section_only l : only_syntax (section_of l). Proof. unfold section_of. syn_only. Qed.
Lemma part_only l : only_syntax (parse_part l). Proof. unfold parse_part. syn_only. Qed.
Lemma u64_only b z : only_syntax (u64 b z). Proof. unfold u64. syn_only. Qed.
Lemma number_only b l : only_syntax (parse_number b l).
Proof.
  unfold parse_number. apply only_bind.
  - unfold raw_from. destruct l as [|c t]; [syn_only|]. destruct (_ <=? _)%Z; [syn_only|]. destruct (if Ascii.eqb c "-" then _ else _) as [m text]. destruct (split_point text) as [w [r|]].
    + repeat (apply only_bind; [first [apply part_only|apply u64_only]|intros ?]). syn_only.
    + apply only_bind; [apply part_only|intros ?]. syn_only.
  - intros r. unfold raw_to_number. apply only_bind; [apply u64_only|intros ?]. syn_only.
Qed.
(** readers of lines fail because of the syntax only *)
Record syntactic (R : reader) : Prop := mk_syntactic {
  sy_two_or_three : forall l, only_syntax (two_or_three R l);
  sy_one_and_two : forall l, only_syntax (one_and_two R l);
  sy_marker : forall l, only_syntax (is_column_marker_line R l);
  sy_two_through_four : forall l, only_syntax (two_through_four R l);
  sy_five_and_six : forall l, only_syntax (five_and_six R l);
  sy_one_through_three : forall l, only_syntax (one_through_three R l);
  sy_four : forall l, only_syntax (four R l)
}.
Lemma free_syntactic : syntactic free.
Proof.
  constructor; intros l; cbn.
  - unfold free_two_or_three. syn_only.
  - unfold free_one_and_two. syn_only.
  - unfold free_is_column_marker_line. syn_only.
  - unfold free_three. syn_only.
  - unfold free_five_and_six. syn_only.
  - unfold free_three. syn_only.
  - unfold free_four. syn_only.
Qed.
Ltac syn_slices := repeat first [apply slice_only | apply slice_from_only | apply only_got | apply only_rejected | apply only_crashed | apply only_bind; [|intros ?] | assumption
  | match goal with |- only_syntax (if ?c then _ else _) => destruct c end
  | match goal with |- only_syntax (match ?c with _ => _ end) => destruct c end ].
Lemma fixed_syntactic : syntactic fixed.
Proof.
  constructor; intros l; cbn.
  - unfold free_two_or_three. syn_only.
  - unfold fixed_one_and_two. cbv zeta. syn_slices.
  - unfold fixed_is_column_marker_line. cbv zeta. syn_slices.
  - unfold fixed_two_through_four. syn_slices.
  - unfold fixed_five_and_six. syn_slices.
  - unfold fixed_one_through_three. syn_slices.
  - unfold fixed_four. syn_slices.
Qed.

Section Erase.
Context (R : reader) (T : teller R) (b : build) (SR : syntactic R).
Lemma number_forget text : forget (parse_number_t b text) = parse_number b text.
Proof. apply forget_explain, number_only. Qed.
Lemma next_forget line acceptable : forget (try_parse_next_section_t line acceptable) = try_parse_next_section line acceptable.
Proof. unfold try_parse_next_section_t, try_parse_next_section. rewrite forget_bind, forget_explain by apply section_only. destruct (section_of line) as [s|e|]; [cbn|reflexivity|reflexivity]. destruct (_ || _); reflexivity. Qed.
Definition drop_numbers {A} (x : A * list located) : A * list string := (fst x, map snd (snd x)).
Lemma name_forget ls : omap drop_numbers (forget (parse_program_name_t R ls)) = parse_program_name R (map snd ls).
Proof.
  destruct ls as [|[n line] ls]; [reflexivity|]. cbn [parse_program_name_t parse_program_name map snd]. unfold name_error. destruct (_ <? _)%nat; [reflexivity|].
  rewrite forget_bind, forget_explain by apply slice_only. destruct (slice line 0 4) as [head|e|]; [cbn [obind]|reflexivity|reflexivity]. destruct (String.eqb head "NAME"); [|reflexivity].
  rewrite forget_bind, forget_explain by apply slice_from_only. destruct (slice_from line 4) as [tail|e|]; [cbn [obind]|reflexivity|reflexivity].
  rewrite forget_bind, forget_explain by apply (sy_two_or_three R SR). destruct (two_or_three R tail); reflexivity.
Qed.
Lemma objsense_forget ls : omap drop_numbers (forget (parse_objsense_section_t ls)) = parse_objsense_section (map snd ls).
Proof.
  destruct ls as [|[n line] ls]; [reflexivity|]. cbn [parse_objsense_section_t parse_objsense_section map snd]. destruct (String.eqb _ "ROWS"); [reflexivity|]. destruct (String.eqb _ "OBJSENSE"); [|reflexivity].
  destruct ls as [|[n' line'] [|[n'' next] ls]]; cbn [map snd]; [reflexivity|reflexivity|]. destruct (prefix "ROWS" next); [|reflexivity]. cbv zeta. destruct (_ || _); [reflexivity|]. destruct (_ || _); reflexivity.
Qed.
Lemma rows_forget : forall ls cost rows, omap drop_numbers (forget (parse_row_section_t R T ls cost rows)) = parse_row_section R (map snd ls) cost rows.
Proof.
  induction ls as [|[n line] ls IH]; intros cost rows; [reflexivity|]. cbn [parse_row_section_t parse_row_section map snd]. destruct (is_part_of_same_section line).
  - rewrite forget_bind, forget_explain by apply (sy_one_and_two R SR). destruct (one_and_two R line) as [[t name]|e|]; [cbn [obind]|reflexivity|reflexivity].
    rewrite forget_bind, forget_explain by apply row_type_only. destruct (row_type_of t) as [k|e|]; [cbn [obind]|reflexivity|reflexivity]. destruct k as [k|]; [apply IH|]. destruct cost; [reflexivity|apply IH].
  - rewrite forget_bind, next_forget. destruct (try_parse_next_section _ _); reflexivity.
Qed.
Lemma first_adjacent_some {A} (same : A -> A -> bool) l : adjacent same l = match first_adjacent same l with Some _ => true | None => false end.
Proof. induction l as [|a [|c l] IH]; [reflexivity|reflexivity|]. cbn [adjacent first_adjacent] in *. destruct (same a c); [reflexivity|]. exact IH. Qed.
Lemma check_forget cost rows : forget (check_row_section_consistency_t cost rows) = check_row_section_consistency cost rows.
Proof.
  unfold check_row_section_consistency_t, check_row_section_consistency. destruct cost as [name|]; [|reflexivity]. cbv zeta. destruct (existsb _ _); [reflexivity|]. rewrite first_adjacent_some.
  destruct (first_adjacent _ _); reflexivity.
Qed.
Lemma save_forget new s : forget (save_to_column_collector_t new s) = save_to_column_collector new s.
Proof. unfold save_to_column_collector_t, save_to_column_collector. destruct (cs_active s); [|reflexivity]. cbv zeta. destruct (adjacent _ _); reflexivity. Qed.
Lemma pair_forget cost_name rows row value s : forget (save_column_pair_t b cost_name rows row value s) = save_column_pair b cost_name rows row value s.
Proof.
  unfold save_column_pair_t, save_column_pair. rewrite forget_bind, number_forget. destruct (parse_number b value); [cbn [obind]|reflexivity|reflexivity]. destruct (row_index rows row); [reflexivity|].
  destruct (String.eqb row cost_name); reflexivity.
Qed.
Lemma column_line_forget cost_name rows n line s : forget (column_section_line_t b R T cost_name rows (n, line) s) = column_section_line b R cost_name rows line s.
Proof.
  unfold column_section_line_t, column_section_line. rewrite forget_bind, forget_explain by apply (sy_marker R SR). destruct (is_column_marker_line R line) as [content|e|]; [cbn [obind]|reflexivity|reflexivity].
  destruct content as [text|column row value rest].
  - rewrite forget_bind, save_forget. destruct (save_to_column_collector None s); [cbn [obind]|reflexivity|reflexivity]. destruct (String.eqb _ _); [reflexivity|]. destruct (String.eqb _ _); reflexivity.
  - rewrite forget_bind.
    assert (E : forget (match cs_active s with
        | Some active => if String.eqb active column then TGot s else save_to_column_collector_t (Some column) s
        | None => TGot (mk_cols (cs_done s) (cs_values s) (cs_costs s) (Some column) (cs_integer s))
        end) = match cs_active s with
        | Some active => if String.eqb active column then Got s else save_to_column_collector (Some column) s
        | None => Got (mk_cols (cs_done s) (cs_values s) (cs_costs s) (Some column) (cs_integer s))
        end) by (destruct (cs_active s); [destruct (String.eqb _ _); [reflexivity|apply save_forget]|reflexivity]).
    rewrite E. match goal with |- obind ?x _ = obind ?x _ => destruct x as [s'|e|] end; [cbn [obind]|reflexivity|reflexivity]. rewrite forget_bind, pair_forget.
    destruct (save_column_pair b cost_name rows row value s') as [s''|e|]; [cbn [obind]|reflexivity|reflexivity]. rewrite forget_bind, forget_explain by apply (sy_five_and_six R SR).
    destruct (five_and_six R rest) as [[[row' value']|]|e|]; [cbn [obind]; apply pair_forget|reflexivity|reflexivity|reflexivity].
Qed.
Lemma columns_forget cost_name rows : forall ls s,
  omap drop_numbers (forget (parse_column_section_t b R T cost_name rows ls s)) = parse_column_section b R cost_name rows (map snd ls) s.
Proof.
  induction ls as [|[n line] ls IH]; intros s; [reflexivity|]. cbn [parse_column_section_t parse_column_section map snd]. destruct (is_part_of_same_section line).
  - rewrite forget_bind, column_line_forget. destruct (column_section_line b R cost_name rows line s); [cbn [obind]; apply IH|reflexivity|reflexivity].
  - rewrite forget_bind, next_forget. destruct (try_parse_next_section _ _); [cbn [obind]|reflexivity|reflexivity]. rewrite forget_bind, save_forget. destruct (save_to_column_collector None s); reflexivity.
Qed.
Lemma group_forget {A} d new (s : groups_state A) : forget (save_to_group_collector_t d new s) = save_to_group_collector d new s.
Proof.
  unfold save_to_group_collector_t, save_to_group_collector. destruct (gs_active s); [|reflexivity]. cbv zeta. rewrite (first_adjacent_some same_index). destruct d; cbn [negb andb]; [reflexivity|].
  destruct (first_adjacent _ _); reflexivity.
Qed.
Lemma change_forget {A} d name (s : groups_state A) : forget (change_group_t d name s) = change_group d name s.
Proof. unfold change_group_t, change_group. destruct (gs_active s); [|reflexivity]. destruct (String.eqb _ _); [reflexivity|apply group_forget]. Qed.
Lemma group_pair_forget rows row value s : forget (save_group_pair_t b rows row value s) = save_group_pair b rows row value s.
Proof.
  unfold save_group_pair_t, save_group_pair. rewrite <- (number_forget value). destruct (parse_number_t b value) as [v|[e|e]|]; destruct (row_index rows row); reflexivity.
Qed.
Lemma value_line_forget rows line s : forget (parse_value_section_line_t b R T rows line s) = parse_value_section_line b R rows line s.
Proof.
  unfold parse_value_section_line_t, parse_value_section_line. rewrite forget_bind, forget_explain by apply (sy_two_through_four R SR).
  destruct (two_through_four R line) as [[[[name row] value] rest]|e|]; [cbn [obind]|reflexivity|reflexivity]. rewrite forget_bind, change_forget.
  destruct (change_group false name s) as [s'|e|]; [cbn [obind]|reflexivity|reflexivity]. rewrite forget_bind, group_pair_forget.
  destruct (save_group_pair b rows row value s') as [s''|e|]; [cbn [obind]|reflexivity|reflexivity]. rewrite forget_bind, forget_explain by apply (sy_five_and_six R SR).
  destruct (five_and_six R rest) as [[[row' value']|]|e|]; [cbn [obind]; apply group_pair_forget|reflexivity|reflexivity|reflexivity].
Qed.
Lemma optional_forget valid rows : forall ls s, omap drop_numbers (forget (parse_optional_section_t b R T valid rows ls s)) = parse_optional_section b R valid rows (map snd ls) s.
Proof.
  induction ls as [|[n line] ls IH]; intros s; [reflexivity|]. cbn [parse_optional_section_t parse_optional_section map snd]. destruct (is_part_of_same_section line).
  - rewrite forget_bind, value_line_forget. destruct (parse_value_section_line b R rows line s); [cbn [obind]; apply IH|reflexivity|reflexivity].
  - rewrite forget_bind, next_forget. destruct (try_parse_next_section _ _); [cbn [obind]|reflexivity|reflexivity]. rewrite forget_bind, group_forget. destruct (save_to_group_collector false None s); reflexivity.
Qed.
Lemma bound_type_forget text rest : forget (bound_type_of_t b R T text rest) = bound_type_of b R text rest.
Proof.
  assert (V : forall f : Qc -> bound_type, forget (let! value := explain (four R rest) (SyntaxError (new (tell_four T rest))) in let! v := parse_number_t b value in TGot (f v))
    = (let~ value := four R rest in let~ v := parse_number b value in Got (f v))).
  { intros f. rewrite forget_bind, forget_explain by apply (sy_four R SR). destruct (four R rest) as [value|e|]; [cbn [obind]|reflexivity|reflexivity]. rewrite forget_bind, number_forget.
    destruct (parse_number b value); reflexivity. }
  unfold bound_type_of_t, bound_type_of. cbv zeta. repeat (match goal with |- forget (if ?c then _ else _) = _ => destruct c end; [first [reflexivity|apply V]|]). reflexivity.
Qed.
Lemma bound_line_forget columns line s : forget (parse_bound_line_t b R T columns line s) = parse_bound_line b R columns line s.
Proof.
  unfold parse_bound_line_t, parse_bound_line. rewrite forget_bind, forget_explain by apply (sy_one_through_three R SR).
  destruct (one_through_three R line) as [[[[t name] column] rest]|e|]; [cbn [obind]|reflexivity|reflexivity]. destruct (column_index columns column); [|reflexivity]. rewrite forget_bind, change_forget.
  destruct (change_group true name s); [cbn [obind]|reflexivity|reflexivity]. rewrite forget_bind, bound_type_forget. destruct (bound_type_of b R t rest); reflexivity.
Qed.
Lemma bounds_forget columns : forall ls s, omap drop_numbers (forget (parse_bounds_section_t b R T columns ls s)) = parse_bounds_section b R columns (map snd ls) s.
Proof.
  induction ls as [|[n line] ls IH]; intros s; [reflexivity|]. cbn [parse_bounds_section_t parse_bounds_section map snd]. destruct (is_part_of_same_section line).
  - rewrite forget_bind, bound_line_forget. destruct (parse_bound_line b R columns line s); [cbn [obind]; apply IH|reflexivity|reflexivity].
  - rewrite forget_bind, next_forget. destruct (try_parse_next_section _ _); [cbn [obind]|reflexivity|reflexivity]. rewrite forget_bind, group_forget. destruct (save_to_group_collector true None s); reflexivity.
Qed.
Lemma ranges_forget ranges : forget (check_ranges_consistency_t ranges) = check_ranges_consistency ranges.
Proof. unfold check_ranges_consistency_t, check_ranges_consistency. destruct (has_duplicate _); reflexivity. Qed.
Lemma obind_omap {A B C} (f : A -> B) (x : out A) (g : B -> out C) : obind (omap f x) g = obind x (fun a => g (f a)).
Proof. destruct x; reflexivity. Qed.
Lemma obind_ext {A B} (x : out A) (f g : A -> out B) : (forall a, f a = g a) -> obind x f = obind x g.
Proof. intros H. destruct x; [apply H|reflexivity|reflexivity]. Qed.
Lemma kept_lines text : map snd (into_lines_t text) = into_lines text.
Proof.
  unfold into_lines_t, into_lines. generalize 1%nat. induction (lines text) as [|l t IH]; intros n; [reflexivity|]. cbn [number_lines filter]. cbn [snd]. destruct (negb (is_comment l)); cbn [filter snd]; [|apply IH].
  destruct (negb (is_empty l)); cbn [map snd]; [|apply IH]. f_equal. apply IH.
Qed.
(** the answer depends on the lines only *)
Definition parse_lines (ls : list string) : out mps :=
  let~ (name, lines) := parse_program_name R ls in
  let~ (objective, lines) := parse_objsense_section lines in
  let~ (cost, rows, lines) := parse_row_section R lines None [] in
  let~ (cost_name, rows) := check_row_section_consistency cost rows in
  let~ (columns, costs, next, lines) := parse_column_section b R cost_name rows lines (mk_cols [] [] [] None false) in
  let~ (rhss, next, lines) :=
    (if section_eqb next SRhs then parse_optional_section b R [SRanges; SBounds] rows lines no_groups else Got ([], next, lines)) in
  let~ (ranges, next, lines) :=
    (if section_eqb next SRanges then parse_optional_section b R [SBounds] rows lines no_groups else Got ([], next, lines)) in
  let~ _ := check_ranges_consistency ranges in
  let~ (bounds, lines) :=
    (if section_eqb next SBounds then parse_bounds_section b R columns lines no_groups else Got ([], lines)) in
  match lines with
  | [] => Got (mk_mps name objective cost_name costs rows columns rhss ranges bounds)
  | _ :: _ => Rejected Syntax
  end.
Lemma lines_forget ls : forget (parse_lines_t R T b ls) = parse_lines (map snd ls).
Proof.
  unfold parse_lines_t, parse_lines. rewrite forget_bind, <- name_forget, obind_omap. apply obind_ext. intros [name ls1]. cbn [drop_numbers fst snd].
  rewrite forget_bind, <- objsense_forget, obind_omap. apply obind_ext. intros [objective ls2]. cbn [drop_numbers fst snd].
  rewrite forget_bind, <- rows_forget, obind_omap. apply obind_ext. intros [[cost rows] ls3]. cbn [drop_numbers fst snd].
  rewrite forget_bind, check_forget. apply obind_ext. intros [cost_name rows'].
  rewrite forget_bind, <- columns_forget, obind_omap. apply obind_ext. intros [[[columns costs] next] ls4]. cbn [drop_numbers fst snd].
  assert (O : forall valid ls (c : bool) nxt, omap drop_numbers (forget (if c then parse_optional_section_t b R T valid rows' ls no_groups else TGot ([], nxt, ls)))
    = if c then parse_optional_section b R valid rows' (map snd ls) no_groups else Got ([], nxt, map snd ls)) by (intros valid ls' [|] nxt; [apply optional_forget|reflexivity]).
  rewrite forget_bind, <- O, obind_omap. apply obind_ext. intros [[rhss next1] ls5]. cbn [drop_numbers fst snd].
  rewrite forget_bind, <- O, obind_omap. apply obind_ext. intros [[ranges next2] ls6]. cbn [drop_numbers fst snd].
  rewrite forget_bind, ranges_forget. apply obind_ext. intros _.
  assert (B : omap drop_numbers (forget (if section_eqb next2 SBounds then parse_bounds_section_t b R T columns ls6 no_groups else TGot ([], ls6)))
    = if section_eqb next2 SBounds then parse_bounds_section b R columns (map snd ls6) no_groups else Got ([], map snd ls6)) by (destruct (section_eqb next2 SBounds); [apply bounds_forget|reflexivity]).
  rewrite forget_bind, <- B, obind_omap. apply obind_ext. intros [bounds ls7]. cbn [drop_numbers fst snd]. destruct ls7; reflexivity.
Qed.
Theorem text_forget text : forget (parse_with_t R T b text) = parse_with R b text.
Proof. unfold parse_with_t. rewrite lines_forget, kept_lines. reflexivity. Qed.
End Erase.
