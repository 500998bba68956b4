(** * Mistakes that are told with their line *)
From Verif Require Import MpsErr MpsErrP MpsErrQ TextP AcceptFreeP AcceptFixedP ParseP FileP FixedP SpecErr.
Local Open Scope string_scope.
Local Open Scope list_scope.

(** ** Reading lines with their numbers *)
Section Reader.
Context (R : reader) (T : teller R) (b : build) (SR : syntactic R) (named : exists name, two_or_three R " X" = Got name).
Lemma same_rest {A} (p r rest : list A) : length r = length rest -> forall q, q ++ rest = p ++ r -> r = rest.
Proof.
  intros L q. revert p. induction q as [|x q IH]; intros p E.
  - destruct p as [|y p]; [now symmetry|]. apply (f_equal (@length A)) in E. cbn in E. rewrite app_length in E. lia.
  - destruct p as [|y p].
    + apply (f_equal (@length A)) in E. cbn in E. rewrite app_length in E. lia.
    + injection E as _ E. now apply (IH p).
Qed.
Lemma read_numbered {A} (good : A -> Prop) (P : list located -> tout (A * list located)) (Q : list string -> out (A * list string)) :
  (forall ls, omap drop_numbers (forget (P ls)) = Q (map snd ls)) -> (forall ls, local_at good P ls) ->
  forall pre rest a, Q (map snd pre ++ map snd rest) = Got (a, map snd rest) -> P (pre ++ rest) = TGot (a, rest).
Proof.
  intros F L pre rest a E. specialize (F (pre ++ rest)). specialize (L (pre ++ rest)). unfold local_at in L. rewrite map_app, E in F.
  destruct (P (pre ++ rest)) as [[a' r]|[e|e]|]; cbn in F; try discriminate F. unfold drop_numbers in F. cbn in F. assert (a' = a) by congruence. assert (M : map snd r = map snd rest) by congruence. subst a'.
  destruct L as (p & Ep & _). rewrite (same_rest p r rest) with (q := pre); [reflexivity| |exact Ep]. apply (f_equal (@length string)) in M. now rewrite !map_length in M.
Qed.
Lemma forget_got {A} (x : tout A) a : forget x = Got a -> x = TGot a.
Proof. destruct x as [a'|[e|e]|]; cbn; congruence. Qed.
Lemma rows_told items ls : Forall2 (reads_row R) items (map snd ls) -> forall rest cost rows,
  (length match cost with Some c => c :: costs_of items | None => costs_of items end <= 1)%nat ->
  parse_row_section_t R T (ls ++ rest) cost rows = parse_row_section_t R T rest (match cost with Some c => Some c | None => hd_error (costs_of items) end) (rows ++ rows_of items).
Proof.
  revert ls. induction items as [|[k r] items IH]; intros [|[n l] ls] F; inversion F as [|x y p q (S & t & E & Ty) F']; subst; intros rest cost rows L.
  - cbn. rewrite app_nil_r. destruct cost; reflexivity.
  - cbn [fst snd] in *. cbn [app parse_row_section_t]. rewrite S, E. cbn [explain tbind]. rewrite Ty. cbn [explain tbind]. destruct k as [k|].
    + rewrite IH by assumption. f_equal. rewrite <- app_assoc. reflexivity.
    + destruct cost as [c|]; [cbn in L; lia|]. rewrite IH by assumption. reflexivity.
Qed.
Lemma columns_told cost rows items : forall ls, Forall2 (reads_column R b) items (map snd ls) -> forall s, cols_inv rows s ->
  NoDup (map fst (said cost rows s ++ flat_map item_entries items)) -> (forall c r v, In (c, r, v) (flat_map item_entries items) -> known cost rows r) ->
  exists s', cols_inv rows s' /\ NoDup (map fst (said cost rows s')) /\ forall rest, parse_column_section_t b R T cost rows (ls ++ rest) s = parse_column_section_t b R T cost rows rest s'.
Proof.
  induction items as [|item items IH]; intros [|[n l] ls] F s I N K; inversion F as [|x y p q RC F']; subst.
  - exists s. cbn in N. rewrite app_nil_r in N. split; [exact I|]. split; [exact N|]. reflexivity.
  - cbn [snd] in *. cbn [flat_map] in N, K. destruct (column_line_ok R b cost rows s item l I RC) as (s1 & E & I1 & P1 & _).
    { rewrite app_assoc, map_app in N. now apply NoDup_app_l in N. }
    { intros c r v H. apply (K c r v). apply in_or_app. now left. }
    destruct (IH ls F' s1 I1) as (s' & I' & N' & E').
    { apply (NoDup_fst_perm (said cost rows s ++ item_entries item ++ flat_map item_entries items)); [|assumption]. rewrite P1, <- app_assoc. apply Permutation_refl. }
    { intros c r v X. apply (K c r v). apply in_or_app. now right. }
    exists s'. split; [exact I'|]. split; [exact N'|]. intros rest. cbn [app parse_column_section_t snd]. destruct RC as [PS _]. rewrite PS.
    rewrite <- (column_line_forget R T b SR cost rows n l s) in E. rewrite (forget_got _ _ E). cbn [tbind]. apply E'.
Qed.
(** lines that are wrong in the columns *)
Definition wrong_column (cost : string) (rows : list mrow) (l : string) : Prop :=
  is_part_of_same_section l = true /\
  ((exists k, is_column_marker_line R l = Rejected k) \/
   (exists text, is_column_marker_line R l = Got (Marker text) /\ text <> "'INTORG'" /\ text <> "'INTEND'") \/
   exists c r text rest v k, is_column_marker_line R l = Got (Data c r text rest) /\ parse_number b text = Got v /\ known cost rows r /\ five_and_six R rest = Rejected k).
Lemma save_fine cost rows s new : cols_inv rows s -> NoDup (map fst (said cost rows s)) -> exists s', save_to_column_collector_t new s = TGot s'.
Proof.
  intros I N. destruct (save_ok cost rows s new I N) as (s' & E & _). exists s'. apply forget_got. now rewrite save_forget.
Qed.
Lemma column_mistake cost rows s n l : cols_inv rows s -> NoDup (map fst (said cost rows s)) -> wrong_column cost rows l ->
  exists e, column_section_line_t b R T cost rows (n, l) s = TErr e /\ error_places e = [(n, l)].
Proof.
  intros I N (_ & [(k & E)|[(text & E & N1 & N2)|(c & r & text & rest & v & k & E & V & K & F)]]); unfold column_section_line_t; rewrite E; cbn [explain tbind].
  - eexists. split; reflexivity.
  - destruct (save_fine cost rows s None I N) as (s' & ->). cbn [tbind]. apply String.eqb_neq in N1, N2. rewrite N1, N2. eexists. split; reflexivity.
  - assert (S : exists s', match cs_active s with
        | Some active => if String.eqb active c then TGot s else save_to_column_collector_t (Some c) s
        | None => TGot (mk_cols (cs_done s) (cs_values s) (cs_costs s) (Some c) (cs_integer s)) end = TGot s').
    { destruct (cs_active s); [destruct (String.eqb _ _)|]; [eexists; reflexivity|now apply (save_fine cost rows)|eexists; reflexivity]. }
    destruct S as (s1 & ->). cbn [tbind].
    assert (P : exists s', save_column_pair_t b cost rows r text s1 = TGot s').
    { unfold save_column_pair_t. rewrite (forget_got (parse_number_t b text) v) by now rewrite number_forget. cbn [tbind]. destruct (row_index rows r) as [i|] eqn:RI; [eexists; reflexivity|].
      destruct K as [->|K]; [rewrite String.eqb_refl; eexists; reflexivity|]. destruct (row_index_In rows r K) as (i & X & _). congruence. }
    destruct P as (s2 & ->). cbn [tbind]. rewrite F. cbn [explain tbind]. eexists. split; reflexivity.
Qed.
End Reader.

(** ** From lines to texts *)
Lemma kept_filter ls ks : kept ls ks -> forall n, map snd (filter is_kept (number_lines n ls)) = ks.
Proof.
  assert (K : forall n l, is_kept (n, l) = negb (is_comment l || is_empty l)) by (intros n l; unfold is_kept; cbn; now rewrite negb_orb).
  induction 1 as [|l ls ks S H IH|l ls ks S H IH]; intros n; [reflexivity| |]; cbn [number_lines filter]; rewrite K.
  - apply skipped_spec in S. rewrite S. apply IH.
  - destruct (is_comment l || is_empty l) eqn:E; [now apply skipped_spec in E|]. cbn. now rewrite IH.
Qed.
Lemma mistake_lines text before l after cb ca : lines text = before ++ l :: after -> kept before cb -> kept after ca -> ~ skipped l ->
  exists pre post, into_lines_t text = pre ++ (S (length before), l) :: post /\ map snd pre = cb /\ map snd post = ca.
Proof.
  intros E B A K. rewrite into_lines_kept, E, number_app, filter_app. cbn [number_lines filter].
  assert (Kl : is_kept (1 + length before, l)%nat = true).
  { unfold is_kept. cbn. destruct (is_comment l) eqn:C; [destruct K; apply skipped_spec; now rewrite C|]. destruct (is_empty l) eqn:M; [destruct K; apply skipped_spec; now rewrite C, M|]. unfold is_comment in C. now rewrite C. }
  rewrite Kl. do 2 eexists. split; [reflexivity|]. split; now apply kept_filter.
Qed.
Lemma costs_length items : length (costs_of items) = cost_rows items.
Proof. unfold cost_rows. induction items as [|[[k|] r] items IH]; [reflexivity|exact IH|]. change (S (length (costs_of items)) = S (length (filter (fun row => match fst row with None => true | _ => false end) items))). now rewrite IH. Qed.
Lemma trim_header h l : trim_end l = h -> header_line h l.
Proof. intros E. destruct (trim_is l h E) as (t & -> & W). exists t. split; [exact W|reflexivity]. Qed.
Lemma map_snd_app (ls : list located) a c : map snd ls = a ++ c -> exists la lc, ls = la ++ lc /\ map snd la = a /\ map snd lc = c.
Proof.
  revert ls. induction a as [|x a IH]; intros ls E; [exists [], ls; repeat split; assumption|]. destruct ls as [|y ls]; [discriminate E|]. cbn in E. injection E as E1 E. destruct (IH ls E) as (la & lc & -> & A & C). exists (y :: la), lc.
  split; [reflexivity|]. split; [cbn; now rewrite E1, A|exact C].
Qed.
Lemma map_snd_cons (ls : list located) a c : map snd ls = a :: c -> exists n lc, ls = (n, a) :: lc /\ map snd lc = c.
Proof. destruct ls as [|[n l] ls]; [discriminate|]. intros E. injection E as -> E. exists n, ls. split; [reflexivity|exact E]. Qed.
Lemma get_in : forall s i c, String.get i s = Some c -> In c (list_ascii_of_string s).
Proof. induction s as [|a s IH]; intros [|i] c G; cbn in G; try discriminate G; [injection G as <-; now left|]. right. now apply (IH i). Qed.
Lemma get_none : forall s i, String.get i s = None -> (String.length s <= i)%nat.
Proof. induction s as [|a s IH]; intros [|i] G; cbn in *; try discriminate G; try lia. apply IH in G. lia. Qed.
Lemma ascii_boundary l i : ascii_line l -> (i <= String.length l)%nat -> boundary l i = true.
Proof.
  intros A L. unfold boundary. destruct (String.get i l) as [c|] eqn:G.
  - apply get_in, A in G. unfold is_continuation. cbv zeta. destruct (N.leb_spec 128 (N_of_ascii c)); [lia|reflexivity].
  - apply get_none in G. apply Nat.eqb_eq. lia.
Qed.
Lemma not_skipped l : is_comment l = false -> l <> "" -> ~ skipped l.
Proof. intros C E S. apply skipped_spec in S. rewrite C in S. destruct l; [now apply E|discriminate]. Qed.
Lemma data_shown l w ws : data_line l (w :: ws) -> String.get 0 w <> Some "*"%char -> ~ skipped l.
Proof. intros D G. apply not_skipped; [now apply (data_not_comment l w ws)|]. destruct D as (t & -> & _). discriminate. Qed.
Lemma blank_words s : blanks s -> split_whitespace s = []. Proof. intros B. apply (spaced_words s []). now constructor. Qed.
Lemma no_header h l : ~ header_line h l -> String.eqb (trim_end l) h = false.
Proof. intros N. apply String.eqb_neq. intros E. now apply N, trim_header. Qed.
Lemma trim_end_whites : forall s, whites s -> trim_end s = "".
Proof.
  induction s as [|c s IH]; intros W; [reflexivity|]. cbn. rewrite IH by (intros x X; apply W; now right). assert (B : white c) by (apply W; now left).
  destruct (is_blank c) eqn:E; [reflexivity|]. exfalso. revert B E. unfold white, is_blank. cbv zeta. intros B. destruct (N.eqb_spec (N_of_ascii c) 32); [discriminate|]. destruct B as [B|B]; [contradiction|].
  destruct (N.leb_spec 9 (N_of_ascii c)); [|lia]. destruct (N.leb_spec (N_of_ascii c) 13); [discriminate|lia].
Qed.
Lemma trim_end_whites_app : forall w s, whites s -> trim_end (w +++ s) = trim_end w.
Proof. induction w as [|c w IH]; intros s W; [now apply trim_end_whites|]. cbn. now rewrite IH. Qed.

Section Early.
Context (R : reader) (T : teller R) (b : build) (SR : syntactic R) (WORD : two_or_three R = free_two_or_three).
Lemma named : exists name, two_or_three R " X" = Got name. Proof. rewrite WORD. exists "X". reflexivity. Qed.
Lemma name_told n l rest : name_line l -> exists w, parse_program_name_t R ((n, l) :: rest) = TGot (w, rest).
Proof.
  intros (name & w & extra & S & ->). exists w. destruct (free_name name w extra S) as [P _].
  apply (read_numbered anything (parse_program_name_t R) (parse_program_name R) (name_forget R SR) (name_local R named) [(n, ("NAME" ++ name)%string)]).
  specialize (P (map snd rest)). unfold parse_program_name in P |- *. cbn [map app fst snd] in *. change (two_or_three free) with free_two_or_three in P. rewrite WORD. exact P.
Qed.
Lemma sense_told d ls rest : sense_lines d (map snd ls) -> exists x, parse_objsense_section_t (ls ++ rest) = TGot (x, rest).
Proof.
  intros S. destruct (sense_read _ _ S) as [P _]. eexists.
  apply (read_numbered anything parse_objsense_section_t parse_objsense_section objsense_forget objsense_local). apply P.
Qed.
Lemma start_told n l rest : ~ skipped l -> ascii_line l -> prefix "NAME" l = false -> exists e, parse_program_name_t R ((n, l) :: rest) = TErr e /\ error_places e = [(n, l)].
Proof.
  intros S A P. cbn [parse_program_name_t]. destruct (Nat.ltb_spec (String.length l) 4) as [L|L]; [eexists; split; reflexivity|].
  unfold MpsParse.slice. rewrite !ascii_boundary by (assumption || lia). cbn [Nat.leb andb explain tbind Nat.sub]. destruct (String.eqb_spec (substring 0 4 l) "NAME") as [E|E]; [|eexists; split; reflexivity].
  rewrite (substring_split l 4 L), E, prefix_app in P. discriminate P.
Qed.
Lemma no_name_told n s rest : blanks s -> exists e, parse_program_name_t R ((n, ("NAME" ++ s)%string) :: rest) = TErr e /\ error_places e = [(n, ("NAME" ++ s)%string)].
Proof.
  intros B. unfold parse_program_name_t. rewrite append_length. cbn [String.length]. replace (4 + String.length s <? 4)%nat with false by (symmetry; apply Nat.ltb_ge; lia).
  assert (H : forall c, String.get 0 s = Some c -> is_continuation c = false) by (apply (spaced_head s []); now constructor).
  change (MpsParse.slice ("NAME" +++ s) 0 4) with (MpsParse.slice ("NAME" +++ s) 0 (String.length "NAME")). change (slice_from ("NAME" +++ s) 4) with (slice_from ("NAME" +++ s) (String.length "NAME")).
  rewrite (slice_head "NAME" s) by (try exact H; intros c G; injection G as <-; reflexivity). cbn [explain tbind]. rewrite String.eqb_refl. rewrite (slice_tail "NAME" s) by exact H. cbn [explain tbind]. rewrite WORD.
  unfold free_two_or_three. rewrite (blank_words s B). cbn [explain tbind]. eexists. split; reflexivity.
Qed.

Lemma early_told pre k l post : early_mistake (map snd pre) l (map snd post) -> exists e, parse_lines_t R T b (pre ++ (k, l) :: post) = TErr e /\ error_places e = [(k, l)].
Proof.
  intros M. remember (map snd pre) as cb eqn:PRE. remember (map snd post) as ca eqn:POST. symmetry in PRE, POST.
  destruct M as [l after SK A P|s after B|n l after N SK H1 H2|n o l r after N O SK D1 D2 D3 D4 RW].
  - destruct pre; [|discriminate PRE]. destruct (start_told k l post SK A P) as (e & E & PL). exists e. split; [|exact PL]. unfold parse_lines_t. cbn [app]. now rewrite E.
  - destruct pre; [|discriminate PRE]. destruct (no_name_told k s post B) as (e & E & PL). exists e. split; [|exact PL]. unfold parse_lines_t. cbn [app]. now rewrite E.
  - apply map_snd_cons in PRE. destruct PRE as (i & lc & -> & PRE). destruct lc; [|discriminate PRE]. destruct (name_told i n ((k, l) :: post) N) as (w & E). unfold parse_lines_t. cbn [app]. unfold located in *. rewrite E. cbn [tbind parse_objsense_section_t].
    rewrite (no_header _ _ H1), (no_header _ _ H2). cbn [tbind]. eexists. split; reflexivity.
  - apply map_snd_cons in PRE. destruct PRE as (i & lc & -> & PRE). apply map_snd_cons in PRE. destruct PRE as (i' & lc' & -> & PRE). destruct lc'; [|discriminate PRE].
    apply map_snd_cons in POST. destruct POST as (i'' & pc & -> & POST). unfold parse_lines_t. cbn [app]. destruct (name_told i n ((i', o) :: (k, l) :: (i'', r) :: pc) N) as (w & E). unfold located in *. rewrite E. cbn [tbind parse_objsense_section_t].
    destruct O as (s & WS & ->). rewrite (trim_end_whites_app "OBJSENSE" s WS). replace (String.eqb (trim_end "OBJSENSE") "ROWS") with false by reflexivity. replace (String.eqb (trim_end "OBJSENSE") "OBJSENSE") with true by reflexivity.
    rewrite RW. cbv zeta. rewrite (no_header _ _ D1), (no_header _ _ D2), (no_header _ _ D3), (no_header _ _ D4). cbn [orb tbind]. eexists. split; reflexivity.
Qed.
(** lines that are wrong in the rows *)
Definition wrong_row (items : list (option relation_kind * string)) (l : string) : Prop :=
  is_part_of_same_section l = true /\ exists t name, one_and_two R l = Got (t, name) /\ (row_type_of t = Rejected Syntax \/ (row_type_of t = Got None /\ cost_rows items = 1%nat)).
Lemma rows_reached row items pre k l post : up_to_rows row items (map snd pre) -> (forall item line, In item items -> row item line -> reads_row R item line /\ is_comment line = false) ->
  (cost_rows items <= 1)%nat -> wrong_row items l -> exists e, parse_lines_t R T b (pre ++ (k, l) :: post) = TErr e /\ error_places e = [(k, l)].
Proof.
  intros (n & sense & d & rows & N & S & F & PRE) RR C (PT & t & name & OT & W).
  apply map_snd_cons in PRE. destruct PRE as (i & lc & -> & PRE). apply map_snd_app in PRE. destruct PRE as (ls & lr & -> & PS & PR). unfold parse_lines_t. cbn [app]. rewrite <- app_assoc.
  destruct (name_told i n (ls ++ lr ++ (k, l) :: post) N) as (w & E). unfold located in *. rewrite E. cbn [tbind]. rewrite <- PS in S. destruct (sense_told d ls (lr ++ (k, l) :: post) S) as (x & E2). unfold located in *. rewrite E2. cbn [tbind].
  destruct (forall_reads row (reads_row R) _ _ RR F) as [R1 _]. rewrite <- PR in R1. rewrite (rows_told R T items lr R1) by (rewrite costs_length; exact C).
  cbn [parse_row_section_t]. rewrite PT, OT. cbn [explain tbind]. destruct W as [->|[-> C1]]; cbn [explain tbind]; [eexists; split; reflexivity|].
  rewrite <- costs_length in C1. destruct (costs_of items) as [|c cs]; [discriminate C1|]. cbn [hd_error tbind]. eexists. split; reflexivity.
Qed.
(** what is left to do after some lines of the columns *)
Definition columns_left (name : string) (objective : direction) (cost_name : string) (rows : list mrow) (s : columns_state) (lines : list located) : tout mps :=
  let! (columns, costs, next, lines) := parse_column_section_t b R T cost_name rows lines s in
  let! (rhss, next, lines) :=
    (if section_eqb next SRhs then parse_optional_section_t b R T [SRanges; SBounds] rows lines no_groups else TGot ([], next, lines)) in
  let! (ranges, next, lines) :=
    (if section_eqb next SRanges then parse_optional_section_t b R T [SBounds] rows lines no_groups else TGot ([], next, lines)) in
  let! _ := check_ranges_consistency_t ranges in
  let! (bounds, lines) :=
    (if section_eqb next SBounds then parse_bounds_section_t b R T columns lines no_groups else TGot ([], lines)) in
  match lines with
  | [] => TGot (mk_mps name objective cost_name costs rows columns rhss ranges bounds)
  | _ :: _ => TErr (SyntaxError (new "File parsed successfully, but it has nonempty lines at the end"))
  end.
Lemma columns_start row column f pre : file_rules f -> up_to_columns row column f (map snd pre) ->
  (forall item line, In item (f_rows f) -> row item line -> reads_row R item line /\ is_comment line = false) ->
  (forall item line, In item (f_columns f) -> column item line -> reads_column R b item line /\ is_comment line = false) ->
  exists cost rows s, (forall r, In r (map snd (f_rows f)) -> known cost rows r) /\ cols_inv rows s /\ NoDup (map fst (said cost rows s)) /\
    forall rest, exists name objective, parse_lines_t R T b (pre ++ rest) = columns_left name objective cost rows s rest.
Proof.
  intros FO (name & extra & sense & rows & columns & NM & SE & FR & FC & E) RR RC.
  apply map_snd_cons in E. destruct E as (i & lc & -> & E). cbn [app] in E. apply map_snd_app in E. destruct E as (ls & lr & -> & PS & E). apply map_snd_app in E. destruct E as (lr' & lc & -> & PR & E).
  apply map_snd_cons in E. destruct E as (i' & lc' & -> & PC).
  destruct (fr_cost f FO) as (cost & CI & CU). pose proof (costs_one _ _ (fr_rows f FO) CI CU) as C1.
  destruct (forall_reads row (reads_row R) _ _ RR FR) as [R1 _]. rewrite <- PR in R1.
  pose proof (rows_nodup _ _ (fr_rows f FO) CI) as RN. pose proof (rows_checked cost (rows_of (f_rows f)) RN) as CK. rewrite <- check_forget in CK. apply forget_got in CK.
  set (srows := sort_rows (rows_of (f_rows f))) in *. assert (PP : Permutation srows (rows_of (f_rows f))) by apply sort_rows_perm.
  assert (KN : forall r, In r (map snd (f_rows f)) -> known cost srows r).
  { intros r K. apply (known_rows _ cost r CI CU) in K. destruct K as [->|K]; [now left|right]. apply (Permutation_in _ (Permutation_map row_name (Permutation_sym PP)) K). }
  destruct (forall_reads column (reads_column R b) (f_columns f) columns RC FC) as [C2 _].
  rewrite <- PC in C2. destruct (columns_told R T b SR cost srows (f_columns f) lc' C2 (mk_cols [] [] [] None false)) as (s' & I' & N' & E').
  { constructor; cbn; [reflexivity|intros j v []|intros c []|exact Logic.I|intros j v []]. }
  { exact (fr_coefficients f FO). }
  { intros c r v H. rewrite <- coefficient_items in H. apply KN. exact (fr_coefficient_rows f FO c r v H). }
  rewrite <- PS in SE.
  exists cost, srows, s'. split; [exact KN|]. split; [exact I'|]. split; [exact N'|]. intros rest. unfold parse_lines_t. cbn [app]. rewrite <- !app_assoc. cbn [app].
  destruct (name_told i ("NAME" ++ name)%string (ls ++ lr' ++ (i', "COLUMNS") :: lc' ++ rest)) as (w' & E); [exists name, (f_name f), extra; split; [exact NM|reflexivity]|].
  unfold located in *. rewrite E. cbn [tbind].
  destruct (sense_told (f_sense f) ls (lr' ++ (i', "COLUMNS") :: lc' ++ rest) SE) as (x' & E2). unfold located in *. 
  rewrite E2. cbn [tbind].
  rewrite (rows_told R T (f_rows f) lr' R1) by (rewrite C1; cbn; lia). rewrite C1.
  cbn [hd_error app parse_row_section_t]. replace (is_part_of_same_section "COLUMNS") with false by reflexivity. replace (try_parse_next_section_t "COLUMNS" [SColumns]) with (TGot SColumns) by reflexivity. cbn [tbind].
  unfold located in *. rewrite CK. cbn [tbind].
  exists w', x'. unfold columns_left. rewrite E'. reflexivity.
Qed.
Lemma columns_reached row column f pre k l post : file_rules f -> up_to_columns row column f (map snd pre) ->
  (forall item line, In item (f_rows f) -> row item line -> reads_row R item line /\ is_comment line = false) ->
  (forall item line, In item (f_columns f) -> column item line -> reads_column R b item line /\ is_comment line = false) ->
  (forall cost rows, (forall r, In r (map snd (f_rows f)) -> known cost rows r) -> wrong_column R b cost rows l) ->
  exists e, parse_lines_t R T b (pre ++ (k, l) :: post) = TErr e /\ error_places e = [(k, l)].
Proof.
  intros FO U RR RC W. destruct (columns_start row column f pre FO U RR RC) as (cost & rows & s & KN & I' & N' & E). destruct (E ((k, l) :: post)) as (name & objective & ->). clear E.
  specialize (W cost rows KN). destruct (column_mistake R T b cost rows s k l I' N' W) as (e & EC & PL). unfold columns_left. cbn [parse_column_section_t snd]. destruct W as [PT _]. rewrite PT, EC. cbn [tbind]. exists e. split; [reflexivity|exact PL].
Qed.
Lemma later_silent row column f pre k l post : file_rules f -> up_to_columns row column f (map snd pre) ->
  (forall item line, In item (f_rows f) -> row item line -> reads_row R item line /\ is_comment line = false) ->
  (forall item line, In item (f_columns f) -> column item line -> reads_column R b item line /\ is_comment line = false) ->
  is_part_of_same_section l = false -> silent (parse_lines_t R T b (pre ++ (k, l) :: post)).
Proof.
  intros FO U RR RC P. destruct (columns_start row column f pre FO U RR RC) as (cost & rows & s & _ & _ & _ & E). destruct (E ((k, l) :: post)) as (name & objective & ->). clear E.
  unfold columns_left. cbn [parse_column_section_t snd]. rewrite P. apply silent_bind.
  { apply silent_bind; [apply next_silent|intros next]. apply silent_bind; [apply save_silent|intros s']. apply silent_got. }
  intros [[[columns costs] next] ls]. apply silent_bind; [destruct (section_eqb next SRhs); [apply optional_silent|apply silent_got]|]. intros [[rhss next'] ls'].
  apply silent_bind; [destruct (section_eqb next' SRanges); [apply optional_silent|apply silent_got]|]. intros [[ranges next''] ls''].
  apply silent_bind; [unfold check_ranges_consistency_t; now apply silent_explain|]. intros _.
  apply silent_bind; [destruct (section_eqb next'' SBounds); [apply bounds_silent|apply silent_got]|]. intros [bounds [|x r]]; [apply silent_got|now apply silent_err].
Qed.
Lemma early_shown before l after : early_mistake before l after -> ~ skipped l.
Proof. intros M. destruct M; try assumption. apply not_skipped; [reflexivity|discriminate]. Qed.
End Early.

Lemma not_part l : String.get 0 l <> Some " "%char -> is_part_of_same_section l = false.
Proof. unfold is_part_of_same_section. destruct l as [|c l]; [reflexivity|]. intros N. cbn [prefix]. destruct (ascii_dec " " c) as [<-|]; [now destruct N|reflexivity]. Qed.

(** ** Free format *)
Lemma type_told t : name_ok t -> (forall c, String.get 0 t = Some c -> ~ In c ["*"; "N"; "L"; "E"; "G"]%char) -> row_type_of t = Rejected Syntax.
Proof.
  intros [NE V] G. destruct t as [|c t]; [congruence|]. specialize (G c eq_refl). unfold row_type_of, MpsParse.slice.
  assert (A : ascii_line (String c t)) by (intros x X; apply V in X; unfold visible in X; lia).
  rewrite !ascii_boundary by (assumption || cbn; lia). cbn [Nat.leb andb obind Nat.sub substring].
  replace (substring 0 0 t) with "" by (destruct t; reflexivity).
  assert (Q : forall x, In x ["*"; "N"; "L"; "E"; "G"]%char -> String.eqb (String c "") (String x "") = false) by (intros x X; apply String.eqb_neq; intros Eq; injection Eq as ->; now apply G).
  rewrite !Q by (cbn; tauto). reflexivity.
Qed.
Lemma spaced_names : forall s ws, spaced s ws -> Forall name_ok ws.
Proof. induction 1; constructor; assumption. Qed.
Lemma data_names l ws : data_line l ws -> Forall name_ok ws.
Proof. intros (t & _ & S). now apply (spaced_names t). Qed.
Section Free.
Variable b : build.
Lemma mistake_shown before l after : mistake before l after -> ~ skipped l.
Proof.
  intros M. destruct M as [before l after M|items before l t r more after U C D W|items before l r more after U C D
                |f cb l c ws after OK U D FO L|f cb l c r text0 v ws after OK U D FO KR NV L1 L2|f cb l label text0 more after OK U D FO W1 W2].
  - now apply (early_shown before l after).
  - apply (data_shown _ _ _ D). intros G. apply (W _ G). now left.
  - apply (data_shown _ _ _ D). discriminate.
  - apply (data_shown _ _ _ D). apply FO.
  - apply (data_shown _ _ _ D). apply FO.
  - apply (data_shown _ _ _ D). apply FO.
Qed.
Lemma free_columns_reached f pre k l post : file_ok f -> up_to_columns row_line column_line_of f (map snd pre) ->
  (forall cost rows, (forall r, In r (map snd (f_rows f)) -> known cost rows r) -> wrong_column free b cost rows l) ->
  exists e, parse_lines_t free free_teller b (pre ++ (k, l) :: post) = TErr e /\ error_places e = [(k, l)].
Proof.
  intros OK U. apply (columns_reached free free_teller b free_syntactic eq_refl row_line column_line_of f pre k l post (file_ok_rules f OK) U); [intros x l0 _; apply free_rows|].
  intros item l0 H C. apply free_columns; [assumption|]. destruct item as [c values| |]; [|exact Logic.I|exact Logic.I]. split; [now apply (fo_column_names f OK c values)|]. intros r v V.
  assert (X : In r (map snd (f_rows f))) by (apply (fo_coefficient_rows f OK c r v); apply in_flat_map; exists (Entries c values); split; [assumption|]; apply in_map_iff; exists (r, v); split; [reflexivity|assumption]).
  apply in_map_iff in X. destruct X as ([k0 r'] & <- & X). cbn [snd]. now apply (fo_row_names f OK) in X.
Qed.
Theorem free_later text before l after cb ca f : lines text = before ++ l :: after -> kept before cb -> kept after ca -> file_ok f -> up_to_columns row_line column_line_of f cb ->
  ~ skipped l -> String.get 0 l <> Some " "%char -> forall e, parse_free_t b text = TErr e -> error_places e = [].
Proof.
  intros E KB KA OK U SK NI. destruct (mistake_lines text before l after cb ca E KB KA SK) as (pre & post & IL & PRE & POST). unfold parse_free_t, parse_with_t. rewrite IL. rewrite <- PRE in U.
  apply (later_silent free free_teller b free_syntactic eq_refl row_line column_line_of f pre _ l post (file_ok_rules f OK) U); [intros x l0 _; apply free_rows| |now apply not_part].
  intros item l0 H C. apply free_columns; [assumption|]. destruct item as [c values| |]; [|exact Logic.I|exact Logic.I]. split; [now apply (fo_column_names f OK c values)|]. intros r v V.
  assert (X : In r (map snd (f_rows f))) by (apply (fo_coefficient_rows f OK c r v); apply in_flat_map; exists (Entries c values); split; [assumption|]; apply in_map_iff; exists (r, v); split; [reflexivity|assumption]).
  apply in_map_iff in X. destruct X as ([k0 r'] & <- & X). cbn [snd]. now apply (fo_row_names f OK) in X.
Qed.
Theorem mistake_told text before l after cb ca : lines text = before ++ l :: after -> kept before cb -> kept after ca -> mistake cb l ca ->
  exists e, parse_free_t b text = TErr e /\ error_places e = [(S (length before), l)].
Proof.
  intros E KB KA M. destruct (mistake_lines text before l after cb ca E KB KA (mistake_shown _ _ _ M)) as (pre & post & IL & PRE & POST). unfold parse_free_t, parse_with_t. rewrite IL. generalize (S (length before)) as k. intros k. clear E KB KA IL before after.
  destruct M as [cb l after M|items cb l t r more after U C D W|items cb l r more after U C D
                |f cb l c ws after OK U D FO L|f cb l c r text0 v ws after OK U D FO KR NV L1 L2|f cb l label text0 more after OK U D FO W1 W2]; rewrite <- PRE in *; rewrite <- ?POST in *.
  - now apply (early_told free free_teller b free_syntactic eq_refl).
  - apply (rows_reached free free_teller b free_syntactic eq_refl row_line items pre k l post U (fun x l0 _ => free_rows x l0) C). destruct (data_words _ _ D) as [WD PT]. split; [exact PT|]. exists t, r.
    cbn [one_and_two free]. unfold free_one_and_two. rewrite WD. split; [reflexivity|]. left. apply data_names in D. inversion D as [|x1 x2 NT]; subst. now apply type_told.
  - apply (rows_reached free free_teller b free_syntactic eq_refl row_line items pre k l post U (fun x l0 _ => free_rows x l0)); [lia|]. destruct (data_words _ _ D) as [WD PT]. split; [exact PT|]. exists "N", r.
    cbn [one_and_two free]. unfold free_one_and_two. rewrite WD. split; [reflexivity|]. right. split; [reflexivity|exact C].
  - apply (free_columns_reached f pre k l post OK U). intros cost rows _. destruct (data_words _ _ D) as [WD PT]. split; [exact PT|]. left. exists Syntax. cbn [is_column_marker_line free]. unfold free_is_column_marker_line. rewrite WD.
    destruct ws as [|w1 [|w2 ws]]; [reflexivity|reflexivity|cbn in L; lia].
  - apply (free_columns_reached f pre k l post OK U). intros cost rows KN. destruct (data_words _ _ D) as [WD PT]. split; [exact PT|]. right. right. exists c, r, text0, ws, v, Syntax.
    cbn [is_column_marker_line free five_and_six]. unfold free_is_column_marker_line. rewrite WD. pose proof (KN r KR) as K.
    assert (NM : String.eqb r column_marker = false) by (apply String.eqb_neq; apply in_map_iff in KR; destruct KR as ([k0 r'] & <- & X); cbn [snd]; now apply (fo_row_names f OK) in X). rewrite NM. split; [reflexivity|].
    split; [now apply number_parse|]. split; [exact K|]. destruct ws as [|w1 [|w2 [|w3 ws]]]; cbn in L1, L2; try lia; reflexivity.
  - apply (free_columns_reached f pre k l post OK U). intros cost rows _. destruct (data_words _ _ D) as [WD PT]. split; [exact PT|]. right. left. exists text0. cbn [is_column_marker_line free]. unfold free_is_column_marker_line. rewrite WD.
    split; [reflexivity|]. split; assumption.
Qed.
End Free.

(** ** Fixed format *)
Section Fixed.
Variable b : build.
Lemma indented_part l : indented l -> is_part_of_same_section l = true.
Proof. destruct l as [|c l]; [discriminate|]. intros I. injection I as ->. apply part_space. Qed.
Lemma ascii_slice l i j : ascii_line l -> (i <= j)%nat -> (j <= String.length l)%nat -> MpsParse.slice l i j = Got (substring i (j - i) l).
Proof. intros A I J. unfold MpsParse.slice. rewrite !ascii_boundary by (assumption || lia). apply Nat.leb_le in I. now rewrite I. Qed.
Lemma type_of_letter l c : ascii_line l -> (3 <= String.length l)%nat -> String.get 0 (field_1 l) = Some c ->
  row_type_of (field_1 l) = if ascii_dec c "N" then Got None else if ascii_dec c "L" then Got (Some KLess) else if ascii_dec c "E" then Got (Some KEqual) else if ascii_dec c "G" then Got (Some KGreater) else Rejected Syntax.
Proof.
  intros A L G. destruct l as [|c0 [|c1 [|c2 l]]]; cbn in L; try lia. change (field_1 (String c0 (String c1 (String c2 l)))) with (String c1 (String c2 (substring 0 0 l))) in *.
  replace (substring 0 0 l) with "" in * by (destruct l; reflexivity). cbn in G. assert (c1 = c) by congruence. subst c1. unfold row_type_of. rewrite ascii_slice; [|intros x [<-|[<-|[]]]; apply A; cbn; tauto|lia|cbn; lia]. cbn [Nat.sub substring obind].
  repeat match goal with |- context [ascii_dec c ?x] => destruct (ascii_dec c x) as [->|?]; [reflexivity|] end.
  assert (Q : forall x, c <> x -> String.eqb (String c "") (String x "") = false) by (intros x X; apply String.eqb_neq; congruence). now rewrite !Q.
Qed.
Lemma substring_short : forall s n m, (String.length s - n <= m)%nat -> substring n m s = substring n (String.length s - n) s.
Proof.
  induction s as [|a s IH]; intros n m L.
  - destruct n, m; reflexivity.
  - destruct n as [|n].
    + destruct m as [|m]; [cbn in L; lia|]. cbn [String.length Nat.sub substring]. f_equal. cbn in L. rewrite (IH 0%nat m) by lia. now rewrite Nat.sub_0_r.
    + cbn [String.length Nat.sub substring]. apply IH. cbn in L. lia.
Qed.
Lemma fixed_one l : ascii_line l -> ~ whites (field_2 l) -> (4 < String.length l)%nat /\ exists name, one_and_two fixed l = Got (field_1 l, name).
Proof.
  intros A N. assert (L : (4 < String.length l)%nat).
  { destruct (Nat.lt_ge_cases 4 (String.length l)) as [H|H]; [exact H|]. destruct N. unfold field_2. rewrite substring_short by lia. replace (String.length l - 4)%nat with 0%nat by lia.
    assert (Z : forall n s, substring n 0 s = "") by (induction n; destruct s; cbn; auto). rewrite Z. intros x []. }
  split; [exact L|]. cbn [one_and_two fixed]. unfold fixed_one_and_two. cbv zeta. apply Nat.ltb_lt in L as LB. rewrite LB. rewrite ascii_slice by (assumption || lia). cbn [obind Nat.sub].
  rewrite ascii_slice by (try assumption; lia). cbn [obind]. replace (substring 4 (Nat.min 12 (String.length l) - 4) l) with (field_2 l).
  - destruct (trim_end (field_2 l)) eqn:E; [now apply trim_end_empty in E|]. eexists. reflexivity.
  - unfold field_2. destruct (Nat.le_gt_cases 12 (String.length l)); [now rewrite Nat.min_l by lia|]. rewrite Nat.min_r by lia. apply substring_short. lia.
Qed.
Lemma fixed_shown before l after : fixed_mistake before l after -> ~ skipped l.
Proof. intros M. destruct M as [before l after M|items before l c after U RN C I A SK F2 F1 W|items before l after U RN C I A SK F2 F1|f before l after OK U I A SK L|f before l after OK U I A SK L F3 N1 N2]; try assumption. now apply (early_shown before l after). Qed.
Lemma fixed_columns_reached f pre k l post : fixed_ok f -> up_to_columns fixed_row fixed_column f (map snd pre) ->
  (forall cost rows, wrong_column fixed b cost rows l) -> exists e, parse_lines_t fixed fixed_teller b (pre ++ (k, l) :: post) = TErr e /\ error_places e = [(k, l)].
Proof.
  intros OK U W. pose proof (xo_rules f OK) as FR. apply (columns_reached fixed fixed_teller b fixed_syntactic eq_refl fixed_row fixed_column f pre k l post FR U); [| |intros cost rows _; apply W].
  - intros [kd r] l0 H C. destruct (xo_row_names f OK kd r H) as (A1 & A2 & A3). now apply fixed_rows.
  - intros item l0 H C. apply fixed_columns; [assumption|]. destruct item as [c values| |]; [|exact Logic.I|exact Logic.I]. split; [now apply (xo_column_names f OK c values)|]. intros r v V.
    assert (X : In r (map snd (f_rows f))) by (apply (fr_coefficient_rows f FR c r v); apply in_flat_map; exists (Entries c values); split; [assumption|]; apply in_map_iff; exists (r, v); split; [reflexivity|assumption]).
    apply in_map_iff in X. destruct X as ([k0 r'] & <- & X). cbn [snd]. now apply (xo_row_names f OK) in X.
Qed.
Theorem fixed_later text before l after cb ca f : lines text = before ++ l :: after -> kept before cb -> kept after ca -> fixed_ok f -> up_to_columns fixed_row fixed_column f cb ->
  ~ skipped l -> String.get 0 l <> Some " "%char -> forall e, parse_fixed_t b text = TErr e -> error_places e = [].
Proof.
  intros E KB KA OK U SK NI. destruct (mistake_lines text before l after cb ca E KB KA SK) as (pre & post & IL & PRE & POST). unfold parse_fixed_t, parse_with_t. rewrite IL. rewrite <- PRE in U. pose proof (xo_rules f OK) as FR.
  apply (later_silent fixed fixed_teller b fixed_syntactic eq_refl fixed_row fixed_column f pre _ l post FR U); [| |now apply not_part].
  - intros [kd r] l0 H C. destruct (xo_row_names f OK kd r H) as (A1 & A2 & A3). now apply fixed_rows.
  - intros item l0 H C. apply fixed_columns; [assumption|]. destruct item as [c values| |]; [|exact Logic.I|exact Logic.I]. split; [now apply (xo_column_names f OK c values)|]. intros r v V.
    assert (X : In r (map snd (f_rows f))) by (apply (fr_coefficient_rows f FR c r v); apply in_flat_map; exists (Entries c values); split; [assumption|]; apply in_map_iff; exists (r, v); split; [reflexivity|assumption]).
    apply in_map_iff in X. destruct X as ([k0 r'] & <- & X). cbn [snd]. now apply (xo_row_names f OK) in X.
Qed.
Theorem fixed_mistake_told text before l after cb ca : lines text = before ++ l :: after -> kept before cb -> kept after ca -> fixed_mistake cb l ca ->
  exists e, parse_fixed_t b text = TErr e /\ error_places e = [(S (length before), l)].
Proof.
  intros E KB KA M. destruct (mistake_lines text before l after cb ca E KB KA (fixed_shown _ _ _ M)) as (pre & post & IL & PRE & POST). unfold parse_fixed_t, parse_with_t. rewrite IL. generalize (S (length before)) as k. intros k. clear E KB KA IL before after.
  destruct M as [cb l after M|items cb l c after U RN C I A SK F2 F1 W|items cb l after U RN C I A SK F2 F1|f cb l after OK U I A SK L|f cb l after OK U I A SK L F3 N1 N2]; rewrite <- PRE in *; rewrite <- ?POST in *.
  - now apply (early_told fixed fixed_teller b fixed_syntactic eq_refl).
  - apply (rows_reached fixed fixed_teller b fixed_syntactic eq_refl fixed_row items pre k l post U); [intros [kd r] l0 H0 H1; destruct (RN kd r H0); now apply fixed_rows|exact C|]. split; [now apply indented_part|].
    destruct (fixed_one l A F2) as (L & name & E). exists (field_1 l), name. split; [exact E|]. left. rewrite (type_of_letter l c A) by (assumption || lia).
    repeat match goal with |- context [ascii_dec c ?x] => destruct (ascii_dec c x) as [->|?]; [destruct W; cbn; tauto|] end. reflexivity.
  - apply (rows_reached fixed fixed_teller b fixed_syntactic eq_refl fixed_row items pre k l post U); [intros [kd r] l0 H0 H1; destruct (RN kd r H0); now apply fixed_rows|lia|]. split; [now apply indented_part|].
    destruct (fixed_one l A F2) as (L & name & E). exists (field_1 l), name. split; [exact E|]. right. split; [|exact C]. rewrite (type_of_letter l "N" A) by (assumption || lia). reflexivity.
  - apply (fixed_columns_reached f pre k l post OK U). intros cost rows. split; [now apply indented_part|]. left. exists Syntax. cbn [is_column_marker_line fixed]. unfold fixed_is_column_marker_line. cbv zeta.
    destruct (Nat.leb_spec 36 (String.length l)) as [L36|L36]; [|reflexivity]. destruct L as [L|[F3 L]]; [lia|]. rewrite ascii_slice by (assumption || lia). cbn [obind]. change (substring 14 (22 - 14) l) with (field_3 l). rewrite F3.
    unfold column_marker. rewrite String.eqb_refl. destruct (Nat.leb_spec 47 (String.length l)); [lia|reflexivity].
  - apply (fixed_columns_reached f pre k l post OK U). intros cost rows. split; [now apply indented_part|]. right. left. exists (field_5 l). split; [|split; assumption]. cbn [is_column_marker_line fixed]. unfold fixed_is_column_marker_line. cbv zeta.
    destruct (Nat.leb_spec 36 (String.length l)) as [L36|L36]; [|lia]. rewrite ascii_slice by (assumption || lia). cbn [obind]. change (substring 14 (22 - 14) l) with (field_3 l). rewrite F3.
    unfold column_marker. rewrite String.eqb_refl. destruct (Nat.leb_spec 47 (String.length l)); [|lia]. rewrite ascii_slice by (assumption || lia). reflexivity.
Qed.
End Fixed.
