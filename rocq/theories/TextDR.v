(** * Builds with debug assertions: from the text of a file to the answer (proofs about TextD.v) *)
From Verif Require Import SpecFixed TextPipeline NumberP TextP FileP FixedP MpsP ConvertP TextSolveP RangesP AcceptP AcceptFileP AcceptFreeP AcceptFixedP GeneralQ.
From Verif Require Export TextDQ.
Local Open Scope Qc_scope.

(** ** Any text *)
Lemma solve_or_crash (parse parse_d : string -> out mps) text : or_crash (parse_d text) (parse text) ->
  or_crash (let~ m := parse_d text in to_general_d m) (let~ m := parse text in to_general m).
Proof. intros H. apply oc_bind; [exact H|]. intros m _. apply convert_or_crash. Qed.
(** what a debug build asks of a text, when a release build reads it *)
Theorem free_debug text m : parse_free Checked text = Got m -> exists f, loosely_spells text f /\ file_consistent f /\
  (parse_free_d text = Got m <-> alternating false (f_columns f) /\ NoDup (map col_name (m_columns m))).
Proof.
  intros H. destruct (file_accepted free Checked text m H) as (f & name_line & sense & rows & header & columns & rhs & ranges & bounds & d & IL & NM & SE & FS & FR & HC & FC & FH & FG & FB & CO & D).
  exists f. split; [|split; [assumption|]].
  2:{ now apply (replay free text m f name_line sense rows header columns rhs ranges bounds d). }
  exists (lines text), (into_lines text). split; [now apply (lines_laid_out (String.length text))|]. split; [apply filter_kept|].
  apply free_name_line in NM. destruct NM as (t & extra & -> & W). apply sense_accepted in SE. rewrite <- FS in SE.
  exists t, extra, rows, sense, header, columns, rhs, ranges, bounds. split; [assumption|]. split; [assumption|]. split; [apply (forall_loose _ _ _ _ free_row FR)|]. split; [assumption|].
  split; [apply (forall_loose _ _ _ _ free_column FC)|]. split; [apply (section_loose _ _ _ _ _ free_value FH)|]. split; [apply (section_loose _ _ _ _ _ free_value FG)|]. split; [apply (section_loose _ _ _ _ _ free_bound FB)|]. exact IL.
Qed.
Theorem fixed_debug text m : parse_fixed Checked text = Got m -> exists f, fixed_loosely_spells text f /\ file_consistent f /\
  (parse_fixed_d text = Got m <-> alternating false (f_columns f) /\ NoDup (map col_name (m_columns m))).
Proof.
  intros H. destruct (file_accepted fixed Checked text m H) as (f & name_line & sense & rows & header & columns & rhs & ranges & bounds & d & IL & NM & SE & FS & FR & HC & FC & FH & FG & FB & CO & D).
  exists f. split; [|split; [assumption|]].
  2:{ now apply (replay fixed text m f name_line sense rows header columns rhs ranges bounds d). }
  exists (lines text), (into_lines text). split; [now apply (lines_laid_out (String.length text))|]. split; [apply filter_kept|].
  assert (NM' : exists t extra, name_line = ("NAME" +++ t)%string /\ worded t (f_name f :: extra)) by exact (free_name_line name_line (f_name f) NM). destruct NM' as (t & extra & -> & W). apply sense_accepted in SE. rewrite <- FS in SE.
  exists t, extra, rows, sense, header, columns, rhs, ranges, bounds. split; [assumption|]. split; [assumption|]. split; [apply (forall_loose _ _ _ _ fixed_row_accepted FR)|]. split; [assumption|].
  split; [apply (forall_loose _ _ _ _ fixed_column_accepted FC)|]. split; [apply (section_loose _ _ _ _ _ fixed_value_accepted FH)|]. split; [apply (section_loose _ _ _ _ _ fixed_value_accepted FG)|]. split; [apply (section_loose _ _ _ _ _ fixed_bound_accepted FB)|]. exact IL.
Qed.

(** ** Reading and converting: what a debug build asks *)
Lemma read_exact parse_d m g (A : Prop) : to_general m = Got g -> parsed m -> or_crash parse_d (Got m) -> (parse_d = Got m <-> A /\ NoDup (map col_name (m_columns m))) ->
  ((let~ m := parse_d in to_general_d m) = Got g <-> A /\ clean m).
Proof.
  intros G P C E. split.
  - intros H. destruct C as [C|C]; rewrite C in H; cbn [obind] in H; [discriminate|]. split; [exact (proj1 (proj1 E C))|]. exact (proj2 (proj1 (convert_exact m P g) H)).
  - intros [HA CL]. rewrite (proj2 E (conj HA (cl_names m CL))). cbn [obind]. exact (proj2 (convert_exact m P g) (conj G CL)).
Qed.
Theorem free_exact text m g : parse_free Checked text = Got m -> to_general m = Got g -> exists f, loosely_spells text f /\ file_consistent f /\
  ((let~ m := parse_free_d text in to_general_d m) = Got g <-> alternating false (f_columns f) /\ clean m).
Proof.
  intros P G. destruct (free_debug text m P) as (f & L & CO & E). exists f. split; [assumption|]. split; [assumption|]. apply (read_exact _ m g _ G (read_parsed free text m P)); [|exact E].
  rewrite <- P. apply (parse_or_crash free).
Qed.
Theorem fixed_exact text m g : parse_fixed Checked text = Got m -> to_general m = Got g -> exists f, fixed_loosely_spells text f /\ file_consistent f /\
  ((let~ m := parse_fixed_d text in to_general_d m) = Got g <-> alternating false (f_columns f) /\ clean m).
Proof.
  intros P G. destruct (fixed_debug text m P) as (f & L & CO & E). exists f. split; [assumption|]. split; [assumption|]. apply (read_exact _ m g _ G (read_parsed fixed text m P)); [|exact E].
  rewrite <- P. apply (parse_or_crash fixed).
Qed.

(** ** Texts of linear programs *)
Lemma layout_debug R f text : file_rules f -> layout R Checked f text -> alternating false (f_columns f) -> exists m, parse_with R Checked text = Got m /\ parse_with_d R text = Got m /\ describes m f.
Proof.
  intros OK L A. destruct (layout_read R Checked f text OK L) as (m & P & D). exists m. split; [assumption|]. split; [|assumption].
  destruct L as (name_line & sense & rows & columns & rhs & ranges & bounds & IL & NM & SE & FR & FC & FH & FG & FB). specialize (SE []). rewrite app_nil_r in SE.
  apply (replay R text m f name_line sense rows "COLUMNS"%string columns rhs ranges bounds _ IL SE FR (or_introl eq_refl) FC FH FG FB P). split; [assumption|]. exact (column_names f m OK D).
Qed.
Section Sizes.
Variables (f : file) (m : mps) (g : general).
Hypothesis FS : file_solvable f.
Hypothesis D : describes m f.
Hypothesis G : to_general m = Got g.
Let OK : file_rules f := fs_rules f FS.
Lemma range_of_spec r : match range_of f r with Some w => frange f r w | None => forall w, ~ frange f r w end.
Proof using.
  unfold range_of. destruct (filter _ _) as [|[[n r'] w] l] eqn:E.
  - intros w [n H]. assert (X : In (n, r, w) (filter (fun '(_, r', _) => String.eqb r' r) (vector_values (f_ranges f)))) by (apply filter_In; split; [assumption|apply String.eqb_refl]). rewrite E in X. destruct X.
  - assert (X : In (n, r', w) (filter (fun '(_, r', _) => String.eqb r' r) (vector_values (f_ranges f)))) by (rewrite E; now left). apply filter_In in X. destruct X as [X Q]. apply String.eqb_eq in Q. subst r'. now exists n.
Qed.
Definition type_inequalities (t : rel) : nat := match t with Equal => 0 | Range _ => 2 | _ => 1 end.
Lemma types_count (l : list rel) : list_sum (map type_inequalities l) = (length (filter SpecSizes.inequality l) + length (filter SpecSizes.is_range l))%nat.
Proof using. induction l as [|t l IH]; [reflexivity|]. cbn [map list_sum fold_right filter] in *. change (fold_right Nat.add 0%nat (map type_inequalities l)) with (list_sum (map type_inequalities l)). rewrite IH. destruct t; cbn; lia. Qed.
Lemma row_type_agrees i : (i < length (m_rows m))%nat -> type_inequalities (row_type g i) = row_inequalities f (nth i (m_rows m) (mk_mrow "" KEqual)).
Proof using FS D G.
  intros I. destruct (convert_got m (de_ok m f D) g G) as (_ & _ & _ & _ & _ & _ & _ & _ & _ & _ & RR & _). specialize (RR i I). unfold row_inequalities.
  pose proof (range_of_spec (row_at m i)) as X. change (row_name (nth i (m_rows m) (mk_mrow "" KEqual))) with (row_at m i).
  destruct (range_of f (row_at m i)) as [w|].
  - apply (range_iff f m OK D i w I) in X. destruct RR as [(N & _)|(r & R & C)]; [now apply N in X|].
    assert (r = w) by (apply (range_unique (ungroup (m_ranges m)) i r w); [apply (said_nodup m _ _ (de_ranges m f D) (fr_ranges f OK))|assumption|assumption]). subst r.
    destruct C as [(_ & _ & ->)|[(-> & -> & _)|(NZ & -> & _)]]; [destruct (qzero w); reflexivity|reflexivity|]. destruct (qzero w) eqn:Z; [apply qeqb_true in Z; contradiction|reflexivity].
  - destruct RR as [(_ & -> & _)|(r & R & _)]; [|elim (X r); now apply (range_iff f m OK D i r I)]. unfold kind_at. destruct (row_kind (nth i (m_rows m) (mk_mrow "" KEqual))) eqn:K; unfold plain; rewrite ?K; reflexivity.
Qed.
Lemma nth_sums {A B} (u : A -> nat) (v : B -> nat) (da : A) (db : B) : forall la lb, length la = length lb -> (forall i, (i < length la)%nat -> u (nth i la da) = v (nth i lb db)) -> list_sum (map u la) = list_sum (map v lb).
Proof using.
  induction la as [|a la IH]; intros [|b lb] L H; try discriminate; [reflexivity|]. cbn [map list_sum fold_right]. f_equal; [exact (H 0%nat ltac:(cbn; lia))|]. apply IH; [now injection L|]. intros i I. exact (H (S i) ltac:(cbn; lia)).
Qed.
Lemma sum_perm (l l' : list nat) : Permutation l l' -> list_sum l = list_sum l'.
Proof using. unfold list_sum. induction 1; cbn [fold_right] in *; lia. Qed.
Lemma inequalities_agree : finequalities f = (length (filter SpecSizes.inequality (g_types g)) + length (filter SpecSizes.is_range (g_types g)))%nat.
Proof using FS D G.
  rewrite <- types_count. unfold finequalities. rewrite (sum_perm _ _ (Permutation_map (row_inequalities f) (Permutation_sym (de_rows m f D)))).
  destruct (convert_got m (de_ok m f D) g G) as (_ & _ & _ & _ & _ & _ & _ & _ & LT & _). symmetry. apply (nth_sums _ _ Equal (mk_mrow "" KEqual)); [assumption|]. intros i I. rewrite LT in I. now apply row_type_agrees.
Qed.
Lemma perm_filter {A} (p : A -> bool) l l' : Permutation l l' -> Permutation (filter p l) (filter p l').
Proof using.
  induction 1; cbn [filter]; [constructor| | |now transitivity (filter p l')].
  - destruct (p x); [now constructor|assumption].
  - destruct (p y), (p x); try apply Permutation_refl. apply perm_swap.
Qed.
Lemma filter_all {A} (p : A -> bool) l : (forall x, In x l -> p x = true) -> filter p l = l.
Proof using. induction l as [|a l IH]; intros H; [reflexivity|]. cbn [filter]. rewrite (H a) by now left. f_equal. apply IH. intros x X. apply H. now right. Qed.
Lemma filter_no {A} (p : A -> bool) l : (forall x, In x l -> p x = false) -> filter p l = [].
Proof using. induction l as [|a l IH]; intros H; [reflexivity|]. cbn [filter]. rewrite (H a) by now left. apply IH. intros x X. apply H. now right. Qed.
Lemma entries_agree : fentries f = SpecSizes.entries g.
Proof using FS D G.
  destruct (convert_got m (de_ok m f D) g G) as (_ & _ & _ & EC & _). unfold fentries, SpecSizes.entries. rewrite EC. rewrite <- (Permutation_length (perm_filter _ _ _ (de_coefficients m f D))). unfold said_coefficients. rewrite filter_app, app_length.
  rewrite (cost_row_name f m OK D). rewrite (filter_no _ (map _ (m_costs m))).
  2:{ intros [[c r] v] H. apply in_map_iff in H. destruct H as ([j w] & E & _). injection E as _ <- _. now rewrite String.eqb_refl. }
  cbn [length]. rewrite Nat.add_0_r, filter_all.
  - clear. induction (m_columns m) as [|c l IH]; [reflexivity|]. cbn [flat_map map concat]. rewrite !app_length, map_length. now rewrite IH.
  - intros [[c r] v] H. apply in_flat_map in H. destruct H as (col & C & H). apply in_map_iff in H. destruct H as ([i w] & E & H). injection E as _ <- _. apply negb_true_iff. apply String.eqb_neq. intros X.
    symmetry in X. revert X. apply (cost_not_row f m OK D). now apply (de_values m f D col C) in H.
Qed.
Lemma size_enough r : fenough r f -> enough r g.
Proof using FS D G. unfold fenough, enough, inequality_rows. rewrite entries_agree, inequalities_agree. destruct r; lia. Qed.
Lemma read_clean : clean m.
Proof using FS D.
  constructor.
  - exact (column_names f m OK D).
  - intros c i v C V. apply (fs_coefficients f FS (col_name c) (row_at m i)). apply (Permutation_in _ (de_coefficients m f D)). unfold said_coefficients. apply in_or_app. left. apply in_flat_map. exists c. split; [assumption|]. apply in_map_iff. now exists (i, v).
  - intros i r _ _. apply nodup_filter. exact (rhs_nodup f m FS D).
Qed.
End Sizes.
Theorem layout_solved R f text r n fuel : file_solvable f -> layout R Checked f text -> alternating false (f_columns f) -> columns_of f <> [] -> fenough r f ->
  solve_with_d (parse_with_d R) r n fuel text = solve_with (parse_with R Checked) r n fuel text.
Proof.
  intros FS L A NE EN. destruct (layout_debug R f text (fs_rules f FS) L A) as (m & P & PD & D). destruct (proj1 (convert_decides m (de_ok m f D)) (read_consistent f m FS D)) as [g G].
  unfold solve_with_d, solve_with. rewrite P, PD. cbn [obind]. rewrite G, (proj2 (convert_exact m (read_parsed R text m P) g) (conj G (read_clean f m FS D))). cbn [obind]. f_equal.
  destruct (convert_solvable m g (read_solvable f m FS D) G) as [GO FR]. apply solve_fresh_debug; [assumption|assumption| |now apply (size_enough f m g FS D G)].
  destruct (convert_got m (de_ok m f D) g G) as (_ & _ & _ & _ & NV & _). rewrite NV. rewrite <- (de_columns m f D) in NE. destruct (m_columns m); [now elim NE|cbn; lia].
Qed.
