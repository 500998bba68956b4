(** * What an accepted MPS file contains, for any way of splitting lines into fields *)
From Coq Require Import Sorted.
From Verif Require Import SpecParse MpsParse NumberP TextP PermP RangesP ParseP GroupP FileP.
Local Open Scope string_scope.
Local Open Scope list_scope.

Lemma obind_got {A B} (x : out A) (f : A -> out B) y : obind x f = Got y -> exists a, x = Got a /\ f a = Got y.
Proof. destruct x; [|discriminate|discriminate]. intros H. exists a. now split. Qed.
Tactic Notation "got" hyp(H) "as" simple_intropattern(p) ident(E) := apply obind_got in H; destruct H as (p & E & H).

(** ** Sorting rows by name *)
Lemma leb_total a b : String.leb a b = true \/ String.leb b a = true.
Proof. apply String.leb_total. Qed.
Lemma ascii_compare_N a b : Ascii.compare a b = N.compare (N_of_ascii a) (N_of_ascii b). Proof. reflexivity. Qed.
Lemma string_compare_trans : forall a b c, String.leb a b = true -> String.leb b c = true -> String.leb a c = true.
Proof.
  unfold String.leb. induction a as [|x a IH]; intros b c H1 H2; [destruct c; reflexivity|]. destruct b as [|y b]; [discriminate|]. destruct c as [|z c]; [discriminate|]. cbn [String.compare] in *.
  rewrite ascii_compare_N in *. destruct (N.compare_spec (N_of_ascii x) (N_of_ascii y)) as [E1|L1|L1]; [|clear H1|discriminate]; destruct (N.compare_spec (N_of_ascii y) (N_of_ascii z)) as [E2|L2|L2]; try discriminate.
  - destruct (N.compare_spec (N_of_ascii x) (N_of_ascii z)); [|lia|lia]. now apply (IH b c).
  - destruct (N.compare_spec (N_of_ascii x) (N_of_ascii z)); [lia|reflexivity|lia].
  - destruct (N.compare_spec (N_of_ascii x) (N_of_ascii z)); [lia|reflexivity|lia].
  - destruct (N.compare_spec (N_of_ascii x) (N_of_ascii z)); [lia|reflexivity|lia].
Qed.
Definition row_le (a b : mrow) : Prop := String.leb (row_name a) (row_name b) = true.
Lemma insert_row_sorted r : forall l, StronglySorted row_le l -> StronglySorted row_le (insert_row r l).
Proof.
  induction l as [|a l IH]; intros S; cbn [insert_row]; [repeat constructor|]. inversion S as [|x y S' F]; subst. destruct (String.leb (row_name r) (row_name a)) eqn:E.
  - constructor; [assumption|]. constructor; [exact E|]. rewrite Forall_forall in *. intros z Z. apply (string_compare_trans _ (row_name a)); [exact E|now apply F].
  - constructor; [now apply IH|]. rewrite Forall_forall in *. intros z Z. apply (Permutation_in _ (insert_row_perm r l)) in Z. destruct Z as [<-|Z]; [|now apply F].
    unfold row_le. destruct (leb_total (row_name a) (row_name r)) as [T|T]; [assumption|congruence].
Qed.
Lemma sort_rows_sorted l : StronglySorted row_le (sort_rows l).
Proof. induction l as [|a l IH]; cbn; [constructor|]. now apply insert_row_sorted. Qed.
Lemma leb_antisym a b : String.leb a b = true -> String.leb b a = true -> a = b.
Proof. apply String.leb_antisym. Qed.
Lemma adjacent_sorted l : StronglySorted row_le l -> adjacent (fun a b => String.eqb (row_name a) (row_name b)) l = false -> NoDup (map row_name l).
Proof.
  induction l as [|a l IH]; intros S E; [constructor|]. inversion S as [|x y S' F]; subst. cbn [map]. constructor.
  - destruct l as [|c l]; [intros []|]. cbn [adjacent] in E. apply orb_false_iff in E. destruct E as [E1 E2]. apply String.eqb_neq in E1. intros H. apply in_map_iff in H. destruct H as (d & D & H).
    apply E1. inversion S' as [|x y S'' F']; subst. rewrite Forall_forall in F, F'. destruct H as [->|H]; [now symmetry|]. apply leb_antisym; [apply F; now left|]. rewrite <- D. now apply F'.
  - apply IH; [assumption|]. destruct l as [|c l]; [reflexivity|]. cbn [adjacent] in E. now apply orb_false_iff in E.
Qed.
Lemma checked_rows cost rows name srows : check_row_section_consistency cost rows = Got (name, srows) -> cost = Some name /\ srows = sort_rows rows /\ NoDup (name :: map row_name srows).
Proof.
  unfold check_row_section_consistency. destruct cost as [c|]; [|discriminate]. destruct (existsb _ _) eqn:X; [discriminate|]. destruct (adjacent _ _) eqn:D; [discriminate|]. intros H. injection H as <- <-.
  split; [reflexivity|]. split; [reflexivity|]. constructor; [|apply adjacent_sorted; [apply sort_rows_sorted|assumption]]. intros H. apply in_map_iff in H. destruct H as (r & E & H).
  assert (existsb (fun r => String.eqb (row_name r) c) (sort_rows rows) = true); [|congruence]. apply existsb_exists. exists r. split; [assumption|]. now apply String.eqb_eq.
Qed.
(** equal indices next to each other, in a sorted list *)
Lemma insert_by_le {A} (key : A -> nat) x : forall l, StronglySorted (fun a b => key a <= key b)%nat l -> StronglySorted (fun a b => key a <= key b)%nat (insert_by key x l).
Proof.
  induction l as [|a l IH]; intros S; cbn [insert_by]; [repeat constructor|]. inversion S as [|y z S' F]; subst. destruct (key x <? key a)%nat eqn:E.
  - apply Nat.ltb_lt in E. constructor; [assumption|]. constructor; [lia|]. rewrite Forall_forall in *. intros w W. apply F in W. lia.
  - apply Nat.ltb_ge in E. constructor; [now apply IH|]. rewrite Forall_forall in *. intros w W.
    assert (G : forall l, In w (insert_by key x l) -> w = x \/ In w l).
    { clear. induction l as [|a l IH]; cbn [insert_by]; [intros [<-|[]]; now left|]. destruct (key x <? key a)%nat; [intros [<-|H]; tauto|]. intros [<-|H]; [right; now left|]. destruct (IH H); [now left|right; now right]. }
    destruct (G l W) as [->|W']; [lia|now apply F].
Qed.
Lemma sort_by_sorted {A} (key : A -> nat) l : StronglySorted (fun a b => key a <= key b)%nat (sort_by key l).
Proof.
  unfold sort_by. assert (G : forall l acc, StronglySorted (fun a b => key a <= key b)%nat acc -> StronglySorted (fun a b => key a <= key b)%nat (fold_left (fun acc x => insert_by key x acc) l acc)).
  { induction l0 as [|a l0 IH]; intros acc S; [assumption|]. cbn. apply IH. now apply insert_by_le. }
  apply G. constructor.
Qed.
Lemma sorted_nodup {A} (l : list (nat * A)) : adjacent same_index (sort_by fst l) = false -> NoDup (map fst l).
Proof.
  intros E. apply NoDup_fst_perm with (sort_by fst l); [apply sort_by_perm|]. pose proof (sort_by_sorted fst l) as S. revert S E. generalize (sort_by fst l). clear l.
  induction l as [|a l IH]; intros S E; [constructor|]. inversion S as [|x y S' F]; subst. cbn [map]. constructor.
  - destruct l as [|c l]; [intros []|]. cbn [adjacent] in E. apply orb_false_iff in E. destruct E as [E1 E2]. unfold same_index in E1. apply Nat.eqb_neq in E1. intros H. apply in_map_iff in H. destruct H as (d & D & H).
    inversion S' as [|x y S'' F']; subst. rewrite Forall_forall in F, F'. assert (G1 : (fst a <= fst c)%nat) by (apply F; now left). destruct H as [->|H]; [lia|]. apply F' in H. lia.
  - apply IH; [assumption|]. destruct l as [|c l]; [reflexivity|]. cbn [adjacent] in E. now apply orb_false_iff in E.
Qed.
Lemma increasing_sorted : forall l lo, StronglySorted le l -> NoDup l -> (forall x, In x l -> (lo <= x)%nat) -> increasing_from lo l.
Proof.
  induction l as [|a l IH]; intros lo S N B; cbn; [exact Logic.I|]. inversion S as [|x y S' F]; subst. inversion N as [|x y X Y]; subst. split; [apply B; now left|]. apply IH; [assumption|assumption|].
  intros x H. rewrite Forall_forall in F. pose proof (F x H). destruct (Nat.eq_dec a x); [subst; contradiction|lia].
Qed.
Lemma sorted_snoc : forall l j, StronglySorted le l -> (forall x, In x l -> (x <= j)%nat) -> StronglySorted le (l ++ [j]).
Proof.
  induction l as [|a l IH]; intros j S B; cbn; [repeat constructor|]. inversion S as [|x y S' F]; subst. constructor; [apply IH; [assumption|intros x X; apply B; now right]|].
  rewrite Forall_forall in *. intros x X. apply in_app_or in X. destruct X as [X|[<-|[]]]; [now apply F|apply B; now left].
Qed.

Section Reader.
Variable R : reader.
Variable b : build.

(** ** Rows *)
Definition ends_section (h : string) (s : section) (valid : list section) : Prop := is_header h s /\ (s = SEndata \/ In s valid).
Lemma header_got h s valid : is_part_of_same_section h = false -> try_parse_next_section h valid = Got s -> ends_section h s valid.
Proof.
  intros P H. unfold try_parse_next_section in H. got H as s' E. destruct (section_eqb s' SEndata || existsb (section_eqb s') valid) eqn:X; [|discriminate]. injection H as <-. split; [split; assumption|].
  apply orb_true_iff in X. destruct X as [X|X]; [left; destruct s'; try discriminate; reflexivity|]. right. apply existsb_exists in X. destruct X as (z & I & Z). assert (s' = z) by (destruct s', z; try discriminate; reflexivity). now subst z.
Qed.
Lemma rows_accepted : forall ls cost rows cost' rows' rest, parse_row_section R ls cost rows = Got (cost', rows', rest) ->
  exists items body h s, ls = body ++ h :: rest /\ Forall2 (reads_row R) items body /\ ends_section h s [SColumns] /\ rows' = rows ++ rows_of items /\
    match cost with Some c => cost' = Some c /\ costs_of items = [] | None => match cost' with Some c => costs_of items = [c] | None => costs_of items = [] end end.
Proof.
  induction ls as [|l ls IH]; intros cost rows cost' rows' rest H; [discriminate|]. cbn [parse_row_section] in H. destruct (is_part_of_same_section l) eqn:P.
  - got H as [t name] E. got H as k T. destruct k as [k|].
    + apply IH in H. destruct H as (items & body & h & s & -> & F & HD & -> & C). exists ((Some k, name) :: items), (l :: body), h, s. split; [reflexivity|]. split; [constructor; [split; [assumption|]; exists t; split; assumption|assumption]|].
      split; [assumption|]. split; [rewrite <- app_assoc; reflexivity|]. exact C.
    + destruct cost as [c|]; [discriminate|]. apply IH in H. destruct H as (items & body & h & s & -> & F & HD & -> & C1 & C2). exists ((None, name) :: items), (l :: body), h, s. split; [reflexivity|].
      split; [constructor; [split; [assumption|]; exists t; split; assumption|assumption]|]. split; [assumption|]. split; [reflexivity|]. subst cost'. cbn [costs_of flat_map app]. fold (costs_of items). now rewrite C2.
  - got H as s E. injection H as <- <- <-. exists [], [], l, s. split; [reflexivity|]. split; [constructor|]. split; [now apply header_got|]. split; [now rewrite app_nil_r|]. destruct cost; [split; reflexivity|reflexivity].
Qed.

(** ** Columns *)
Section Columns.
Variable cost : string.
Variable rows : list mrow.
Notation row_at i := (row_name (nth i rows (mk_mrow "" KEqual))).
Notation said := (said cost rows).
Notation said_by := (said_by cost rows).
Record cols_keep (s : columns_state) : Prop := mk_ck {
  ck_idle : cs_active s = None -> cs_values s = [];
  ck_values : entry_indices rows (cs_values s);
  ck_done : forall c, In c (cs_done s) -> increasing_from 0 (map fst (col_values c)) /\ entry_indices rows (col_values c);
  ck_costs : StronglySorted le (map fst (cs_costs s));
  ck_cost : forall j v, In (j, v) (cs_costs s) -> (j < length (cols_of s))%nat
}.
Lemma save_accepted s new s' : cols_keep s -> save_to_column_collector new s = Got s' ->
  cols_keep (mk_cols (cs_done s') (cs_values s') (cs_costs s') None (cs_integer s')) /\ cs_values s' = [] /\ cs_active s' = new /\ cs_integer s' = cs_integer s /\
  heads (cs_done s') = heads (cols_of s) /\ Permutation (said_by (cs_done s') (cs_costs s')) (said s).
Proof.
  intros I. unfold save_to_column_collector. destruct (cs_active s) as [c|] eqn:A.
  - destruct (adjacent same_index (sort_by fst (cs_values s))) eqn:D; [discriminate|]. intros H. injection H as <-. apply sorted_nodup in D. cbn [cs_done cs_values cs_costs cs_active cs_integer].
    split; [|split; [reflexivity|split; [reflexivity|split; [reflexivity|split]]]].
    + constructor; cbn [cs_done cs_values cs_costs cs_active cs_integer]; [reflexivity|intros i v []| |apply I|].
      * intros x X. apply in_app_or in X. destruct X as [X|[<-|[]]]; [now apply I|]. cbn [col_values]. split; [now apply sort_by_increasing|].
        intros i v H. apply sort_by_In in H. now apply (ck_values s I i v).
      * intros j v H. apply (ck_cost s I) in H. unfold cols_of in *. rewrite A in H. cbn [cs_done cs_active]. rewrite !app_length in *. cbn [length] in *. lia.
    + unfold heads, cols_of. rewrite A, !map_app. reflexivity.
    + apply said_perm. unfold cols_of. rewrite A. apply Forall2_app; [|constructor; [split; [reflexivity|apply sort_by_perm]|constructor]].
      clear. induction (cs_done s); constructor; [split; [reflexivity|apply Permutation_refl]|assumption].
  - intros H. injection H as <-. cbn [cs_done cs_values cs_costs cs_active cs_integer]. pose proof (ck_idle s I A) as V. rewrite V.
    split; [|split; [reflexivity|split; [reflexivity|split; [reflexivity|split]]]].
    + constructor; cbn [cs_done cs_values cs_costs cs_active cs_integer]; [reflexivity|intros i v []|apply I|apply I|].
      intros j v H. apply (ck_cost s I) in H. unfold cols_of in *. now rewrite A in H.
    + unfold heads, cols_of. rewrite A, app_nil_r. reflexivity.
    + unfold ParseP.said, cols_of. rewrite A, app_nil_r. apply Permutation_refl.
Qed.
Lemma start_accepted s c : cs_values s = [] -> cols_keep (mk_cols (cs_done s) (cs_values s) (cs_costs s) None (cs_integer s)) -> cs_active s = Some c ->
  cols_keep s /\ heads (cols_of s) = heads (cs_done s) ++ [(c, cs_integer s)] /\ said s = said_by (cs_done s) (cs_costs s).
Proof.
  intros V I A. assert (B : forall j v, In (j, v) (cs_costs s) -> (j < length (cs_done s))%nat).
  { intros j v H. pose proof (ck_cost _ I j v H) as L. unfold cols_of in L. cbn [cs_done cs_active] in L. now rewrite app_nil_r in L. }
  split; [|split].
  - constructor; [congruence|rewrite V; intros i v []|exact (ck_done _ I)|exact (ck_costs _ I)|]. intros j v H. apply B in H. unfold cols_of. rewrite app_length. lia.
  - unfold heads, cols_of. rewrite A, map_app. reflexivity.
  - unfold ParseP.said, cols_of. rewrite A. apply said_app_empty; [assumption|]. exact V.
Qed.
Lemma pair_accepted s c r text s' : cols_keep s -> cs_active s = Some c -> save_column_pair b cost rows r text s = Got s' ->
  exists v, parse_number b text = Got v /\ known cost rows r /\ cols_keep s' /\ cs_active s' = Some c /\ cs_integer s' = cs_integer s /\
    heads (cols_of s') = heads (cols_of s) /\ Permutation (said s') (said s ++ [(c, r, v)]).
Proof.
  intros I A H. unfold save_column_pair in H. got H as v P. exists v. split; [assumption|]. pose proof (row_index_spec rows r) as RI. destruct (row_index rows r) as [i|].
  - destruct RI as [L E]. injection H as <-. split; [right; rewrite <- E; apply in_map; now apply nth_In|]. split; [|split; [assumption|split; [reflexivity|split]]].
    + constructor; cbn [cs_done cs_values cs_costs cs_active cs_integer].
      * congruence.
      * intros i' v' H. apply in_app_or in H. destruct H as [H|[H|[]]]; [now apply (ck_values s I i' v')|]. injection H as <- <-. exact L.
      * apply I.
      * apply I.
      * intros j w H. apply (ck_cost s I) in H. unfold cols_of in *. cbn [cs_done cs_active]. rewrite A in *. rewrite app_length in *. exact H.
    + unfold heads, cols_of. cbn [cs_done cs_active]. rewrite A, !map_app. reflexivity.
    + unfold ParseP.said, ParseP.said_by, cols_of. cbn [cs_done cs_active cs_values cs_costs cs_integer]. rewrite A, !flat_map_app. cbn [flat_map col_values col_name]. rewrite !app_nil_r, map_app. cbn [map].
      rewrite E, <- !app_assoc. apply Permutation_app_head. apply Permutation_app_head.
      replace (map (fun '(j, w) => (column_name (cs_done s ++ [mk_mcolumn c (cs_integer s) (cs_values s ++ [(i, v)])]) j, cost, w)) (cs_costs s))
        with (map (fun '(j, w) => (column_name (cs_done s ++ [mk_mcolumn c (cs_integer s) (cs_values s)]) j, cost, w)) (cs_costs s)).
      2:{ apply map_ext. intros [j w]. erewrite column_name_ext; [reflexivity|]. rewrite !map_app. reflexivity. }
      apply Permutation_app_comm.
  - destruct (String.eqb_spec r cost) as [Eq|]; [|discriminate]. subst r. injection H as <-. split; [now left|].
    assert (J : forall j w, In (j, w) (cs_costs s) -> (j <= length (cs_done s))%nat).
    { intros j w H. pose proof (ck_cost s I j w H) as L. unfold cols_of in L. rewrite A, app_length in L. cbn [length] in L. lia. }
    split; [|split; [assumption|split; [reflexivity|split]]].
    + constructor; cbn [cs_done cs_values cs_costs cs_active cs_integer]; [congruence|apply I|apply I| |].
      * rewrite map_app. apply sorted_snoc; [apply I|]. intros x X. apply in_map_iff in X. destruct X as ([j w] & <- & X). now apply (J j w).
      * intros j w H. apply in_app_or in H. unfold cols_of. cbn [cs_done cs_active]. rewrite A, app_length. cbn [length]. destruct H as [H|[H|[]]]; [apply J in H; lia|]. injection H as <- _. lia.
    + reflexivity.
    + unfold ParseP.said, ParseP.said_by, cols_of. cbn [cs_done cs_active cs_values cs_costs cs_integer]. rewrite A, map_app. cbn [map]. unfold column_name at 2. rewrite nth_middle. cbn [col_name]. rewrite app_assoc. apply Permutation_refl.
Qed.
Lemma column_line_accepted s l s' : cols_keep s -> is_part_of_same_section l = true -> column_section_line b R cost rows l s = Got s' ->
  exists item, reads_column R b item l /\ (forall c r v, In (c, r, v) (item_entries item) -> known cost rows r) /\ cols_keep s' /\ Permutation (said s') (said s ++ item_entries item) /\
    forall rem, heads (cols_of s') ++ columns_from (cs_integer s') (cs_active s') rem = heads (cols_of s) ++ columns_from (cs_integer s) (cs_active s) (item :: rem).
Proof.
  intros I PT H. unfold column_section_line in H. got H as content E. destruct content as [text|c r text rest].
  - got H as s1 S. destruct (save_accepted s None s1 I S) as (I1 & V1 & A1 & G1 & H1 & P1).
    assert (X : forall flag, cols_keep (mk_cols (cs_done s1) (cs_values s1) (cs_costs s1) (cs_active s1) flag) /\ Permutation (said (mk_cols (cs_done s1) (cs_values s1) (cs_costs s1) (cs_active s1) flag)) (said s) /\
      cols_of (mk_cols (cs_done s1) (cs_values s1) (cs_costs s1) (cs_active s1) flag) = cs_done s1).
    { intros flag. unfold ParseP.said, cols_of. cbn [cs_done cs_values cs_costs cs_active]. rewrite A1, app_nil_r. split; [|split; [exact P1|reflexivity]].
      constructor; [intros _; exact V1|apply I1|apply I1|apply I1|]. intros j v X. apply (ck_cost _ I1 j v X). }
    destruct (String.eqb_spec text "'INTORG'") as [E1|_].
    + injection H as <-. subst text. exists StartInteger. split; [split; assumption|]. split; [intros c r v []|]. destruct (X true) as (X1 & X2 & X3). split; [assumption|]. cbn [item_entries]. rewrite app_nil_r. split; [assumption|].
      intros rem. rewrite X3, H1. cbn [cs_integer cs_active columns_from]. now rewrite A1.
    + destruct (String.eqb_spec text "'INTEND'") as [E2|_]; [|discriminate]. injection H as <-. subst text. exists EndInteger. split; [split; assumption|]. split; [intros c r v []|]. destruct (X false) as (X1 & X2 & X3). split; [assumption|]. cbn [item_entries]. rewrite app_nil_r. split; [assumption|].
      intros rem. rewrite X3, H1. cbn [cs_integer cs_active columns_from]. now rewrite A1.
  - got H as s1 S.
    assert (ST : cols_keep s1 /\ cs_active s1 = Some c /\ Permutation (said s1) (said s) /\ cs_integer s1 = cs_integer s /\
        forall values rem, heads (cols_of s1) ++ columns_from (cs_integer s) (Some c) rem = heads (cols_of s) ++ columns_from (cs_integer s) (cs_active s) (Entries c values :: rem)).
    { destruct (cs_active s) as [a|] eqn:A.
      - destruct (String.eqb_spec a c) as [Eq|Ne].
        + subst a. injection S as <-. split; [assumption|]. split; [assumption|]. split; [apply Permutation_refl|]. split; [reflexivity|]. intros values rem. cbn [columns_from]. now rewrite String.eqb_refl.
        + destruct (save_accepted s (Some c) s1 I S) as (I1 & V1 & A1 & G1 & H1 & P1).
          destruct (start_accepted s1 c V1 I1 A1) as (I1' & H1' & E1). split; [assumption|]. split; [assumption|]. split; [now rewrite E1|]. split; [assumption|]. intros values rem.
          rewrite H1', H1, G1, <- app_assoc. cbn [columns_from]. destruct (String.eqb_spec a c); [congruence|reflexivity].
      - injection S as <-. pose proof (ck_idle s I A) as V0.
        destruct (start_accepted (mk_cols (cs_done s) (cs_values s) (cs_costs s) (Some c) (cs_integer s)) c) as (I1 & H1 & E1); [exact V0| |reflexivity|].
        { cbn [cs_done cs_values cs_costs cs_integer]. rewrite <- A. destruct s. exact I. }
        cbn [cs_done cs_values cs_costs cs_integer cs_active] in *. split; [assumption|]. split; [reflexivity|]. split; [rewrite E1; unfold ParseP.said, cols_of; rewrite A, app_nil_r; apply Permutation_refl|]. split; [reflexivity|].
        intros values rem. rewrite H1. unfold cols_of. rewrite A, app_nil_r, <- app_assoc. reflexivity. }
    destruct ST as (I1 & A1 & P1 & G1 & H1). got H as s2 S2. destruct (pair_accepted s1 c r text s2 I1 A1 S2) as (v & PV & K & I2 & A2 & G2 & H2 & P2). got H as more F. destruct more as [[r' text']|].
    + destruct (pair_accepted s2 c r' text' s' I2 A2 H) as (v' & PV' & K' & I3 & A3 & G3 & H3 & P3). exists (Entries c [(r, v); (r', v')]). split; [|split; [|split; [assumption|split]]].
      * split; [assumption|]. exists r, text, rest. split; [assumption|]. exists v. split; [assumption|]. right. exists r', text', v'. split; [assumption|]. split; [assumption|reflexivity].
      * intros c0 r0 v0 [X|[X|[]]]; injection X as <- <- <-; assumption.
      * cbn [item_entries map]. rewrite P3, P2, <- app_assoc. now apply Permutation_app_tail.
      * intros rem. rewrite H3, H2, A3, G3, G2, G1. apply H1.
    + injection H as <-. exists (Entries c [(r, v)]). split; [|split; [|split; [assumption|split]]].
      * split; [assumption|]. exists r, text, rest. split; [assumption|]. exists v. split; [assumption|]. left. split; [reflexivity|assumption].
      * intros c0 r0 v0 [X|[]]; injection X as <- <- <-; assumption.
      * cbn [item_entries map]. rewrite P2. now apply Permutation_app_tail.
      * intros rem. rewrite H2, A2, G2, G1. apply H1.
Qed.
Lemma columns_accepted : forall ls s cols costs next rest, cols_keep s -> parse_column_section b R cost rows ls s = Got (cols, costs, next, rest) ->
  exists items body h, ls = body ++ h :: rest /\ Forall2 (reads_column R b) items body /\ ends_section h next [SRhs; SRanges; SBounds] /\
    (forall c r v, In (c, r, v) (flat_map item_entries items) -> known cost rows r) /\
    heads cols = heads (cols_of s) ++ columns_from (cs_integer s) (cs_active s) items /\
    Permutation (said_by cols costs) (said s ++ flat_map item_entries items) /\
    (forall c, In c cols -> increasing_from 0 (map fst (col_values c)) /\ entry_indices rows (col_values c)) /\
    StronglySorted le (map fst costs) /\ (forall j v, In (j, v) costs -> (j < length cols)%nat).
Proof.
  induction ls as [|l ls IH]; intros s cols costs next rest I H; [discriminate|]. cbn [parse_column_section] in H. destruct (is_part_of_same_section l) eqn:P.
  - got H as s1 S. destruct (column_line_accepted s l s1 I P S) as (item & RC & K & I1 & P1 & H1). destruct (IH s1 _ _ _ _ I1 H) as (items & body & h & -> & F & HD & KK & HH & PP & D).
    exists (item :: items), (l :: body), h. split; [reflexivity|]. split; [now constructor|]. split; [assumption|]. cbn [flat_map]. split; [intros c r v X; apply in_app_or in X; destruct X as [X|X]; [now apply (K c r v)|now apply (KK c r v)]|].
    split; [now rewrite HH, H1|]. split; [rewrite PP, P1, <- app_assoc; apply Permutation_refl|]. exact D.
  - got H as nx T. got H as s1 S. injection H as <- <- <- <-. destruct (save_accepted s None s1 I S) as (I1 & V1 & A1 & G1 & H1 & P1). exists [], [], l. split; [reflexivity|]. split; [constructor|]. split; [now apply header_got|].
    split; [intros c r v []|]. cbn [columns_from flat_map]. rewrite !app_nil_r. split; [assumption|]. split; [assumption|]. split; [exact (ck_done _ I1)|]. split; [exact (ck_costs _ I1)|].
    intros j v X. pose proof (ck_cost _ I1 j v X) as Y. unfold cols_of in Y. cbn [cs_done cs_active] in Y. now rewrite app_nil_r in Y.
Qed.
End Columns.

(** ** Groups *)
Section Groups.
Context {A : Type}.
Variable at_ : nat -> string.
Variable bound : nat.
(** no index twice in a group *)
Definition apart_groups (l : list (group A)) : Prop := forall g, In g l -> NoDup (map fst (grp_values g)).
Lemma group_save_accepted duplicates s new s' : groups_inv bound s -> save_to_group_collector duplicates new s = Got s' ->
  gs_values s' = [] /\ gs_active s' = new /\ Permutation (group_values at_ (gs_done s')) (told at_ s) /\ Permutation (ungroup (gs_done s')) (ungroup (groups_of s)) /\
  (duplicates = false -> apart_groups (gs_done s) -> apart_groups (gs_done s')).
Proof.
  intros I. unfold save_to_group_collector. destruct (gs_active s) as [g|] eqn:E.
  - destruct (negb duplicates && adjacent same_index (sort_by fst (gs_values s))) eqn:D; [discriminate|]. intros H. injection H as <-. split; [reflexivity|]. split; [reflexivity|]. cbn [gs_done].
    unfold told, groups_of. rewrite E. assert (X : Forall2 (fun g g' => grp_name g = grp_name g' /\ Permutation (grp_values g) (grp_values g')) (gs_done s ++ [mk_group g (sort_by fst (gs_values s))]) (gs_done s ++ [mk_group g (gs_values s)])).
    { apply Forall2_app; [|constructor; [split; [reflexivity|apply sort_by_perm]|constructor]]. clear. induction (gs_done s); constructor; [split; [reflexivity|apply Permutation_refl]|assumption]. }
    destruct (group_values_perm at_ _ _ X) as [X1 X2]. split; [assumption|]. split; [assumption|]. intros -> AP x H. apply in_app_or in H. destruct H as [H|[<-|[]]]; [now apply AP|]. cbn [grp_values]. cbn [negb andb] in D. apply sorted_nodup in D.
    apply NoDup_fst_perm with (gs_values s); [apply Permutation_sym, sort_by_perm|assumption].
  - intros H. injection H as <-. cbn [gs_values gs_active gs_done]. rewrite (gi_idle bound s I E). split; [reflexivity|]. split; [reflexivity|].
    unfold told, groups_of. rewrite E, app_nil_r. split; [apply Permutation_refl|]. split; [apply Permutation_refl|]. tauto.
Qed.
Lemma change_accepted duplicates s g s' : groups_inv bound s -> change_group duplicates g s = Got s' ->
  groups_inv bound s' /\ gs_active s' = Some g /\ Permutation (told at_ s') (told at_ s) /\ (duplicates = false -> apart_groups (gs_done s) -> apart_groups (gs_done s')).
Proof.
  intros I. assert (ST : forall s' : groups_state A, gs_values s' = [] -> gs_active s' = Some g -> told at_ s' = group_values at_ (gs_done s') /\ ungroup (groups_of s') = ungroup (gs_done s')).
  { intros s0 V E. unfold told, groups_of, group_values, ungroup. rewrite E, !flat_map_app. cbn [flat_map grp_values map]. rewrite V. cbn [map]. rewrite !app_nil_r. split; reflexivity. }
  unfold change_group. destruct (gs_active s) as [a|] eqn:E.
  - destruct (String.eqb_spec a g) as [Eq|Ne].
    + subst a. intros H. injection H as <-. split; [assumption|]. split; [assumption|]. split; [apply Permutation_refl|tauto].
    + intros S. destruct (group_save_accepted duplicates s (Some g) s' I S) as (V & AC & P & U & D). destruct (ST s' V AC) as [T1 T2]. rewrite T1.
      split; [|split; [assumption|split; assumption]]. constructor; [congruence|]. rewrite T2. intros i v H. apply (Permutation_in _ U) in H. now apply (gi_index bound s I i v).
  - intros H. injection H as <-. pose proof (gi_idle bound s I E) as V. destruct (ST (mk_groups (gs_done s) (gs_values s) (Some g)) V eq_refl) as [T1 T2]. cbn [gs_done] in *. rewrite T1.
    assert (Q : groups_of s = gs_done s) by (unfold groups_of; now rewrite E, app_nil_r).
    split; [constructor; [discriminate|]; rewrite T2, <- Q; apply I|]. split; [reflexivity|]. unfold told. rewrite Q. split; [apply Permutation_refl|tauto].
Qed.
End Groups.
Section Values.
Variable rows : list mrow.
Notation row_at i := (row_name (nth i rows (mk_mrow "" KEqual))).
Notation told := (told (fun i => row_at i)).
Lemma group_pair_accepted s g r text s' : groups_inv (length rows) s -> gs_active s = Some g -> save_group_pair b rows r text s = Got s' ->
  exists v, parse_number b text = Got v /\ In r (map row_name rows) /\ groups_inv (length rows) s' /\ gs_active s' = Some g /\ Permutation (told s') (told s ++ [(g, r, v)]) /\ gs_done s' = gs_done s.
Proof.
  intros I E H. unfold save_group_pair in H. pose proof (row_index_spec rows r) as RI. destruct (row_index rows r) as [i|]; destruct (parse_number b text) as [v| |]; try discriminate. injection H as <-. destruct RI as [L Er].
  exists v. split; [reflexivity|]. split; [rewrite <- Er; apply in_map; now apply nth_In|]. rewrite <- Er. destruct (add_ok (fun i => row_at i) (length rows) s g i v I E L) as (X1 & X2 & X3). split; [assumption|]. split; [assumption|]. split; [assumption|reflexivity].
Qed.
Lemma values_line_accepted s l s' : groups_inv (length rows) s -> is_part_of_same_section l = true -> parse_value_section_line b R rows l s = Got s' ->
  exists item, reads_values R b item l /\ (forall g r v, In (g, r, v) (item_values item) -> In r (map row_name rows)) /\ groups_inv (length rows) s' /\ Permutation (told s') (told s ++ item_values item) /\
    (apart_groups (gs_done s) -> apart_groups (gs_done s')).
Proof.
  intros I PT H. unfold parse_value_section_line in H. got H as [[[g r] text] rest] E. got H as s1 C. destruct (change_accepted (fun i => row_at i) (length rows) false s g s1 I C) as (I1 & A1 & P1 & D1).
  got H as s2 S2. destruct (group_pair_accepted s1 g r text s2 I1 A1 S2) as (v & PV & K & I2 & A2 & P2 & D2). got H as more F. destruct more as [[r' text']|].
  - destruct (group_pair_accepted s2 g r' text' s' I2 A2 H) as (v' & PV' & K' & I3 & A3 & P3 & D3). exists (g, [(r, v); (r', v')]). split; [|split; [|split; [assumption|split]]].
    + split; [assumption|]. exists r, text, rest. split; [assumption|]. exists v. split; [assumption|]. right. exists r', text', v'. split; [assumption|]. split; [assumption|reflexivity].
    + intros g0 r0 v0 [X|[X|[]]]; injection X as <- <- <-; assumption.
    + cbn [item_values map]. rewrite P3, P2, <- app_assoc. now apply Permutation_app_tail.
    + intros AP. rewrite D3, D2. now apply D1.
  - injection H as <-. exists (g, [(r, v)]). split; [|split; [|split; [assumption|split]]].
    + split; [assumption|]. exists r, text, rest. split; [assumption|]. exists v. split; [assumption|]. left. split; [reflexivity|assumption].
    + intros g0 r0 v0 [X|[]]; injection X as <- <- <-; assumption.
    + cbn [item_values map]. rewrite P2. now apply Permutation_app_tail.
    + intros AP. rewrite D2. now apply D1.
Qed.
Lemma values_accepted valid : forall ls s groups next rest, groups_inv (length rows) s -> parse_optional_section b R valid rows ls s = Got (groups, next, rest) ->
  exists items body h, ls = body ++ h :: rest /\ Forall2 (reads_values R b) items body /\ ends_section h next valid /\
    (forall g r v, In (g, r, v) (flat_map item_values items) -> In r (map row_name rows)) /\
    Permutation (group_values (fun i => row_at i) groups) (told s ++ flat_map item_values items) /\ (forall i v, In (i, v) (ungroup groups) -> (i < length rows)%nat) /\
    (apart_groups (gs_done s) -> apart_groups groups).
Proof.
  induction ls as [|l ls IH]; intros s groups next rest I H; [discriminate|]. cbn [parse_optional_section] in H. destruct (is_part_of_same_section l) eqn:P.
  - got H as s1 S. destruct (values_line_accepted s l s1 I P S) as (item & RC & K & I1 & P1 & D1). destruct (IH s1 _ _ _ I1 H) as (items & body & h & -> & F & HD & KK & PP & BB & D).
    exists (item :: items), (l :: body), h. split; [reflexivity|]. split; [now constructor|]. split; [assumption|]. cbn [flat_map]. split; [intros c r v X; apply in_app_or in X; destruct X as [X|X]; [now apply (K c r v)|now apply (KK c r v)]|].
    split; [rewrite PP, P1, <- app_assoc; apply Permutation_refl|]. split; [exact BB|tauto].
  - got H as nx T. got H as s1 S. injection H as <- <- <-. destruct (group_save_accepted (fun i => row_at i) (length rows) false s None s1 I S) as (V1 & A1 & P1 & U1 & D1). exists [], [], l. split; [reflexivity|]. split; [constructor|]. split; [now apply header_got|].
    split; [intros c r v []|]. cbn [flat_map]. rewrite !app_nil_r. split; [assumption|]. split; [|tauto]. intros i v X. apply (Permutation_in _ U1) in X. now apply (gi_index _ s I i v).
Qed.
End Values.
Section Bounds.
Variable columns : list mcolumn.
Notation column_at j := (col_name (nth j columns (mk_mcolumn "" false []))).
Lemma column_index_got : forall cols name j, column_index cols name = Some j -> (j < length cols)%nat /\ col_name (nth j cols (mk_mcolumn "" false [])) = name.
Proof.
  induction cols as [|c cols IH]; intros name j E; [discriminate|]. cbn [column_index] in E. destruct (column_index cols name) as [k|] eqn:K.
  - injection E as <-. destruct (IH name k K). cbn [length nth]. split; [lia|assumption].
  - destruct (String.eqb_spec (col_name c) name) as [Eq|]; [|discriminate]. injection E as <-. cbn. split; [lia|assumption].
Qed.
Lemma bound_line_accepted s l s' : groups_inv (length columns) s -> is_part_of_same_section l = true -> parse_bound_line b R columns l s = Got s' ->
  exists item, reads_bound R b item l /\ In (snd item) (map col_name columns) /\ groups_inv (length columns) s' /\ Permutation (told (fun j => column_at j) s') (told (fun j => column_at j) s ++ [bound_value item]).
Proof.
  intros I PT H. unfold parse_bound_line in H. got H as [[[key g] c] rest] E. destruct (column_index columns c) as [j|] eqn:CI; [|discriminate]. destruct (column_index_got _ _ _ CI) as [L N].
  got H as s1 C. destruct (change_accepted (fun j => column_at j) (length columns) true s g s1 I C) as (I1 & A1 & P1 & D1). got H as t T. injection H as <-.
  exists (t, g, c). split; [split; [assumption|]; exists key, rest; split; assumption|]. cbn [snd bound_value]. split; [rewrite <- N; apply in_map; now apply nth_In|].
  destruct (add_ok (fun j => column_at j) (length columns) s1 g j t I1 A1 L) as (I2 & A2 & P2). split; [assumption|]. rewrite P2, N. now apply Permutation_app_tail.
Qed.
Lemma bounds_accepted : forall ls s groups rest, groups_inv (length columns) s -> parse_bounds_section b R columns ls s = Got (groups, rest) ->
  exists items body h, ls = body ++ h :: rest /\ Forall2 (reads_bound R b) items body /\ ends_section h SEndata [] /\
    (forall t g c, In (t, g, c) items -> In c (map col_name columns)) /\
    Permutation (group_values (fun j => column_at j) groups) (told (fun j => column_at j) s ++ map bound_value items) /\ (forall j t, In (j, t) (ungroup groups) -> (j < length columns)%nat).
Proof.
  induction ls as [|l ls IH]; intros s groups rest I H; [discriminate|]. cbn [parse_bounds_section] in H. destruct (is_part_of_same_section l) eqn:P.
  - got H as s1 S. destruct (bound_line_accepted s l s1 I P S) as (item & RC & K & I1 & P1). destruct (IH s1 _ _ I1 H) as (items & body & h & -> & F & HD & KK & PP & BB).
    exists (item :: items), (l :: body), h. split; [reflexivity|]. split; [now constructor|]. split; [assumption|]. cbn [map]. split; [intros t g c [X|X]; [subst item; exact K|now apply (KK t g c)]|].
    split; [rewrite PP, P1, <- app_assoc; apply Permutation_refl|]. exact BB.
  - got H as nx T. got H as s1 S. injection H as <- <-. destruct (group_save_accepted (fun j => column_at j) (length columns) true s None s1 I S) as (V1 & A1 & P1 & U1 & D1). exists [], [], l. split; [reflexivity|]. split; [constructor|].
    split; [apply header_got in T; [|assumption]; destruct T as [T1 T2]; assert (nx = SEndata) by (destruct T2 as [T2|[]]; exact T2); subst nx; split; [assumption|now left]|].
    split; [intros t g c []|]. cbn [map]. rewrite !app_nil_r. split; [assumption|]. intros i v X. apply (Permutation_in _ U1) in X. now apply (gi_index _ s I i v).
Qed.
End Bounds.
End Reader.
