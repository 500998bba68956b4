(** * Converting bounds *)
From Verif Require Import SpecMps.
Local Open Scope Qc_scope.

(** ** Folds that work on one index at a time *)
Lemma values_at_cons {A} i j (t : A) l : values_at i ((j, t) :: l) = if Nat.eqb j i then t :: values_at i l else values_at i l.
Proof. unfold values_at. cbn. destruct (Nat.eqb j i); reflexivity. Qed.
Lemma values_at_In {A} i (t : A) l : In t (values_at i l) <-> In (i, t) l.
Proof.
  unfold values_at. rewrite in_map_iff. split.
  - intros ([j u] & <- & H). apply filter_In in H. destruct H as [H E]. cbn in E. apply Nat.eqb_eq in E. now subst.
  - intros H. exists (i, t). split; [reflexivity|]. apply filter_In. split; [assumption|]. apply Nat.eqb_refl.
Qed.
Section Pointwise.
Context {S A T : Type} (get : S -> nat -> option A) (step : S -> nat * T -> out S) (f : nat -> A -> T -> out A) (inv : S -> Prop).
Hypothesis Hnone : forall s i t, inv s -> get s i = None -> step s (i, t) = Crashed.
Hypothesis Hsome : forall s i t a, inv s -> get s i = Some a ->
  match f i a t with
  | Got a' => exists s', step s (i, t) = Got s' /\ inv s' /\ forall k, get s' k = if Nat.eqb k i then Some a' else get s k
  | Rejected e => step s (i, t) = Rejected e
  | Crashed => step s (i, t) = Crashed
  end.
Lemma fold_step l : forall s s', inv s -> foldO step l s = Got s' -> inv s' /\ forall i, match get s i with
  | Some a => exists a', get s' i = Some a' /\ foldO (f i) (values_at i l) a = Got a' | None => get s' i = None end.
Proof using Hnone Hsome.
  induction l as [|[j t] l IH]; intros s s' I; cbn [foldO].
  - intros E. injection E as <-. split; [assumption|]. intros i. destruct (get s i) as [a|] eqn:G; [|reflexivity]. exists a. now split.
  - destruct (get s j) as [a|] eqn:G; [|rewrite Hnone by assumption; discriminate]. pose proof (Hsome s j t a I G) as P.
    destruct (f j a t) as [a'|e|] eqn:F; [|rewrite P; discriminate|rewrite P; discriminate]. destruct P as (s1 & -> & I1 & K). cbn [obind]. intros E.
    destruct (IH s1 s' I1 E) as [I' L]. split; [assumption|]. intros i. specialize (L i). rewrite K in L. destruct (Nat.eqb_spec i j) as [EQ|N]; [subst i|].
    + rewrite G. destruct L as (a2 & G2 & F2). exists a2. split; [assumption|]. rewrite values_at_cons, Nat.eqb_refl. cbn [foldO]. now rewrite F.
    + destruct (get s i) as [a2|]; [|assumption]. destruct L as (a3 & G2 & F2). exists a3. split; [assumption|]. rewrite values_at_cons.
      destruct (Nat.eqb_spec j i); [congruence|assumption].
Qed.
Lemma fold_step_crash l : forall s, inv s -> foldO step l s = Crashed ->
  (exists i t, In (i, t) l /\ get s i = None) \/ exists i a, get s i = Some a /\ foldO (f i) (values_at i l) a = Crashed.
Proof using Hnone Hsome.
  induction l as [|[j t] l IH]; intros s I; cbn [foldO]; [discriminate|].
  destruct (get s j) as [a|] eqn:G; [|intros _; left; exists j, t; split; [now left|assumption]]. pose proof (Hsome s j t a I G) as P.
  destruct (f j a t) as [a'|e|] eqn:F; [|rewrite P; discriminate|].
  2:{ intros _. right. exists j, a. split; [assumption|]. rewrite values_at_cons, Nat.eqb_refl. cbn [foldO]. now rewrite F. }
  destruct P as (s1 & -> & I1 & K). cbn [obind]. intros E. destruct (IH s1 I1 E) as [(i & u & H & N)|(i & a2 & G2 & F2)].
  - left. exists i, u. split; [now right|]. rewrite K in N. destruct (Nat.eqb i j); [discriminate|assumption].
  - right. rewrite K in G2. exists i. destruct (Nat.eqb_spec i j) as [EQ|N]; [subst i|].
    + injection G2 as ->. exists a. split; [assumption|]. rewrite values_at_cons, Nat.eqb_refl. cbn [foldO]. now rewrite F.
    + exists a2. split; [assumption|]. rewrite values_at_cons. destruct (Nat.eqb_spec j i); [congruence|assumption].
Qed.
Lemma fold_step_rejected l e : forall s, inv s -> foldO step l s = Rejected e ->
  exists i a, get s i = Some a /\ foldO (f i) (values_at i l) a = Rejected e.
Proof using Hnone Hsome.
  induction l as [|[j t] l IH]; intros s I; cbn [foldO]; [discriminate|].
  destruct (get s j) as [a|] eqn:G; [|rewrite Hnone by assumption; discriminate]. pose proof (Hsome s j t a I G) as P.
  destruct (f j a t) as [a'|e'|] eqn:F; [| |rewrite P; discriminate].
  2:{ rewrite P. cbn [obind]. intros E. injection E as ->. exists j, a. split; [assumption|]. rewrite values_at_cons, Nat.eqb_refl. cbn [foldO]. now rewrite F. }
  destruct P as (s1 & -> & I1 & K). cbn [obind]. intros E. destruct (IH s1 I1 E) as (i & a2 & G2 & F2).
  rewrite K in G2. exists i. destruct (Nat.eqb_spec i j) as [EQ|N]; [subst i|].
  - injection G2 as ->. exists a. split; [assumption|]. rewrite values_at_cons, Nat.eqb_refl. cbn [foldO]. now rewrite F.
  - exists a2. split; [assumption|]. rewrite values_at_cons. destruct (Nat.eqb_spec j i); [congruence|assumption].
Qed.
End Pointwise.

(** ** One variable *)
Definition bound_step (_ : nat) (st : bound_state) (t : bound_type) : out bound_state :=
  let '(v, needs, free) := st in
  let~ r := process_bound t v in
  let '(v', needs', free') := r in
  Got (v', needs && needs', free || free')%bool.
Lemma process_entry_none s j t : nth_error s j = None -> process_entry s (j, t) = Crashed.
Proof. intros H. unfold process_entry, oindex. now rewrite H. Qed.
Lemma process_entry_some s j t a : nth_error s j = Some a ->
  match bound_step j a t with
  | Got a' => exists s', process_entry s (j, t) = Got s' /\ True /\ forall k, nth_error s' k = if Nat.eqb k j then Some a' else nth_error s k
  | Rejected e => process_entry s (j, t) = Rejected e
  | Crashed => process_entry s (j, t) = Crashed
  end.
Proof.
  intros H. destruct a as [[v needs] free]. unfold process_entry, oindex, bound_step. rewrite H. cbn [obind].
  destruct (process_bound t v) as [[[v' needs'] free']|e|]; cbn [obind]; [|reflexivity|reflexivity].
  eexists. split; [reflexivity|]. split; [exact I|]. intros k. rewrite upd_nth_error. assert (L : (j < length s)%nat) by (apply nth_error_Some; congruence).
  apply Nat.ltb_lt in L. rewrite L, andb_true_r. reflexivity.
Qed.
Lemma allows_bounds t x : ~ is_semi t -> (allows t x <-> (forall l, low_of t = Some l -> l <= x) /\ (forall u, up_of t = Some u -> x <= u)).
Proof.
  intros N. destruct t as [v|v|v| | | | |v|v|l u]; cbn in *.
  - split; [intros H; split; intros y E; [now injection E as <-|discriminate]|intros [A B]; now apply A].
  - split; [intros H; split; intros y E; [discriminate|now injection E as <-]|intros [A B]; now apply B].
  - split; [intros ->; split; intros y E; injection E as <-; apply Qcle_refl|intros [A B]; apply Qcle_antisym; [now apply B|now apply A]].
  - split; [intros H; split; intros y E; discriminate|trivial].
  - split; [intros H; split; intros y E; [discriminate|now injection E as <-]|intros [A B]; now apply B].
  - split; [intros H; split; intros y E; [now injection E as <-|discriminate]|intros [A B]; now apply A].
  - split; [intros [A B]; split; intros y E; now injection E as <-|intros [A B]; split; [now apply A|now apply B]].
  - split; [intros H; split; intros y E; [now injection E as <-|discriminate]|intros [A B]; now apply A].
  - split; [intros H; split; intros y E; [discriminate|now injection E as <-]|intros [A B]; now apply B].
  - destruct N. exact I.
Qed.
(** the largest of some bounds *)
Definition largest (P : Qc -> Prop) (o : option Qc) : Prop :=
  match o with Some x => P x /\ forall y, P y -> y <= x | None => forall y, ~ P y end.
Definition smallest (P : Qc -> Prop) (o : option Qc) : Prop :=
  match o with Some x => P x /\ forall y, P y -> x <= y | None => forall y, ~ P y end.
Lemma largest_add P o x : largest P o -> largest (fun y => P y \/ y = x) (Some (replace_existing_with o x LowerSide)).
Proof.
  destruct o as [old|]; cbn.
  - intros [H K]. destruct (qltb old x) eqn:E.
    + apply qltb_true in E. split; [now right|]. intros y [Hy| ->]; [|apply Qcle_refl]. specialize (K y Hy). qlra.
    + apply qltb_false in E. split; [now left|]. intros y [Hy| ->]; [now apply K|]. qlra.
  - intros H. split; [now right|]. intros y [Hy| ->]; [now apply H in Hy|apply Qcle_refl].
Qed.
Lemma smallest_add P o x : smallest P o -> smallest (fun y => P y \/ y = x) (Some (replace_existing_with o x UpperSide)).
Proof.
  destruct o as [old|]; cbn.
  - intros [H K]. destruct (qltb x old) eqn:E.
    + apply qltb_true in E. split; [now right|]. intros y [Hy| ->]; [|apply Qcle_refl]. specialize (K y Hy). qlra.
    + apply qltb_false in E. split; [now left|]. intros y [Hy| ->]; [now apply K|]. qlra.
  - intros H. split; [now right|]. intros y [Hy| ->]; [now apply H in Hy|apply Qcle_refl].
Qed.
Lemma largest_ext P Q o : (forall y, P y <-> Q y) -> largest P o -> largest Q o.
Proof. intros E. destruct o; cbn; [intros [A B]; split; [now apply E|intros y H; apply B; now apply E]|intros A y H; apply (A y); now apply E]. Qed.
Lemma smallest_ext P Q o : (forall y, P y <-> Q y) -> smallest P o -> smallest Q o.
Proof. intros E. destruct o; cbn; [intros [A B]; split; [now apply E|intros y H; apply B; now apply E]|intros A y H; apply (A y); now apply E]. Qed.
(** what holds of a variable after the statements [done] *)
Definition lower_stated (done : list bound_type) (y : Qc) : Prop := exists t, In t done /\ low_of t = Some y.
Definition upper_stated (done : list bound_type) (y : Qc) : Prop := exists t, In t done /\ up_of t = Some y.
Definition leavesb (t : bound_type) : bool := match t with UpperContinuous _ | UpperInteger _ => true | _ => false end.
Definition integerb (t : bound_type) : bool := match t with Binary | LowerInteger _ | UpperInteger _ => true | _ => false end.
Definition freeb (t : bound_type) : bool := match t with Free => true | _ => false end.
Record after (v0 : variable) (done : list bound_type) (st : bound_state) : Prop := mk_after {
  af_low : largest (lower_stated done) (v_lower (fst (fst st)));
  af_up : smallest (upper_stated done) (v_upper (fst (fst st)));
  af_needs : snd (fst st) = forallb leavesb done;
  af_free : snd st = existsb freeb done;
  af_integer : v_integer (fst (fst st)) = (v_integer v0 || existsb integerb done)%bool;
  af_cost : v_cost (fst (fst st)) = v_cost v0;
  af_shift : v_shift (fst (fst st)) = v_shift v0;
  af_flipped : v_flipped (fst (fst st)) = v_flipped v0
}.
Lemma after_start v : v_lower v = None -> v_upper v = None -> after v [] (v, true, false).
Proof. intros L U. constructor; cbn; rewrite ?L, ?U, ?orb_false_r; try reflexivity; intros y (t & [] & _). Qed.
Lemma lower_stated_snoc done t y : lower_stated (done ++ [t]) y <-> lower_stated done y \/ low_of t = Some y.
Proof.
  unfold lower_stated. split.
  - intros (u & H & E). apply in_app_or in H. destruct H as [H|[->|[]]]; [left; now exists u|now right].
  - intros [(u & H & E)|E]; [exists u|exists t]; (split; [|assumption]); apply in_or_app; [now left|right; now left].
Qed.
Lemma upper_stated_snoc done t y : upper_stated (done ++ [t]) y <-> upper_stated done y \/ up_of t = Some y.
Proof.
  unfold upper_stated. split.
  - intros (u & H & E). apply in_app_or in H. destruct H as [H|[->|[]]]; [left; now exists u|now right].
  - intros [(u & H & E)|E]; [exists u|exists t]; (split; [|assumption]); apply in_or_app; [now left|right; now left].
Qed.
Lemma low_keep P t o : low_of t = None -> largest P o -> largest (fun y => P y \/ low_of t = Some y) o.
Proof. intros E. apply largest_ext. intros y. rewrite E. split; [now left|intros [H|H]; [assumption|discriminate]]. Qed.
Lemma up_keep P t o : up_of t = None -> smallest P o -> smallest (fun y => P y \/ up_of t = Some y) o.
Proof. intros E. apply smallest_ext. intros y. rewrite E. split; [now left|intros [H|H]; [assumption|discriminate]]. Qed.
Lemma low_new P t o x : low_of t = Some x -> largest P o -> largest (fun y => P y \/ low_of t = Some y) (Some (replace_existing_with o x LowerSide)).
Proof. intros E H. apply (largest_ext (fun y => P y \/ y = x)); [|now apply largest_add]. intros y. rewrite E. split; intros [K|K]; try (now left); right; [now rewrite K|now injection K as ->]. Qed.
Lemma up_new P t o x : up_of t = Some x -> smallest P o -> smallest (fun y => P y \/ up_of t = Some y) (Some (replace_existing_with o x UpperSide)).
Proof. intros E H. apply (smallest_ext (fun y => P y \/ y = x)); [|now apply smallest_add]. intros y. rewrite E. split; intros [K|K]; try (now left); right; [now rewrite K|now injection K as ->]. Qed.
Lemma after_step v0 done st t j st' : after v0 done st -> bound_step j st t = Got st' -> after v0 (done ++ [t]) st'.
Proof.
  intros [AL AU AN AF AI AC AS AP] E. destruct st as [[v needs] free]. cbn [fst snd] in *.
  assert (R : forall v' n' f', process_bound t v = Got (v', n', f') ->
    largest (fun y => lower_stated done y \/ low_of t = Some y) (v_lower v') /\ smallest (fun y => upper_stated done y \/ up_of t = Some y) (v_upper v') /\
    n' = leavesb t /\ f' = freeb t /\ v_integer v' = (v_integer v || integerb t)%bool /\ v_cost v' = v_cost v /\ v_shift v' = v_shift v /\ v_flipped v' = v_flipped v).
  { intros v' n' f' P.
    destruct t; cbn in P; try discriminate; try (injection P as <- <- <-; repeat split; cbn [leavesb freeb integerb v_integer lower_with upper_with make_integer v_lower v_upper]; rewrite ?orb_false_r, ?orb_true_r; try reflexivity;
      (apply low_keep || (apply low_new) || apply up_keep || apply up_new); (reflexivity || assumption)).
    destruct (v_lower v) eqn:L; [discriminate|]. destruct (v_upper v) eqn:U; [discriminate|]. injection P as <- <- <-. rewrite L, U.
    repeat split; cbn [leavesb freeb integerb]; rewrite ?orb_false_r; try reflexivity; [now apply low_keep|now apply up_keep]. }
  unfold bound_step in E. destruct (process_bound t v) as [[[v' n'] f']|e|]; [|discriminate|discriminate]. cbn [obind] in E. injection E as <-.
  destruct (R v' n' f' eq_refl) as (L & U & -> & -> & I & C & Sh & Fl). constructor; cbn [fst snd].
  - apply (largest_ext _ _ _ (fun y => iff_sym (lower_stated_snoc done t y)) L).
  - apply (smallest_ext _ _ _ (fun y => iff_sym (upper_stated_snoc done t y)) U).
  - rewrite forallb_app. cbn. rewrite andb_true_r. now rewrite AN.
  - rewrite existsb_app. cbn. rewrite orb_false_r. now rewrite AF.
  - rewrite existsb_app. cbn. rewrite orb_false_r, I, AI, orb_assoc. reflexivity.
  - now rewrite C.
  - now rewrite Sh.
  - now rewrite Fl.
Qed.
Lemma after_fold v0 j : forall ts done st st', after v0 done st -> foldO (bound_step j) ts st = Got st' -> after v0 (done ++ ts) st'.
Proof.
  induction ts as [|t ts IH]; intros done st st' A; cbn [foldO].
  - intros E. injection E as <-. now rewrite app_nil_r.
  - destruct (bound_step j st t) as [s1|e|] eqn:B; [|discriminate|discriminate]. cbn [obind]. intros E.
    replace (done ++ t :: ts) with ((done ++ [t]) ++ ts) by (now rewrite <- app_assoc). apply (IH _ s1); [|assumption]. now apply (after_step v0 done st t j).
Qed.
Lemma after_bound v0 done st : after v0 done st -> (forall t, In t done -> ~ is_semi t) -> (has_bound (fst (fst st)) = true <-> exists t, In t done /\ freeb t = false).
Proof.
  intros A NS. pose proof (af_low _ _ _ A) as L. pose proof (af_up _ _ _ A) as U. unfold has_bound.
  destruct (v_lower (fst (fst st))) as [l|].
  - split; [|reflexivity]. intros _. destruct L as [(t & H & E) _]. exists t. split; [assumption|]. destruct t; try reflexivity; discriminate.
  - destruct (v_upper (fst (fst st))) as [u|].
    + split; [|reflexivity]. intros _. destruct U as [(t & H & E) _]. exists t. split; [assumption|]. destruct t; try reflexivity; discriminate.
    + split; [discriminate|]. intros (t & H & E). exfalso. specialize (NS t H).
      destruct (low_of t) as [y|] eqn:EL; [apply (L y); now exists t|]. destruct (up_of t) as [y|] eqn:EU; [apply (U y); now exists t|].
      destruct t; try discriminate. now apply NS.
Qed.
(** when the fold stops early *)
Lemma fold_bound_outcome v0 j : forall ts done st, after v0 done st -> (forall t, In t (done ++ ts) -> ~ is_semi t) ->
  match foldO (bound_step j) ts st with
  | Got _ => True
  | Rejected e => e = Inconsistent /\ (exists t, In t ts /\ freeb t = true) /\ exists t, In t (done ++ ts) /\ freeb t = false
  | Crashed => False
  end.
Proof.
  induction ts as [|t ts IH]; intros done st A NS; cbn [foldO]; [exact I|].
  pose proof (after_step v0 done st t j) as AS. pose proof (after_bound _ _ _ A) as AB.
  destruct (bound_step j st t) as [s1|e|] eqn:B; cbn [obind].
  - specialize (AS s1 A eq_refl). specialize (IH (done ++ [t]) s1 AS). rewrite <- app_assoc in IH. specialize (IH NS). destruct (foldO (bound_step j) ts s1) as [s2|e|]; [exact I| |assumption].
    destruct IH as (-> & (f & Hf & Ef) & K). split; [reflexivity|]. split; [exists f; split; [now right|assumption]|assumption].
  - destruct st as [[v n] fr]. cbn [fst] in AB. unfold bound_step in B. destruct t; cbn in B; try discriminate.
    destruct (has_bound v) eqn:HB; [|unfold has_bound in HB; destruct (v_lower v), (v_upper v); discriminate].
    assert (EI : e = Inconsistent) by (destruct (v_lower v), (v_upper v); cbn in B; congruence). split; [assumption|]. split; [exists Free; split; [now left|reflexivity]|].
    destruct (proj1 (AB (fun t H => NS t (in_or_app _ _ _ (or_introl H)))) eq_refl) as (t & H & E). exists t. split; [apply in_or_app; now left|assumption].
  - destruct st as [[v n] fr]. apply (NS t); [apply in_or_app; right; now left|]. destruct t; cbn in B; try discriminate; try exact I.
    destruct (v_lower v), (v_upper v); discriminate.
Qed.

(** ** All variables *)
Definition start (vars : list variable) : list bound_state := map (fun v => (v, true, false)) vars.
Definition statements (bounds : list (group bound_type)) (j : nat) : list bound_type := values_at j (ungroup bounds).
Lemma start_get vars j : nth_error (start vars) j = option_map (fun v => (v, true, false)) (nth_error vars j).
Proof. apply nth_error_map. Qed.
Definition unbounded_variable (v : variable) : Prop := v_lower v = None /\ v_upper v = None.
Lemma process_bounds_got vars bounds vars' : (forall v, In v vars -> unbounded_variable v) -> process_bounds vars bounds = Got vars' ->
  length vars' = length vars /\
  forall j v, nth_error vars j = Some v -> exists st, after v (statements bounds j) st /\ nth_error vars' j = Some (fill_default st) /\ (snd st && has_bound (fst (fst st)))%bool = false.
Proof.
  intros UB. unfold process_bounds. change (map (fun v : variable => (v, true, false)) vars) with (start vars).
  destruct (foldO process_entry (ungroup bounds) (start vars)) as [s|e|] eqn:F; [|discriminate|discriminate]. cbn [obind].
  pose proof (fold_step (@nth_error bound_state) process_entry bound_step (fun _ => True) (fun s i t _ => process_entry_none s i t) (fun s i t a _ => process_entry_some s i t a) _ _ _ I F) as [_ P].
  match goal with |- context [existsb ?f s] => destruct (existsb f s) eqn:X end; [discriminate|]. intros E. injection E as <-.
  assert (LS : length s = length vars).
  { destruct (Nat.lt_trichotomy (length s) (length vars)) as [L|[L|L]]; [exfalso|assumption|exfalso].
    - specialize (P (length s)). rewrite start_get in P.
      destruct (nth_error vars (length s)) eqn:Q; [|apply nth_error_None in Q; lia]. cbn in P. destruct P as (a & A & _).
      assert (nth_error s (length s) <> None) by congruence. apply nth_error_Some in H. lia.
    - specialize (P (length vars)). rewrite start_get in P.
      destruct (nth_error vars (length vars)) eqn:Q; [assert (nth_error vars (length vars) <> None) by congruence; apply nth_error_Some in H; lia|]. cbn in P.
      apply nth_error_None in P. lia. }
  split; [now rewrite map_length|]. intros j v Ev. specialize (P j). rewrite start_get, Ev in P.
  cbn [option_map] in P. destruct P as (st & G & Fj). exists st. destruct (UB v (nth_error_In _ _ Ev)) as [UL UU]. split.
  { apply (after_fold v j _ [] (v, true, false)); [now apply after_start|assumption]. }
  split; [now rewrite nth_error_map, G|]. destruct (snd st && has_bound (fst (fst st)))%bool eqn:Z; [|reflexivity].
  rewrite <- X. symmetry. apply existsb_exists. exists st. split; [now apply nth_error_In in G|]. destruct st as [[w n] f]. exact Z.
Qed.
(** the outcome, when the indices exist and there are no semi-continuous bounds *)
Definition conflict (bounds : list (group bound_type)) (j : nat) : Prop := In (j, Free) (ungroup bounds) /\ exists t, t <> Free /\ In (j, t) (ungroup bounds).
Lemma freeb_true t : freeb t = true <-> t = Free. Proof. destruct t; cbn; split; congruence. Qed.
Lemma freeb_false t : freeb t = false <-> t <> Free. Proof. destruct t; cbn; split; congruence. Qed.
Lemma process_bounds_outcome vars bounds : (forall v, In v vars -> unbounded_variable v) ->
  (forall j t, In (j, t) (ungroup bounds) -> (j < length vars)%nat /\ ~ is_semi t) ->
  ((exists j, conflict bounds j) -> process_bounds vars bounds = Rejected Inconsistent) /\
  ((forall j, ~ conflict bounds j) -> exists vars', process_bounds vars bounds = Got vars').
Proof.
  intros UB IN.
  assert (NS : forall j t, In t (statements bounds j) -> ~ is_semi t) by (intros j t H; apply values_at_In in H; now apply IN in H).
  assert (PF : forall j v, nth_error vars j = Some v -> match foldO (bound_step j) (statements bounds j) (v, true, false) with Got _ => True
      | Rejected e => e = Inconsistent /\ conflict bounds j | Crashed => False end).
  { intros j v E. destruct (UB v (nth_error_In _ _ E)) as [UL UU].
    pose proof (fold_bound_outcome v j (statements bounds j) [] (v, true, false) (after_start v UL UU) (NS j)) as P. cbn [app] in P.
    destruct (foldO _ _ _) as [st|e|]; [exact I| |assumption]. destruct P as (-> & (f & Hf & Ef) & t & Ht & Et). split; [reflexivity|]. split.
    - apply freeb_true in Ef. subst f. now apply values_at_In.
    - apply freeb_false in Et. exists t. split; [assumption|]. now apply values_at_In. }
  unfold process_bounds. change (map (fun v : variable => (v, true, false)) vars) with (start vars).
  destruct (foldO process_entry (ungroup bounds) (start vars)) as [s|e|] eqn:F; cbn [obind].
  - assert (EX : existsb (fun '(v, _, free) => free && has_bound v)%bool s = true <-> exists j, conflict bounds j).
    { pose proof (fold_step (@nth_error bound_state) process_entry bound_step (fun _ => True) (fun s i t _ => process_entry_none s i t) (fun s i t a _ => process_entry_some s i t a) _ _ _ I F) as [_ P].
      assert (AF : forall j v, nth_error vars j = Some v -> exists st, nth_error s j = Some st /\ after v (statements bounds j) st).
      { intros j v E. specialize (P j). rewrite start_get, E in P. cbn [option_map] in P. destruct P as (st & G & Fj). exists st. split; [assumption|].
        destruct (UB v (nth_error_In _ _ E)) as [UL UU]. apply (after_fold v j _ [] (v, true, false)); [now apply after_start|assumption]. }
      rewrite existsb_exists. split.
      - intros (st & H & E). apply In_nth_error in H. destruct H as [j G]. exists j. specialize (P j). rewrite start_get in P.
        destruct (nth_error vars j) as [v|] eqn:Ev; cbn [option_map] in P; [|pose proof (eq_trans (eq_sym P) G); discriminate]. destruct (AF j v Ev) as (st' & G' & A). assert (Q : Some st' = Some st) by exact (eq_trans (eq_sym G') G). injection Q as Q. subst st'.
        destruct st as [[w nd] fr]. apply andb_true_iff in E. destruct E as [E1 E2]. pose proof (af_free _ _ _ A) as AFr. cbn in AFr. rewrite E1 in AFr. symmetry in AFr.
        apply existsb_exists in AFr. destruct AFr as (f & Hf & Ef). apply freeb_true in Ef. subst f. split; [now apply values_at_In|].
        apply (after_bound _ _ _ A (NS j)) in E2. destruct E2 as (t & Ht & Et). exists t. split; [now apply freeb_false|now apply values_at_In].
      - intros (j & HF & t & NF & Ht). destruct (IN j t Ht) as [L _]. destruct (nth_error vars j) as [v|] eqn:Ev; [|apply nth_error_None in Ev; lia].
        destruct (AF j v Ev) as (st & G & A). exists st. split; [now apply nth_error_In in G|]. destruct st as [[w nd] fr]. apply andb_true_iff. split.
        + pose proof (af_free _ _ _ A) as AFr. cbn in AFr. rewrite AFr. apply existsb_exists. exists Free. split; [now apply values_at_In|reflexivity].
        + apply (after_bound _ _ _ A (NS j)). exists t. split; [now apply values_at_In|now apply freeb_false]. }
    match goal with |- context [existsb ?f s] => destruct (existsb f s) end.
    + split; [reflexivity|]. intros NC. destruct (proj1 EX eq_refl) as [j C]. now apply NC in C.
    + split; [intros C; now apply EX in C|]. intros _. eexists. reflexivity.
  - destruct (fold_step_rejected (@nth_error bound_state) process_entry bound_step (fun _ => True) (fun s i t _ => process_entry_none s i t) (fun s i t a _ => process_entry_some s i t a) _ _ _ I F) as (j & a & G & R).
    rewrite start_get in G. destruct (nth_error vars j) as [v|] eqn:Ev; [|discriminate]. cbn in G. injection G as <-. specialize (PF j v Ev). unfold statements in PF. rewrite R in PF.
    destruct PF as [-> C]. split; [reflexivity|]. intros NC. now apply NC in C.
  - exfalso. destruct (fold_step_crash (@nth_error bound_state) process_entry bound_step (fun _ => True) (fun s i t _ => process_entry_none s i t) (fun s i t a _ => process_entry_some s i t a) _ _ I F) as [(i & t & H & N)|(j & a & G & R)].
    + apply IN in H. destruct H as [L _]. rewrite start_get in N. destruct (nth_error vars i) eqn:Ev; [discriminate|]. apply nth_error_None in Ev. lia.
    + rewrite start_get in G. destruct (nth_error vars j) as [v|] eqn:Ev; [|discriminate]. cbn in G. injection G as <-. specialize (PF j v Ev). unfold statements in PF. now rewrite R in PF.
Qed.
(** the bounds of one converted variable *)
Lemma after_in_bounds v done st x : after v done st -> (forall t, In t done -> ~ is_semi t) ->
  (in_bounds (fill_default st) x <-> (forall t, In t done -> allows t x) /\ ((forall t, In t done -> leaves_lower t) -> 0 <= x)).
Proof.
  intros A NS. destruct st as [[w nd] fr]. pose proof (af_low _ _ _ A) as L. pose proof (af_up _ _ _ A) as U. pose proof (af_needs _ _ _ A) as N. cbn in L, U, N.
  assert (LL : (forall t, In t done -> leaves_lower t) <-> nd = true).
  { rewrite N, forallb_forall. split; intros H t K; specialize (H t K); destruct t; cbn in *; try reflexivity; try exact I; try discriminate; destruct H. }
  assert (AL : (forall t, In t done -> allows t x) <-> (forall y, lower_stated done y -> y <= x) /\ (forall y, upper_stated done y -> x <= y)).
  { split.
    - intros H. split; intros y (t & K & E); specialize (H t K); apply allows_bounds in H; try (now apply NS); now apply H.
    - intros [H1 H2] t K. apply allows_bounds; [now apply NS|]. split; intros y E; [apply H1|apply H2]; now exists t. }
  rewrite AL, LL. unfold fill_default, in_bounds. destruct nd.
  - cbn [v_lower v_upper]. assert (NL : forall y, ~ lower_stated done y).
    { intros y (t & K & E). apply (proj2 LL) in K; [|reflexivity]. destruct t; cbn in *; try discriminate; destruct K. }
    split.
    + intros [B1 B2]. split; [split|].
      * intros y K. now apply NL in K.
      * intros y K. destruct (v_upper w) as [u|]; [|now apply U in K]. destruct U as [_ U]. specialize (U y K). specialize (B2 u eq_refl). qlra.
      * intros _. now apply B1.
    + intros [[B1 B2] B3]. split; intros y E; [injection E as <-; now apply B3|]. rewrite E in U. destruct U as [U _]. now apply B2.
  - split.
    + intros [B1 B2]. split; [split|discriminate].
      * intros y K. destruct (v_lower w) as [u|]; [|now apply L in K]. destruct L as [_ L]. specialize (L y K). specialize (B1 u eq_refl). qlra.
      * intros y K. destruct (v_upper w) as [u|]; [|now apply U in K]. destruct U as [_ U]. specialize (U y K). specialize (B2 u eq_refl). qlra.
    + intros [[B1 B2] _]. split; intros y E; rewrite E in L || rewrite E in U; [destruct L as [L _]; now apply B1|destruct U as [U _]; now apply B2].
Qed.
Lemma after_bounds_exact v done st : after v done st ->
  (forall l, v_lower (fill_default st) = Some l -> lower_stated done l \/ (l = 0 /\ forall t, In t done -> leaves_lower t)) /\
  (forall u, v_upper (fill_default st) = Some u -> upper_stated done u).
Proof.
  intros A. destruct st as [[w nd] fr]. pose proof (af_low _ _ _ A) as L. pose proof (af_up _ _ _ A) as U. pose proof (af_needs _ _ _ A) as N. cbn in L, U, N. split.
  - intros l E. unfold fill_default in E. destruct nd; cbn in E.
    + injection E as <-. right. split; [reflexivity|]. symmetry in N. rewrite forallb_forall in N. intros t K. specialize (N t K). destruct t; cbn in *; try exact I; discriminate.
    + left. rewrite E in L. now destruct L.
  - intros u E. unfold fill_default in E. destruct nd; cbn in E; rewrite E in U; now destruct U.
Qed.
Lemma fill_default_keeps st : v_integer (fill_default st) = v_integer (fst (fst st)) /\ v_cost (fill_default st) = v_cost (fst (fst st)) /\
  v_shift (fill_default st) = v_shift (fst (fst st)) /\ v_flipped (fill_default st) = v_flipped (fst (fst st)).
Proof. destruct st as [[w nd] fr]. unfold fill_default. destruct nd; now repeat split. Qed.
(** ** The variables before the bounds *)
(** index value pairs with increasing indices between [lo] and [n]; values may be zero *)
Fixpoint ascending {A} (lo n : nat) (l : list (nat * A)) : Prop :=
  match l with [] => True | (i, _) :: t => (lo <= i < n)%nat /\ ascending (S i) n t end.
Lemma ascending_weaken {A} : forall (l : list (nat * A)) lo lo' n, (lo' <= lo)%nat -> ascending lo n l -> ascending lo' n l.
Proof. destruct l as [|[i v] l]; cbn; [trivial|]. intros lo lo' n L [H K]. split; [lia|assumption]. Qed.
Lemma ascending_den_below : forall l lo n i, ascending lo n l -> (i < lo)%nat -> den l i = 0.
Proof.
  induction l as [|[j v] l IH]; intros lo n i; cbn; [reflexivity|]. intros [H K] L. destruct (Nat.eqb_spec i j); [lia|]. rewrite (IH (S j) n) by (assumption || lia). ring.
Qed.
Lemma variables_from_spec : forall columns j costs n, ascending j n costs ->
  length (variables_from j columns costs) = length columns /\
  forall k c, nth_error columns k = Some c -> nth_error (variables_from j columns costs) k = Some (mk_var (col_integer c) (den costs (j + k)) None None 0 false).
Proof.
  induction columns as [|c columns IH]; intros j costs n A; cbn [variables_from].
  - split; [reflexivity|]. intros [|k] c; discriminate.
  - assert (P : exists rest, next_if j costs = (match costs with (i, v) :: _ => if Nat.eqb i j then Some v else None | [] => None end, rest) /\ ascending (S j) n rest /\
      (match (match costs with (i, v) :: _ => if Nat.eqb i j then Some v else None | [] => None end) with Some v => v | None => 0 end) = den costs j /\ forall k, (j < k)%nat -> den rest k = den costs k).
    { destruct costs as [|[i v] costs]; cbn.
      - exists []. repeat split.
      - destruct A as [L A]. destruct (Nat.eqb_spec i j) as [->|N].
        + exists costs. rewrite Nat.eqb_refl. split; [reflexivity|]. split; [assumption|]. split; [rewrite (ascending_den_below costs (S j) n) by (assumption || lia); ring|].
          intros k K. destruct (Nat.eqb_spec k j); [lia|]. ring.
        + exists ((i, v) :: costs). split; [reflexivity|]. split; [cbn; split; [lia|assumption]|]. split; [|reflexivity].
          destruct (Nat.eqb_spec j i); [congruence|]. rewrite (ascending_den_below costs (S i) n) by (assumption || lia). ring. }
    destruct P as (rest & -> & AR & ED & DR). rewrite ED. destruct (IH (S j) rest n AR) as [LN HN]. split; [cbn; now rewrite LN|].
    intros [|k] d; cbn [nth_error].
    + intros E. injection E as <-. now rewrite Nat.add_0_r.
    + intros E. rewrite (HN k d E), DR by lia. now replace (S j + k)%nat with (j + S k)%nat by lia.
Qed.
Lemma variables_from_unbounded : forall columns j costs v, In v (variables_from j columns costs) -> unbounded_variable v.
Proof.
  induction columns as [|c columns IH]; intros j costs v; cbn [variables_from]; [intros []|]. destruct (next_if j costs) as [o rest]. intros [<-|H]; [now split|]. now apply IH in H.
Qed.
