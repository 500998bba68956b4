(** * Presolving: what the single rules do to the feasible points *)
From Verif Require Import SpecGeneral SparseP.
From Verif Require Export Presolve.
Local Open Scope Qc_scope.

(** ** Specification side *)
(** a lower or an upper bound *)
Definition bound_holds (d : bdir) (v x : Qc) : Prop := match d with Lower => v <= x | Upper => x <= v end.
(** a value that may miss *)
Definition obound_holds (d : bdir) (o : option Qc) (x : Qc) : Prop := forall v, o = Some v -> bound_holds d v x.
(** a value between the bounds that the presolver currently has for variable [j] *)
Definition within (g : general) (u : updates) (j : nat) (x : Qc) : Prop := forall d, obound_holds d (bound_of g u j d) x.

Lemma bmul_bnot d c : bmul (bnot d) c = bnot (bmul d c).
Proof. unfold bmul. destruct (qneg c), d; reflexivity. Qed.
Lemma bnot_bnot d : bnot (bnot d) = d. Proof. destruct d; reflexivity. Qed.
Lemma bmul_bmul d c : bmul (bmul d c) c = d.
Proof. unfold bmul. destruct (qneg c), d; reflexivity. Qed.

(** multiplying a bound by a coefficient *)
Lemma mul_le_pos c a b : 0 < c -> (c * a <= c * b <-> a <= b).
Proof.
  intros P. split; intros H.
  - destruct (qleb a b) eqn:E; qb; [assumption|]. assert (0 < c * (a - b)) by (apply Qc_mul_pos; qlra). qlra.
  - assert (0 <= c * (b - a)) by (apply Qc_mul_nonneg; qlra). qlra.
Qed.
Lemma mul_le_neg c a b : c < 0 -> (c * a <= c * b <-> b <= a).
Proof.
  intros P. pose proof (mul_le_pos (- c) b a ltac:(qlra)) as M. rewrite <- M. split; intros H; qlra.
Qed.
Lemma qmin_spec a b : (a <= b /\ qmin a b = a) \/ (b <= a /\ qmin a b = b).
Proof. unfold qmin. destruct (qltb b a) eqn:E; qb; [right|left]; split; try reflexivity; qlra. Qed.
Lemma qmax_spec a b : (b <= a /\ qmax a b = a) \/ (a <= b /\ qmax a b = b).
Proof. unfold qmax. destruct (qltb a b) eqn:E; qb; [right|left]; split; try reflexivity; qlra. Qed.
Lemma bound_scale d c v x : c <> 0 -> bound_holds (bmul d c) v x <-> bound_holds d (c * v) (c * x).
Proof.
  intros N. unfold bmul. destruct (qneg c) eqn:E; qb.
  - destruct d; cbn; symmetry; now apply mul_le_neg.
  - assert (0 < c) by (apply Qc_le_neq_lt; [assumption|now apply Qc_neq_sym]). destruct d; cbn; symmetry; now apply mul_le_pos.
Qed.
Lemma bound_div d c v x : c <> 0 -> bound_holds (bmul d c) (v / c) x <-> bound_holds d v (c * x).
Proof. intros N. rewrite bound_scale by assumption. replace (c * (v / c)) with v by (field; assumption). reflexivity. Qed.

(** ** Empty constraints *)
Lemma empty_feasible_ok b t : empty_feasible b t = true <-> rel_holds t b 0.
Proof.
  destruct t; cbn; rewrite ?andb_true_iff, ?qleb_true; split; intros H; try tauto.
  - qb. now symmetry.
  - subst. unfold qzero. now apply qeqb_true.
Qed.

(** ** A constraint of one variable is a bound *)
Lemma bounds_from_ok b t c x : c <> 0 ->
  (rel_holds t b (c * x) <-> forall d v, In (d, v) (bounds_from b t c) -> bound_holds d v x).
Proof.
  intros N. destruct t as [|r| |]; cbn.
  - split.
    + intros <- d v [E|[E|[]]]; injection E as <- <-; cbn; replace (c * x / c) with x by (field; assumption); apply Qcle_refl.
    + intros H. pose proof (H Lower (b / c) (or_introl eq_refl)) as L. pose proof (H Upper (b / c) (or_intror (or_introl eq_refl))) as U.
      cbn in L, U. assert (x = b / c) by qlra. subst x. field. assumption.
  - assert (E : forall d v, bound_holds d (v / c) x <-> bound_holds (bmul d c) v (c * x)).
    { intros d v. rewrite <- (bmul_bmul d c) at 1. now apply bound_div. }
    unfold bmul in E. destruct (qneg c) eqn:S.
    + split.
      * intros [H1 H2] d v [K|[K|[]]]; injection K as <- <-; apply E; cbn; assumption.
      * intros H. pose proof (H _ _ (or_introl eq_refl)) as L. pose proof (H _ _ (or_intror (or_introl eq_refl))) as U.
        apply E in L, U. cbn in L, U. now split.
    + split.
      * intros [H1 H2] d v [K|[K|[]]]; injection K as <- <-; apply E; cbn; assumption.
      * intros H. pose proof (H _ _ (or_introl eq_refl)) as L. pose proof (H _ _ (or_intror (or_introl eq_refl))) as U.
        apply E in L, U. cbn in L, U. now split.
  - rewrite <- (bound_div Upper c b x N : _ <-> c * x <= b). split.
    + intros H d v [K|[]]. injection K as <- <-. exact H.
    + intros H. apply H. now left.
  - rewrite <- (bound_div Lower c b x N : _ <-> b <= c * x). split.
    + intros H d v [K|[]]. injection K as <- <-. exact H.
    + intros H. apply H. now left.
Qed.

(** ** A fixed variable is moved to the right-hand side *)
Lemma rel_shift t b k v : rel_holds t (b + k) (v + k) <-> rel_holds t b v.
Proof. destruct t; cbn; split; intros H; [qlra|qlra|destruct H; split; qlra|destruct H; split; qlra|qlra|qlra|qlra|qlra]. Qed.

(** ** Activity bounds *)
Definition all_within (g : general) (u : updates) (row : svec) (x : vec) : Prop :=
  forall j c, In (j, c) row -> c <> 0 /\ within g u j (x j).
(** the same for the bounds that limit the row in one direction *)
Definition half_within (g : general) (u : updates) (d : bdir) (row : svec) (x : vec) : Prop :=
  forall j c, In (j, c) row -> c <> 0 /\ obound_holds (bmul d c) (bound_of g u j (bmul d c)) (x j).
Lemma all_half g u d row x : all_within g u row x -> half_within g u d row x.
Proof. intros W j c H. destruct (W j c H) as [N X]. split; [assumption|apply X]. Qed.
(** all variables of the row are at their bound *)
Definition at_bound (g : general) (u : updates) (d : bdir) (row : svec) (x : vec) : Prop :=
  forall j c, In (j, c) row -> bound_of g u j (bmul d c) = Some (x j).
Lemma activity_fold g u d : forall row acc a,
  foldP (fun acc '(j, c) => let+ x := unwrap (bound_of g u j (bmul d c)) in Go (acc + c * x)) row acc = Go a ->
  forall x, half_within g u d row x -> bound_holds d (a - acc) (combination row x) /\ (combination row x = a - acc -> at_bound g u d row x).
Proof.
  induction row as [|[j c] row IH]; intros acc a E x W; cbn in E |- *.
  - injection E as <-. split; [destruct d; cbn; qlra|intros _ ? ? []].
  - destruct (bound_of g u j (bmul d c)) as [v|] eqn:B; cbn in E; [|discriminate].
    destruct (W j c (or_introl eq_refl)) as [N Wj]. specialize (IH _ _ E x (fun j c H => W j c (or_intror H))).
    destruct IH as [IH1 IH2]. specialize (Wj _ B). apply bound_scale in Wj; [|assumption]. split.
    + destruct d; cbn in *; qlra.
    + intros EQ. assert (c * v = c * x j) by (destruct d; cbn in *; qlra).
      assert (v = x j). { replace v with (c * v / c) by (field; assumption). rewrite H. field. assumption. } subst v.
      intros j' c' [K|K]; [injection K as <- <-; exact B|]. apply IH2; [|exact K]. destruct d; cbn in *; qlra.
Qed.
Lemma activity_half g u d row a x : activity_sum g u d row = Go a -> half_within g u d row x ->
  bound_holds d a (combination row x) /\ (combination row x = a -> at_bound g u d row x).
Proof.
  intros E W. destruct (activity_fold g u d row 0 a E x W) as [H1 H2]. replace (a - 0) with a in * by ring. now split.
Qed.
Lemma activity_ok g u d row a x : activity_sum g u d row = Go a -> all_within g u row x ->
  bound_holds d a (combination row x) /\ (combination row x = a -> at_bound g u d row x).
Proof. intros E W. apply (activity_half g u d row a x E). now apply all_half. Qed.
Lemma activity_at_bound g u d : forall row acc a x, at_bound g u d row x ->
  foldP (fun acc '(j, c) => let+ x := unwrap (bound_of g u j (bmul d c)) in Go (acc + c * x)) row acc = Go a ->
  combination row x = a - acc.
Proof.
  induction row as [|[j c] row IH]; intros acc a x A E; cbn in E |- *.
  - injection E as <-. ring.
  - rewrite (A j c (or_introl eq_refl)) in E. cbn in E. rewrite (IH _ _ x (fun j c H => A j c (or_intror H)) E). ring.
Qed.

(** ** The decision about a constraint *)
Lemma Qccompare_spec a b : CompareSpec (a = b) (a < b) (b < a) (a ?= b).
Proof.
  destruct (a ?= b) eqn:E; constructor; [now apply Qceq_alt|now apply Qclt_alt|now apply Qcgt_alt].
Qed.
Lemma decide_ok d t b a V : bound_holds d a V -> (forall r, t = Range r -> 0 <= r) ->
  match decide d t b a with
  | Go None => True
  | Go (Some Drop) => rel_holds t b V
  | Go (Some (ReplaceBy t' shift)) => rel_holds t b V <-> rel_holds t' (b + shift) V
  | Go (Some SetToBound) => rel_holds t b V <-> V = a
  | Stop v => v = VInfeasible /\ ~ rel_holds t b V
  | PPanic => d = Lower /\ b = a /\ exists r, t = Range r
  | PFuel => False
  end.
Proof.
  intros H R. unfold decide.
  destruct (Qccompare_spec b a) as [E|E|E]; destruct d, t as [|r| |]; cbn in *; try specialize (R _ eq_refl); try exact I;
    try (split; [reflexivity|]; intros C; qlra);
    try (split; intros C; qlra);
    try qlra; try (split; [reflexivity|split; [assumption|now exists r]]).
  - split; intros C; [destruct C|split]; qlra.
  - split; [reflexivity|]. intros [C1 C2]. qlra.
  - destruct (Qccompare_spec a (b - r)) as [F|F|F]; try exact I; cbn; (split; intros C; [destruct C|split]; qlra).
  - destruct (Qccompare_spec a (b - r)) as [F|F|F]; cbn.
    + split; intros C; [destruct C|split]; qlra.
    + split; [reflexivity|]. intros [C1 C2]. qlra.
    + split; intros C; [destruct C|split]; qlra.
Qed.

(** ** Bounds on one variable from the others *)
Lemma usable_side_ok g u i d rhs V : usable_side g u i d = Some rhs -> (forall r, type_of g u i = Range r -> 0 <= r) ->
  rel_holds (type_of g u i) (b_of g u i) V -> bound_holds (bnot d) rhs V.
Proof.
  unfold usable_side. intros E R H. destruct (type_of g u i) as [|r| |], d; cbn in *; try discriminate; injection E as <-; lazymatch type of H with _ /\ _ => destruct H | _ => idtac end; qlra.
Qed.
(** [residual] bounds the sum of the other terms *)
Lemma residual_ok d c rhs residual rest x : c <> 0 -> bound_holds (bnot d) rhs (c * x + rest) -> bound_holds d residual rest ->
  bound_holds (bmul (bnot d) c) ((rhs - residual) / c) x.
Proof. intros N H1 H2. apply bound_div; [assumption|]. destruct d; cbn in *; qlra. Qed.
Lemma combination_app a b x : combination (a ++ b) x = combination a x + combination b x.
Proof. induction a as [|[j c] a IH]; cbn; [ring|rewrite IH; ring]. Qed.
Lemma variable_bound_ok g u d row a x rhs j c v : activity_sum g u d row = Go a -> half_within g u d row x ->
  bound_holds (bnot d) rhs (combination row x) -> In (j, c) row -> bound_of g u j (bmul d c) = Some v ->
  bound_holds (bmul (bnot d) c) ((rhs - (a - c * v)) / c) (x j).
Proof.
  intros E W H I B. destruct (W j c I) as [N _]. apply in_split in I. destruct I as (r1 & r2 & ->).
  apply (residual_ok d c rhs (a - c * v) (combination r1 x + combination r2 x)); [assumption| |].
  - rewrite combination_app in H. cbn in H. replace (c * x j + (combination r1 x + combination r2 x)) with (combination r1 x + (c * x j + combination r2 x)) by ring. exact H.
  - (* the activity of the row with this variable at its bound *)
    set (y := fun k => if Nat.eqb k j then v else x k).
    clear H. revert a E W. assert (G : forall r acc a, half_within g u d r x ->
      foldP (fun acc '(j, c) => let+ x := unwrap (bound_of g u j (bmul d c)) in Go (acc + c * x)) r acc = Go a -> bound_holds d (a - acc) (combination r x)).
    { intros r acc a W E. now apply (activity_fold g u d r acc a E x W). }
    intros a E W. unfold activity_sum in E. assert (S : forall r s acc, foldP (fun acc '(j, c) => let+ x := unwrap (bound_of g u j (bmul d c)) in Go (acc + c * x)) (r ++ s) acc =
       pbind (foldP (fun acc '(j, c) => let+ x := unwrap (bound_of g u j (bmul d c)) in Go (acc + c * x)) r acc)
         (fun acc' => foldP (fun acc '(j, c) => let+ x := unwrap (bound_of g u j (bmul d c)) in Go (acc + c * x)) s acc')).
    { induction r as [|[k e] r IH]; intros s acc; cbn; [reflexivity|]. destruct (bound_of g u k (bmul d e)); cbn; [apply IH|reflexivity]. }
    rewrite S in E. destruct (foldP _ r1 0) as [a1| | |] eqn:E1; cbn [pbind] in E; try discriminate. cbn in E. rewrite B in E. cbn in E.
    apply G in E1; [|intros k e K; apply (W k e); apply in_or_app; now left].
    apply G in E; [|intros k e K; apply (W k e); apply in_or_app; right; now right].
    destruct d; cbn in *; qlra.
Qed.
(** exactly one bound is missing, and it is that of the entry that was found *)
Lemma known_fold g u d x : forall row acc, half_within g u d row x -> (forall j c, In (j, c) row -> bound_of g u j (bmul d c) <> None) ->
  bound_holds d (fold_left (fun acc '(j, c) => match bound_of g u j (bmul d c) with Some x => acc + c * x | None => acc end) row acc - acc) (combination row x).
Proof.
  induction row as [|[j c] row IH]; intros acc W K; cbn.
  - destruct d; cbn; qlra.
  - destruct (bound_of g u j (bmul d c)) as [v|] eqn:B; [|exfalso; now apply (K j c (or_introl eq_refl))].
    specialize (IH (acc + c * v) (fun j c H => W j c (or_intror H)) (fun j c H => K j c (or_intror H))).
    destruct (W j c (or_introl eq_refl)) as [N Wj]. specialize (Wj _ B). apply bound_scale in Wj; [|assumption].
    destruct d; cbn in *; qlra.
Qed.
Definition lacks_bound (g : general) (u : updates) (d : bdir) (e : nat * Qc) : bool :=
  match bound_of g u (fst e) (bmul d (snd e)) with None => true | Some _ => false end.
Lemma missing_bound_ok g u d row x rhs j c : half_within g u d row x ->
  bound_holds (bnot d) rhs (combination row x) -> missing_entry g u d row = Some (j, c) ->
  length (filter (lacks_bound g u d) row) = 1%nat ->
  bound_holds (bmul (bnot d) c) ((rhs - known_activity g u d row) / c) (x j).
Proof.
  intros W H M C. unfold missing_entry in M. 
  assert (SP : exists r1 r2, row = r1 ++ (j, c) :: r2 /\ (forall k e, In (k, e) r1 -> bound_of g u k (bmul d e) <> None) /\ bound_of g u j (bmul d c) = None).
  { clear H C W. induction row as [|[k e] row IH]; [discriminate|]. cbn in M. destruct (bound_of g u k (bmul d e)) eqn:B.
    - destruct (IH M) as (r1 & r2 & -> & H1 & H2). exists ((k, e) :: r1), r2. repeat split; [|assumption].
      intros k' e' [E|E]; [injection E as <- <-; congruence|now apply H1].
    - injection M as <- <-. exists [], row. repeat split; [intros ? ? []|assumption]. }
  destruct SP as (r1 & r2 & -> & K1 & B).
  assert (K2 : forall k e, In (k, e) r2 -> bound_of g u k (bmul d e) <> None).
  { intros k e I N. rewrite filter_app in C. cbn in C. unfold lacks_bound at 2 in C. cbn in C. rewrite B in C. rewrite app_length in C. cbn in C.
    assert (In (k, e) (filter (lacks_bound g u d) r2)) by (apply filter_In; split; [assumption|unfold lacks_bound; cbn; now rewrite N]).
    destruct (filter (lacks_bound g u d) r2); [contradiction|cbn in C; lia]. }
  assert (N : c <> 0) by (apply (W j c), in_or_app; right; now left).
  apply (residual_ok d c rhs _ (combination r1 x + combination r2 x)); [assumption| |].
  - rewrite combination_app in H. cbn in H. replace (c * x j + (combination r1 x + combination r2 x)) with (combination r1 x + (c * x j + combination r2 x)) by ring. exact H.
  - unfold known_activity. rewrite fold_left_app. cbn. rewrite B.
    pose proof (known_fold g u d x r1 0 (fun k e I => W k e (in_or_app _ _ _ (or_introl I))) K1) as F1.
    set (a1 := fold_left _ r1 0) in *.
    assert (W2 : half_within g u d r2 x) by (intros k e K; apply (W k e), in_or_app; right; now right).
    pose proof (known_fold g u d x r2 a1 W2 K2) as F2.
    set (a2 := fold_left _ r2 a1) in *. destruct d; cbn in *; qlra.
Qed.

(** ** Choosing values *)
Lemma feasible_value_some g u j v : feasible_value g u j = Some v -> within g u j v.
Proof.
  unfold feasible_value, within, obound_holds. intros E d w B.
  destruct (bound_of g u j Lower) as [l|] eqn:L, (bound_of g u j Upper) as [h|] eqn:U.
  - destruct (qleb l h) eqn:Q; [|discriminate]. injection E as <-. qb. destruct d; rewrite ?L, ?U in B; injection B as <-; cbn; qlra.
  - injection E as <-. destruct d; rewrite ?L, ?U in B; [injection B as <-; apply Qcle_refl|discriminate].
  - injection E as <-. destruct d; rewrite ?L, ?U in B; [discriminate|injection B as <-; apply Qcle_refl].
  - destruct d; congruence.
Qed.
Lemma feasible_value_none g u j x : feasible_value g u j = None -> ~ within g u j x.
Proof.
  unfold feasible_value, within, obound_holds. intros E W.
  destruct (bound_of g u j Lower) as [l|] eqn:L, (bound_of g u j Upper) as [h|] eqn:U; try discriminate.
  destruct (qleb l h) eqn:Q; [discriminate|]. pose proof (W Lower l L). pose proof (W Upper h U). cbn in *. qb. qlra.
Qed.
Lemma fixed_value_ok g u j v x : fixed_value g u j = Some v -> (within g u j x <-> x = v).
Proof.
  unfold fixed_value, within, obound_holds. intros E.
  destruct (bound_of g u j Lower) as [l|] eqn:L, (bound_of g u j Upper) as [h|] eqn:U; try discriminate.
  destruct (qeqb l h) eqn:Q; [|discriminate]. injection E as <-. qb. subst h. split.
  - intros W. pose proof (W Lower l L). pose proof (W Upper l U). cbn in *. qlra.
  - intros -> d w B. destruct d; rewrite ?L, ?U in B; injection B as <-; apply Qcle_refl.
Qed.
Lemma optimize_column_go g cost lower upper v : optimize_column g cost lower upper = Go v ->
  (forall x, obound_holds Lower lower x -> obound_holds Upper upper x -> better (g_objective g) (cost * v) (cost * x)) /\
  ((exists x, obound_holds Lower lower x /\ obound_holds Upper upper x) -> obound_holds Lower lower v /\ obound_holds Upper upper v).
Proof.
  unfold optimize_column, obound_holds. intros E. destruct (qzero cost) eqn:Z; [discriminate|].
  destruct (qpos cost) eqn:S, (g_objective g); destruct lower as [l|], upper as [h|]; try discriminate; injection E as <-; qb; cbn; split;
    try (intros x L U; repeat match goal with H : forall v, Some _ = Some v -> _ |- _ => specialize (H _ eq_refl) end; cbn in *; qnra);
    intros (x & L & U); split; intros w K; try discriminate; injection K as <-;
    repeat match goal with H : forall v, Some _ = Some v -> _ |- _ => specialize (H _ eq_refl) end; cbn in *; qlra.
Qed.
Lemma optimize_column_stop g cost lower upper v : optimize_column g cost lower upper = Stop v ->
  v = VUnbounded /\ forall x limit, obound_holds Lower lower x -> obound_holds Upper upper x ->
    exists y, obound_holds Lower lower y /\ obound_holds Upper upper y /\
      match g_objective g with Minimize => cost * y < limit | Maximize => limit < cost * y end.
Proof.
  unfold optimize_column. intros E. destruct (qzero cost) eqn:Z; [discriminate|]. split.
  { destruct (g_objective g), (qpos cost), lower, upper; try discriminate; injection E as <-; reflexivity. }
  intros x limit L U.
  assert (K : forall t, exists y, match g_objective g with Minimize => cost * y < limit | Maximize => limit < cost * y end /\
     (if match g_objective g, qpos cost with Minimize, true | Maximize, false => true | _, _ => false end then y <= t else t <= y)).
  { intros t. assert (N : cost <> 0) by (qb; assumption).
    destruct (qpos cost) eqn:S, (g_objective g); qb.
    - exists (qmin t ((limit - 1) / cost)). destruct (qmin_spec t ((limit - 1) / cost)) as [[H1 ->]|[H1 ->]].
      + split; [|qlra]. assert (cost * ((limit - 1) / cost) = limit - 1) by (field; assumption). qnra.
      + split; [|qlra]. replace (cost * ((limit - 1) / cost)) with (limit - 1) by (field; assumption). qlra.
    - exists (qmax t ((limit + 1) / cost)). destruct (qmax_spec t ((limit + 1) / cost)) as [[H1 ->]|[H1 ->]].
      + split; [|qlra]. assert (cost * ((limit + 1) / cost) = limit + 1) by (field; assumption). qnra.
      + split; [|qlra]. replace (cost * ((limit + 1) / cost)) with (limit + 1) by (field; assumption). qlra.
    - exists (qmax t ((limit - 1) / cost)). destruct (qmax_spec t ((limit - 1) / cost)) as [[H1 ->]|[H1 ->]].
      + split; [|qlra]. assert (cost * ((limit - 1) / cost) = limit - 1) by (field; assumption). qnra.
      + split; [|qlra]. replace (cost * ((limit - 1) / cost)) with (limit - 1) by (field; assumption). qlra.
    - exists (qmin t ((limit + 1) / cost)). destruct (qmin_spec t ((limit + 1) / cost)) as [[H1 ->]|[H1 ->]].
      + split; [|qlra]. assert (cost * ((limit + 1) / cost) = limit + 1) by (field; assumption). qnra.
      + split; [|qlra]. replace (cost * ((limit + 1) / cost)) with (limit + 1) by (field; assumption). qlra. }
  destruct (K x) as (y & K1 & K2). exists y. split; [|split; [|exact K1]]; clear K K1; unfold obound_holds in *; intros w ->.
  - destruct (g_objective g), (qpos cost), upper; cbn in *; try discriminate; specialize (L _ eq_refl); cbn in *; qlra.
  - destruct (g_objective g), (qpos cost), lower; cbn in *; try discriminate; specialize (U _ eq_refl); cbn in *; qlra.
Qed.

(** ** Slack variables *)
(** the cases in which a slack variable can be removed as the code does it *)
Definition slack_sound (t : rel) (lower upper : option Qc) (c : Qc) : bool :=
  match t, lower, upper, qneg c with
  | _, None, None, _ => true
  | Equal, _, _, _ => true
  | Less, Some _, _, false | Less, _, Some _, true => true
  | Greater, _, Some _, false | Greater, Some _, _, true => true
  | Range _, Some _, None, false | Range _, None, Some _, true => true
  | _, _, _, _ => false
  end.
Definition in_domain (lower upper : option Qc) (x : Qc) : Prop := obound_holds Lower lower x /\ obound_holds Upper upper x.
(** the value that the removed variable gets when the others contribute [V] *)
Definition slack_solution (t : rel) (b c bound V : Qc) : Qc := match t with Equal | Range _ => (b - V) / c | Greater | Less => bound end.
Lemma slack_row_ok t lower upper b c : c <> 0 -> (forall r, t = Range r -> 0 <= r) -> slack_sound t lower upper c = true ->
  slack_case t lower upper c = None ->
  forall V, in_domain lower upper ((b - V) / c) /\ rel_holds t b (c * ((b - V) / c) + V).
Proof.
  intros N R S E V. assert (lower = None /\ upper = None) as [-> ->].
  { unfold slack_sound, slack_case in *. destruct (qneg c), t, lower, upper; try discriminate; now split. }
  split; [split; intros w K; discriminate|]. replace (c * ((b - V) / c) + V) with b by (field; assumption).
  destruct t; cbn; try specialize (R _ eq_refl); try reflexivity; try apply Qcle_refl. split; qlra.
Qed.
Lemma slack_bound_ok t lower upper b c t' bound V : c <> 0 -> (forall r, t = Range r -> 0 <= r) -> slack_sound t lower upper c = true ->
  (exists x, in_domain lower upper x) -> slack_case t lower upper c = Some (t', bound) ->
  (rel_holds t' (b - c * bound) V -> in_domain lower upper (slack_solution t b c bound V) /\
     rel_holds t b (c * slack_solution t b c bound V + V)) /\
  (forall s, in_domain lower upper s -> rel_holds t b (c * s + V) -> rel_holds t' (b - c * bound) V).
Proof.
  intros N R S [x0 [D1 D2]] E. set (q := (b - V) / c). assert (Q : c * q = b - V) by (unfold q; field; assumption).
  assert (P : if qneg c then c < 0 else 0 < c).
  { destruct (qneg c) eqn:G; qb; [assumption|]. apply Qc_le_neq_lt; [assumption|now apply Qc_neq_sym]. }
  assert (M : forall a b, (if qneg c then (c * a <= c * b <-> b <= a) else (c * a <= c * b <-> a <= b))).
  { intros u v. destruct (qneg c); [now apply mul_le_neg|now apply mul_le_pos]. }
  clear N. unfold slack_sound, slack_case, in_domain, obound_holds, slack_solution in *. fold q. clearbody q.
  destruct (qneg c), t as [|r| |], lower as [l|], upper as [h|]; try discriminate; injection E as <- <-; cbn [rel_holds bound_holds] in *;
  try specialize (R _ eq_refl); try specialize (D1 _ eq_refl); try specialize (D2 _ eq_refl); clear S;
  (split; [intros H; split; [split; intros w K; try discriminate; injection K as <-; first [assumption|apply Qcle_refl|clear H; qlra|apply (M _ _)]|]|
           intros s [L U] H; try specialize (L _ eq_refl); try specialize (U _ eq_refl);
           try apply (M _ _) in L; try apply (M _ _) in U]); clear M D1 D2;
  repeat match goal with H : _ /\ _ |- _ => destruct H end; repeat match goal with |- _ /\ _ => split end; try qlra.
Qed.

(** ** New bounds *)
(** the bounds that are part of the presolved program for certain *)
Definition pbound (g : general) (u : updates) (j : nat) (d : bdir) : option Qc :=
  match u_bounds u j d with Some x => Some x | None => vbound (gvar g j) d end.
Definition tighter (d : bdir) (new old : Qc) : bool := match d with Lower => qltb old new | Upper => qltb new old end.
Definition tighten (d : bdir) (o : option Qc) (new : Qc) : Qc :=
  match o with None => new | Some old => if tighter d new old then new else old end.
Definition change_of (d : bdir) (o : option Qc) (new : Qc) : bound_change :=
  match o with None => NewBound | Some old => if tighter d new old then BoundShift (new - old) else NoChange end.
(** a bound is recorded as certain or as temporary, not as both *)
Definition apart (u : updates) : Prop := forall j d, u_bounds u j d <> None -> u_acts u j d = None.
Definition is_at (k : nat) (e : bdir) (j : nat) (d : bdir) : bool := Nat.eqb k j && bdir_eqb e d.
Lemma is_at_spec k e j d : reflect (k = j /\ e = d) (is_at k e j d).
Proof.
  unfold is_at. destruct (Nat.eqb_spec k j), e, d; cbn; constructor; try tauto; intros [_ H]; discriminate.
Qed.
Lemma tighten_holds d o new x : bound_holds d (tighten d o new) x <-> obound_holds d o x /\ bound_holds d new x.
Proof.
  unfold tighten, obound_holds. destruct o as [old|]; [|split; [intros H; split; [discriminate|assumption]|intros [_ H]; exact H]].
  destruct (tighter d new old) eqn:E; unfold tighter in E; destruct d; qb; cbn; split.
  all: try (intros H; split; [intros v K; injection K as <-|]; qlra).
  all: intros [H1 H2]; specialize (H1 _ eq_refl); cbn in *; qlra.
Qed.
Record same_but_bounds (u u' : updates) : Prop := mk_sbb {
  sbb_b : u_b u' = u_b u; sbb_types : u_types u' = u_types u; sbb_fixed : u_fixed u' = u_fixed u;
  sbb_removed : u_removed u' = u_removed u; sbb_gone : u_gone u' = u_gone u }.
Lemma update_bound_ok g u j d new : apart u -> let (u', ch) := update_bound g u j d new in
  same_but_bounds u u' /\ apart u' /\ ch = change_of d (bound_of g u j d) new /\
  (forall k e, bound_of g u' k e = if is_at k e j d then Some (tighten d (bound_of g u j d) new) else bound_of g u k e) /\
  (forall k e, pbound g u' k e = if is_at k e j d then Some (tighten d (bound_of g u j d) new) else pbound g u k e) /\
  (forall k e, u_acts u' k e = if is_at k e j d then None else u_acts u k e).
Proof.
  intros A. unfold update_bound, bound_of, pbound, change_of, tighten. pose proof (A j d) as Aj.
  destruct (u_bounds u j d) as [ex|] eqn:B.
  - rewrite Aj by discriminate. unfold compare_update. fold (tighter d new ex). destruct (tighter d new ex) eqn:T.
    + repeat split; unfold apart; cbn; unfold put2.
      * intros k e. fold (is_at k e j d). destruct (is_at_spec k e j d) as [[-> ->]|]; [intros _; apply Aj; discriminate|exact (A k e)].
      * intros k e. fold (is_at k e j d). destruct (is_at_spec k e j d) as [[-> ->]|]; [now rewrite Aj|reflexivity].
      * intros k e. fold (is_at k e j d). destruct (is_at k e j d); reflexivity.
      * intros k e. destruct (is_at_spec k e j d) as [[-> ->]|]; [now rewrite Aj|reflexivity].
    + repeat split; try assumption.
      * intros k e. destruct (is_at_spec k e j d) as [[-> ->]|]; [now rewrite Aj, B|reflexivity].
      * intros k e. destruct (is_at_spec k e j d) as [[-> ->]|]; [now rewrite B|reflexivity].
      * intros k e. destruct (is_at_spec k e j d) as [[-> ->]|]; [now rewrite Aj|reflexivity].
  - destruct (u_acts u j d) as [ex|] eqn:C.
    + unfold compare_update. fold (tighter d new ex).
      destruct (tighter d new ex) eqn:T; repeat split; unfold apart; cbn; unfold put2; intros k e; fold (is_at k e j d); destruct (is_at_spec k e j d) as [[-> ->]|]; try reflexivity; exact (A k e).
    + destruct (vbound (gvar g j) d) as [ex|] eqn:V.
      * unfold compare_update. fold (tighter d new ex). destruct (tighter d new ex) eqn:T.
        -- repeat split; unfold apart; cbn; unfold put2; intros k e; fold (is_at k e j d); destruct (is_at_spec k e j d) as [[-> ->]|]; try (now rewrite ?C); try reflexivity; try exact (A k e); intros _; assumption.
        -- repeat split; try assumption; intros k e; destruct (is_at_spec k e j d) as [[-> ->]|]; rewrite ?C, ?B; try assumption; reflexivity.
      * repeat split; unfold apart; cbn; unfold put2; intros k e; fold (is_at k e j d); destruct (is_at_spec k e j d) as [[-> ->]|]; try (now rewrite ?C); try reflexivity; try exact (A k e); intros _; assumption.
Qed.
Lemma update_activity_bound_ok g u j d new : apart u -> let (u', ch) := update_activity_bound g u j d new in
  same_but_bounds u u' /\ apart u' /\ ch = change_of d (bound_of g u j d) new /\
  (forall k e, bound_of g u' k e = if is_at k e j d then Some (tighten d (bound_of g u j d) new) else bound_of g u k e) /\
  (forall k e, pbound g u' k e = pbound g u k e \/ (is_at k e j d = true /\ pbound g u' k e = Some (tighten d (bound_of g u j d) new))).
Proof.
  intros A. unfold update_activity_bound, bound_of, pbound, change_of, tighten. pose proof (A j d) as Aj.
  destruct (u_acts u j d) as [ex|] eqn:C.
  - assert (B : u_bounds u j d = None) by (destruct (u_bounds u j d) eqn:B; [assert (Some ex = None) by (apply Aj; discriminate); discriminate|reflexivity]). 
    unfold compare_update. fold (tighter d new ex). destruct (tighter d new ex) eqn:T; repeat split; unfold apart; cbn; unfold put2; try assumption.
    + intros k e. fold (is_at k e j d). destruct (is_at_spec k e j d) as [[-> ->]|]; [congruence|exact (A k e)].
    + intros k e. fold (is_at k e j d). destruct (is_at_spec k e j d) as [[-> ->]|]; reflexivity.
    + intros k e. now left.
    + intros k e. destruct (is_at_spec k e j d) as [[-> ->]|]; [now rewrite C|reflexivity].
    + intros k e. now left.
  - destruct (u_bounds u j d) as [ex|] eqn:B.
    + unfold compare_update. fold (tighter d new ex). destruct (tighter d new ex) eqn:T; repeat split; unfold apart; cbn; unfold put2; try assumption.
      * intros k e. fold (is_at k e j d). destruct (is_at_spec k e j d) as [[-> ->]|]; [intros _; assumption|exact (A k e)].
      * intros k e. fold (is_at k e j d). destruct (is_at_spec k e j d) as [[-> ->]|]; [now rewrite C|reflexivity].
      * intros k e. fold (is_at k e j d). destruct (is_at_spec k e j d) as [[-> ->]|]; [right; now split|now left].
      * intros k e. destruct (is_at_spec k e j d) as [[-> ->]|]; [now rewrite C, B|reflexivity].
      * intros k e. now left.
    + destruct (vbound (gvar g j) d) as [ex|] eqn:V.
      * unfold compare_update. fold (tighter d new ex). destruct (tighter d new ex) eqn:T; repeat split; unfold apart; cbn; unfold put2; try assumption.
        -- intros k e. fold (is_at k e j d). destruct (is_at_spec k e j d) as [[-> ->]|]; [congruence|exact (A k e)].
        -- intros k e. fold (is_at k e j d). destruct (is_at_spec k e j d) as [[-> ->]|]; reflexivity.
        -- intros k e. now left.
        -- intros k e. destruct (is_at_spec k e j d) as [[-> ->]|]; [now rewrite C, B|reflexivity].
        -- intros k e. now left.
      * repeat split; unfold apart; cbn; unfold put2.
        -- intros k e. fold (is_at k e j d). destruct (is_at_spec k e j d) as [[-> ->]|]; [congruence|exact (A k e)].
        -- intros k e. fold (is_at k e j d). destruct (is_at_spec k e j d) as [[-> ->]|]; reflexivity.
        -- intros k e. now left.
Qed.

(** ** The same, in terms of intervals *)
Lemma within_tighten g u u' j d new : (forall k e, bound_of g u' k e = if is_at k e j d then Some (tighten d (bound_of g u j d) new) else bound_of g u k e) ->
  (forall x, within g u' j x <-> within g u j x /\ bound_holds d new x) /\ (forall k x, k <> j -> (within g u' k x <-> within g u k x)).
Proof.
  intros H. split.
  - intros x. split.
    + intros W. assert (T : obound_holds d (bound_of g u j d) x /\ bound_holds d new x).
      { apply tighten_holds. apply (W d). rewrite H. destruct (is_at_spec j d j d) as [_|N]; [reflexivity|exfalso; apply N; now split]. }
      split; [|apply T]. intros e. destruct (bdir_eqb e d) eqn:E.
      * assert (e = d) by (destruct e, d; (reflexivity || discriminate)). subst e. apply T.
      * specialize (W e). rewrite H in W. destruct (is_at_spec j e j d) as [[_ Q]|_]; [subst e; destruct d; discriminate|exact W].
    + intros [W B] e. rewrite H. destruct (is_at_spec j e j d) as [[_ ->]|_]; [|apply W].
      intros v Q. injection Q as <-. apply tighten_holds. split; [apply W|assumption].
  - intros k x N. split; intros W e; specialize (W e); rewrite H in *; (destruct (is_at_spec k e j d) as [[Q _]|_]; [congruence|assumption]).
Qed.
Lemma update_bound_within g u j d new u' ch : apart u -> update_bound g u j d new = (u', ch) ->
  (forall x, within g u' j x <-> within g u j x /\ bound_holds d new x) /\ (forall k x, k <> j -> (within g u' k x <-> within g u k x)).
Proof.
  intros A E. pose proof (update_bound_ok g u j d new A) as H. rewrite E in H. destruct H as (_ & _ & _ & H & _). now apply within_tighten.
Qed.
Lemma update_activity_bound_within g u j d new u' ch : apart u -> update_activity_bound g u j d new = (u', ch) ->
  (forall x, within g u' j x <-> within g u j x /\ bound_holds d new x) /\ (forall k x, k <> j -> (within g u' k x <-> within g u k x)).
Proof.
  intros A E. pose proof (update_activity_bound_ok g u j d new A) as H. rewrite E in H. destruct H as (_ & _ & _ & H & _). now apply within_tighten.
Qed.
Lemma fixed_value_moved g u j v t b c rest : fixed_value g u j = Some v ->
  (forall x, within g u j x <-> x = v) /\ (rel_holds t (b + - c * v) rest <-> rel_holds t b (rest + c * v)).
Proof.
  intros F. split; [intros x; now apply fixed_value_ok|]. rewrite <- (rel_shift t (b + - c * v) (c * v) rest).
  replace (b + - c * v + c * v) with b by ring. reflexivity.
Qed.
Lemma propagated_bound_ok g u d i row a x rhs j c v : activity_sum g u d row = Go a -> all_within g u row x ->
  usable_side g u i d = Some rhs -> (forall r, type_of g u i = Range r -> 0 <= r) ->
  rel_holds (type_of g u i) (b_of g u i) (combination row x) -> In (j, c) row -> bound_of g u j (bmul d c) = Some v ->
  bound_holds (bmul (bnot d) c) ((rhs - (a - c * v)) / c) (x j).
Proof.
  intros A W S R H I B. apply (all_half g u d) in W. eapply variable_bound_ok; try eassumption. eapply usable_side_ok; eassumption.
Qed.
Lemma first_bound_ok g u d i row x rhs j c : all_within g u row x ->
  usable_side g u i d = Some rhs -> (forall r, type_of g u i = Range r -> 0 <= r) ->
  rel_holds (type_of g u i) (b_of g u i) (combination row x) -> missing_entry g u d row = Some (j, c) ->
  length (filter (lacks_bound g u d) row) = 1%nat ->
  bound_holds (bmul (bnot d) c) ((rhs - known_activity g u d row) / c) (x j).
Proof.
  intros W S R H M L. apply (all_half g u d) in W. apply missing_bound_ok; try assumption. eapply usable_side_ok; eassumption.
Qed.
Lemma slack_unsound : exists t lower upper b c V, c <> 0 /\ slack_case t lower upper c = None /\ ~ in_domain lower upper ((b - V) / c).
Proof.
  exists Greater, (Some 0), None, 1, 1, (1 + 1). split; [|split; [reflexivity|]].
  - intros E. apply (f_equal (fun q => qeqb q 0)) in E. vm_compute in E. discriminate.
  - intros [H _]. specialize (H 0 eq_refl). cbn in H. replace ((1 - (1 + 1)) / 1) with (- (1)) in H by (field; intros E; apply (f_equal (fun q => qeqb q 0)) in E; vm_compute in E; discriminate).
    revert H. unfold Qcle. cbn. intros H. apply H. reflexivity.
Qed.
