(** * More fuel does not change an answer: proofs

    [fuel] stands for the time a computation is given; the code has no such bound. *)
From Verif Require Import SolverQ TextPresolve.
Local Open Scope list_scope.

(** [y] is [x], unless [x] ran out of fuel *)
Definition more {A} (x y : res A) : Prop := x <> Fuel -> y = x.
Definition pmore {A} (x y : pr A) : Prop := x <> PFuel -> y = x.
Lemma more_refl {A} (x : res A) : more x x.
Proof. now intros _. Qed.
Lemma pmore_refl {A} (x : pr A) : pmore x x.
Proof. now intros _. Qed.
Lemma more_bind {A B} (x y : res A) (f h : A -> res B) : more x y -> (forall a, more (f a) (h a)) -> more (bind x f) (bind y h).
Proof.
  intros X F N. destruct x as [a| |]; cbn [bind] in *.
  - rewrite (X ltac:(discriminate)). cbn [bind]. now apply F.
  - now rewrite (X ltac:(discriminate)).
  - congruence.
Qed.
Lemma pmore_bind {A B} (x y : pr A) (f h : A -> pr B) : pmore x y -> (forall a, pmore (f a) (h a)) -> pmore (pbind x f) (pbind y h).
Proof.
  intros X F N. destruct x as [a| | |]; cbn [pbind] in *.
  - rewrite (X ltac:(discriminate)). cbn [pbind]. now apply F.
  - now rewrite (X ltac:(discriminate)).
  - now rewrite (X ltac:(discriminate)).
  - congruence.
Qed.
Lemma more_lift {A} (x y : res A) : more x y -> pmore (lift x) (lift y).
Proof. intros X N. destruct x; cbn [lift] in *; try (now rewrite (X ltac:(discriminate))). congruence. Qed.
Lemma more_mapM {A B} (f h : A -> res B) : (forall a, more (f a) (h a)) -> forall l, more (mapM f l) (mapM h l).
Proof.
  intros F l. induction l as [|a l IH]; cbn [mapM]; [apply more_refl|].
  apply more_bind; [apply F|]. intros b. apply more_bind; [exact IH|]. intros ?. apply more_refl.
Qed.
Lemma more_foldM {A S} (f h : S -> A -> res S) : (forall s a, more (f s a) (h s a)) -> forall l s, more (foldM f l s) (foldM h l s).
Proof.
  intros F l. induction l as [|a l IH]; intros s; cbn [foldM]; [apply more_refl|].
  apply more_bind; [apply F|]. intros b. apply IH.
Qed.

Lemma more_value f : forall h orig z o, (f <= h)%nat -> more (value_with_bfs f orig z o) (value_with_bfs h orig z o).
Proof.
  induction f as [|f IH]; intros h orig z o L; [intros N; now contradiction N|].
  destruct h as [|h]; [lia|]. cbn [value_with_bfs]. apply more_bind; [apply more_refl|]. intros [name e]. cbn [snd].
  destruct e as [j|jp jn|[v|c l]]; try apply more_refl.
  apply more_bind; [|intros ?; apply more_refl]. apply more_mapM. intros [j x].
  apply more_bind; [apply IH; lia|]. intros ?. apply more_refl.
Qed.
Lemma more_full f h g z : (f <= h)%nat -> more (full_solution f g z) (full_solution h g z).
Proof.
  intros L. unfold full_solution. apply more_bind; [apply more_refl|]. intros parts.
  apply more_bind; [|intros ?; apply more_refl]. apply more_mapM. intros o. now apply more_value.
Qed.
Lemma more_known f : forall h orig o, (f <= h)%nat -> more (value_if_known f orig o) (value_if_known h orig o).
Proof.
  induction f as [|f IH]; intros h orig o L; [intros N; now contradiction N|].
  destruct h as [|h]; [lia|]. cbn [value_if_known]. apply more_bind; [apply more_refl|]. intros [name e]. cbn [snd].
  destruct e as [j|jp jn|[v|c l]]; try apply more_refl.
  apply more_bind; [|intros ?; apply more_refl]. apply more_foldM. intros [s|] [j x]; [|apply more_refl].
  apply more_bind; [apply IH; lia|]. intros ?. apply more_refl.
Qed.
Lemma more_possible f h g : (f <= h)%nat -> more (solution_where_possible f g) (solution_where_possible h g).
Proof.
  intros L. unfold solution_where_possible. apply more_bind; [|intros ?; apply more_refl].
  apply more_mapM. intros [o [name e]]. destruct e as [j|jp jn|[v|c l]]; try apply more_refl.
  apply more_bind; [now apply more_known|]. intros ?. apply more_refl.
Qed.
Lemma more_general r n f h g : (f <= h)%nat -> more (solve_general r n f g) (solve_general r n h g).
Proof.
  intros L. unfold solve_general. apply more_bind; [apply more_refl|]. intros gc.
  apply more_bind; [apply more_refl|]. intros d. apply more_bind; [intros N; now apply run_mono|].
  intros [|x|]; try apply more_refl. apply more_bind; [now apply more_full|]. intros ?. apply more_refl.
Qed.
Lemma more_loop g rows f : forall h stale s, (f <= h)%nat -> pmore (presolve_loop g rows f stale s) (presolve_loop g rows h stale s).
Proof.
  induction f as [|f IH]; intros h stale s L.
  - destruct h; cbn [presolve_loop]; destruct (queues_empty (i_q s)); try apply pmore_refl;
      apply pmore_bind; try apply pmore_refl; intros m; destruct (Nat.leb m stale); try apply pmore_refl; intros N; now contradiction N.
  - destruct h as [|h]; [lia|]. cbn [presolve_loop]. destruct (queues_empty (i_q s)); [apply pmore_refl|].
    apply pmore_bind; [apply pmore_refl|]. intros m. destruct (Nat.leb m stale); [apply pmore_refl|].
    apply pmore_bind; [apply pmore_refl|]. intros [s' c]. cbn [fst snd]. destruct c; apply IH; lia.
Qed.
Lemma more_presolve f h g : (f <= h)%nat -> pmore (presolve f g) (presolve h g).
Proof.
  intros L. unfold presolve, presolve_changes. apply pmore_bind.
  - apply pmore_bind; [apply pmore_refl|]. intros rows. apply pmore_bind; [apply pmore_refl|]. intros s.
    apply pmore_bind; [now apply more_loop|]. intros ?. apply pmore_refl.
  - intros u. apply pmore_bind; [apply pmore_refl|]. intros g1. apply pmore_bind; [apply pmore_refl|]. intros g2.
    apply pmore_bind; [apply more_lift; now apply more_possible|]. intros ?. apply pmore_refl.
Qed.
Lemma more_presolve_and_solve r n f h g : (f <= h)%nat -> more (presolve_and_solve r n f g) (presolve_and_solve r n h g).
Proof.
  intros L N. pose proof (more_presolve f h g L) as P. unfold presolve_and_solve in *.
  destruct (presolve f g) as [g'|v| |] eqn:E; try (rewrite (P ltac:(discriminate))).
  - now apply more_general.
  - reflexivity.
  - reflexivity.
  - congruence.
Qed.

(** ** The whole way from a text *)
Lemma solve_with_more parse r n f h text a : (f <= h)%nat -> solve_with parse r n f text = Got a -> a <> Fuel -> solve_with parse r n h text = Got a.
Proof.
  unfold solve_with. intros L E N. destruct (parse text) as [m| |]; cbn in *; try discriminate.
  destruct (to_general m) as [g| |]; cbn in *; try discriminate.
  injection E as E. subst a. f_equal. now apply more_general.
Qed.
Lemma presolve_with_more parse r n f h text a : (f <= h)%nat -> presolve_with parse r n f text = Got a -> a <> Fuel -> presolve_with parse r n h text = Got a.
Proof.
  unfold presolve_with. intros L E N. destruct (parse text) as [m| |]; cbn in *; try discriminate.
  destruct (to_general m) as [g| |]; cbn in *; try discriminate.
  injection E as E. subst a. f_equal. now apply more_presolve_and_solve.
Qed.
Lemma solve_with_once parse r n f h text a b : solve_with parse r n f text = Got a -> solve_with parse r n h text = Got b -> a <> Fuel -> b <> Fuel -> a = b.
Proof.
  intros A B NA NB. destruct (Nat.le_ge_cases f h) as [L|L].
  - pose proof (solve_with_more parse r n f h text a L A NA). congruence.
  - pose proof (solve_with_more parse r n h f text b L B NB). congruence.
Qed.
Lemma presolve_with_once parse r n f h text a b : presolve_with parse r n f text = Got a -> presolve_with parse r n h text = Got b -> a <> Fuel -> b <> Fuel -> a = b.
Proof.
  intros A B NA NB. destruct (Nat.le_ge_cases f h) as [L|L].
  - pose proof (presolve_with_more parse r n f h text a L A NA). congruence.
  - pose proof (presolve_with_more parse r n h f text b L B NB). congruence.
Qed.
