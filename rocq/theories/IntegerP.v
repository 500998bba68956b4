(** * Proofs: programs with integer columns *)
From Verif Require Import SpecInteger TextSolveP FixedP FileP MpsP UnitsP OrderP BesideP CasesP.
Local Open Scope Qc_scope.

(** ** The relaxation *)
Lemma relaxation_bound f s y : file_solvable f -> answered f (Solved_to s) -> isolution f y -> better (fsense f) (fcost f (answer_at s)) (fcost f y).
Proof. intros FS A [Y _]. apply (answered_right _ _ FS) in A. exact (proj2 (proj1 A) y Y). Qed.
Lemma relaxation_none f y : file_solvable f -> answered f NoSolution -> ~ isolution f y.
Proof. intros FS A [Y _]. apply (answered_right _ _ FS) in A. exact (A y Y). Qed.
Lemma relaxation_whole f s : file_solvable f -> answered f (Solved_to s) -> (forall c, integer_column f c -> whole_number (answer_at s c)) -> ioptimal f (answer_at s).
Proof. intros FS A W. split; [|intros y Y; now apply relaxation_bound]. split; [|exact W]. apply (answered_right _ _ FS) in A. exact (proj1 (proj1 A)). Qed.
(** ** Branches *)
Lemma leaves_right fs l : Forall file_solvable fs -> Forall2 answered fs l -> forall g a, In (g, a) (combine fs l) -> In g fs /\ OrderP.right g a.
Proof.
  intros FSs As. induction As as [|h b fs l G As IH]; [intros ? ? []|]. inversion FSs as [|? ? F1 F2]; subst. intros g a [E|E]; [injection E as <- <-; split; [now left|now apply answered_right]|]. destruct (IH F2 g a E). split; [now right|assumption].
Qed.
Lemma leaf_answer (fs : list file) l : Forall2 answered fs l -> forall g, In g fs -> exists a, In (g, a) (combine fs l).
Proof. intros As. induction As as [|h b fs l G As IH]; intros g; [intros []|]. intros [->|J]; [exists b; now left|]. destruct (IH g J) as [a Q]. exists a. now right. Qed.
Lemma branches_optimal f fs l g s : Forall file_solvable fs -> branches f fs -> Forall2 answered fs l -> In (g, Solved_to s) (combine fs l) -> (forall c, integer_column f c -> whole_number (answer_at s c)) ->
  (forall g' a', In (g', a') (combine fs l) -> no_worse (fsense f) (Value (fcost g (answer_at s))) (outcome_of g' a')) -> ioptimal f (answer_at s).
Proof.
  intros FSs [S C I L V] As In0 W B. destruct (leaves_right fs l FSs As _ _ In0) as [Ig [[X _] _]]. split; [split; [exact (L g _ Ig X)|exact W]|].
  intros y Y. destruct (V y Y) as (g' & Ig' & Y'). destruct (leaf_answer fs l As g' Ig') as [a' P]. specialize (B _ _ P). destruct (leaves_right fs l FSs As _ _ P) as [_ R'].
  rewrite <- (C g _ Ig), <- (C g' y Ig'). destruct a' as [s'| |]; cbn [outcome_of no_worse] in B; [|elim (R' y Y')|destruct B].
  destruct R' as [[_ O'] _]. specialize (O' y Y'). rewrite (S g' Ig') in O'. exact (better_trans _ _ _ _ B O').
Qed.
Lemma branches_none f fs l : Forall file_solvable fs -> branches f fs -> Forall2 answered fs l -> (forall a, In a l -> a = NoSolution) -> forall x, ~ isolution f x.
Proof.
  intros FSs B As N x X. destruct (bs_cover _ _ B x X) as (g & Ig & Y). destruct (leaf_answer fs l As g Ig) as [a P]. destruct (leaves_right fs l FSs As _ _ P) as [_ R].
  rewrite (N a (in_combine_r _ _ _ _ P)) in R. exact (R x Y).
Qed.
Lemma no_worse_best d o1 o2 o : no_worse d o1 o \/ no_worse d o2 o -> no_worse d (best d o1 o2) o.
Proof.
  destruct o1 as [|v1|], o2 as [|v2|], o as [|v|]; cbn; try tauto; destruct d; cbn; try tauto; unfold qmin, qmax.
  - destruct (qltb v2 v1) eqn:E; qb; intros [H|H]; qlra.
  - destruct (qltb v1 v2) eqn:E; qb; intros [H|H]; qlra.
Qed.
Lemma best_no_worse d fs l g a o : In (g, a) (combine fs l) -> no_worse d (outcome_of g a) o -> no_worse d (best_of d fs l) o.
Proof.
  unfold best_of. induction (combine fs l) as [|[g' a'] t IH]; [intros []|]. intros [E|J] N; cbn [map fold_right]; apply no_worse_best; [left|right].
  - injection E as -> ->. exact N.
  - exact (IH J N).
Qed.
Lemma branches_bound f fs l y : Forall file_solvable fs -> branches f fs -> Forall2 answered fs l -> isolution f y -> no_worse (fsense f) (best_of (fsense f) fs l) (Value (fcost f y)).
Proof.
  intros FSs B As Y. destruct (bs_cover _ _ B y Y) as (g & Ig & F). destruct (leaf_answer fs l As g Ig) as [a P]. destruct (leaves_right fs l FSs As _ _ P) as [_ R].
  apply (best_no_worse _ fs l g a _ P). destruct a as [s| |]; cbn [outcome_of no_worse]; [|elim (R y F)|exact Logic.I]. destruct R as [[_ O] _]. specialize (O y F). now rewrite (bs_sense _ _ B g Ig), (bs_cost _ _ B g y Ig) in O.
Qed.
(** branching again *)
Lemma branches_again f fs g gs fs' : branches f (fs ++ g :: fs') -> branches g gs -> branches f (fs ++ gs ++ fs').
Proof.
  intros [S C I L V] [S' C' I' L' V']. assert (G : In g (fs ++ g :: fs')) by (apply in_elt).
  assert (P : forall h, In h (fs ++ gs ++ fs') -> In h (fs ++ g :: fs') \/ In h gs) by (intros h; rewrite !in_app_iff; cbn; tauto).
  constructor.
  - intros h H. destruct (P h H) as [J|J]; [now apply S|]. rewrite (S' h J). now apply S.
  - intros h x H. destruct (P h H) as [J|J]; [now apply C|]. rewrite (C' h x J). now apply C.
  - intros h c H. destruct (P h H) as [J|J]; [now apply I|]. rewrite (I' h c J). now apply I.
  - intros h x H F. destruct (P h H) as [J|J]; [exact (L h x J F)|]. exact (L g x G (L' h x J F)).
  - intros x X. destruct (V x X) as (h & J & F). apply in_app_iff in J. destruct J as [J|[<-|J]].
    + exists h. split; [apply in_app_iff; now left|exact F].
    + destruct (V' x) as (h & J & F'); [|exists h; split; [rewrite !in_app_iff; tauto|exact F']]. split; [exact F|]. intros c Ic. apply (proj2 X c). now apply (I g c G).
    + exists h. split; [rewrite !in_app_iff; tauto|exact F].
Qed.
Lemma branches_self f : branches f [f].
Proof.
  constructor.
  - intros g [<-|[]]. reflexivity.
  - intros g x [<-|[]]. reflexivity.
  - intros g c [<-|[]]. reflexivity.
  - intros g x [<-|[]]. auto.
  - intros x [X _]. exists f. split; [now left|exact X].
Qed.
(** ** Two branches *)
Lemma bound_integer t g c f c' : ~ makes_integer t -> integer_column (with_bound t g c f) c' <-> integer_column f c'.
Proof.
  intros N. unfold integer_column. cbn [with_bound f_bounds]. change (columns_of (with_bound t g c f)) with (columns_of f). split; (intros [H|(t' & g' & H & M)]; [now left|right]).
  - apply in_app_iff in H. destruct H as [H|[H|[]]]; [now exists t', g'|]. injection H as <- _ _. now elim N.
  - exists t', g'. split; [apply in_app_iff; now left|exact M].
Qed.
Lemma bound_solutions t g c f x : In c (names_of_columns f) -> ((forall t' g', In (t', g', c) (f_bounds f) -> leaves_lower t') -> ~ leaves_lower t -> allows t (x c) -> 0 <= x c) ->
  ffeasible (with_bound t g c f) x <-> ffeasible f x /\ allows t (x c).
Proof.
  intros Ic D. assert (R : forall k r v, frow_holds (with_bound t g c f) k r v <-> frow_holds f k r v) by reflexivity. assert (V : forall r, frow_value (with_bound t g c f) x r = frow_value f x r) by reflexivity.
  unfold ffeasible. change (columns_of (with_bound t g c f)) with (columns_of f). change (f_rows (with_bound t g c f)) with (f_rows f). split.
  - intros [A B]. assert (T : allows t (x c)) by (apply (proj1 (B c Ic) t g); cbn [with_bound f_bounds]; apply in_app_iff; right; now left). split; [|exact T]. split; [exact A|].
    intros c' I'. destruct (B c' I') as [P Q]. cbn [with_bound f_bounds] in P, Q. split; [intros t' g' J; apply (P t' g'); apply in_app_iff; now left|]. intros H.
    assert (DL : leaves_lower t \/ ~ leaves_lower t) by (destruct t; cbn; tauto). destruct (string_dec c' c) as [->|N]; [destruct DL as [DL|DL]; [|now apply (D H DL T)]|]; apply Q; intros t' g' J; apply in_app_iff in J; destruct J as [J|[J|[]]]; try (now apply (H t' g')).
    + now injection J as <- _.
    + injection J as _ _ E. now elim N.
  - intros [[A B] T]. split; [exact A|]. intros c' I'. destruct (B c' I') as [P Q]. split; cbn [with_bound f_bounds].
    + intros t' g' J. apply in_app_iff in J. destruct J as [J|[J|[]]]; [exact (P t' g' J)|]. injection J as <- _ <-. exact T.
    + intros H. apply Q. intros t' g' J. apply (H t' g'). apply in_app_iff. now left.
Qed.
Lemma whole_le (x y : Z) : (x <= y)%Z -> Q2Qc (inject_Z x) <= Q2Qc (inject_Z y).
Proof. intros L. unfold Qcle, Q2Qc, this. rewrite !Qred_correct. now rewrite <- Zle_Qle. Qed.
Lemma whole_either (v : Qc) n : whole_number v -> v <= Q2Qc (inject_Z n) \/ Q2Qc (inject_Z (n + 1)) <= v.
Proof.
  intros [z ->]. destruct (Z_le_gt_dec z n) as [L|L]; [left|right]; apply whole_le; lia.
Qed.
Lemma branches_split n g g' c f : integer_column f c -> In c (names_of_columns f) -> keeps_lower n c f -> branches f [branch_down n g c f; branch_up n g' c f].
Proof.
  intros Ic Cc K.
  assert (D : forall x, ffeasible (branch_down n g c f) x <-> ffeasible f x /\ x c <= Q2Qc (inject_Z n)) by (intros x; apply bound_solutions; [exact Cc|intros _ H; elim H; exact Logic.I]).
  assert (U : forall x, ffeasible (branch_up n g' c f) x <-> ffeasible f x /\ Q2Qc (inject_Z (n + 1)) <= x c).
  { intros x. apply bound_solutions; [exact Cc|]. intros H _ T. cbn [allows] in T. destruct K as [K|(t & h & J & NL)]; [|elim NL; exact (H t h J)].
    apply (Qcle_trans _ (Q2Qc (inject_Z (n + 1)))); [|exact T]. exact (whole_le 0 _ K). }
  constructor.
  - intros h [<-|[<-|[]]]; reflexivity.
  - intros h x [<-|[<-|[]]]; reflexivity.
  - intros h c' [<-|[<-|[]]]; apply bound_integer; auto.
  - intros h x [<-|[<-|[]]] F; [now apply D in F|now apply U in F].
  - intros x [X W]. destruct (whole_either (x c) n (W c Ic)) as [L|L]; [exists (branch_down n g c f)|exists (branch_up n g' c f)]; (split; [cbn; auto|]).
    + apply D. now split.
    + apply U. now split.
Qed.
(** ** Solutions found otherwise *)
Lemma branches_incumbent f fs l x : Forall file_solvable fs -> branches f fs -> Forall2 answered fs l -> isolution f x ->
  (forall g a, In (g, a) (combine fs l) -> no_worse (fsense f) (Value (fcost f x)) (outcome_of g a)) -> ioptimal f x.
Proof.
  intros FSs [S C I L V] As X B. split; [exact X|]. intros y Y. destruct (V y Y) as (g & Ig & Y'). destruct (leaf_answer fs l As g Ig) as [a P]. specialize (B _ _ P). destruct (leaves_right fs l FSs As _ _ P) as [_ R].
  rewrite <- (C g y Ig). destruct a as [s| |]; cbn [outcome_of no_worse] in B; [|elim (R y Y')|destruct B].
  destruct R as [[_ O] _]. specialize (O y Y'). rewrite (S g Ig) in O. exact (better_trans _ _ _ _ B O).
Qed.
Lemma branches_gap f fs l x y v e : Forall file_solvable fs -> branches f fs -> Forall2 answered fs l -> best_of (fsense f) fs l = Value v ->
  within_gap (fsense f) e (fcost f x) v -> isolution f y -> within_gap (fsense f) e (fcost f x) (fcost f y).
Proof.
  intros FSs B As E G Y. pose proof (branches_bound f fs l y FSs B As Y) as N. rewrite E in N. cbn [no_worse] in N. destruct (fsense f); cbn [within_gap better] in *; qlra.
Qed.
(** ** Costs that are whole numbers *)
Lemma whole_zero : whole_number 0.
Proof. now exists 0%Z. Qed.
Lemma whole_add a b : whole_number a -> whole_number b -> whole_number (a + b).
Proof. intros [x ->] [y ->]. exists (x + y)%Z. apply Qc_is_canon. rewrite inject_Z_plus. unfold Qcplus, Q2Qc, this. now rewrite !Qred_correct. Qed.
Lemma whole_mul a b : whole_number a -> whole_number b -> whole_number (a * b).
Proof. intros [x ->] [y ->]. exists (x * y)%Z. apply Qc_is_canon. rewrite inject_Z_mult. unfold Qcmult, Q2Qc, this. now rewrite !Qred_correct. Qed.
Lemma whole_total l : Forall whole_number l -> whole_number (total l).
Proof. induction 1 as [|a l A _ IH]; [exact whole_zero|]. cbn [total fold_right]. now apply whole_add. Qed.
Lemma whole_costs f y : whole_cost f -> isolution f y -> whole_number (fcost f y).
Proof.
  intros W [_ Y]. apply whole_total, Forall_forall. intros v H. apply in_map_iff in H. destruct H as ([[c r] w] & <- & H). destruct (String.eqb_spec r (cost_row f)) as [->|_]; [|exact whole_zero].
  destruct (W c w H) as [I V]. apply whole_mul; [exact V|]. now apply Y.
Qed.
Lemma whole_lt (x y : Z) : Q2Qc (inject_Z x) < Q2Qc (inject_Z y) -> (x < y)%Z.
Proof. unfold Qclt, Q2Qc, this. rewrite !Qred_correct. now rewrite <- Zlt_Qlt. Qed.
Lemma whole_next (x : Z) : Q2Qc (inject_Z (x + 1)) = Q2Qc (inject_Z x) + 1.
Proof. apply Qc_is_canon. rewrite inject_Z_plus. unfold Qcplus, Q2Qc, this. now rewrite !Qred_correct. Qed.
Lemma relaxation_rounded f s y z : file_solvable f -> answered f (Solved_to s) -> whole_cost f -> rounded (fsense f) (fcost f (answer_at s)) z -> isolution f y ->
  better (fsense f) (Q2Qc (inject_Z z)) (fcost f y).
Proof.
  intros FS A W R Y. pose proof (relaxation_bound f s y FS A Y) as B. destruct (whole_costs f y W Y) as [u E]. rewrite E in *. destruct (fsense f); cbn [rounded better] in *; apply whole_le.
  - assert (L : (z < u + 1)%Z); [|lia]. apply whole_lt. rewrite whole_next. clear E. destruct R as [_ R]. generalize dependent (Q2Qc (inject_Z z)). generalize dependent (Q2Qc (inject_Z u)). intros. qlra.
  - assert (L : (u < z + 1)%Z); [|lia]. apply whole_lt. rewrite whole_next. clear E. destruct R as [_ R]. generalize dependent (Q2Qc (inject_Z z)). generalize dependent (Q2Qc (inject_Z u)). intros. qlra.
Qed.
