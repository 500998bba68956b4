(** * Network programs with whole numbers, read from a text and presolved *)
From Verif Require Import TextPresolve Pipeline PipelineP TextPipeline TextSolveP TextPresolveP FileP SpecFixed FixedP SpecGeneral PreSafe.
From Verif Require Import SpecWhole Whole WholeG WholeF WholePreG.
Local Open Scope Qc_scope.

(** ** Where a set with room around numbers that are not whole ends *)
Lemma loose_top S b : loose S -> S b -> (forall v, S v -> v <= b) -> whole b.
Proof.
  intros L B T. destruct (whole_dec b) as [W|W]; [exact W|]. destruct (L b B W) as (m & M & Q). assert (X : S (b + m)) by (apply Q; qlra). apply T in X. qlra.
Qed.
Lemma loose_bottom S b : loose S -> S b -> (forall v, S v -> b <= v) -> whole b.
Proof.
  intros L B T. destruct (whole_dec b) as [W|W]; [exact W|]. destruct (L b B W) as (m & M & Q). assert (X : S (b + - m)) by (apply Q; qlra). apply T in X. qlra.
Qed.
Lemma row_ends t b : (forall r, t = Range r -> 0 <= r) -> loose (rel_holds t b) -> whole b /\ forall r, t = Range r -> whole r.
Proof.
  intros R L. destruct t as [|r| |]; cbn [rel_holds] in L.
  - split; [|discriminate]. apply (loose_top _ b L eq_refl). intros v ->. apply Qcle_refl.
  - specialize (R r eq_refl). assert (W : whole b) by (apply (loose_top _ b L); [split; qlra|intros v [_ V]; exact V]). split; [exact W|]. intros r' [= <-].
    replace r with (b - (b - r)) by ring. apply whole_minus; [exact W|]. apply (loose_bottom _ (b - r) L); [split; qlra|intros v [V _]; exact V].
  - split; [|discriminate]. apply (loose_top _ b L); [apply Qcle_refl|auto].
  - split; [|discriminate]. apply (loose_bottom _ b L); [apply Qcle_refl|auto].
Qed.
Lemma bound_ends v : (forall l u, v_lower v = Some l -> v_upper v = Some u -> l <= u) -> loose (in_bounds v) -> (forall l, v_lower v = Some l -> whole l) /\ forall u, v_upper v = Some u -> whole u.
Proof.
  intros D L. split.
  - intros l E. apply (loose_bottom _ l L); [|intros x [X _]; now apply X]. split; [intros l'; rewrite E; intros [= <-]; qlra|intros u U; now apply D].
  - intros u E. apply (loose_top _ u L); [|intros x [_ X]; now apply X]. split; [intros l U; now apply D|intros u'; rewrite E; intros [= <-]; qlra].
Qed.
Lemma loose_data g : general_ok g -> (forall i, (i < g_rows g)%nat -> loose (rel_holds (row_type g i) (nthq (g_b g) i))) -> (forall j, (j < nr_vars g)%nat -> loose (in_bounds (var g j))) -> whole_data g.
Proof.
  intros P R V. assert (R' : forall i, (i < g_rows g)%nat -> whole (nthq (g_b g) i) /\ forall r, row_type g i = Range r -> whole r).
  { intros i Li. apply row_ends; [intros r; exact (gok_ranges _ P i r Li)|now apply R]. }
  assert (V' : forall j, (j < nr_vars g)%nat -> (forall l, v_lower (var g j) = Some l -> whole l) /\ forall u, v_upper (var g j) = Some u -> whole u).
  { intros j Lj. apply bound_ends; [intros l u; exact (gok_domain _ P j l u Lj)|now apply V]. }
  constructor; [intros i Li; now apply R'|intros i r Li; now apply R'|intros j l Lj; now apply V'|intros j u Lj; now apply V'].
Qed.

Section Reader.
Variable parse : string -> out mps.
Lemma presolved_text_whole side f text r n fuel s : file_solvable f -> (exists m, parse text = Got m /\ describes m f) -> fnetwork side f -> fwhole_data f ->
  presolve_with parse r n fuel text = Got (Ok (Solved_to s)) -> forall name v, In (name, v) (s_values s) -> whole v.
Proof.
  intros FS T FN FW E. destruct (pre_with_solved parse f text FS T) as (m & g & D & S & G & OK & FR & R & _). rewrite R in E. injection E as E.
  destruct (read_parts side f m g FS D S G FN FW) as (A & B & C). exact (presolved_whole r n fuel _ g s OK FR A (loose_data g OK B C) E).
Qed.
Lemma presolved_text_best side f text r n fuel s : file_solvable f -> (exists m, parse text = Got m /\ describes m f) -> fnetwork side f -> fwhole_data f -> safe_with parse fuel text = true ->
  presolve_with parse r n fuel text = Got (Ok (Solved_to s)) -> fwhole_optimal f (answer_at s).
Proof.
  intros FS T FN FW SR E. destruct (pre_with_answer parse f text r n fuel (Solved_to s) FS T SR E) as (_ & [F O] & _). split; [exact F|]. split.
  - intros c _. apply listed_whole. exact (presolved_text_whole side f text r n fuel s FS T FN FW E).
  - intros y Y _. now apply O.
Qed.
End Reader.

Lemma presolved_best r n fuel side g s : general_ok g -> fresh g -> network side g -> whole_data g -> safe_run fuel g = true ->
  presolve_and_solve r n fuel g = Ok (Solved_to s) -> whole_optimal g (solution_point s).
Proof.
  intros P FR NW WD SR E. destruct (safe_solve r n fuel g (Solved_to s) P FR SR E) as (_ & [F O] & _). split; [exact F|]. split; [|intros y Y _; now apply O].
  intros j _. apply point_whole. exact (presolved_whole r n fuel side g s P FR NW WD E).
Qed.
