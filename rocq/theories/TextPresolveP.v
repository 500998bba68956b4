(** * Proofs: from the text of a file to the answer, with presolving *)
From Verif Require Import SpecFile SpecMps TextPresolve TextSolveP MpsP ConvertP MpsQ PipelineP GeneralQ PreSafe.
Local Open Scope Qc_scope.

Section With.
Variable parse : string -> out mps.
Let reads (text : string) (f : file) : Prop := exists m, parse text = Got m /\ describes m f.
Lemma pre_with_solved f text : file_solvable f -> reads text f -> exists m g, describes m f /\ mps_solvable m /\ to_general m = Got g /\ general_ok g /\ fresh g /\
  (forall r n fuel, presolve_with parse r n fuel text = Got (presolve_and_solve r n fuel g)) /\ (forall fuel, safe_with parse fuel text = safe_run fuel g).
Proof.
  intros FS (m & P & D). destruct (proj1 (convert_decides m (de_ok m f D)) (read_consistent f m FS D)) as [g G]. pose proof (read_solvable f m FS D) as S. destruct (convert_solvable m g S G) as [OK FR].
  exists m, g. split; [assumption|]. split; [assumption|]. split; [assumption|]. split; [assumption|]. split; [assumption|]. split.
  - intros r n fuel. unfold presolve_with. rewrite P. cbn [obind]. now rewrite G.
  - intros fuel. unfold safe_with. now rewrite P, G.
Qed.
Lemma pre_with_answer f text r n fuel a : file_solvable f -> reads text f -> safe_with parse fuel text = true -> presolve_with parse r n fuel text = Got (Ok a) ->
  match a with
  | Solved_to s => map fst (s_values s) = map fst (columns_of f) /\ foptimal f (answer_at s) /\ (fsense f = Minimize -> s_objective s = fcost f (answer_at s))
  | NoSolution => forall x, ~ ffeasible f x
  | NoBound => forall x, ffeasible f x -> funbounded f
  end.
Proof.
  intros FS T SR E. destruct (pre_with_solved f text FS T) as (m & g & D & S & G & OK & FR & R & Q). rewrite R in E. injection E as E. rewrite Q in SR.
  pose proof (safe_solve r n fuel g a OK FR SR E) as A. destruct (converted_meaning m g (ms_ok m S) G (ms_ranges m S)) as (EO & EN & EF & EC). destruct a as [s| |].
  - destruct A as (A & B & C). rewrite EN in A. split; [rewrite A; exact (column_names_agree f m D)|]. split; [apply (answer_optimal f m FS D s A); now apply (convert_optimal m g _ S G)|].
    intros M. rewrite (answer_cost f m FS D s A), <- EC. apply C. rewrite EO. now rewrite (sense_agrees f m D).
  - intros x X. apply (A (point m x)), EF. now apply (feasible_agrees f m (fs_rules f FS) D).
  - intros x X. apply (unbounded_named f m FS D), (convert_unbounded m g S G), (A (point m x)), EF. now apply (feasible_agrees f m (fs_rules f FS) D).
Qed.
Lemma pre_with_no_panic f text n fuel : file_solvable f -> reads text f -> safe_with parse fuel text = true -> exists result, presolve_with parse UseRows n fuel text = Got result /\ result <> Panic.
Proof.
  intros FS T SR. destruct (pre_with_solved f text FS T) as (m & g & D & S & G & OK & FR & R & Q). exists (presolve_and_solve UseRows n fuel g). split; [apply R|]. apply safe_solve_rows; [assumption|assumption|now rewrite <- Q].
Qed.
Lemma pre_with_terminates f text : file_solvable f -> reads text f -> (forall fuel, safe_with parse fuel text = true) ->
  exists fuel a, forall fuel', (fuel <= fuel')%nat -> presolve_with parse UseRows FirstProfitable fuel' text = Got (Ok a).
Proof.
  intros FS T SR. destruct (pre_with_solved f text FS T) as (m & g & D & S & G & OK & FR & R & Q). destruct (safe_solve_ends g OK FR) as (fuel & a & H); [intros fuel; now rewrite <- Q|].
  exists fuel, a. intros fuel' L. now rewrite R, H.
Qed.
Lemma pre_with_complete f text x : file_solvable f -> reads text f -> (forall fuel, safe_with parse fuel text = true) -> fsense f = Minimize -> foptimal f x ->
  exists fuel s, presolve_with parse UseRows FirstProfitable fuel text = Got (Ok (Solved_to s)) /\ s_objective s = fcost f x.
Proof.
  intros FS T SR M [X O]. destruct (pre_with_terminates f text FS T SR) as (fuel & a & H). specialize (H fuel (le_n fuel)). pose proof (pre_with_answer f text _ _ fuel a FS T (SR fuel) H) as A. exists fuel. destruct a as [s| |].
  - exists s. split; [assumption|]. destruct A as (_ & [A B] & C). rewrite (C M). specialize (B x X). specialize (O _ A). rewrite M in B, O. cbn in B, O. now apply Qcle_antisym.
  - elim (A x X).
  - destruct (A x X) as [_ U]. destruct (U (fcost f x)) as (y & Y & L). rewrite M in L. specialize (O y Y). rewrite M in O. cbn in O. elim (Qclt_not_le _ _ L O).
Qed.
(** with and without presolving *)
Lemma pre_with_agree f text r n fuel r' n' fuel' s s' : file_solvable f -> reads text f -> safe_with parse fuel text = true -> fsense f = Minimize ->
  presolve_with parse r n fuel text = Got (Ok (Solved_to s)) -> solve_with parse r' n' fuel' text = Got (Ok (Solved_to s')) -> s_objective s = s_objective s'.
Proof.
  intros FS T SR M E E'. destruct (pre_with_answer f text r n fuel _ FS T SR E) as (_ & [A B] & C). destruct (with_optimum parse f text r' n' fuel' s' FS T E') as (_ & [A' B'] & C'). rewrite (C M), (C' M).
  specialize (B _ A'). specialize (B' _ A). rewrite M in B, B'. cbn in B, B'. now apply Qcle_antisym.
Qed.
(** one run with enough iterations decides about all of them *)
Lemma pre_with_decided text fuel : match parse text with Got m => match to_general m with Got g => match presolve_changes fuel g with PFuel => false | _ => true end | _ => true end | _ => true end = true ->
  safe_with parse fuel text = true -> forall fuel', safe_with parse fuel' text = true.
Proof.
  intros N SR fuel'. unfold safe_with in *. destruct (parse text) as [m| |]; try reflexivity. destruct (to_general m) as [g| |]; try reflexivity. apply (safe_check fuel g); [|assumption]. intros E. rewrite E in N. discriminate.
Qed.
End With.
