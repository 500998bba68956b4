(** * The value of an optimum is small, whoever found it: also with presolving *)
From Verif Require Import PreSafe TextPresolve TextPresolveP.
From Verif Require Import SpecSize SpecGSize SpecFSize SizeP GSizeP FSizeP.
From Verif Require Import SpecGeneral Pipeline SpecParse SpecMps SpecFile TextPipeline ConvertP GeneralQ TextSolveP.
Local Open Scope Qc_scope.

Lemma value_sized d K g x : general_ok g -> fresh g -> g_objective g = Minimize -> gdata_size d K g -> goptimal g x ->
  size_at_most ((4 * Z.of_nat (nr_vars g) + 2) * (K * K * general_bound g K)) (gcost g x).
Proof.
  intros G F M Z O. destruct (GeneralQ.fresh_complete g x G F M O) as (fuel & s & E & <-). exact (proj2 (general_sizes d K _ _ fuel g s G F Z E)).
Qed.
Lemma presolved_sized d K r n fuel g s : general_ok g -> fresh g -> g_objective g = Minimize -> gdata_size d K g -> safe_run fuel g = true ->
  presolve_and_solve r n fuel g = Ok (Solved_to s) -> size_at_most ((4 * Z.of_nat (nr_vars g) + 2) * (K * K * general_bound g K)) (s_objective s).
Proof.
  intros G F M Z S E. destruct (safe_solve r n fuel g _ G F S E) as (_ & O & C). rewrite (C M). now apply (value_sized d).
Qed.
Lemma with_value_sized d K (parse : string -> out mps) f text x : file_solvable f -> (exists m, parse text = Got m /\ describes m f) -> fsense f = Minimize -> fdata_size d K f -> foptimal f x ->
  size_at_most ((16 * Z.of_nat (length (columns_of f)) + 8) * (K * K * file_bound f K)) (fcost f x).
Proof.
  intros FS T M Z O. destruct (with_complete parse f text x FS T M O) as (fuel & s & E & <-). exact (proj2 (with_sizes d K parse f text _ _ fuel s FS T Z E)).
Qed.
Lemma pre_with_sized d K (parse : string -> out mps) f text r n fuel s : file_solvable f -> (exists m, parse text = Got m /\ describes m f) -> fsense f = Minimize -> fdata_size d K f ->
  safe_with parse fuel text = true -> presolve_with parse r n fuel text = Got (Ok (Solved_to s)) ->
  size_at_most ((16 * Z.of_nat (length (columns_of f)) + 8) * (K * K * file_bound f K)) (s_objective s).
Proof.
  intros FS T M Z S E. destruct (pre_with_answer parse f text r n fuel _ FS T S E) as (_ & O & C). rewrite (C M). now apply (with_value_sized d K parse f text).
Qed.
