(** * Properties of importing a file by its path (C46)

    [has_extension path e] (SpecImport.v) says that the path is that of a file whose name is something, a dot and [e].
    [files] gives the contents of the files that can be read.  [solve_path] imports, converts, presolves and solves. *)
From Verif Require Import SpecImport Import ImportP SpecFile TextSolveP TextPresolveP ExFile ExTextPresolve ExImport.
Local Open Scope string_scope.
Local Open Scope list_scope.

(** Which of the three results it is, and the content of a successful one. *)
Theorem C46_import : forall b files path,
  match import b files path with
  | NotReadable => files path = None
  | UnknownExtension => files path <> None /\ ~ has_extension path "mps" /\ ~ has_extension path "SIF"
  | Parsed m => (has_extension path "mps" \/ has_extension path "SIF") /\ exists text, files path = Some text /\ m = parse_free b text
  end.
Proof. exact import_spec. Qed.
Print Assumptions C46_import.
(** A readable file with one of the extensions and correct contents is imported, as these contents. *)
Theorem C46_imported : forall b files path text f, files path = Some text -> has_extension path "mps" \/ has_extension path "SIF" -> file_ok f -> spells text f ->
  exists m, import b files path = Parsed (Got m) /\ describes m f.
Proof. exact import_read. Qed.
Print Assumptions C46_imported.
(** Other files do not matter. *)
Theorem C46_one_file : forall b files files' path, files path = files' path -> import b files path = import b files' path.
Proof. exact import_one_file. Qed.
Print Assumptions C46_one_file.
(** From the path to an answer: a file that cannot be read or has another extension is reported as such, and only that;
    otherwise the answer is that for the contents. *)
Theorem C46_file_error : forall b files path r n fuel, solve_path b files r n fuel path = FileError <->
  files path = None \/ (~ has_extension path "mps" /\ ~ has_extension path "SIF").
Proof. exact solve_path_file_error. Qed.
Print Assumptions C46_file_error.
Theorem C46_contents : forall b files path text r n fuel, files path = Some text -> has_extension path "mps" \/ has_extension path "SIF" ->
  solve_path b files r n fuel path = PathAnswer (presolve_text b r n fuel text).
Proof. exact solve_path_text. Qed.
Print Assumptions C46_contents.
(** From the path to the optimum: as for C45, missing are the runs of presolving that are not safe. *)
Theorem C46_optimum_partial : forall b files path text f r n fuel s, files path = Some text -> has_extension path "mps" \/ has_extension path "SIF" ->
  file_ok f -> file_solvable f -> spells text f -> fsense f = Minimize -> safe_text b fuel text = true ->
  solve_path b files r n fuel path = PathAnswer (Got (Ok (Solved_to s))) ->
  map fst (s_values s) = map fst (columns_of f) /\ foptimal f (answer_at s) /\ s_objective s = fcost f (answer_at s).
Proof. exact path_optimum. Qed.
Print Assumptions C46_optimum_partial.
Theorem C46_complete_partial : forall b files path text f x, files path = Some text -> has_extension path "mps" \/ has_extension path "SIF" ->
  file_ok f -> file_solvable f -> spells text f -> fsense f = Minimize -> (forall fuel, safe_text b fuel text = true) -> foptimal f x ->
  exists fuel s, solve_path b files UseRows FirstProfitable fuel path = PathAnswer (Got (Ok (Solved_to s))) /\ s_objective s = fcost f x.
Proof. exact path_complete. Qed.
Print Assumptions C46_complete_partial.
Example C46_case : has_extension "data/set.1/small.mps" "mps" /\ has_extension "small.SIF/." "SIF" /\
  (forall b r n, solve_path b one_file r n 40 "data/set.1/small.mps" = PathAnswer (Got (Ok small_answer))) /\
  (forall b, import b one_file "data/set.1/other.mps" = NotReadable) /\
  (forall b, map (import b (fun _ => Some small)) ["small.MPS"; "small"; ".mps"; "small.mps/.."; "small.mps.gz"; "mps/small"] = repeat UnknownExtension 6).
Proof. exact import_case. Qed.
