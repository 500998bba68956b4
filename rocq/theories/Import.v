(** * Importing a file: model of /repo/src/io/mod.rs

    Paths are those of Unix, as texts.  Reading a file (std::fs::read_to_string) is a function from paths to contents,
    with [None] for every error; what the code does depends only on the one file.  std::path::Path::extension is
    modelled as it is documented, with the components of a path. *)
From Verif Require Export TextPresolve.
Local Open Scope string_scope.
Local Open Scope list_scope.

(** str::split for one character *)
Fixpoint split_at (c : ascii) (s : string) : list string :=
  match s with
  | EmptyString => [""]
  | String x s' => if Ascii.eqb x c then "" :: split_at c s' else match split_at c s' with p :: ps => String x p :: ps | [] => [String x ""] end
  end.
(** std::path::Path::components: repeated separators and "." are left out.  A "." at the start is a component there, but
    it has no file name either *)
Definition components (path : string) : list string := filter (fun p => negb (String.eqb p "" || String.eqb p ".")) (split_at "/" path).
(** std::path::Path::file_name *)
Definition file_name (path : string) : option string :=
  match rev (components path) with
  | [] => None
  | name :: _ => if String.eqb name ".." then None else Some name
  end.
(** the parts before and after the last dot (rsplitn) *)
Fixpoint last_dot (s : string) : option (string * string) :=
  match s with
  | EmptyString => None
  | String x s' => match last_dot s' with Some (before, after) => Some (String x before, after) | None => if Ascii.eqb x "." then Some ("", s') else None end
  end.
(** std::path::Path::extension *)
Definition extension (path : string) : option string :=
  match file_name path with
  | Some name => match last_dot name with Some (before, after) => if String.eqb before "" then None else Some after | None => None end
  | None => None
  end.
(** the result of `import`, with the errors of /repo/src/io/error.rs:15-33 *)
Inductive imported := NotReadable | UnknownExtension | Parsed (m : out mps).
(** /repo/src/io/mod.rs:32-61; the parser is the one for free format, /repo/src/io/mps/mod.rs:41-45 *)
Definition import (b : build) (files : string -> option string) (path : string) : imported :=
  match files path with
  | None => NotReadable
  | Some program =>
      match extension path with
      | Some e => if (String.eqb e "mps" || String.eqb e "SIF")%bool then Parsed (parse_free b program) else UnknownExtension
      | None => UnknownExtension
      end
  end.
(** /repo/tests/unicamp/mod.rs:47-85 and /repo/tests/miplib/mod.rs: import, convert, presolve, solve *)
Inductive path_answer := FileError | PathAnswer (a : out (res answer)).
Definition solve_path (b : build) (files : string -> option string) (r : representation) (n : rule_name) (fuel : nat) (path : string) : path_answer :=
  match import b files path with
  | Parsed m => PathAnswer (let~ mps := m in let~ g := to_general mps in Got (presolve_and_solve r n fuel g))
  | _ => FileError
  end.
