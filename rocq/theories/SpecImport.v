(** * What a path says about the kind of a file *)
From Coq Require Export Ascii String List.
Local Open Scope string_scope.

(** no separator of directories *)
Definition no_slash (s : string) : Prop := ~ In "/"%char (list_ascii_of_string s).
(** what may follow the name of a file without changing which file it is: "/" and "/." *)
Inductive trailing : string -> Prop :=
| trailing_end : trailing ""
| trailing_slash : forall t, trailing t -> trailing ("/" ++ t)
| trailing_dot : forall t, trailing t -> trailing ("/." ++ t).
(** the file is in some directory and its name is something, a dot and the extension *)
Definition has_extension (path e : string) : Prop :=
  exists directory stem rest, path = directory ++ stem ++ "." ++ e ++ rest /\
    (directory = "" \/ exists d, directory = d ++ "/") /\ stem <> "" /\ no_slash stem /\ trailing rest.
