(** * Paths of files *)
From Verif Require Import SpecImport Import ImportP ExFile ExTextPresolve.
Local Open Scope string_scope.
Local Open Scope list_scope.

Definition one_file (path : string) : option string := if String.eqb path "data/set.1/small.mps" then Some small else None.
Lemma small_path : has_extension "data/set.1/small.mps" "mps".
Proof. exists "data/set.1/", "small", "". split; [reflexivity|]. split; [right; now exists "data/set.1"|]. split; [discriminate|]. split; [|constructor]. unfold no_slash. cbn. intuition discriminate. Qed.
Lemma sif_path : has_extension "small.SIF/." "SIF".
Proof. exists "", "small", "/.". split; [reflexivity|]. split; [now left|]. split; [discriminate|]. split; [unfold no_slash; cbn; intuition discriminate|]. apply (trailing_dot ""). constructor. Qed.
Lemma import_case : has_extension "data/set.1/small.mps" "mps" /\ has_extension "small.SIF/." "SIF" /\
  (forall b r n, solve_path b one_file r n 40 "data/set.1/small.mps" = PathAnswer (Got (Ok small_answer))) /\
  (forall b, import b one_file "data/set.1/other.mps" = NotReadable) /\
  (forall b, map (import b (fun _ => Some small)) ["small.MPS"; "small"; ".mps"; "small.mps/.."; "small.mps.gz"; "mps/small"] = repeat UnknownExtension 6).
Proof.
  split; [exact small_path|]. split; [exact sif_path|]. split; [|split; reflexivity]. intros b r n. rewrite (solve_path_text b one_file "data/set.1/small.mps" small r n 40 eq_refl (or_introl small_path)). now rewrite small_presolved.
Qed.
