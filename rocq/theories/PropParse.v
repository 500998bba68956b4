(** * Properties of reading MPS files (C33)

    The specification is SpecParse.v: [file] is the content of a file, [spells text f] says that the text is written in
    free format with content [f] (any spacing, comments, empty lines and line ends; numbers are the literals of C32),
    [file_ok] lists the rules for contents, and [describes m f] says that the structure [m] has exactly the rows,
    columns, coefficients, right-hand sides, ranges and bounds of [f], by name. *)
From Verif Require Import SpecParse MpsParse FileP ExParse AcceptFreeP ParseQ.
Local Open Scope string_scope.
Local Open Scope list_scope.

Theorem C33_read : forall b f text, file_ok f -> spells text f -> exists m, parse_free b text = Got m /\ describes m f.
Proof. exact free_read. Qed.
Print Assumptions C33_read.
(** everything that is accepted is written in the text, and meets the rules except for the two below.  The lines of
    an accepted text may have the looser layout of [loosely_spells]. *)
Theorem C33_accepted_partial : forall text m, parse_free Checked text = Got m ->
  exists f, loosely_spells text f /\ file_consistent f /\ (NoDup (map fst (m_costs m)) -> describes m f).
Proof. exact free_accepted. Qed.
Print Assumptions C33_accepted_partial.
(** two cost entries for one column are accepted, and then the cost 3 of Y is not in the converted program *)
Theorem C33_repeated_cost_refuted : forall b, exists m g, parse_free b twice_cost = Got m /\ ~ NoDup (map fst (m_costs m)) /\ map col_name (m_columns m) = ["X"; "Y"] /\
  In (1%nat, zq 3) (m_costs m) /\ to_general m = Got g /\ nth 1 (map v_cost (g_vars g)) (zq 9) = 0%Qc.
Proof. exact twice_cost_read. Qed.
Print Assumptions C33_repeated_cost_refuted.
(** a column with lines in two places is read as two columns *)
Theorem C33_split_column_refuted : forall b, exists m, parse_free b split_column = Got m /\ map col_name (m_columns m) = ["X"; "Y"; "X"].
Proof. exact split_column_read. Qed.
Print Assumptions C33_split_column_refuted.
Example C33_case : file_ok sample_file /\ spells sample sample_file. Proof. exact (conj sample_ok sample_spelled). Qed.
Example C33_accepted_case : exists m, parse_free Checked sample = Got m /\ describes m sample_file. Proof. exact (sample_read Checked). Qed.
Example C33_rejected_case : forall b, parse_free b (with_columns "" " X OTHER 1") = Rejected Inconsistent /\ parse_free b (with_columns "" " X LIM 1 LIM 2") = Rejected Inconsistent /\
  (exists m, parse_free b (with_columns "" " X LIM 1") = Got m).
Proof. exact (fun b => conj (unknown_row_rejected b) (conj (repeated_row_rejected b) (plain_columns_read b))). Qed.
