(** * Texts that are read differently *)
From Verif Require Import SpecParse MpsParse TextP FileP ExParse AcceptFreeP.
Local Open Scope string_scope.
Local Open Scope list_scope.

(** a column with two entries for the cost row: the entries are both kept, and the costs of later columns are lost
    when the program is converted (finding 24) *)
Definition twice_cost : string := "NAME T
ROWS
 N COST
 L LIM
COLUMNS
 X COST 1 COST 2
 X LIM 1
 Y COST 3 LIM 1
RHS
 RHS LIM 4
ENDATA
".
Lemma twice_cost_read b : exists m g, parse_free b twice_cost = Got m /\ ~ NoDup (map fst (m_costs m)) /\ map col_name (m_columns m) = ["X"; "Y"] /\ In (1%nat, zq 3) (m_costs m) /\
  to_general m = Got g /\ nth 1 (map v_cost (g_vars g)) (zq 9) = 0%Qc.
Proof.
  destruct (parse_free b twice_cost) as [m| |] eqn:E; [|destruct b; vm_compute in E; discriminate..].
  destruct (to_general m) as [g| |] eqn:G; [|destruct b; vm_compute in E; injection E as <-; vm_compute in G; discriminate..].
  exists m, g. split; [reflexivity|]. split; [|split; [|split; [|split; [exact G|]]]].
  - destruct b; vm_compute in E; injection E as <-; intros N; inversion N as [|x y X Y]; apply X; now left.
  - destruct b; vm_compute in E; injection E as <-; reflexivity.
  - destruct b; vm_compute in E; injection E as <-; right; right; left; f_equal; apply qeqb_true; vm_compute; reflexivity.
  - apply qeqb_true. destruct b; vm_compute in E; injection E as <-; vm_compute in G; injection G as <-; vm_compute; reflexivity.
Qed.
(** a column whose lines do not follow each other becomes two columns with one name (finding 29) *)
Definition split_column : string := "NAME T
ROWS
 N COST
 L LIM
COLUMNS
 X COST 1
 Y COST 3 LIM 1
 X LIM 1
RHS
 RHS LIM 4
ENDATA
".
Lemma split_column_read b : exists m, parse_free b split_column = Got m /\ map col_name (m_columns m) = ["X"; "Y"; "X"].
Proof.
  destruct (parse_free b split_column) as [m| |] eqn:E; [|destruct b; vm_compute in E; discriminate..]. exists m. split; [reflexivity|]. destruct b; vm_compute in E; injection E as <-; reflexivity.
Qed.
Lemma sample_read b : exists m, parse_free b sample = Got m /\ describes m sample_file. Proof. exact (free_read b sample_file sample sample_ok sample_spelled). Qed.
(** rejected texts: an unknown row, a tab at the start of a line, a blank after a section name *)
Definition with_columns (rows_line column_line : string) : string := "NAME T
ROWS
 N COST
 L LIM
COLUMNS" ++ rows_line ++ "
" ++ column_line ++ "
ENDATA
".
Lemma unknown_row_rejected b : parse_free b (with_columns "" " X OTHER 1") = Rejected Inconsistent. Proof. destruct b; vm_compute; reflexivity. Qed.
Lemma repeated_row_rejected b : parse_free b (with_columns "" " X LIM 1 LIM 2") = Rejected Inconsistent. Proof. destruct b; vm_compute; reflexivity. Qed.
Lemma tab_rejected b : parse_free b (with_columns "" (String (ascii_of_nat 9) "X LIM 1")) = Rejected Syntax. Proof. destruct b; vm_compute; reflexivity. Qed.
Lemma trailing_blank_rejected b : parse_free b (with_columns " " " X LIM 1") = Rejected Syntax. Proof. destruct b; vm_compute; reflexivity. Qed.
Lemma plain_columns_read b : exists m, parse_free b (with_columns "" " X LIM 1") = Got m. Proof. destruct b; vm_compute; eexists; reflexivity. Qed.
