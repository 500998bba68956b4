(** * C63: networks have whole answers *)
From Verif Require Import SpecWhole Pipeline TextPipeline FileP SpecFixed FixedP TextSolveP ExFile ExWhole.
From Verif Require Import TextPresolve PreSafe WholePreG WholePreF ExWholePre.
From Verif Require Import Whole.
Local Open Scope Qc_scope.

(** General form programs: every reported value is a whole number, for all costs, also with variables without bounds *)
Theorem C63_general : forall r n fuel side g s, general_ok g -> fresh g -> network side g -> whole_data g ->
  solve_general r n fuel g = Ok (Solved_to s) -> forall name v, In (name, v) (s_values s) -> whole v.
Proof. exact network_whole. Qed.
Print Assumptions C63_general.
Theorem C63_best : forall r n fuel side g s, general_ok g -> fresh g -> network side g -> whole_data g ->
  solve_general r n fuel g = Ok (Solved_to s) -> whole_optimal g (solution_point s).
Proof. exact network_whole_optimal. Qed.
Print Assumptions C63_best.
Example C63_general_case : general_ok ex_stream /\ fresh ex_stream /\ network (fun _ => true) ex_stream /\ whole_data ex_stream /\
  forall r n, solve_general r n 60 ex_stream = Ok (Solved_to stream_answer).
Proof. exact (conj (proj1 stream_ok) (conj (proj2 stream_ok) (conj stream_network (conj stream_whole stream_solved)))). Qed.

(** Files, in either format *)
Theorem C63_text : forall b side f text r n fuel s, file_ok f -> file_solvable f -> spells text f -> fnetwork side f -> fwhole_data f ->
  solve_text b r n fuel text = Got (Ok (Solved_to s)) -> forall name v, In (name, v) (s_values s) -> whole v.
Proof. exact (fun b side f text r n fuel s OK FS T => with_whole (parse_free b) side f text r n fuel s FS (text_reads b f text OK T)). Qed.
Print Assumptions C63_text.
Theorem C63_fixed_text : forall b side f text r n fuel s, fixed_ok f -> file_solvable f -> fixed_spells text f -> fnetwork side f -> fwhole_data f ->
  solve_fixed_text b r n fuel text = Got (Ok (Solved_to s)) -> forall name v, In (name, v) (s_values s) -> whole v.
Proof. exact (fun b side f text r n fuel s OK FS T => with_whole (parse_fixed b) side f text r n fuel s FS (fixed_read b f text OK T)). Qed.
Print Assumptions C63_fixed_text.
Theorem C63_text_best : forall b side f text r n fuel s, file_ok f -> file_solvable f -> spells text f -> fnetwork side f -> fwhole_data f ->
  solve_text b r n fuel text = Got (Ok (Solved_to s)) -> fwhole_optimal f (answer_at s).
Proof. exact (fun b side f text r n fuel s OK FS T => with_whole_optimal (parse_free b) side f text r n fuel s FS (text_reads b f text OK T)). Qed.
Print Assumptions C63_text_best.
Theorem C63_fixed_text_best : forall b side f text r n fuel s, fixed_ok f -> file_solvable f -> fixed_spells text f -> fnetwork side f -> fwhole_data f ->
  solve_fixed_text b r n fuel text = Got (Ok (Solved_to s)) -> fwhole_optimal f (answer_at s).
Proof. exact (fun b side f text r n fuel s OK FS T => with_whole_optimal (parse_fixed b) side f text r n fuel s FS (fixed_read b f text OK T)). Qed.
Print Assumptions C63_fixed_text_best.
Example C63_text_case : file_ok transport_file /\ file_solvable transport_file /\ spells transport transport_file /\ fnetwork from_side transport_file /\ fwhole_data transport_file /\
  forall b r n, solve_text b r n 60 transport = Got (Ok (Solved_to transport_answer)).
Proof. exact (conj transport_ok (conj transport_solvable (conj transport_spelled (conj transport_network (conj transport_whole transport_solved))))). Qed.

(** Without the two sides it is not so: coefficients 0 and 1 and whole numbers everywhere else, and no value is whole *)
Theorem C63_sides_needed : exists g, general_ok g /\ fresh g /\ (forall i j, (i < g_rows g)%nat -> (j < nr_vars g)%nat -> unit_value (coefficient g i j)) /\ whole_data g /\
  forall r n, exists s, solve_general r n 60 g = Ok (Solved_to s) /\ s_values s <> nil /\ forall name v, In (name, v) (s_values s) -> ~ whole v.
Proof. exact triangle_broken. Qed.
Print Assumptions C63_sides_needed.

(** With presolving too, in every run, also where presolving itself goes wrong (C22) *)
Theorem C63_presolved : forall r n fuel side g s, general_ok g -> fresh g -> network side g -> whole_data g ->
  presolve_and_solve r n fuel g = Ok (Solved_to s) -> forall name v, In (name, v) (s_values s) -> whole v.
Proof. exact presolved_whole. Qed.
Print Assumptions C63_presolved.
Theorem C63_presolved_text : forall b side f text r n fuel s, file_ok f -> file_solvable f -> spells text f -> fnetwork side f -> fwhole_data f ->
  presolve_text b r n fuel text = Got (Ok (Solved_to s)) -> forall name v, In (name, v) (s_values s) -> whole v.
Proof. exact (fun b side f text r n fuel s OK FS T => presolved_text_whole (parse_free b) side f text r n fuel s FS (text_reads b f text OK T)). Qed.
Print Assumptions C63_presolved_text.
Theorem C63_presolved_fixed_text : forall b side f text r n fuel s, fixed_ok f -> file_solvable f -> fixed_spells text f -> fnetwork side f -> fwhole_data f ->
  presolve_fixed_text b r n fuel text = Got (Ok (Solved_to s)) -> forall name v, In (name, v) (s_values s) -> whole v.
Proof. exact (fun b side f text r n fuel s OK FS T => presolved_text_whole (parse_fixed b) side f text r n fuel s FS (fixed_read b f text OK T)). Qed.
Print Assumptions C63_presolved_fixed_text.
(** the best whole solution, in the runs of presolving that C22 proves right *)
Theorem C63_presolved_best : forall r n fuel side g s, general_ok g -> fresh g -> network side g -> whole_data g -> safe_run fuel g = true ->
  presolve_and_solve r n fuel g = Ok (Solved_to s) -> whole_optimal g (solution_point s).
Proof. exact presolved_best. Qed.
Print Assumptions C63_presolved_best.
Theorem C63_presolved_text_best : forall b side f text r n fuel s, file_ok f -> file_solvable f -> spells text f -> fnetwork side f -> fwhole_data f -> safe_text b fuel text = true ->
  presolve_text b r n fuel text = Got (Ok (Solved_to s)) -> fwhole_optimal f (answer_at s).
Proof. exact (fun b side f text r n fuel s OK FS T => presolved_text_best (parse_free b) side f text r n fuel s FS (text_reads b f text OK T)). Qed.
Print Assumptions C63_presolved_text_best.
Example C63_presolved_case : general_ok ex_supply /\ fresh ex_supply /\ network (fun _ => true) ex_supply /\ whole_data ex_supply /\ safe_run 60 ex_supply = true /\
  (exists g', presolve 60 ex_supply = Go g' /\ g_rows g' = 3%nat /\ nr_vars g' = 4%nat) /\ forall r n, presolve_and_solve r n 60 ex_supply = Ok (Solved_to supply_answer).
Proof. exact (conj (proj1 supply_ok) (conj (proj2 supply_ok) (conj supply_network (conj supply_whole (conj supply_safe (conj supply_changed supply_solved)))))). Qed.
Example C63_presolved_text_case : forall b, safe_text b 60 transport = true /\ forall r n, presolve_text b r n 60 transport = Got (Ok (Solved_to transport_answer)).
Proof. exact (fun b => conj (transport_safe b) (transport_presolved b)). Qed.
