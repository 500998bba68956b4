(** * Pivot rules: model of /repo/src/algorithm/two_phase/strategy/pivot_rule.rs *)
From Verif Require Export Tableau.

(** pivot_rule.rs:18-54 `trait PivotRule` *)
Record Rule (O : BIOps) := mk_rule {
  r_state : Type;
  r_new : kind -> tableau O -> res r_state;
  r_select : r_state -> kind -> tableau O -> res (option (nat * Qc) * r_state);
  r_after : r_state -> change_info -> kind -> tableau O -> res r_state
}.
Arguments r_state {O}.
Arguments r_new {O}.
Arguments r_select {O}.
Arguments r_after {O}.

Section Rules.
Variable O : BIOps.

(** pivot_rule.rs:104-107 (and 130-133): first column in a range, not in the basis, with negative
    relative cost *)
Fixpoint find_profitable (k : kind) (t : tableau O) (l : list nat) : option (nat * Qc) :=
  match l with
  | [] => None
  | j :: l' =>
      if in_basis t j then find_profitable k t l'
      else let c := relative_cost k t j in
           if qneg c then Some (j, c) else find_profitable k t l'
  end.

(** pivot_rule.rs:86-109 `FirstProfitable` *)
Definition first_profitable : Rule O :=
  mk_rule O unit
    (fun _ _ => Ok tt)
    (fun s k t => Ok (find_profitable k t (range (k_art k) (k_cols k)), s))
    (fun s _ _ _ => Ok s).

(** pivot_rule.rs:113-150 `FirstProfitableWithMemory` *)
Definition first_profitable_memory : Rule O :=
  mk_rule O (option nat)
    (fun _ _ => Ok None)
    (fun s k t =>
       let r := match s with
                | None => find_profitable k t (range (k_art k) (k_cols k))
                | Some last =>
                    match find_profitable k t (range (last + 1) (k_cols k)) with
                    | Some x => Some x
                    | None => find_profitable k t (range (k_art k) last)
                    end
                end in
       Ok (r, option_map fst r))
    (fun s _ _ _ => Ok s).

(** pivot_rule.rs:153-187 `SteepestDescentAlongVariable` *)
Definition steepest_variable_step (k : kind) (t : tableau O) (acc : option (nat * Qc)) (j : nat)
  : option (nat * Qc) :=
  if in_basis t j then acc else
  let c := relative_cost k t j in
  if qneg c then
    match acc with
    | None => Some (j, c)
    | Some (_, c0) => if qltb c c0 then Some (j, c) else acc
    end
  else acc.
Definition steepest_variable : Rule O :=
  mk_rule O unit
    (fun _ _ => Ok tt)
    (fun s k t => Ok (fold_left (steepest_variable_step k t) (range (k_art k) (k_cols k)) None, s))
    (fun s _ _ _ => Ok s).

(** pivot_rule.rs:299-305 `initial_gamma` *)
Definition initial_gamma (k : kind) (t : tableau O) (j : nat) : res Qc :=
  let* cc := generate_column k t j in Ok (1 + sqnorm (cci_col O cc)).

(** pivot_rule.rs:202-219 `SteepestDescentAlongObjective::new` *)
Definition sdo_new (k : kind) (t : tableau O) : res (list (option Qc)) :=
  mapM (fun j => if Nat.leb (k_art k) j && negb (in_basis t j)
                 then let* g := initial_gamma k t j in Ok (Some g) else Ok None)
    (seq 0 (k_cols k)).

(** pivot_rule.rs:221-241 `select_primal_pivot_column`: `max_by_key` returns the last of several
    maxima, so a later candidate replaces the current one unless its key is strictly smaller. *)
Definition sdo_step (k : kind) (t : tableau O) (gamma : list (option Qc))
  (acc : option (nat * Qc * Qc)) (j : nat) : res (option (nat * Qc * Qc)) :=
  if in_basis t j then Ok acc else
  let c := relative_cost k t j in
  if qneg c then
    let* og := index gamma j in
    let* g := ofopt og in
    let key := c * c / g in
    match acc with
    | None => Ok (Some (j, c, key))
    | Some (_, _, key0) => if qltb key key0 then Ok acc else Ok (Some (j, c, key))
    end
  else Ok acc.
Definition sdo_select (gamma : list (option Qc)) (k : kind) (t : tableau O)
  : res (option (nat * Qc)) :=
  let* r := foldM (sdo_step k t gamma) (range (k_art k) (k_cols k)) None in
  Ok (option_map (fun '(j, c, _) => (j, c)) r).

(** pivot_rule.rs:262-291: the loop body of `after_basis_update` for one column *)
Definition sdo_update_gamma (k : kind) (info : change_info) (gq : Qc) (j : nat) (g : Qc) : Qc :=
  let col := k_col k j in
  let alpha := sdot (i_binv_row info) col in
  let g2a :=
    if qzero alpha then (g, 1) else
    let inner := sdot (i_work info) col in
    let g1 := if qzero inner then g else g - alpha * inner - alpha * inner in
    (g1 + alpha * alpha * gq, 1 + alpha * alpha) in
  let (g2, alternative) := g2a in
  if qltb g2 alternative then alternative else g2.
Fixpoint sdo_update_from (k : kind) (info : change_info) (gq : Qc) (j : nat)
  (gamma : list (option Qc)) : list (option Qc) :=
  match gamma with
  | [] => []
  | og :: rest =>
      (match og with
       | Some g => if Nat.ltb j (k_art k) then Some g else Some (sdo_update_gamma k info gq j g)
       | None => None
       end) :: sdo_update_from k info gq (S j) rest
  end.
(** pivot_rule.rs:243-296 `after_basis_update` *)
Definition sdo_after (gamma : list (option Qc)) (info : change_info) (k : kind) (t : tableau O)
  : res (list (option Qc)) :=
  let* gamma := set_index gamma (i_col info) None in
  let gq := 1 + sqnorm (i_before info) in
  let gamma := sdo_update_from k info gq 0 gamma in
  let* wp := ofopt (sget (i_before info) (i_row info)) in
  set_index gamma (i_leaving info) (Some (gq / (wp * wp))).

(** pivot_rule.rs:190-296 `SteepestDescentAlongObjective`: the rule `solve_relaxation` uses *)
Definition steepest_objective : Rule O :=
  mk_rule O (list (option Qc))
    sdo_new
    (fun s k t => let* r := sdo_select s k t in Ok (r, s))
    sdo_after.

End Rules.
