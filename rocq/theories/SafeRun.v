(** * Runs of presolving that stay clear of the known faults: the specification side

    Presolving as it is in the code can lose solutions, add solutions and panic; the refuted claims in
    PropPresolve.v show how.  This file says, in terms of what the run does, which runs those are not: a run
    is safe when none of the four situations below occurs in it.  It can be checked by running [safe_run].

    - A variable is left without any value by bounds that propagation found (domain_propagation.rs:334-375
      never looks at that), see [domains_left].
    - The rule for slack variables (slack.rs:94-158) meets a combination of a constraint type and bounds
      for which it forgets one of them, see [slack_safe].
    - Domain propagation of a row uses a remembered activity that has not been kept up to date
      (presolve/mod.rs:214-244 does not run when a variable disappears), see [activity_right].
    - Domain propagation removes or changes a row on account of bounds that it found with the help of that
      same row and that are not kept afterwards (updates.rs:398-452), or runs into the `unreachable!` of
      domain_propagation.rs:160-214, see [decision_safe].  To see that, the run is followed with, for every
      bound that propagation found, the rows it rests on ([supports]); the code keeps no such record. *)
From Verif Require Export Presolve.
Local Open Scope Qc_scope.

Section Safe.
Variables (g : general) (rows : list svec).
Definition has_value (u : updates) (j : nat) : bool := match feasible_value g u j with Some _ => true | None => false end.
Definition domains_left (s : pindex) : bool :=
  forallb (fun j => negb (var_active (i_c s) j) || has_value (i_u s) j) (range 0 (length (g_vars g))).
Definition slack_safe (t : rel) (lower upper : option Qc) (c : Qc) : bool :=
  match t, lower, upper, qneg c with
  | _, None, None, _ => true
  | Equal, _, _, _ => true
  | Less, Some _, _, false | Less, _, Some _, true => true
  | Greater, _, Some _, false | Greater, Some _, _, true => true
  | Range _, Some _, None, false | Range _, None, Some _, true => true
  | _, _, _, _ => false
  end.
Definition slack_left (s : pindex) (j : nat) : bool :=
  forallb (fun '(i, c) => slack_safe (type_of g (i_u s) i) (bound_of g (i_u s) j Lower) (bound_of g (i_u s) j Upper) c) (active_column g (i_c s) j).
Definition activity_right (s : pindex) (i : nat) (d : bdir) : bool :=
  match side d (nth i (i_act s) (None, None)) with
  | None => true
  | Some x => match activity_sum g (i_u s) d (active_row rows (i_c s) i) with Go y => qeqb x y | _ => false end
  end.
(** the rows that the bounds found by propagation rest on, for every variable the lower and the upper one *)
Definition supports := list (list nat * list nat).
Definition rests_on (sup : supports) (j : nat) (e : bdir) : list nat := side e (nth j sup ([], [])).
Definition join (l k : list nat) : list nat := l ++ filter (fun i => negb (memb i l)) k.
(** the rows that the activity bound of row [i] rests on *)
Definition row_support (s : pindex) (sup : supports) (i : nat) (d : bdir) : list nat :=
  fold_left (fun l '(j, c) => match u_acts (i_u s) j (bmul d c) with None => l | Some _ => join l (rests_on sup j (bmul d c)) end)
    (active_row rows (i_c s) i) [].
(** row [i] will be removed or made an equality, because of its activity bound *)
Definition weakens (s : pindex) (i : nat) (d : bdir) : bool :=
  match activity_sum g (i_u s) d (active_row rows (i_c s) i) with
  | Go a =>
      match decide d (type_of g (i_u s) i) (b_of g (i_u s) i) a with
      | Go (Some Drop) | Go (Some (ReplaceBy _ _)) => true
      | _ => false
      end
  | _ => false
  end.
Definition decision_safe (s : pindex) (sup : supports) (i : nat) (d : bdir) : bool :=
  (negb (weakens s i d) || negb (memb i (row_support s sup i d))) &&
  match activity_sum g (i_u s) d (active_row rows (i_c s) i) with
  | Go a => match decide d (type_of g (i_u s) i) (b_of g (i_u s) i) a with PPanic => false | _ => true end
  | _ => true
  end.
Definition propagation_safe (s : pindex) (sup : supports) (i : nat) (d : bdir) : bool :=
  match side d (nth i (c_act (i_c s)) (0, 0)%nat) with
  | 0%nat => activity_right s i d && decision_safe s sup i d
  | _ => true
  end.

(** what the next call of `presolve_step` works on *)
Inductive action := FixVariable (j : nat) | TurnIntoBound (i : nat) | RemoveSlack (j : nat) | Propagate (i : nat) (d : bdir) | NoRule.
Definition next_action (s : pindex) : action :=
  let q := i_q s in
  match (match q_sub q with [] => None | j :: _ => if var_active (i_c s) j then Some j else None end) with
  | Some j => FixVariable j
  | None =>
      match fst (drain (con_active (i_c s)) (q_bound q)) with
      | Some i => TurnIntoBound i
      | None =>
          match fst (drain (var_active (i_c s)) (q_slack q)) with
          | Some j => RemoveSlack j
          | None =>
              match fst (drain (fun e => con_active (i_c s) (fst e)) (q_act q)) with
              | Some (i, d) => Propagate i d
              | None => NoRule
              end
          end
      end
  end.
Definition step_safe (s : pindex) (sup : supports) : bool :=
  match next_action s with
  | RemoveSlack j => slack_left s j
  | Propagate i d => propagation_safe s sup i d
  | _ => true
  end.
(** the supports after a step from [s] to [s']: a bound found by propagating row [i] rests on that row and on
    what its activity bound rests on; what rests on a row that is removed or changed, rests from then on also
    on the reason for that *)
Definition same_bound (a b : option Qc) : bool :=
  match a, b with None, None => true | Some x, Some y => qeqb x y | _, _ => false end.
Definition reason (s : pindex) (sup : supports) : option (nat * bool * list nat) :=
  match next_action s with Propagate i d => Some (i, weakens s i d, row_support s sup i d) | _ => None end.
Definition next_support (why : option (nat * bool * list nat)) (same : bool) (old : list nat) : list nat :=
  match why with
  | Some (i, weaker, support) => if same then if weaker && memb i old then join old support else old else i :: support
  | None => if same then old else []
  end.
Definition next_supports (s : pindex) (sup : supports) (s' : pindex) : supports :=
  let why := reason s sup in
  let one j e := next_support why (same_bound (u_acts (i_u s) j e) (u_acts (i_u s') j e)) (rests_on sup j e) in
  map (fun j => (one j Lower, one j Upper)) (range 0 (length (g_vars g))).
(** the loop of mod.rs:391-406, followed with the tests above *)
Fixpoint safe_loop (fuel : nat) (stale : nat) (sup : supports) (s : pindex) : bool :=
  domains_left s &&
  (if queues_empty (i_q s) then true else
   match nr_remaining g (i_u s) with
   | Go remaining =>
       if Nat.leb remaining stale then true else
       match fuel with
       | 0%nat => true
       | S fuel' =>
           step_safe s sup &&
           match presolve_step g rows s with
           | Go (s', Meaningful) => safe_loop fuel' 0 (next_supports s sup s') s'
           | Go (s', NoneMade) => safe_loop fuel' stale (next_supports s sup s') s'
           | Go (s', NotMeaningful) => safe_loop fuel' (S stale) (next_supports s sup s') s'
           | _ => true
           end
       end
   | _ => true
   end).
End Safe.
Definition safe_run (fuel : nat) (g : general) : bool :=
  match transpose_from 0 (g_cols g) (repeat [] (g_rows g)) with
  | Ok rows => match index_new g rows with Go s => safe_loop g rows fuel 0 [] s | _ => true end
  | _ => true
  end.
(** the run of presolving on this program is safe, with every number of iterations *)
Definition safe (g : general) : Prop := forall fuel, safe_run fuel g = true.
(** calls of presolve one after the other, all of them safe and none of them removing a variable *)
Inductive presolved_to : general -> general -> Prop :=
| presolved_not : forall g, presolved_to g g
| presolved_once : forall fuel g g1 g2, safe_run fuel g = true -> presolve fuel g = Go g1 -> length (g_vars g1) = length (g_vars g) ->
    presolved_to g1 g2 -> presolved_to g g2.
