(** * A program for which the second call of presolving never returns *)
From Verif Require Import PreRules Examples SparseP ExGeneral FuelP.
From Verif Require Export ExPresolve.
Local Open Scope string_scope.

(** The first call removes a.  In the second, b and c have the numbers 0 and 1: it fixes b, and removes c as a function of b.
    It stores this under the number 1, which is that of b among the original variables: b becomes a function of itself. *)
Definition w_endless : general :=
  new_general Minimize 3
    [zcol [(0%nat, 1%Z); (1%nat, (-2)%Z)]; zcol [(0%nat, (-2)%Z); (1%nat, 1%Z); (2%nat, 1%Z)]; zcol [(0%nat, (-1)%Z); (1%nat, (-1)%Z); (2%nat, 2%Z)]]
    [Less; Greater; Range (zq 1)] [zq 8; zq (-1); zq 6]
    [v_ 0 (Some (-1)%Z) (Some 2%Z); v_ 2 (Some 1%Z) (Some 4%Z); v_ 0 None None] ["a"; "b"; "c"] 0.
Lemma w_endless_ok : general_ok w_endless /\ fresh w_endless. Proof. apply new_ok. vm_compute. reflexivity. Qed.
Definition w_endless_point : vec := fun j => if Nat.eqb j 0 then zq (-1) else if Nat.eqb j 1 then zq 2 else zq 2.
Lemma w_endless_feasible : gfeasible w_endless w_endless_point. Proof. apply gfeasibleb_ok. vm_compute. reflexivity. Qed.

Definition before_resolving (fuel : nat) (g : general) : pr general :=
  let+ u := presolve_changes fuel g in
  let+ g1 := lift (values_that_remain g u) in
  lift (remove_rows_and_columns g1 (u_gone u) (map fst (u_removed u))).
Lemma before_more f h g : (f <= h)%nat -> pmore (before_resolving f g) (before_resolving h g).
Proof.
  intros L. unfold before_resolving, presolve_changes. apply pmore_bind; [|intros ?; apply pmore_refl]. apply pmore_bind; [apply pmore_refl|intros rows].
  apply pmore_bind; [apply pmore_refl|intros s]. apply pmore_bind; [now apply more_loop|intros ?; apply pmore_refl].
Qed.
Lemma presolve_split fuel g : presolve fuel g = let+ g2 := before_resolving fuel g in let+ g3 := lift (solution_where_possible fuel g2) in match get_solution g3 with Some s => Stop (VOptimum s) | None => Go g3 end.
Proof.
  unfold presolve, before_resolving. destruct (presolve_changes fuel g) as [u| | |]; cbn [pbind]; try reflexivity. destruct (values_that_remain g u) as [g1| |]; reflexivity.
Qed.
(** the second original variable is a function of itself *)
Definition of_itself (orig : list (string * original)) : bool :=
  match orig with (_, Removed (Solved _)) :: (_, Removed (FunctionOf _ ((1%nat, _) :: _))) :: _ => true | _ => false end.
Lemma of_itself_value orig : of_itself orig = true -> forall fuel, value_if_known fuel orig 1 = Fuel.
Proof.
  intros H fuel. induction fuel as [|fuel IH]; [reflexivity|]. destruct orig as [|[n0 [| |[|]]] [|[n1 [| |[|k [|[[|[|]] c] l]]]] orig]]; try discriminate H.
  set (orig' := _ :: _ :: orig) in *. change (value_if_known (S fuel) orig' 1) with
    (let* parts := foldM (fun acc '(j, c) => match acc with None => Ok None | Some s => let* v := value_if_known fuel orig' j in Ok (match v with Some v => Some (s + c * v)%Qc | None => None end) end) ((1%nat, c) :: l) (Some 0%Qc) in
     Ok (match parts with Some s => Some (k - s)%Qc | None => None end)). cbn [foldM]. now rewrite IH.
Qed.
Lemma of_itself_endless g : of_itself (g_orig g) = true -> forall fuel, solution_where_possible fuel g = Fuel.
Proof.
  intros H fuel. pose proof (of_itself_value _ H fuel) as V. unfold solution_where_possible.
  destruct (g_orig g) as [|[n0 [| |[|]]] [|[n1 [| |[|k [|[[|[|]] c] l]]]] orig]]; try discriminate H.
  cbn [number_from mapM bind]. now rewrite V.
Qed.
Lemma never_returns f g : match before_resolving f g with Go g2 => of_itself (g_orig g2) | _ => false end = true -> forall fuel, presolve fuel g = PFuel.
Proof.
  intros H fuel. assert (X : presolve (Nat.max f fuel) g = PFuel).
  { rewrite presolve_split. pose proof (before_more f (Nat.max f fuel) g (Nat.le_max_l _ _)) as M. destruct (before_resolving f g) as [g2| | |]; try discriminate H.
    rewrite M by discriminate. cbn [pbind]. now rewrite (of_itself_endless g2 H). }
  pose proof (more_presolve fuel (Nat.max f fuel) g (Nat.le_max_r _ _)) as M. rewrite X in M. destruct (presolve fuel g); try reflexivity; now discriminate M.
Qed.
Lemma w_endless_run : exists g1, presolve 100 w_endless = Go g1 /\ forall fuel, presolve fuel g1 = PFuel.
Proof.
  assert (H : match presolve 100 w_endless with Go g1 => match before_resolving 100 g1 with Go g2 => of_itself (g_orig g2) | _ => false end | _ => false end = true) by (vm_compute; reflexivity).
  destruct (presolve 100 w_endless) as [g1| | |]; try discriminate H. exists g1. split; [reflexivity|]. exact (never_returns 100 g1 H).
Qed.
