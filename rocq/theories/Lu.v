(** * LU decomposition of the basis: model of
    /repo/src/algorithm/two_phase/tableau/inverse_maintenance/carry/lower_upper/

    A `BTreeMap<usize, F>` is modelled by a sorted list of (index, value) tuples. *)
From Verif Require Export Perm.

(** eta_file.rs:14-19; the field `len` is used in debug assertions only *)
Record eta := mk_eta { e_values : svec; e_pivot : nat }.

(** lower_upper/mod.rs:36-58.  An update is an eta file with the field `index` of the
    `RotateToBackPermutation`, whose field `len` is always [m]. *)
Record lu := mk_lu {
  l_rp : full;
  l_cp : full;
  l_low : list svec;
  l_up : list svec;
  l_diag : list Qc;
  l_upd : list (eta * nat)
}.
(** mod.rs:274-279 `m` *)
Definition lu_m (l : lu) : nat := length (f_fw (l_rp l)).

(** ** Eta files *)
(** eta_file.rs:137-157 `update_value` *)
Definition update_value (difference : Qc) (found : bool * nat) (new_index : nat) (v : svec)
  : res svec :=
  if qzero difference then Ok v else
  match found with
  | (true, k) =>
      let* e := index v k in
      let x := snd e - difference in
      Ok (if qzero x then remove_at v k else upd v k (fst e, x))
  | (false, k) => Ok (insert_at v k (new_index, - difference))
  end.
(** eta_file.rs:49-65 `apply_left` *)
Definition eta_left (e : eta) (v : svec) : res svec :=
  match bsearch (e_pivot e) v with
  | (true, k) =>
      foldM (fun v '(j, value) =>
               let has := bsearch j v in
               let* pv := index v k in
               update_value (value * snd pv) has j v) (e_values e) v
  | (false, _) => Ok v
  end.
(** eta_file.rs:72-105 `apply_right`; the two pointer loop over sorted tuples is [sdot] *)
Definition eta_right (e : eta) (v : svec) : res svec :=
  let found := bsearch (e_pivot e) v in
  let total := sdot (e_values e) (skipn (snd found) v) in
  update_value total found (e_pivot e) v.
(** eta_file.rs:111-134 `update_spike_pivot_value` *)
Definition update_spike (e : eta) (spike : svec) : res svec :=
  let found := bsearch (e_pivot e) spike in
  let search := if fst found then S (snd found) else snd found in
  let rest := skipn search spike in
  let difference :=
    fold_right (fun '(row, value) acc =>
                  match bsearch row rest with
                  | (true, k) => value * snd (nth k rest (0%nat, 0)) + acc
                  | (false, _) => acc
                  end) 0 (e_values e) in
  update_value difference found (e_pivot e) spike.

(** ** Triangular systems *)
(** mod.rs:400-415 `insert_or_shift_maybe_remove` *)
Definition insert_or_shift (rhs : svec) (i : nat) (change : Qc) : svec :=
  match bsearch i rhs with
  | (false, k) => insert_at rhs k (i, - change)
  | (true, k) =>
      let x := snd (nth k rhs (0%nat, 0)) - change in
      if qzero x then remove_at rhs k else upd rhs k (i, x)
  end.
(** `BTreeMap::pop_last` on the sorted list *)
Definition pop_last (l : svec) : option (nat * Qc * svec) :=
  match rev l with
  | [] => None
  | (i, v) :: t => Some (i, v, rev t)
  end.
(** collecting tuples into a `BTreeMap`: later values replace earlier ones *)
Definition collect (l : svec) : svec := fold_left (fun acc '(i, v) => sset acc i v) l [].

Section Tri.
Variable l : lu.

(** mod.rs:286-306 `left_multiply_by_lower_inverse` *)
Fixpoint lower_left (fuel : nat) (rhs : svec) : res svec :=
  match rhs with
  | [] => Ok []
  | (row, v) :: rhs =>
      match fuel with
      | 0%nat => Fuel
      | S fuel =>
          let* rhs :=
            (if Nat.eqb row (lu_m l - 1) then Ok rhs
             else let* col := index (l_low l) row in
                  Ok (fold_left (fun rhs '(i, x) => insert_or_shift rhs i (v * x)) col rhs)) in
          let* result := lower_left fuel rhs in
          Ok ((row, v) :: result)
      end
  end.

(** mod.rs:308-322 `left_multiply_by_upper_inverse` with 339-345 `update_rhs`; the result is built
    from the back, so no final reversal is needed *)
Fixpoint upper_left (fuel : nat) (rhs : svec) (result : svec) : res svec :=
  match pop_last rhs with
  | None => Ok result
  | Some (row, v, rhs) =>
      match fuel with
      | 0%nat => Fuel
      | S fuel =>
          let* d := index (l_diag l) row in
          let x := v / d in
          let* rhs :=
            (if Nat.ltb 0 row
             then let* col := index (l_up l) (row - 1) in
                  Ok (fold_left (fun rhs '(i, u) => insert_or_shift rhs i (x * u)) col rhs)
             else Ok rhs) in
          upper_left fuel rhs ((row, x) :: result)
      end
  end.

(** mod.rs:347-371 `right_multiply_by_lower_inverse` *)
Fixpoint lower_right (fuel : nat) (rhs : svec) (result : svec) : res svec :=
  match pop_last rhs with
  | None => Ok result
  | Some (row, v, rhs) =>
      match fuel with
      | 0%nat => Fuel
      | S fuel =>
          let* rhs := foldM (fun rhs j =>
                        let* col := index (l_low l) j in
                        match bsearch row col with
                        | (true, k) => Ok (insert_or_shift rhs j (v * snd (nth k col (0%nat, 0))))
                        | (false, _) => Ok rhs
                        end) (seq 0 row) rhs in
          lower_right fuel rhs ((row, v) :: result)
      end
  end.

(** mod.rs:374-397 `right_multiply_by_upper_inverse` *)
Fixpoint upper_right (fuel : nat) (rhs : svec) : res svec :=
  match rhs with
  | [] => Ok []
  | (row, v) :: rhs =>
      match fuel with
      | 0%nat => Fuel
      | S fuel =>
          let* d := index (l_diag l) row in
          let x := v / d in
          let* rhs := foldM (fun rhs j =>
                        let* col := index (l_up l) (j - 1) in
                        match bsearch row col with
                        | (true, k) => Ok (insert_or_shift rhs j (x * snd (nth k col (0%nat, 0))))
                        | (false, _) => Ok rhs
                        end) (range (S row) (lu_m l)) rhs in
          let* result := upper_right fuel rhs in
          Ok ((row, x) :: result)
      end
  end.

(** The loops above pop every index at most once, so [m] turns are enough; the fuel is never used up
    (LuP.v). *)
Definition fuel_of : nat := S (lu_m l).

(** mod.rs:419-423 `ColumnAndSpike` *)
Record column_and_spike := mk_cs { cs_column : svec; cs_spike : svec }.

(** the loop over `updates` that maps one index forward: mod.rs:102-107, 258-260 *)
Definition upd_forward (i : nat) : nat :=
  fold_left (fun i '(_, t) => rb_forward t (lu_m l) i) (l_upd l) i.

(** mod.rs:180-210 `left_multiply_by_basis_inverse` *)
Definition lu_left (a : svec) : res column_and_spike :=
  let* rhs := map_indices (full_forward (l_rp l)) a in
  let* w := lower_left fuel_of (collect rhs) in
  let* spike := foldM (fun w '(e, t) =>
                  let* w := eta_right e w in
                  rb_sorted t (lu_m l) w) (l_upd l) w in
  let* column := upper_left fuel_of (collect spike) [] in
  let column := fold_right (fun '(_, t) c => map (fun '(i, v) => (rb_backward t (lu_m l) i, v)) c)
                  column (l_upd l) in
  let* column := map_indices (full_backward (l_cp l)) column in
  Ok (mk_cs (sort_by fst column) spike).

(** mod.rs:226-236 and 262-271: the shared second half of the two row computations *)
Definition lu_row_of (rhs : svec) : res svec :=
  let* w := upper_right fuel_of (collect rhs) in
  let* w := foldM (fun w '(e, t) =>
              let* w := rb_back_sorted t (lu_m l) w in
              eta_left e w) (rev (l_upd l)) w in
  let* w := lower_right fuel_of (collect w) [] in
  map_sorted (full_backward (l_rp l)) w.

(** mod.rs:212-237 `right_multiply_by_basis_inverse` *)
Definition lu_right (r : svec) : res svec :=
  let* lhs := map_indices (full_forward (l_cp l)) r in
  lu_row_of (map (fun '(i, v) => (upd_forward i, v)) lhs).

(** mod.rs:254-272 `basis_inverse_row` *)
Definition lu_row (row : nat) : res svec :=
  let* row := full_forward (l_cp l) row in
  lu_row_of [(upd_forward row, 1)].

(** mod.rs:239-247 `generate_element` *)
Definition lu_elem (i : nat) (a : svec) : res (option Qc) :=
  let* c := lu_left a in
  Ok (sget (cs_column c) i).

(** mod.rs:249-252 `should_refactor` *)
Definition lu_refactor : bool := Nat.ltb 30 (length (l_upd l)).

(** mod.rs:94-178 `change_basis` *)
Definition lu_change (pivot_row : nat) (cs : column_and_spike) : res (lu * svec) :=
  let m := lu_m l in
  (* 101-109 *)
  let* p := full_forward (l_cp l) pivot_row in
  let t := upd_forward p in
  (* 112-124; `indices_to_zero` holds the columns in which the row occurs *)
  let* u_bar := foldM (fun acc j =>
                  let* col := index (l_up l) (j - 1) in
                  match bsearch t col with
                  | (true, k) => Ok (acc ++ [(j, snd (nth k col (0%nat, 0)), k)])
                  | (false, _) => Ok acc
                  end) (range (S t) m) [] in
  (* 125-126 *)
  let* r := upper_right fuel_of (collect (map (fun '(j, v, _) => (j, v)) u_bar)) in
  let e := mk_eta r t in
  (* 130-132 *)
  let* up := foldM (fun up '(j, _, k) =>
               let* col := index up (j - 1) in
               Ok (upd up (j - 1) (remove_at col k))) u_bar (l_up l) in
  (* 136 *)
  let* spike := update_spike e (cs_spike cs) in
  (* 142-152 *)
  let d := (t - 1)%nat in
  let* up := set_index up d spike in
  (* 155-156 *)
  let* up := on_slice rotl1 d (length up) up in
  let* diag := on_slice rotl1 t (length (l_diag l)) (l_diag l) in
  (* 159-162 *)
  let* up := foldM (fun up j =>
               let* col := index up (j - 1) in
               let* col := rb_sorted t m col in
               Ok (upd up (j - 1) col)) (range (Nat.max t 1) m) up in
  (* 163-165: `last_mut().unwrap().pop().unwrap()` *)
  let* last := index up (length up - 1) in
  let* c := ofopt (pop_last last) in
  let '(_, corner, last) := c in
  let up := upd up (length up - 1) last in
  let* diag := set_index diag (length diag - 1) corner in
  (* 174-177 *)
  Ok (mk_lu (l_rp l) (l_cp l) (l_low l) up diag (l_upd l ++ [(e, t)]), cs_column cs).
End Tri.

(** mod.rs:67-76 `identity`: `m - 1` underflows for [m = 0] *)
Definition lu_identity (m : nat) : res lu :=
  match m with
  | 0%nat => Panic
  | S k => Ok (mk_lu (full_identity m) (full_identity m) (repeat [] k) (repeat [] k) (repeat 1 m) [])
  end.

(** ** Factorization, decomposition/mod.rs *)
Record fstate := mk_fstate {
  s_rp : list nat;       (* row_permutation *)
  s_cp : list nat;       (* column_permutation *)
  s_low : list svec;     (* lower_triangular_row_major *)
  s_nr : list nat;       (* nnz_row *)
  s_nc : list nat;       (* nnz_column *)
  s_rows : list svec     (* rows *)
}.

(** unsigned `counts[i] -= d` and `counts[i] += d` *)
Definition sub_at (l : list nat) (i d : nat) : res (list nat) :=
  let* x := index l i in
  if Nat.ltb x d then Panic else Ok (upd l i (x - d)%nat).
Definition add_at (l : list nat) (i d : nat) : res (list nat) :=
  let* x := index l i in
  Ok (upd l i (x + d)%nat).

(** decomposition/mod.rs:278-304 `count_non_zeros` *)
Definition count_columns (rows : list svec) (n : nat) : res (list nat) :=
  foldM (fun counts row => foldM (fun counts '(j, _) => add_at counts j 1) row counts)
    rows (repeat 0%nat n).

(** decomposition/pivoting.rs:58-73: all candidate positions, by column, rows in order *)
Definition candidates (rows : list svec) (k : nat) : list (nat * nat) :=
  sort_by snd
    (concat (map (fun i => let row := nth i rows [] in
                   map (fun '(j, _) => (i, j)) (skipn (snd (bsearch k row)) row))
               (range k (length rows)))).
(** pivoting.rs:75-79: `(row_counts[i] - 1) * (column_counts[j] - 1)` *)
Definition markowitz (nr nc : list nat) (i j : nat) : res nat :=
  let* r := index nr i in
  let* c := index nc j in
  match r, c with
  | S r, S c => Ok (r * c)%nat
  | _, _ => Panic
  end.
(** pivoting.rs:75-79 `min_by_key(..).unwrap()`: the first of the minimal elements *)
Fixpoint min_from (nr nc : list nat) (best : nat * nat) (w : nat) (l : list (nat * nat))
  : res (nat * nat) :=
  match l with
  | [] => Ok best
  | (i, j) :: t =>
      let* x := markowitz nr nc i j in
      if Nat.ltb x w then min_from nr nc (i, j) x t else min_from nr nc best w t
  end.
(** pivoting.rs:45-81 `choose_pivot` *)
Definition choose_pivot (nr nc : list nat) (rows : list svec) (k : nat) : res (nat * nat) :=
  match candidates rows k with
  | [] => Panic
  | (i, j) :: t => let* w := markowitz nr nc i j in min_from nr nc (i, j) w t
  end.

(** decomposition/mod.rs:224-273 `swap` *)
Definition fswap (s : fstate) (pr pc k : nat) : res fstate :=
  let* s :=
    (if Nat.eqb pr k then Ok s
     else let* rp := swap_list (s_rp s) pr k in
          let* nr := swap_list (s_nr s) pr k in
          let* rows := swap_list (s_rows s) pr k in
          let* low := (if Nat.ltb 0 pr && Nat.ltb 0 k
                       then swap_list (s_low s) (pr - 1) (k - 1) else Ok (s_low s)) in
          Ok (mk_fstate rp (s_cp s) low nr (s_nc s) rows)) in
  if Nat.eqb pc k then Ok s
  else let* cp := swap_list (s_cp s) pc k in
       let* nc := swap_list (s_nc s) pc k in
       let* rows := mapM (sw_sorted pc k) (s_rows s) in
       Ok (mk_fstate (s_rp s) cp (s_low s) (s_nr s) nc rows).

(** decomposition/mod.rs:146-210 `subtract_multiple_of_row_from_other_row`: the new row, the removed
    and the added columns.  The case of an empty row (158-166) is the general one. *)
Fixpoint sub_mult (ratio : Qc) (a b : svec) {struct a} : svec * list nat * list nat :=
  match a with
  | [] => (map (fun '(j, v) => (j, - ratio * v)) b, [], map fst b)
  | (i, x) :: a' =>
      (fix go (b : svec) : svec * list nat * list nat :=
         match b with
         | [] => let '(n, r, d) := sub_mult ratio a' [] in ((i, x) :: n, r, d)
         | (j, y) :: b' =>
             if Nat.ltb j i then let '(n, r, d) := go b' in ((j, - ratio * y) :: n, r, j :: d)
             else if Nat.eqb j i then
               (let '(n, r, d) := sub_mult ratio a' b' in
                if qeqb (ratio * y) x then (n, i :: r, d) else ((i, x - ratio * y) :: n, r, d))
             else let '(n, r, d) := sub_mult ratio a' b in ((i, x) :: n, r, d)
         end) b
  end.

(** decomposition/mod.rs:72-75 *)
Definition drop_counts (k : nat) (row : svec) (c : list nat * list nat)
  : res (list nat * list nat) :=
  foldM (fun '(nr, nc) '(j, _) =>
           let* nr := sub_at nr k 1 in
           let* nc := sub_at nc j 1 in
           Ok (nr, nc)) row c.

(** decomposition/mod.rs:87-94: heads of the remaining rows; the ratios carry the absolute row index *)
Definition heads (k : nat) (pv : Qc) (s : list svec * list nat * list nat * list (nat * Qc)) (i : nat)
  : res (list svec * list nat * list nat * list (nat * Qc)) :=
  let '(rows, nr, nc, ratios) := s in
  let* row := index rows i in
  match row with
  | [] => Panic
  | (j, v) :: t =>
      if Nat.eqb j k then
        let* nr := sub_at nr i 1 in
        let* nc := sub_at nc k 1 in
        Ok (upd rows i t, nr, nc, ratios ++ [(i, v / pv)])
      else Ok s
  end.

(** decomposition/mod.rs:97-114 *)
Definition eliminate (k : nat) (cur : svec) (s : list svec * list nat * list nat * list svec)
  (ir : nat * Qc) : res (list svec * list nat * list nat * list svec) :=
  let '(rows, nr, nc, low) := s in
  let (i, ratio) := ir in
  let* row := index rows i in
  let '(new, removed, added) := sub_mult ratio row (tl cur) in
  let* nr := sub_at nr i (length row - length new) in
  let* nr := add_at nr i (length new - length row) in
  let* nc := foldM (fun nc j => sub_at nc j 1) removed nc in
  let* nc := foldM (fun nc j => add_at nc j 1) added nc in
  let* lrow := index low (i - 1) in
  Ok (upd rows i new, nr, nc, upd low (i - 1) (lrow ++ [(k, ratio)])).

(** decomposition/mod.rs:47-121: one turn of the loop *)
Definition fstep (s : fstate) (k : nat) : res fstate :=
  let m := length (s_rows s) in
  let* pq := choose_pivot (s_nr s) (s_nc s) (s_rows s) k in
  let* s := fswap s (fst pq) (snd pq) k in
  let* cur := index (s_rows s) k in
  let* c := drop_counts k cur (s_nr s, s_nc s) in
  let* head := index cur 0 in
  let* h := foldM (heads k (snd head)) (range (S k) m) (s_rows s, fst c, snd c, []) in
  let '(rows, nr, nc, ratios) := h in
  let* e := foldM (eliminate k cur) ratios (rows, nr, nc, s_low s) in
  let '(rows, nr, nc, low) := e in
  Ok (mk_fstate (s_rp s) (s_cp s) low nr nc rows).

(** decomposition/mod.rs:124-134: diagonal and transposed upper triangle *)
Fixpoint split_upper (i : nat) (rows : list svec) (up : list svec) (diag : list Qc)
  : res (list svec * list Qc) :=
  match rows with
  | [] => Ok (up, diag)
  | row :: rest =>
      match row with
      | [] => Panic
      | (_, d) :: t =>
          let* t := mapM dec_index t in
          let* up := push_column i t up in
          split_upper (S i) rest up (diag ++ [d])
      end
  end.

(** decomposition/mod.rs:27-143 `rows` *)
Definition lu_rows (rows : list svec) : res lu :=
  let m := length rows in
  match m with
  | 0%nat => Panic
  | S m1 =>
      let* nc := count_columns rows m in
      let* s := foldM fstep (seq 0 m)
                  (mk_fstate (seq 0 m) (seq 0 m) (repeat [] m1) (map (@length _) rows) nc rows) in
      let* ud := split_upper 0 (s_rows s) (repeat [] m1) [] in
      let* low := transpose_from 1 (s_low s) (repeat [] m1) in
      Ok (mk_lu (full_invert (full_new (s_rp s))) (full_invert (full_new (s_cp s)))
            low (fst ud) (snd ud) [])
  end.

(** mod.rs:78-92 `invert` *)
Definition lu_invert (cols : list svec) : res lu :=
  let* rows := transpose_from 0 cols (repeat [] (length cols)) in
  lu_rows rows.

(** mod.rs:60-280 `impl BasisInverse for LUDecomposition`; it has no `RemoveBasisPart` *)
Definition LU : BIOps :=
  mk_bi lu column_and_spike cs_column lu_identity lu_invert lu_change lu_left lu_right lu_elem
    lu_refactor lu_row None.
