(** * Builds with debug assertions: the basis inverses

    `debug_assert!` is compiled away in a release build, which is what the other model files
    describe.  Here are the same functions as a debug build runs them: every assertion is evaluated,
    at the place where it stands, and one that fails is a panic.  Where all assertions of a function
    stand before or after its work, the work is the function of the other model.

    Left out: assertions on the field `len` of vectors, eta files and permutations.  That field is
    always the number of rows and is not represented. *)
From Verif Require Export InvRows.

(** `debug_assert!(b)` *)
Definition assert (b : bool) : res unit := if b then Ok tt else Panic.

(** `windows(2).all(|w| f(w[0], w[1]))` *)
Fixpoint windows (f : nat -> nat -> bool) (l : list nat) : bool :=
  match l with
  | [] => true
  | x :: t => match t with [] => true | y :: _ => f x y && windows f t end
  end.
(** `is_sorted`, `is_sorted_by_key` *)
Definition is_sorted (l : list nat) : bool := windows Nat.leb l.
(** `windows(2).all(|w| w[0].0 < w[1].0)` *)
Definition is_strict (l : list nat) : bool := windows Nat.ltb l.
(** `iter().all(|&(i, _)| i < n)` *)
Definition all_below (n : nat) (l : list nat) : bool := forallb (fun i => Nat.ltb i n) l.
(** `last().map_or(true, |&(i, _)| i < n)` *)
Definition last_below (n : nat) (l : list nat) : bool :=
  match rev l with [] => true | i :: _ => Nat.ltb i n end.
(** `iter().collect::<HashSet<_>>().len()` *)
Definition set_size (l : list nat) : nat := length (nodup Nat.eq_dec l).
Definition keys {A} (l : list (nat * A)) : list nat := map fst l.
Definition all_nonzero (l : svec) : bool := forallb (fun e => negb (qzero (snd e))) l.

(** data/linear_algebra/vector/sparse.rs:90-104 `Sparse::new` *)
Definition sparse_new (data : svec) (len : nat) : res svec :=
  let* _ := assert (all_below len (keys data)) in
  let* _ := assert (is_sorted (keys data)) in
  let* _ := assert (all_nonzero data) in
  let* _ := assert (negb (Nat.eqb len 0)) in
  let* _ := assert (Nat.leb (length data) len) in
  Ok data.

(** ** Permutations *)
(** full.rs:26-41 `new`: 27 the values differ, 28 `max().unwrap()`, which panics when there is none *)
Definition full_new_d (forward : list nat) : res full :=
  let* _ := assert (Nat.eqb (set_size forward) (length forward)) in
  match forward with
  | [] => Panic
  | _ => let* _ := assert (all_below (length forward) forward) in Ok (full_new forward)
  end.
(** full.rs:95-104 `forward`, `backward` and 113-119 `index` *)
Definition full_forward_d (f : full) (i : nat) : res nat :=
  let* _ := assert (Nat.ltb i (length (f_fw f))) in full_forward f i.
Definition full_backward_d (f : full) (i : nat) : res nat :=
  let* _ := assert (Nat.ltb i (length (f_fw f))) in full_backward f i.
(** permutation/mod.rs:94-117 `forward_unsorted`, `backward_unsorted` *)
Definition unsorted_d {A} (n : nat) (f : nat -> res nat) (l : list (nat * A)) : res (list (nat * A)) :=
  let* _ := assert (all_below n (keys l)) in map_indices f l.
(** permutation/mod.rs:62-83 `forward_sorted`, `backward_sorted` *)
Definition map_sorted_d {A} (n : nat) (f : nat -> res nat) (l : list (nat * A)) : res (list (nat * A)) :=
  let* _ := assert (all_below n (keys l)) in
  let* _ := assert (is_sorted (keys l)) in
  let* _ := assert (is_strict (keys l)) in
  let* l' := unsorted_d n f l in
  Ok (sort_by fst l').
(** swap.rs:14-23 `new` and 43-71 `forward_sorted` *)
Definition sw_new_d (a b n : nat) : res unit := assert (Nat.ltb a n && Nat.ltb b n).
Definition sw_sorted_d {A} (a b n : nat) (items : list (nat * A)) : res (list (nat * A)) :=
  let* _ := assert (all_below n (keys items)) in
  let* _ := assert (is_strict (keys items)) in
  let* out := sw_sorted a b items in
  let* _ := assert (is_strict (keys out)) in
  Ok out.
(** rotate_to_back.rs:31-39 `new`, 42-63 `forward`, `backward` *)
Definition rb_new_d (t n : nat) : res unit := assert (Nat.ltb t n).
Definition rb_forward_d (t n i : nat) : res nat :=
  let* _ := assert (Nat.ltb i n) in Ok (rb_forward t n i).
Definition rb_backward_d (t n i : nat) : res nat :=
  let* _ := assert (Nat.ltb i n) in Ok (rb_backward t n i).
(** rotate_to_back.rs:65-87 `forward_sorted` *)
Definition rb_sorted_d {A} (t n : nat) (items : list (nat * A)) : res (list (nat * A)) :=
  let* _ := assert (all_below n (keys items)) in
  let* _ := assert (is_strict (keys items)) in
  let* out := rb_sorted t n items in
  let* _ := assert (is_strict (keys out)) in
  Ok out.
(** rotate_to_back.rs:89-117 `backward_sorted`; the early returns give the items back unchanged, for
    which the last assertion was checked before *)
Definition rb_back_sorted_d {A} (t n : nat) (items : list (nat * A)) : res (list (nat * A)) :=
  let* _ := assert (all_below n (keys items)) in
  let* _ := assert (is_strict (keys items)) in
  let* out := rb_back_sorted t n items in
  let* _ := assert (is_strict (keys out)) in
  Ok out.

(** ** Eta files *)
(** eta_file.rs:31-42 `new` *)
Definition eta_new_d (values : svec) (pivot len : nat) : res eta :=
  let* _ := assert (is_strict (keys values)) in
  let* _ := assert (match values with [] => true | (i, _) :: _ => Nat.ltb pivot i end) in
  let* _ := assert (last_below len (keys values)) in
  let* _ := assert (Nat.ltb pivot len) in
  Ok (mk_eta values pivot).
(** eta_file.rs:49-65 `apply_left`; the last assertion is inside the `if` *)
Definition eta_left_d (len : nat) (e : eta) (v : svec) : res svec :=
  let* _ := assert (is_strict (keys v)) in
  let* _ := assert (last_below len (keys v)) in
  let* out := eta_left e v in
  let* _ := assert (if fst (bsearch (e_pivot e) v) then is_strict (keys out) else true) in
  Ok out.
(** eta_file.rs:72-105 `apply_right` *)
Definition eta_right_d (len : nat) (e : eta) (v : svec) : res svec :=
  let* _ := assert (is_strict (keys v)) in
  let* _ := assert (last_below len (keys v)) in
  let* out := eta_right e v in
  let* _ := assert (is_strict (keys out)) in
  Ok out.
(** eta_file.rs:112-134 `update_spike_pivot_value`: `spike.last().unwrap()` panics on an empty spike *)
Definition update_spike_d (len : nat) (e : eta) (spike : svec) : res svec :=
  let* _ := assert (is_strict (keys spike)) in
  match spike with
  | [] => Panic
  | _ => let* _ := assert (last_below len (keys spike)) in update_spike e spike
  end.

(** ** Triangular systems, lower_upper/mod.rs; 286-306 has no assertion *)
Section TriD.
Variable l : lu.
(** mod.rs:308-322 `left_multiply_by_upper_inverse` *)
Definition upper_left_d (rhs : svec) : res svec :=
  let* out := upper_left l (fuel_of l) rhs [] in
  let* _ := assert (is_sorted (keys out)) in
  Ok out.
(** mod.rs:347-371 `right_multiply_by_lower_inverse` *)
Definition lower_right_d (rhs : svec) : res svec :=
  let* out := lower_right l (fuel_of l) rhs [] in
  let* _ := assert (is_sorted (keys out)) in
  Ok out.
(** mod.rs:374-397 `right_multiply_by_upper_inverse` *)
Definition upper_right_d (rhs : svec) : res svec :=
  let* out := upper_right l (fuel_of l) rhs in
  let* _ := assert (is_strict (keys out)) in
  Ok out.

(** mod.rs:102-107, 258-260 *)
Definition upd_forward_d (i : nat) : res nat :=
  foldM (fun i '(_, t) => rb_forward_d t (lu_m l) i) (l_upd l) i.

(** mod.rs:180-210 `left_multiply_by_basis_inverse` *)
Definition lu_left_d (a : svec) : res column_and_spike :=
  let* rhs := map_indices (full_forward_d (l_rp l)) a in
  let* w := lower_left l (fuel_of l) (collect rhs) in
  let* spike := foldM (fun w '(e, t) =>
                  let* w := eta_right_d (lu_m l) e w in
                  rb_sorted_d t (lu_m l) w) (l_upd l) w in
  let* column := upper_left_d (collect spike) in
  let* column := foldM (fun c '(_, t) => unsorted_d (lu_m l) (rb_backward_d t (lu_m l)) c)
                   (rev (l_upd l)) column in
  let* column := unsorted_d (lu_m l) (full_backward_d (l_cp l)) column in
  let* column := sparse_new (sort_by fst column) (lu_m l) in
  Ok (mk_cs column spike).

(** mod.rs:226-236 and 262-271 *)
Definition lu_row_of_d (rhs : svec) : res svec :=
  let* w := upper_right_d (collect rhs) in
  let* w := foldM (fun w '(e, t) =>
              let* w := rb_back_sorted_d t (lu_m l) w in
              eta_left_d (lu_m l) e w) (rev (l_upd l)) w in
  let* w := lower_right_d (collect w) in
  let* w := map_sorted_d (lu_m l) (full_backward_d (l_rp l)) w in
  sparse_new w (lu_m l).

(** mod.rs:212-237 `right_multiply_by_basis_inverse` *)
Definition lu_right_d (r : svec) : res svec :=
  let* lhs := map_indices (full_forward_d (l_cp l)) r in
  let* lhs := foldM (fun c '(_, t) => unsorted_d (lu_m l) (rb_forward_d t (lu_m l)) c) (l_upd l) lhs in
  lu_row_of_d lhs.

(** mod.rs:254-272 `basis_inverse_row` *)
Definition lu_row_d (row : nat) : res svec :=
  let* row := full_forward_d (l_cp l) row in
  let* row := upd_forward_d row in
  lu_row_of_d [(row, 1)].

(** mod.rs:239-247 `generate_element`; sparse.rs:138 `get` *)
Definition lu_elem_d (i : nat) (a : svec) : res (option Qc) :=
  let* c := lu_left_d a in
  let* _ := assert (Nat.ltb i (lu_m l)) in
  Ok (sget (cs_column c) i).

(** mod.rs:167-173: the columns are sorted and above the diagonal *)
Definition triangle_ok (up : list svec) : bool :=
  forallb (fun c => is_strict (keys c)) up &&
  forallb (fun '(j, c) => last_below (S j) (keys c)) (combine (seq 0 (length up)) up).

(** mod.rs:94-178 `change_basis` *)
Definition lu_change_d (pivot_row : nat) (cs : column_and_spike) : res (lu * svec) :=
  let m := lu_m l in
  let* p := full_forward_d (l_cp l) pivot_row in
  let* t := upd_forward_d p in
  let* u_bar := foldM (fun acc j =>
                  let* col := index (l_up l) (j - 1) in
                  match bsearch t col with
                  | (true, k) => Ok (acc ++ [(j, snd (nth k col (0%nat, 0)), k)])
                  | (false, _) => Ok acc
                  end) (range (S t) m) [] in
  let* r := upper_right_d (collect (map (fun '(j, v, _) => (j, v)) u_bar)) in
  let* e := eta_new_d r t m in
  let* up := foldM (fun up '(j, _, k) =>
               let* col := index up (j - 1) in
               Ok (upd up (j - 1) (remove_at col k))) u_bar (l_up l) in
  (* 133 *)
  let* _ := assert (is_strict (keys (cs_spike cs))) in
  let* spike := update_spike_d m e (cs_spike cs) in
  (* 136-139 *)
  let* _ := assert (fst (bsearch t spike)) in
  let d := (t - 1)%nat in
  let* up := set_index up d spike in
  let* up := on_slice rotl1 d (length up) up in
  let* diag := on_slice rotl1 t (length (l_diag l)) (l_diag l) in
  let* _ := rb_new_d t m in
  let* up := foldM (fun up j =>
               let* col := index up (j - 1) in
               let* col := rb_sorted_d t m col in
               Ok (upd up (j - 1) col)) (range (Nat.max t 1) m) up in
  let* last := index up (length up - 1) in
  let* c := ofopt (pop_last last) in
  let '(corner_index, corner, last) := c in
  (* 164 *)
  let* _ := assert (Nat.eqb corner_index (m - 1)) in
  let up := upd up (length up - 1) last in
  let* diag := set_index diag (length diag - 1) corner in
  (* 167-173 *)
  let* _ := assert (triangle_ok up) in
  Ok (mk_lu (l_rp l) (l_cp l) (l_low l) up diag (l_upd l ++ [(e, t)]), cs_column cs).
End TriD.

(** ** Factorization, decomposition/mod.rs *)
Definition rows_sorted (rows : list svec) : bool := forallb (fun r => is_sorted (keys r)) rows.
Definition all_positive (l : list nat) : bool := forallb (Nat.ltb 0) l.

(** decomposition/mod.rs:279-305 `count_non_zeros`; the sizes in 297-298 are so by construction *)
Definition count_columns_d (rows : list svec) (n : nat) : res (list nat) :=
  let* _ := assert (Nat.ltb 0 n) in
  let* _ := assert (forallb (fun r => all_below n (keys r)) rows) in
  let* nc := count_columns rows n in
  let* _ := assert (all_positive nc) in
  let* _ := assert (all_positive (map (@length _) rows)) in
  Ok nc.

(** pivoting.rs:45-81 `choose_pivot` *)
Definition choose_pivot_d (nr nc : list nat) (rows : list svec) (k : nat) : res (nat * nat) :=
  let m := length rows in
  let* _ := assert (Nat.ltb 0 m) in
  let* _ := assert (Nat.eqb (length nr) m) in
  let* _ := assert (Nat.eqb (length nc) m) in
  let* _ := assert (all_positive (skipn k nr)) in
  let* _ := assert (all_positive (skipn k nc)) in
  let* _ := assert (rows_sorted rows) in
  choose_pivot nr nc rows k.

(** decomposition/mod.rs:224-273 `swap` *)
Definition fswap_d (s : fstate) (pr pc k : nat) : res fstate :=
  let n := length (s_rows s) in
  let* _ := assert (Nat.ltb pr n) in
  let* _ := assert (Nat.ltb pc n) in
  let* _ := assert (Nat.ltb k n) in
  let* _ := assert (Nat.eqb (length (s_rp s)) n) in
  let* _ := assert (Nat.eqb (length (s_cp s)) n) in
  let* _ := assert (Nat.eqb (length (s_nr s)) n) in
  let* _ := assert (Nat.eqb (length (s_nc s)) n) in
  let* _ := assert (Nat.eqb (length (s_low s)) (n - 1)) in
  let* _ := assert (Nat.leb k pr && Nat.leb k pc) in
  let* s :=
    (if Nat.eqb pr k then Ok s
     else let* rp := swap_list (s_rp s) pr k in
          let* nr := swap_list (s_nr s) pr k in
          let* rows := swap_list (s_rows s) pr k in
          (* 251-253 *)
          let* _ := (if Nat.eqb pr 0 && Nat.ltb 0 k
                     then let* r := index (s_low s) (k - 1) in
                          assert (Nat.eqb (length r) 0) else Ok tt) in
          (* 254-256 *)
          let* _ := (if Nat.ltb 0 pr && Nat.eqb k 0
                     then let* r := index (s_low s) (pr - 1) in
                          assert (Nat.eqb (length r) 0) else Ok tt) in
          let* low := (if Nat.ltb 0 pr && Nat.ltb 0 k
                       then swap_list (s_low s) (pr - 1) (k - 1) else Ok (s_low s)) in
          Ok (mk_fstate rp (s_cp s) low nr (s_nc s) rows)) in
  if Nat.eqb pc k then Ok s
  else let* cp := swap_list (s_cp s) pc k in
       let* nc := swap_list (s_nc s) pc k in
       let* _ := sw_new_d pc k n in
       let* rows := mapM (sw_sorted_d pc k n) (s_rows s) in
       Ok (mk_fstate (s_rp s) cp (s_low s) (s_nr s) nc rows).

(** decomposition/mod.rs:86-94; the assertion that the row is not empty comes before `row[0]`, which
    panics in the same case, so [heads] is not changed by it *)
Definition heads_d := heads.

(** decomposition/mod.rs:97-114 with 155 `debug_assert!(ratio.is_not_zero())` *)
Definition eliminate_d (k : nat) (cur : svec) (s : list svec * list nat * list nat * list svec)
  (ir : nat * Qc) : res (list svec * list nat * list nat * list svec) :=
  let* _ := assert (negb (qzero (snd ir))) in
  eliminate k cur s ir.

(** decomposition/mod.rs:47-121: one turn of the loop *)
Definition fstep_d (s : fstate) (k : nat) : res fstate :=
  let m := length (s_rows s) in
  let* pq := choose_pivot_d (s_nr s) (s_nc s) (s_rows s) k in
  let* s := fswap_d s (fst pq) (snd pq) k in
  let* cur := index (s_rows s) k in
  let* c := drop_counts k cur (s_nr s, s_nc s) in
  let* head := index cur 0 in
  let* h := foldM (heads_d k (snd head)) (range (S k) m) (s_rows s, fst c, snd c, []) in
  let '(rows, nr, nc, ratios) := h in
  let* e := foldM (eliminate_d k cur) ratios (rows, nr, nc, s_low s) in
  let '(rows, nr, nc, low) := e in
  (* 116-120 *)
  let* nrk := index nr k in
  let* _ := assert (Nat.eqb nrk 0) in
  let* nck := index nc k in
  let* _ := assert (Nat.eqb nck 0) in
  let* _ := assert (forallb (fun '(r, count) => Nat.eqb (length r) count)
                      (skipn (S k) (combine rows nr))) in
  Ok (mk_fstate (s_rp s) (s_cp s) low nr nc rows).

(** decomposition/mod.rs:124-134 *)
Fixpoint split_upper_d (i : nat) (rows : list svec) (up : list svec) (diag : list Qc)
  : res (list svec * list Qc) :=
  match rows with
  | [] => Ok (up, diag)
  | row :: rest =>
      match row with
      | [] => Panic
      | (index, d) :: t =>
          let* _ := assert (Nat.eqb index i) in
          let* t := mapM dec_index t in
          let* up := push_column i t up in
          split_upper_d (S i) rest up (diag ++ [d])
      end
  end.

(** decomposition/mod.rs:27-143 `rows` *)
Definition lu_rows_d (rows : list svec) : res lu :=
  let* _ := assert (rows_sorted rows) in
  let m := length rows in
  let* _ := assert (Nat.ltb 1 m) in
  match m with
  | 0%nat => Panic
  | S m1 =>
      let* nc := count_columns_d rows m in
      let* s := foldM fstep_d (seq 0 m)
                  (mk_fstate (seq 0 m) (seq 0 m) (repeat [] m1) (map (@length _) rows) nc rows) in
      let* ud := split_upper_d 0 (s_rows s) (repeat [] m1) [] in
      let* low := transpose_from 1 (s_low s) (repeat [] m1) in
      let* rp := full_new_d (s_rp s) in
      let* cp := full_new_d (s_cp s) in
      Ok (mk_lu (full_invert rp) (full_invert cp) low (fst ud) (snd ud) [])
  end.

(** mod.rs:78-92 `invert` *)
Definition lu_invert_d (cols : list svec) : res lu :=
  let* rows := transpose_from 0 cols (repeat [] (length cols)) in
  let* _ := assert (rows_sorted rows) in
  lu_rows_d rows.

Definition LUD : BIOps :=
  mk_bi lu column_and_spike cs_column lu_identity lu_invert_d lu_change_d lu_left_d lu_right_d
    lu_elem_d lu_refactor lu_row_d None.

(** ** Explicit basis inverse, basis_inverse_rows.rs *)
(** basis_inverse_rows.rs:98-102 `identity`; sparse.rs:233-241 `standard_basis_vector` *)
Definition bir_identity_d (m : nat) : res (list svec) :=
  mapM (fun i => let* _ := assert (Nat.ltb i m) in sparse_new (sbasis i) m) (seq 0 m).

(** basis_inverse_rows.rs:104-129 `invert` *)
Definition bir_invert_d (cols : list svec) : res (list svec) :=
  let m := length cols in
  let* f := lu_invert_d cols in
  let* inv := mapM (fun j => let* c := lu_left_d f (sbasis j) in Ok (cs_column c)) (seq 0 m) in
  let* rows := transpose_from 0 inv (repeat [] m) in
  mapM (fun tuples => sparse_new tuples m) rows.

(** basis_inverse_rows.rs:43-52 `normalize_pivot_row`; sparse.rs:138 `get`, 339 `element_wise_divide` *)
Definition bir_normalize_d (rows : list svec) (p : nat) (col : svec) : res (list svec) :=
  let* _ := assert (Nat.ltb p (length rows)) in
  let* pv := ofopt (sget col p) in
  let* row := index rows p in
  let* _ := assert (negb (qzero pv)) in
  Ok (upd rows p (sdiv row pv)).

(** basis_inverse_rows.rs:131-145 `change_basis` with 64-84 `row_reduce` *)
Definition bir_change_d (rows : list svec) (p : nat) (col : svec) : res (list svec * svec) :=
  let* _ := assert (Nat.ltb p (length rows)) in
  let* rows := bir_normalize_d rows p col in
  let* _ := assert (Nat.ltb p (length rows)) in
  let* rows := bir_reduce rows p col in
  Ok (rows, col).

(** basis_inverse_rows.rs:179-195 `generate_element` *)
Definition bir_elem_d (rows : list svec) (i : nat) (a : svec) : res (option Qc) :=
  let* _ := assert (Nat.ltb i (length rows)) in
  bir_elem rows i a.

(** basis_inverse_rows.rs:147-160 `left_multiply_by_basis_inverse` *)
Definition bir_left_d (rows : list svec) (a : svec) : res svec :=
  let* out := foldM (fun acc i => let* e := bir_elem_d rows i a in
                      Ok (match e with Some v => acc ++ [(i, v)] | None => acc end))
                (seq 0 (length rows)) [] in
  sparse_new out (length rows).

(** basis_inverse_rows.rs:162-177 `right_multiply_by_basis_inverse` *)
Definition bir_right_d (rows : list svec) (r : svec) : res svec :=
  match r with
  | [] => Panic
  | (i, f) :: r =>
      let* row := index rows i in
      let* total := sparse_new (smul row f) (length rows) in
      foldM (fun total '(i, f) => let* row := index rows i in Ok (add_mult f total row)) r total
  end.

(** the assertions of 216-228 `remove_basis_part` are in DebugSolve.v *)
Definition BIRD : BIOps :=
  mk_bi (list svec) svec (fun c => c) bir_identity_d bir_invert_d bir_change_d bir_left_d bir_right_d
    bir_elem_d (fun _ => false) (fun rows i => index rows i) (Some bir_remove).
