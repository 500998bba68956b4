(** * Permutations: model of
    /repo/src/algorithm/two_phase/tableau/inverse_maintenance/carry/lower_upper/permutation/ *)
From Verif Require Export Carry.

(** `slice::swap` *)
Definition swap_list {A} (l : list A) (i j : nat) : res (list A) :=
  let* x := index l i in
  let* y := index l j in
  Ok (upd (upd l i y) j x).

(** `slice::rotate_left(1)` and `rotate_right(1)`, which panic on an empty slice *)
Definition rotl1 {A} (l : list A) : res (list A) :=
  match l with [] => Panic | x :: t => Ok (t ++ [x]) end.
Definition rotr1 {A} (l : list A) : res (list A) :=
  match rev l with [] => Panic | x :: t => Ok (x :: rev t) end.
(** apply an operation to the slice `[a..b]`; slicing panics when the range is not valid *)
Definition on_slice {A} (f : list A -> res (list A)) (a b : nat) (l : list A) : res (list A) :=
  if Nat.leb a b && Nat.leb b (length l)
  then let* s := f (skipn a (firstn b l)) in Ok (firstn a l ++ s ++ skipn b l)
  else Panic.

(** ** Full permutation, full.rs *)
(** full.rs:14-20 *)
Record full := mk_full { f_fw : list nat; f_bw : list nat }.
(** full.rs:26-41 `new` *)
Definition full_new (forward : list nat) : full :=
  mk_full forward (map snd (sort_by fst (combine forward (seq 0 (length forward))))).
(** full.rs:50-55 `identity` *)
Definition full_identity (n : nat) : full := mk_full (seq 0 n) (seq 0 n).
(** full.rs:60-62 `invert` *)
Definition full_invert (f : full) : full := mk_full (f_bw f) (f_fw f).
(** full.rs:64-73 `swap` *)
Definition full_swap (f : full) (i j : nat) : res full :=
  let* it := index (f_fw f) i in
  let* jt := index (f_fw f) j in
  let* fw := swap_list (f_fw f) i j in
  let* bw := swap_list (f_bw f) it jt in
  Ok (mk_full fw bw).
(** full.rs:75-84 `swap_inverse` *)
Definition full_swap_inverse (f : full) (i j : nat) : res full :=
  let* it := index (f_bw f) i in
  let* jt := index (f_bw f) j in
  let* fw := swap_list (f_fw f) it jt in
  let* bw := swap_list (f_bw f) i j in
  Ok (mk_full fw bw).
(** full.rs:86-91 `rotate_right_from` *)
Definition full_rotate_right_from (f : full) (i : nat) : res full :=
  let* fw := on_slice rotr1 i (length (f_fw f)) (f_fw f) in
  let* bw := on_slice rotl1 i (length (f_bw f)) (f_bw f) in
  Ok (mk_full fw bw).
(** full.rs:95-104 `forward`, `backward` *)
Definition full_forward (f : full) (i : nat) : res nat := index (f_fw f) i.
Definition full_backward (f : full) (i : nat) : res nat := index (f_bw f) i.

(** permutation/mod.rs:94-117 `forward_unsorted`, `backward_unsorted`, default implementations *)
Definition map_indices {A} (f : nat -> res nat) (l : list (nat * A)) : res (list (nat * A)) :=
  mapM (fun '(i, v) => let* k := f i in Ok (k, v)) l.
(** permutation/mod.rs:62-83 `forward_sorted`, `backward_sorted`, default implementations *)
Definition map_sorted {A} (f : nat -> res nat) (l : list (nat * A)) : res (list (nat * A)) :=
  let* l' := map_indices f l in
  Ok (sort_by fst l').

(** ** Swap, swap.rs *)
(** swap.rs:25-41 `forward` and `backward` *)
Definition sw_forward (a b i : nat) : nat :=
  if Nat.eqb i a then b else if Nat.eqb i b then a else i.
(** swap.rs:50-57 the closure `rotate` *)
Definition sw_rotate {A} (items : list (nat * A)) (found not_found new_index : nat)
  : res (list (nat * A)) :=
  let* e := index items found in
  let items := upd items found (new_index, snd e) in
  match Nat.compare found not_found with
  | Lt => on_slice rotl1 found not_found items
  | Eq => Ok items
  | Gt => on_slice rotr1 not_found (S found) items
  end.
(** swap.rs:43-71 `forward_sorted`; 73-79 `backward_sorted` is the same *)
Definition sw_sorted {A} (a b : nat) (items : list (nat * A)) : res (list (nat * A)) :=
  match bsearch a items, bsearch b items with
  | (false, _), (false, _) => Ok items
  | (false, i0), (true, i1) => sw_rotate items i1 i0 a
  | (true, i0), (false, i1) => sw_rotate items i0 i1 b
  | (true, i0), (true, i1) =>
      let* items := swap_list items i0 i1 in
      let* e0 := index items i0 in
      let items := upd items i0 (a, snd e0) in
      let* e1 := index items i1 in
      Ok (upd items i1 (b, snd e1))
  end.

(** ** Rotate to back, rotate_to_back.rs.  [t] is the field `index`, [n] the field `len` which is at
    least 1 because `index < len`. *)
(** rotate_to_back.rs:42-50 *)
Definition rb_forward (t n i : nat) : nat :=
  if Nat.ltb i t then i else if Nat.eqb i t then (n - 1)%nat else (i - 1)%nat.
(** rotate_to_back.rs:52-63 *)
Definition rb_backward (t n i : nat) : nat :=
  if Nat.ltb i t then i else if Nat.ltb i (n - 1) then S i else t.
(** `*i -= 1` on an index: underflow is a panic *)
Definition dec_index {A} (e : nat * A) : res (nat * A) :=
  match e with
  | (0%nat, _) => Panic
  | (S i, v) => Ok (i, v)
  end.
(** rotate_to_back.rs:65-87 `forward_sorted` *)
Definition rb_sorted {A} (t n : nat) (items : list (nat * A)) : res (list (nat * A)) :=
  match bsearch t items with
  | (true, d) =>
      let* e := index items d in
      let items := upd items d ((n - 1)%nat, snd e) in
      let* later := mapM dec_index (skipn (S d) items) in
      let items := firstn (S d) items ++ later in
      on_slice rotl1 d (length items) items
  | (false, d) =>
      let* later := mapM dec_index (skipn d items) in
      Ok (firstn d items ++ later)
  end.
(** rotate_to_back.rs:89-117 `backward_sorted` *)
Definition rb_back_sorted {A} (t n : nat) (items : list (nat * A)) : res (list (nat * A)) :=
  match rev items with
  | [] => Ok items
  | (last, v) :: _ =>
      let d := snd (bsearch t items) in
      if Nat.eqb d (length items) then Ok items
      else if Nat.eqb last (n - 1) then
        let items := upd items (length items - 1) (t, v) in
        let* items := on_slice rotr1 d (length items) items in
        Ok (firstn (S d) items ++ map (fun '(i, v) => (S i, v)) (skipn (S d) items))
      else Ok (firstn d items ++ map (fun '(i, v) => (S i, v)) (skipn d items))
  end.
