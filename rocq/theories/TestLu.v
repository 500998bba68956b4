(** * The repository's unit tests of the basis inverse, run on the model

    These are tests of the model, not proofs: they compare what the model computes with what the repository's authors
    expect of the code.  Everything is in /repo/src/algorithm/two_phase/tableau/inverse_maintenance/carry. *)
From Verif Require Import Lu InvRows Examples ExParse ExPresolve.
From Coq Require Import List.
Local Open Scope list_scope.
Local Open Scope nat_scope.

Definition res_is {A} (f : A -> A -> bool) (r : res A) (x : A) : bool := match r with Ok y => f y x | _ => false end.
Definition svec_eqb : svec -> svec -> bool := list_eqb (pair_eqb Nat.eqb qeqb).
Definition items_eqb : list (nat * nat) -> list (nat * nat) -> bool := list_eqb (pair_eqb Nat.eqb Nat.eqb).
Definition full_eqb (a b : full) : bool := list_eqb Nat.eqb (f_fw a) (f_fw b) && list_eqb Nat.eqb (f_bw a) (f_bw b).
Definition eta_eqb (a b : eta) : bool := svec_eqb (e_values a) (e_values b) && Nat.eqb (e_pivot a) (e_pivot b).
Definition lu_eqb (a b : lu) : bool :=
  full_eqb (l_rp a) (l_rp b) && full_eqb (l_cp a) (l_cp b) && list_eqb svec_eqb (l_low a) (l_low b) && list_eqb svec_eqb (l_up a) (l_up b) &&
  list_eqb qeqb (l_diag a) (l_diag b) && list_eqb (pair_eqb eta_eqb Nat.eqb) (l_upd a) (l_upd b).
(** whole numbers *)
Definition zs (l : list (nat * Z)) : svec := map (fun '(i, v) => (i, q v 1)) l.

(** ** Permutations *)
(** lower_upper/permutation/full.rs:139-174 *)
Definition p3120 : full := full_new [3; 1; 2; 0].
Example full_forward_backward_as_expected :
  (res_is Nat.eqb (full_forward (full_identity 4) 1) 1 &&
   res_is Nat.eqb (full_forward p3120 1) 1 && res_is Nat.eqb (full_forward p3120 0) 3 && res_is Nat.eqb (full_forward p3120 3) 0 &&
   res_is Nat.eqb (full_backward p3120 1) 1 && res_is Nat.eqb (full_backward p3120 0) 3 && res_is Nat.eqb (full_backward p3120 3) 0)%bool = true.
Proof. vm_compute. reflexivity. Qed.
(** full.rs:176-195 *)
Definition four : list (nat * nat) := [(0, 0); (1, 1); (2, 2); (3, 3)].
Definition p0132 : full := full_new [0; 1; 3; 2].
Example full_back_and_forth_as_expected :
  (res_is items_eqb (let* t := map_indices (full_forward p0132) four in map_indices (full_backward p0132) t) four &&
   res_is items_eqb (let* t := map_indices (full_forward p0132) four in map_indices (full_forward (full_invert p0132)) t) four)%bool = true.
Proof. vm_compute. reflexivity. Qed.
Definition undoes (p : res full) (n : nat) : bool :=
  match p with Ok p => forallb (fun i => res_is Nat.eqb (let* j := full_forward p i in full_backward p j) i) (range 0 n) | _ => false end.
(** full.rs:197-208 *)
Example full_swap_identity_as_expected : undoes (full_swap (full_identity 3) 1 2) 3 = true.
Proof. vm_compute. reflexivity. Qed.
(** full.rs:210-228 *)
Definition p_ten : full := full_new [0; 2; 3; 1; 4; 9; 8; 7; 6; 5].
Example full_swap_non_identity_matches_as_expected :
  snd (fold_left (fun '(p, ok) '(i, j) => let p' := full_swap p i j in (match p' with Ok x => x | _ => p end, ok && undoes p' 10))%bool
         (flat_map (fun i => map (fun j => (i, j)) (range 0 10)) (range 0 10)) (p_ten, true)) = true.
Proof. vm_compute. reflexivity. Qed.
(** full.rs:230-245 *)
Definition swapped : res full := full_swap_inverse p_ten 8 5.
Example full_swap_non_identity_as_expected :
  (res_is Nat.eqb (full_forward p_ten 6) 8 && res_is Nat.eqb (full_backward p_ten 8) 6 && res_is Nat.eqb (full_forward p_ten 9) 5 && res_is Nat.eqb (full_backward p_ten 5) 9 &&
   res_is Nat.eqb (let* p := swapped in full_forward p 6) 5 && res_is Nat.eqb (let* p := swapped in full_backward p 8) 9 &&
   res_is Nat.eqb (let* p := swapped in full_forward p 9) 8 && res_is Nat.eqb (let* p := swapped in full_backward p 5) 6)%bool = true.
Proof. vm_compute. reflexivity. Qed.
(** full.rs:247-259 *)
Example full_rotate_as_expected : undoes (full_rotate_right_from (full_identity 5) 3) 5 = true.
Proof. vm_compute. reflexivity. Qed.

(** lower_upper/permutation/swap.rs:90-169 *)
Example swap_as_expected : forallb (fun '(a, b, before, after) => res_is items_eqb (sw_sorted a b before) after)
  [(4, 2, [], []); (5, 4, [], []);
   (5, 2, [(0, 1); (4, 5)], [(0, 1); (4, 5)]); (5, 0, [(1, 1); (4, 5)], [(1, 1); (4, 5)]); (3, 2, [(1, 1); (4, 5)], [(1, 1); (4, 5)]);
   (3, 1, [(1, 1); (4, 5)], [(3, 1); (4, 5)]); (5, 1, [(1, 1); (4, 5)], [(4, 5); (5, 1)]);
   (4, 0, [(1, 1); (4, 5)], [(0, 5); (1, 1)]); (4, 3, [(1, 1); (4, 5)], [(1, 1); (3, 5)]);
   (4, 0, [(0, 1); (4, 5)], [(0, 5); (4, 1)]); (4, 0, [(0, 1); (4, 5); (6, 10)], [(0, 5); (4, 1); (6, 10)]);
   (6, 0, [(0, 1); (4, 5); (6, 10)], [(0, 10); (4, 5); (6, 1)]); (6, 4, [(0, 1); (4, 5); (6, 10)], [(0, 1); (4, 10); (6, 5)]);
   (5, 1, [(1, 1); (2, 2); (3, 3); (6, 5)], [(2, 2); (3, 3); (5, 1); (6, 5)]);
   (5, 1, [(2, 2); (3, 3); (5, 5); (6, 6)], [(1, 5); (2, 2); (3, 3); (6, 6)])] = true.
Proof. vm_compute. reflexivity. Qed.
(** lower_upper/permutation/rotate_to_back.rs:135-185: index, length, items, moved forward, moved backward *)
Definition three : list (nat * nat) := [(0, 0); (1, 1); (2, 2)].
Definition gap : list (nat * nat) := [(0, 0); (1, 1); (3, 3)].
Example rotate_to_back_as_expected :
  forallb (fun '(t, n, items, forward, backward) => res_is items_eqb (rb_sorted t n items) forward && res_is items_eqb (rb_back_sorted t n items) backward)%bool
  [(2, 3, three, three, three); (1, 3, three, [(0, 0); (1, 2); (2, 1)], [(0, 0); (1, 2); (2, 1)]);
   (2, 4, gap, [(0, 0); (1, 1); (2, 3)], [(0, 0); (1, 1); (2, 3)]); (1, 4, gap, [(0, 0); (2, 3); (3, 1)], [(0, 0); (1, 3); (2, 1)])] = true.
Proof. vm_compute. reflexivity. Qed.
(** rotate_to_back.rs:187-208 *)
Example rotate_back_and_forth_as_expected :
  (forallb (fun t => items_eqb (map (fun '(i, v) => (rb_backward t 4 (rb_forward t 4 i), v)) four) four) [0; 1; 3] &&
   items_eqb (map (fun '(i, v) => (rb_forward 3 4 i, v)) four) four)%bool = true.
Proof. vm_compute. reflexivity. Qed.

(** ** Eta files: lower_upper/eta_file.rs:165-262.  Values, pivot, vector, vector multiplied from the right and from the left. *)
Definition eta_test (values : list (nat * Z)) (pivot : nat) (v right left : list (nat * Z)) : bool :=
  (res_is svec_eqb (eta_right (mk_eta (zs values) pivot) (zs v)) (zs right) && res_is svec_eqb (eta_left (mk_eta (zs values) pivot) (zs v)) (zs left))%bool.
Definition v3 : list (nat * Z) := [(0, 13%Z); (1, 17%Z); (2, 19%Z)].
Definition right_many : list (nat * Z) := [(0, 17%Z); (1, 19%Z); (3, 23%Z); (5, 29%Z); (6, 31%Z); (9, 37%Z); (11, 41%Z)].
Definition left_many : list (nat * Z) := [(0, 13%Z); (1, 19%Z); (3, 23%Z); (5, 29%Z); (6, 31%Z); (9, 37%Z); (11, 41%Z)].
Definition eta_many : eta := mk_eta (zs [(1, 2%Z); (2, 3%Z); (5, 5%Z); (7, 7%Z); (11, 11%Z); (12, 13%Z)]) 0.
Example eta_as_expected :
  (eta_test [] 0 [(0, 1%Z)] [(0, 1%Z)] [(0, 1%Z)] && eta_test [] 1 [(0, 1%Z)] [(0, 1%Z)] [(0, 1%Z)] &&
   eta_test [(1, 1%Z)] 0 [(0, 13%Z); (1, 17%Z)] [(0, (13 - 17)%Z); (1, 17%Z)] [(0, 13%Z); (1, (17 - 13)%Z)] && eta_test [(1, 1%Z)] 0 [] [] [] &&
   eta_test [(1, 5%Z); (2, 7%Z)] 0 v3 [(0, (13 - 5 * 17 - 7 * 19)%Z); (1, 17%Z); (2, 19%Z)] [(0, 13%Z); (1, (-5 * 13 + 17)%Z); (2, (-7 * 13 + 19)%Z)] &&
   eta_test [(1, 5%Z)] 0 v3 [(0, (13 - 5 * 17)%Z); (1, 17%Z); (2, 19%Z)] [(0, 13%Z); (1, (-5 * 13 + 17)%Z); (2, 19%Z)] &&
   eta_test [(2, 5%Z)] 0 v3 [(0, (13 - 5 * 19)%Z); (1, 17%Z); (2, 19%Z)] [(0, 13%Z); (1, 17%Z); (2, (-5 * 13 + 19)%Z)] &&
   res_is svec_eqb (eta_right eta_many (zs right_many)) (zs [(0, (17 - 2 * 19 - 5 * 29 - 11 * 41)%Z); (1, 19%Z); (3, 23%Z); (5, 29%Z); (6, 31%Z); (9, 37%Z); (11, 41%Z)]) &&
   res_is svec_eqb (eta_left eta_many (zs left_many))
     (zs [(0, 13%Z); (1, (19 - 2 * 13)%Z); (2, (-3 * 13)%Z); (3, 23%Z); (5, (29 - 5 * 13)%Z); (6, 31%Z); (7, (-7 * 13)%Z); (9, 37%Z); (11, (41 - 11 * 13)%Z); (12, (-13 * 13)%Z)]))%bool = true.
Proof. vm_compute. reflexivity. Qed.

(** ** Factorization: lower_upper/decomposition/mod.rs *)
(** decomposition/mod.rs:319-446: rows, row permutation, lower and upper triangular part and diagonal *)
Definition factored (rows : list svec) (rp : full) (low up : list svec) (diag : list Qc) : bool :=
  res_is lu_eqb (lu_rows rows) (mk_lu rp (full_identity (length rows)) low up diag []).
Example lu_factorization_as_expected :
  (factored [zs [(0, 1%Z)]; zs [(1, 1%Z)]] (full_identity 2) [[]] [[]] [q 1 1; q 1 1] &&
   factored [zs [(0, 1%Z)]; zs [(1, 1%Z)]; zs [(2, 1%Z)]] (full_identity 3) [[]; []] [[]; []] [q 1 1; q 1 1; q 1 1] &&
   factored [zs [(0, 1%Z); (1, 1%Z)]; zs [(1, 1%Z)]] (full_identity 2) [[]] [zs [(0, 1%Z)]] [q 1 1; q 1 1] &&
   factored [zs [(0, 1%Z)]; zs [(0, 1%Z); (1, 1%Z)]] (full_identity 2) [zs [(1, 1%Z)]] [[]] [q 1 1; q 1 1] &&
   factored [zs [(0, 1%Z); (1, 1%Z)]; zs [(0, 1%Z)]] (full_new [1; 0]) [zs [(1, 1%Z)]] [[]] [q 1 1; q 1 1] &&
   factored [zs [(0, 4%Z); (1, 3%Z)]; zs [(0, 6%Z); (1, 3%Z)]] (full_identity 2) [[(1, q 3 2)]] [[(0, q 3 1)]] [q 4 1; q (-3) 2] &&
   factored [[(0, q (-1) 1); (1, q 3 2)]; [(0, q 1 1); (1, q (-1) 1)]] (full_identity 2) [[(1, q (-1) 1)]] [[(0, q 3 2)]] [q (-1) 1; q 1 2])%bool = true.
Proof. vm_compute. reflexivity. Qed.
Definition left_is (l : lu) (a expected : svec) : bool := res_is svec_eqb (let* c := lu_left l a in Ok (cs_column c)) expected.
Definition right_is (l : lu) (a expected : svec) : bool := res_is svec_eqb (lu_right l a) expected.
Definition row_is (l : lu) (i : nat) (expected : svec) : bool := res_is svec_eqb (lu_row l i) expected.
(** decomposition/mod.rs:437-444 *)
Example lu_wikipedia_example2_as_expected :
  match lu_rows [[(0, q (-1) 1); (1, q 3 2)]; [(0, q 1 1); (1, q (-1) 1)]] with
  | Ok l => left_is l [(0, q 1 1)] [(0, q 2 1); (1, q 2 1)] && left_is l [(1, q 1 1)] [(0, q 3 1); (1, q 2 1)]
  | _ => false
  end%bool = true.
Proof. vm_compute. reflexivity. Qed.
(** decomposition/mod.rs:448-478: the columns and rows of a matrix, multiplied by its inverse *)
Definition dense_row (r : list Z) : svec := filter (fun '(_, v) => negb (qzero v)) (combine (seq 0 (length r)) (map (fun z => q z 1) r)).
Definition dense_column (rows : list (list Z)) (j : nat) : svec := dense_row (map (fun r => nth j r 0%Z) rows).
Definition test_matrix (rows : list (list Z)) : bool :=
  match lu_rows (map dense_row rows) with
  | Ok l => forallb (fun j => left_is l (dense_column rows j) [(j, q 1 1)] && right_is l (dense_row (nth j rows [])) [(j, q 1 1)])%bool (range 0 (length rows))
  | _ => false
  end.
(** decomposition/mod.rs:481 *)
Example lu_test_3x3_as_expected : test_matrix [[2; 3; 0]; [5; 0; 11]; [23; 29; 0]]%Z = true.
Proof. vm_compute. reflexivity. Qed.
(** decomposition/mod.rs:490 *)
Example lu_test_4x4_1_as_expected : test_matrix [[2; 3; 0; 5]; [5; 0; 11; 13]; [23; 29; 0; 57]; [31; 37; 41; 0]]%Z = true.
Proof. vm_compute. reflexivity. Qed.
(** decomposition/mod.rs:500 *)
Example lu_test_4x4_2_as_expected : test_matrix [[(-101); 0; 0; (-5)]; [(-110); (-81); 0; 0]; [0; 0; 1; (-111)]; [0; 93; 69; 0]]%Z = true.
Proof. vm_compute. reflexivity. Qed.
(** decomposition/mod.rs:510 *)
Example lu_test_4x4_3_as_expected : test_matrix [[0; 0; (-84); 122]; [0; 9; 0; 0]; [(-39); 115; 0; 57]; [0; (-12); 121; 0]]%Z = true.
Proof. vm_compute. reflexivity. Qed.
(** decomposition/mod.rs:520 *)
Example lu_test_5x5_banded_as_expected : test_matrix [[2; 3; 0; 0; 0]; [5; 7; 11; 0; 0]; [0; 29; 13; 57; 0]; [0; 0; 41; 17; 0]; [0; 0; 0; 53; 51]]%Z = true.
Proof. vm_compute. reflexivity. Qed.
(** decomposition/mod.rs:531 *)
Example lu_test_5x5_1_as_expected : test_matrix [[29; 23; 0; 19; 0]; [0; 0; 17; 13; 0]; [0; 0; 7; 0; 0]; [5; 0; 0; 3; 0]; [0; 0; 0; 0; 2]]%Z = true.
Proof. vm_compute. reflexivity. Qed.
(** decomposition/mod.rs:542 *)
Example lu_test_5x5_2_as_expected : test_matrix [[29; 23; 0; 19; 0]; [0; 0; 17; 13; 0]; [0; 11; 7; 0; 0]; [5; 0; 0; 3; 0]; [0; 0; 0; 0; 2]]%Z = true.
Proof. vm_compute. reflexivity. Qed.
(** decomposition/mod.rs:553 *)
Example lu_test_5x5_3_as_expected : test_matrix [[2; 3; 0; 5; 7]; [5; 0; 11; 13; 17]; [23; 29; 0; 57; 59]; [31; 37; 41; 0; 0]; [43; 0; 47; 53; 51]]%Z = true.
Proof. vm_compute. reflexivity. Qed.
(** decomposition/mod.rs:564 *)
Example lu_test_5x5_4_as_expected : test_matrix [[2; 3; 0; 5; 7]; [5; 0; 11; 13; 17]; [23; 29; 0; 57; 59]; [31; 37; 41; 0; 0]; [43; 0; 47; 53; 51]]%Z = true.
Proof. vm_compute. reflexivity. Qed.
(** decomposition/mod.rs:575 *)
Example lu_test_5x5_5_as_expected : test_matrix [[0; 54; 43; 0; 84]; [4; 0; 0; 0; 0]; [0; (-111); (-27); 0; (-86)]; [(-6); 0; 0; 17; (-62)]; [(-109); 0; 0; 0; (-104)]]%Z = true.
Proof. vm_compute. reflexivity. Qed.
(** decomposition/mod.rs:586 *)
Example lu_test_5x5_6_as_expected : test_matrix [[(-71); (-124); 0; 0; (-108)]; [0; 66; (-121); (-74); (-53)]; [0; 104; 0; 0; 0]; [0; 55; 0; 1; (-3)]; [93; 0; 0; 0; 104]]%Z = true.
Proof. vm_compute. reflexivity. Qed.
(** decomposition/mod.rs:597 *)
Example lu_test_6x6_1_as_expected : test_matrix [[0; 0; 0; (-25); 0; 0]; [(-15); 79; 0; 0; 0; 0]; [0; 0; 0; 0; 0; 14]; [0; 0; 0; (-114); (-61); 0]; [0; 0; 109; 0; 0; (-126)]; [46; 0; 0; 50; 21; 0]]%Z = true.
Proof. vm_compute. reflexivity. Qed.
(** decomposition/mod.rs:609 *)
Example lu_test_6x6_2_as_expected : test_matrix [[0; 0; (-26); (-68); 84; 0]; [(-125); 43; 0; 0; 0; (-63)]; [0; 0; 1; 90; 0; 0]; [0; (-81); 0; 0; 0; 0]; [(-15); 0; 0; (-81); 0; 0]; [0; (-12); 0; 0; 0; 1]]%Z = true.
Proof. vm_compute. reflexivity. Qed.
(** decomposition/mod.rs:621 *)
Example lu_test_10x10_1_as_expected : test_matrix [[0; 0; 0; 0; 0; 0; (-60); 0; (-10); 0]; [0; 0; 0; 0; 0; 0; 0; (-84); 0; 0]; [0; (-105); 0; 0; 0; 0; 0; 0; 0; 0]; [0; 0; 0; (-25); 0; 0; 0; 0; 116; 0]; [0; 0; 0; 0; (-18); 0; 0; 0; 0; 0]; [0; 0; 0; (-72); 0; 0; 0; 0; 0; 0]; [0; 0; 16; 48; 0; 0; 0; 0; 0; 0]; [(-57); 0; 0; (-88); 107; 0; 0; 0; 0; 0]; [(-122); (-108); 0; 0; 0; 91; 0; 0; (-127); 0]; [0; 85; 0; 0; 106; 0; 0; 0; 0; (-121)]]%Z = true.
Proof. vm_compute. reflexivity. Qed.
(** decomposition/mod.rs:637 *)
Example lu_test_11x11_1_as_expected : test_matrix [[0; 0; 0; 0; 0; 0; 0; 0; 0; (-13); 0]; [0; 0; 0; 0; 0; 0; 0; 0; 0; 0; (-122)]; [0; 0; 0; 0; 0; 102; 82; 0; 0; 0; 13]; [0; 0; 0; 0; 0; (-107); (-39); 0; 0; 0; 0]; [0; 0; 0; 0; 0; 0; (-39); 48; (-113); 0; 0]; [24; 0; 0; 0; 0; 0; 0; 0; 0; (-93); (-120)]; [(-111); 0; 0; (-81); 0; 0; 0; 0; 0; 0; 0]; [0; 0; 0; 0; 0; 82; 0; 0; 76; 0; 0]; [0; 0; (-51); 0; 0; 0; 126; 0; 0; 0; (-105)]; [0; 118; 0; 0; 0; 0; 0; 0; 0; 0; 27]; [0; 0; 120; 0; (-31); 0; 0; 0; 0; 0; 0]]%Z = true.
Proof. vm_compute. reflexivity. Qed.

(** decomposition/mod.rs:650-714 *)
Example sub_mult_as_expected :
  forallb (fun '(a, ratio, b, expected) => svec_eqb (fst (fst (sub_mult ratio (zs a) (zs b)))) (zs expected))
  [([], q 1 1, [], []); ([], q 1 1, [(1, 1%Z)], [(1, (-1)%Z)]); ([(1, 1%Z)], q 1 1, [], [(1, 1%Z)]); ([(1, 1%Z)], q 1 1, [(2, 3%Z)], [(1, 1%Z); (2, (-3)%Z)]);
   ([(1, 1%Z)], q 1 1, [(1, 3%Z)], [(1, (-2)%Z)]); ([(1, 1%Z)], q 1 3, [(1, 3%Z)], []); ([(1, 1%Z)], q 1 1, [(0, 3%Z)], [(0, (-3)%Z); (1, 1%Z)])] = true.
Proof. vm_compute. reflexivity. Qed.

(** ** Multiplication and change of basis: lower_upper/mod.rs *)
Definition two_identity : lu := mk_lu (full_identity 2) (full_identity 2) [[]] [[]] [q 1 1; q 1 1] [].
(** mod.rs:536-601 *)
Definition unchanged (v : list (nat * Z)) : bool :=
  (res_is svec_eqb (upper_left two_identity 3 (zs v) []) (zs v) && res_is svec_eqb (upper_right two_identity 3 (zs v)) (zs v) &&
   res_is svec_eqb (lower_left two_identity 3 (zs v)) (zs v) && res_is svec_eqb (lower_right two_identity 3 (zs v) []) (zs v))%bool.
Example identity_multiplication_as_expected : (res_is lu_eqb (lu_identity 2) two_identity && unchanged [] && unchanged [(0, 1%Z)] && unchanged [(1, 1%Z)] && unchanged [(0, 1%Z); (1, 1%Z)])%bool = true.
Proof. vm_compute. reflexivity. Qed.
(** mod.rs:603-646 *)
Definition offdiag : lu := mk_lu (full_identity 2) (full_identity 2) [zs [(1, 1%Z)]] [[]] [q 1 1; q 1 1] [].
Example offdiagonal_as_expected : (left_is offdiag [] [] && left_is offdiag (zs [(0, 1%Z)]) (zs [(0, 1%Z); (1, (-1)%Z)]) && left_is offdiag (zs [(1, 1%Z)]) (zs [(1, 1%Z)]))%bool = true.
Proof. vm_compute. reflexivity. Qed.
(** mod.rs:648-688 *)
Definition dense : lu := mk_lu (full_new [1; 0]) (full_new [0; 1]) [[(1, q 1 3)]] [[(0, q 4 1)]] [q 3 1; q 2 3] [].
Example dense_as_expected :
  (left_is dense (zs [(0, 1%Z)]) [(0, q (-2) 1); (1, q 3 2)] && left_is dense (zs [(1, 1%Z)]) [(0, q 1 1); (1, q (-1) 2)] &&
   right_is dense (zs [(0, 1%Z)]) [(0, q (-2) 1); (1, q 1 1)] && right_is dense (zs [(1, 1%Z)]) [(0, q 3 2); (1, q (-1) 2)])%bool = true.
Proof. vm_compute. reflexivity. Qed.
(** mod.rs:690-957: the decomposition, the pivot row, the spike and the expected new decomposition *)
Definition changed_to (l : lu) (row : nat) (spike : svec) (expected : lu) : bool := res_is lu_eqb (let* c := lu_change l row (mk_cs spike spike) in Ok (fst c)) expected.
Definition ident (m : nat) (low up : list svec) (diag : list Qc) (upd : list (eta * nat)) : lu := mk_lu (full_identity m) (full_identity m) low up diag upd.
Definition one_m (m : nat) : lu := ident m (repeat [] (m - 1)) (repeat [] (m - 1)) (repeat (q 1 1) m) [].
Definition before4 : lu := ident 4 [[]; []; []] [[]; []; zs [(1, 5%Z)]] [q 1 1; q 1 1; q 4 1; q 6 1] [].
Definition after4 : lu := ident 4 [[]; []; []] [[]; []; zs [(1, 3%Z); (2, 4%Z)]] [q 1 1; q 4 1; q 6 1; q (-8) 6] [(mk_eta [(3, q 5 6)] 1, 1)].
Definition before5 : lu := ident 5 [[]; []; []; []]
  [zs [(0, 12%Z)]; zs [(0, 13%Z); (1, 23%Z)]; zs [(0, 14%Z); (1, 24%Z); (2, 34%Z)]; zs [(0, 15%Z); (1, 25%Z); (2, 35%Z); (3, 45%Z)]]
  [q 11 1; q 22 1; q 33 1; q 44 1; q 55 1] [].
Definition after5 : lu := ident 5 [[]; []; []; []]
  [zs [(0, 13%Z)]; zs [(0, 14%Z); (1, 34%Z)]; zs [(0, 15%Z); (1, 35%Z); (2, 45%Z)]; zs [(0, 12%Z); (1, 32%Z); (2, 42%Z)]]
  [q 11 1; q 33 1; q 44 1; q 55 1; q (-215) 363] [(mk_eta [(2, q 23 33); (3, q (24 * 33 - 34 * 23) (33 * 44)); (4, q 43 7986)] 1, 1)].
Example change_basis_as_expected :
  (changed_to (one_m 3) 1 (zs [(1, 1%Z)]) (ident 3 [[]; []] [[]; []] [q 1 1; q 1 1; q 1 1] [(mk_eta [] 1, 1)]) &&
   changed_to (one_m 2) 0 (zs [(0, 1%Z); (1, 1%Z)]) (ident 2 [[]] [zs [(0, 1%Z)]] [q 1 1; q 1 1] [(mk_eta [] 0, 0)]) &&
   changed_to (one_m 5) 1 (zs [(0, 2%Z); (1, 3%Z); (2, 5%Z); (3, 7%Z)])
     (ident 5 [[]; []; []; []] [[]; []; []; zs [(0, 2%Z); (1, 5%Z); (2, 7%Z)]] [q 1 1; q 1 1; q 1 1; q 1 1; q 3 1] [(mk_eta [] 1, 1)]) &&
   changed_to before4 1 (zs [(1, 2%Z); (2, 3%Z); (3, 4%Z)]) after4 &&
   changed_to before5 1 (zs [(0, 12%Z); (1, 22%Z); (2, 32%Z); (3, 42%Z)]) after5)%bool = true.
Proof. vm_compute. reflexivity. Qed.
Example after4_as_expected :
  (left_is after4 (zs [(0, 1%Z)]) (zs [(0, 1%Z)]) && left_is after4 (zs [(1, 1%Z)]) [(1, q (-3) 4); (2, q 9 16); (3, q 1 2)] &&
   left_is after4 (zs [(2, 1%Z)]) [(2, q 1 4)] && left_is after4 (zs [(3, 1%Z)]) [(1, q 5 8); (2, q (-15) 32); (3, q (-1) 4)] &&
   row_is after4 0 (zs [(0, 1%Z)]) && row_is after4 1 [(1, q (-3) 4); (3, q 5 8)] && row_is after4 2 [(1, q 9 16); (2, q 1 4); (3, q (-15) 32)] &&
   row_is after4 3 [(1, q 1 2); (3, q (-1) 4)])%bool = true.
Proof. vm_compute. reflexivity. Qed.
Example after5_as_expected :
  (left_is after5 (zs [(0, 1%Z)]) [(0, q 1 11)] && left_is after5 (zs [(1, 1%Z)]) [(0, q (-2) 11); (1, q (-363) 215); (2, q (-1) 43); (3, q 693 430)] &&
   left_is after5 (zs [(2, 1%Z)]) [(0, q 1 11); (1, q 253 215); (2, q 2 43); (3, q (-483) 430)] && left_is after5 (zs [(3, 1%Z)]) [(1, q 1 86); (2, q (-1) 43); (3, q 1 86)] &&
   left_is after5 (zs [(4, 1%Z)]) [(1, q 1 110); (3, q (-3) 110); (4, q 1 55)] &&
   left_is after5 (zs [(0, 1%Z); (1, 1%Z)]) [(0, q (-1) 11); (1, q (-363) 215); (2, q (-1) 43); (3, q 693 430)] &&
   row_is after5 0 [(0, q 1 11); (1, q (-2) 11); (2, q 1 11)] && row_is after5 1 [(1, q (-363) 215); (2, q 253 215); (3, q 1 86); (4, q 1 110)] &&
   row_is after5 2 [(1, q (-1) 43); (2, q 2 43); (3, q (-1) 43)] && row_is after5 3 [(1, q 693 430); (2, q (-483) 430); (3, q 1 86); (4, q (-3) 110)] &&
   row_is after5 4 [(4, q 1 55)])%bool = true.
Proof. vm_compute. reflexivity. Qed.

(** ** Rows of the inverse: basis_inverse_rows.rs:291-331 *)
Example basis_inverse_rows_as_expected :
  (res_is (list_eqb svec_eqb) (bir_invert [zs [(0, 1%Z)]; zs [(1, 1%Z)]]) [zs [(0, 1%Z)]; zs [(1, 1%Z)]] &&
   res_is (list_eqb svec_eqb) (bir_invert [zs [(0, 1%Z); (1, 1%Z)]; zs [(1, 1%Z)]]) [zs [(0, 1%Z)]; zs [(0, (-1)%Z); (1, 1%Z)]] &&
   res_is (list_eqb svec_eqb) (let* r := bir_identity 2 in bir_remove r [1]) [zs [(0, 1%Z)]])%bool = true.
Proof. vm_compute. reflexivity. Qed.
