(** * Concrete MPS programs *)
From Verif Require Import Examples ExGeneral ConvertP BoundsP SpecMps.
Local Open Scope Qc_scope.

Definition semib (t : bound_type) : bool := match t with SemiContinuous _ _ => true | _ => false end.
Fixpoint increasingb (lo : nat) (l : list nat) : bool := match l with [] => true | x :: t => Nat.leb lo x && increasingb (S x) t end.
Definition mps_okb (m : mps) : bool :=
  increasingb 0 (map fst (m_costs m)) && forallb (fun e => Nat.ltb (fst e) (length (m_columns m))) (m_costs m) &&
  forallb (fun e => Nat.ltb (fst e) (length (m_rows m))) (ungroup (m_rhss m)) &&
  forallb (fun e => Nat.ltb (fst e) (length (m_rows m))) (ungroup (m_ranges m)) &&
  forallb (fun e => Nat.ltb (fst e) (length (m_columns m)) && negb (semib (snd e))) (ungroup (m_bounds m)).
Lemma increasingb_ok : forall l lo, increasingb lo l = true -> increasing_from lo l.
Proof. induction l as [|x l IH]; intros lo; cbn [increasingb increasing_from]; [trivial|]. rewrite andb_true_iff. intros [A B]. apply Nat.leb_le in A. split; [assumption|now apply IH]. Qed.
Lemma mps_okb_ok m : mps_okb m = true -> mps_ok m.
Proof.
  unfold mps_okb. rewrite !andb_true_iff, !forallb_forall. intros [[[[A B] C] D] E]. constructor.
  - now apply increasingb_ok.
  - intros j c H. specialize (B _ H). cbn in B. now apply Nat.ltb_lt.
  - intros i b H. specialize (C _ H). now apply Nat.ltb_lt.
  - intros i b H. specialize (D _ H). now apply Nat.ltb_lt.
  - intros j t H. specialize (E _ H). cbn in E. apply andb_true_iff in E. destruct E as [E1 E2]. split; [now apply Nat.ltb_lt|]. intros S. destruct t; try (destruct S; fail). discriminate.
Qed.
Local Open Scope string_scope.
Local Notation entries := (map (fun '(i, v) => (i, zq v))).
(** min -x + 2z with rows  c1: x + 2y <= 10 and <= 8,  c2: y - z >= 2 with range 3,  c3: x + 3z = 4 with range -1, and
    bounds x <= 4, x >= -1, y free, z <= 6 integer *)
Definition ex_mps : mps :=
  mk_mps "example" Minimize "cost" (entries [(0%nat, (-1)%Z); (2%nat, 2%Z)])
    [mk_mrow "c1" KLess; mk_mrow "c2" KGreater; mk_mrow "c3" KEqual]
    [mk_mcolumn "x" false (entries [(0%nat, 1%Z); (2%nat, 1%Z)]); mk_mcolumn "y" false (entries [(0%nat, 2%Z); (1%nat, 1%Z)]);
     mk_mcolumn "z" false (entries [(1%nat, (-1)%Z); (2%nat, 3%Z)])]
    [mk_group "rhs" (entries [(0%nat, 10%Z); (1%nat, 2%Z); (2%nat, 4%Z)]); mk_group "more" (entries [(0%nat, 8%Z)])]
    [mk_group "rng" (entries [(1%nat, 3%Z); (2%nat, (-1)%Z)])]
    [mk_group "bnd" [(0%nat, UpperContinuous (zq 4)); (0%nat, LowerContinuous (zq (-1))); (1%nat, Free); (2%nat, UpperInteger (zq 6))]].
Definition got_with (o : out general) (p : general -> bool) : bool := match o with Got g => p g | _ => false end.
Lemma got_with_ok o p : got_with o p = true -> exists g, o = Got g /\ p g = true.
Proof. destruct o as [g| |]; cbn; [intros H; now exists g|discriminate|discriminate]. Qed.
Lemma ex_mps_ok : mps_ok ex_mps. Proof. now apply mps_okb_ok. Qed.
Lemma ex_mps_solvable : mps_solvable ex_mps.
Proof.
  constructor.
  - apply ex_mps_ok.
  - intros c [<-|[<-|[<-|[]]]]; apply fwfb_ok; reflexivity.
  - intros i r H. destruct H as [H|[H|[]]]; injection H as <- <-; [exists (zq 2)|exists (zq 4)]; cbn; tauto.
  - intros j L. exists 0. split.
    + intros t H. repeat (destruct H as [H|H]; [injection H as <- <-; cbn; try exact I; try apply qleb_true; try reflexivity|]). destruct H.
    + intros _. apply Qcle_refl.
Qed.
Definition ex_mps_answer : solution := mk_solution (zq (-4)) [("x", zq 4); ("y", zq 2); ("z", 0)].
Lemma ex_mps_solved : exists g, to_general ex_mps = Got g /\ forall r n, solve_general r n 40 g = Ok (Solved_to ex_mps_answer).
Proof.
  assert (H : got_with (to_general ex_mps) (fun g => forallb (fun '(r, n) => answer_is (solve_general r n 40 g) (Solved_to ex_mps_answer))
     [(UseRows, FirstProfitable); (UseRows, FirstProfitableWithMemory); (UseRows, DescentAlongVariable); (UseRows, DescentAlongObjective); (UseLU, DescentAlongVariable); (UseLU, FirstProfitable); (UseLU, FirstProfitableWithMemory); (UseLU, DescentAlongObjective)])%bool = true) by (vm_compute; reflexivity).
  apply got_with_ok in H. destruct H as (g & E & H). exists g. split; [assumption|]. rewrite forallb_forall in H. intros r n. apply answer_is_ok. apply (H (r, n)). destruct r, n; cbn; tauto.
Qed.
Lemma ex_mps_converts : exists g, to_general ex_mps = Got g. Proof. destruct ex_mps_solved as (g & E & _). now exists g. Qed.
(** a program with one row of kind [k], range [r] and right-hand sides [b] *)
Definition one_row (k : relation_kind) (r : Z) (b : list Z) : mps :=
  mk_mps "one" Minimize "cost" [] [mk_mrow "c" k] [mk_mcolumn "x" false [(0%nat, 1)]] (map (fun v => mk_group "rhs" [(0%nat, zq v)]) b) [mk_group "rng" [(0%nat, zq r)]] [].
Lemma default_greater_wrong : exists m g i r v, mps_ok m /\ to_general m = Got g /\ kind_of m i = KGreater /\ given_range m i r /\ 0 < r /\ (forall b, ~ given_rhs m i b) /\
  range_holds KGreater 0 r v /\ ~ rel_holds (row_type g i) (nthq (g_b g) i) v.
Proof.
  exists (one_row KGreater 4 []). destruct (to_general (one_row KGreater 4 [])) as [g| |] eqn:E; [|discriminate|discriminate].
  assert (OK : mps_ok (one_row KGreater 4 [])) by now apply mps_okb_ok. exists g, 0%nat, (zq 4), 1. split; [exact OK|]. split; [reflexivity|]. split; [reflexivity|].
  assert (Hr : given_range (one_row KGreater 4 []) 0 (zq 4)) by now left. assert (NB : forall b, ~ given_rhs (one_row KGreater 4 []) 0 b) by (intros b []).
  split; [exact Hr|]. split; [reflexivity|]. split; [exact NB|]. split; [split; apply qleb_true; reflexivity|].
  destruct (converted_default _ g 0 (zq 4) OK E Hr NB) as [-> ->]. intros [_ H]. now apply qleb_true in H.
Qed.
Lemma default_equal_wrong : exists m g i r v, mps_ok m /\ to_general m = Got g /\ kind_of m i = KEqual /\ given_range m i r /\ 0 < r /\ (forall b, ~ given_rhs m i b) /\
  range_holds KEqual 0 r v /\ ~ rel_holds (row_type g i) (nthq (g_b g) i) v.
Proof.
  exists (one_row KEqual 4 []). destruct (to_general (one_row KEqual 4 [])) as [g| |] eqn:E; [|discriminate|discriminate].
  assert (OK : mps_ok (one_row KEqual 4 [])) by now apply mps_okb_ok. exists g, 0%nat, (zq 4), 1. split; [exact OK|]. split; [reflexivity|]. split; [reflexivity|].
  assert (Hr : given_range (one_row KEqual 4 []) 0 (zq 4)) by now left. assert (NB : forall b, ~ given_rhs (one_row KEqual 4 []) 0 b) by (intros b []).
  split; [exact Hr|]. split; [reflexivity|]. split; [exact NB|]. split; [split; apply qleb_true; reflexivity|].
  destruct (converted_default _ g 0 (zq 4) OK E Hr NB) as [-> ->]. intros [_ H]. now apply qleb_true in H.
Qed.
Lemma default_negative_wrong : forall k, exists m g i r v, mps_ok m /\ to_general m = Got g /\ kind_of m i = k /\ given_range m i r /\ r < 0 /\ (forall b, ~ given_rhs m i b) /\
  range_holds k 0 r v /\ forall w, ~ rel_holds (row_type g i) (nthq (g_b g) i) w.
Proof.
  intros k. exists (one_row k (-4) []). destruct (to_general (one_row k (-4) [])) as [g| |] eqn:E; [|destruct k; discriminate|destruct k; discriminate].
  assert (OK : mps_ok (one_row k (-4) [])) by (apply mps_okb_ok; now destruct k). exists g, 0%nat, (zq (-4)), 0. split; [exact OK|]. split; [reflexivity|]. split; [reflexivity|].
  assert (Hr : given_range (one_row k (-4) []) 0 (zq (-4))) by now left. assert (NB : forall b, ~ given_rhs (one_row k (-4) []) 0 b) by (intros b []).
  split; [exact Hr|]. split; [reflexivity|]. split; [exact NB|]. split; [destruct k; split; apply qleb_true; reflexivity|].
  destruct (converted_default _ g 0 (zq (-4)) OK E Hr NB) as [-> ->]. intros w [H1 H2]. change (0 - zq (-4)) with (zq 4) in H1. assert (zq 4 <= 0) by (apply Qcle_trans with w; assumption). now apply qleb_true in H.
Qed.
Lemma repeated_rejected : exists m, mps_ok m /\ mps_consistent m /\ to_general m = Rejected Inconsistent.
Proof.
  exists (one_row KEqual 4 [3; 3]%Z). split; [now apply mps_okb_ok|]. split; [|reflexivity]. constructor.
  - intros j t [].
  - repeat constructor. intros [].
  - intros i r b b' _ [H|[H|[]]] [K|[K|[]]]; congruence.
  - intros i b b' _ [H|[H|[]]] [K|[K|[]]]; congruence.
Qed.
(** a program in which a variable is free and bounded *)
Definition ex_conflict : mps :=
  mk_mps "conflict" Minimize "cost" [] [] [mk_mcolumn "x" false []] [] [] [mk_group "a" [(0%nat, Free)]; mk_group "b" [(0%nat, UpperContinuous (zq 4))]].
Lemma ex_conflict_case : mps_ok ex_conflict /\ stated ex_conflict 0 Free /\ stated ex_conflict 0 (UpperContinuous (zq 4)).
Proof. split; [now apply mps_okb_ok|]. split; [now left|right; now left]. Qed.
