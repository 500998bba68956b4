(** * Further cases that meet the hypotheses of theorems *)
From Verif Require Import SpecFile SpecFixed TextPipeline TextPresolve TextP FixedP FileP ExParse Examples ExGeneral ExAnswers ExFixed ExFSides TextSolveP TextPresolveP SpecScale ScaleP FactorP ScaleRunP ScaleQ ExScale ExWarm.
Local Open Scope string_scope.
Local Open Scope list_scope.

(** ** The files without a solution and without a bound, read in fixed format and presolved *)
Lemma two_fixed_ok name sense cx cy ax ay bx by_ lim1 lim2 : name_okb name = true -> fixed_ok (two_file name sense cx cy ax ay bx by_ lim1 lim2).
Proof.
  intros N. constructor; cbn [two_file f_name f_sense f_rows f_columns f_rhs f_ranges f_bounds].
  - exact (file_ok_rules _ (two_ok _ _ _ _ _ _ _ _ _ _ N)).
  - intros k r H. cbn in H. repeat (destruct H as [H|H]; [injection H as <- <-; split; [now apply fixed_nameb_ok|split; discriminate]|]). destruct H.
  - intros c values H. cbn in H. repeat (destruct H as [H|H]; [first [discriminate H|injection H as <- <-; split; [now apply fixed_nameb_ok|now apply fixed_firstb_ok]]|]). destruct H.
  - intros g values H. cbn in H. repeat (destruct H as [H|H]; [injection H as <- <-; split; [now apply fixed_nameb_ok|left; now apply fixed_firstb_ok]|]). destruct H.
  - intros g values [].
  - intros t g c [].
Qed.
Lemma no_point_fixed_spelled : fixed_spells no_point no_point_file.
Proof.
  assert (T : text_of (into_lines no_point) no_point) by (apply text_split; vm_compute; reflexivity).
  exists (into_lines no_point). split; [|exact T]. clear T.
  exists "          NOPOINT", [], (firstn 3 (skipn 2 (into_lines no_point))), (firstn 1 (skipn 1 (into_lines no_point))), (firstn 4 (skipn 6 (into_lines no_point))), (firstn 2 (skipn 10 (into_lines no_point))), [], [].
  split; [apply (spaced_split "          NOPOINT"); reflexivity|].
  split; [vm_compute; exists ""; split; [intros x []|reflexivity]|].
  split; [vm_compute; repeat (constructor; [exists 0%nat; reflexivity|]); constructor|].
  split.
  { set (ls := firstn 4 _). vm_compute in ls. subst ls. cbn [no_point_file two_file f_columns].
    constructor; [exists 0%nat; exists "1", "1"; split; [snum false [1%nat] (@None (list nat))|]; split; [snum false [1%nat] (@None (list nat))|reflexivity]|].
    constructor; [exists 0%nat; exists "1"; split; [snum false [1%nat] (@None (list nat))|reflexivity]|].
    constructor; [exists 0%nat; exists "1", "1"; split; [snum false [1%nat] (@None (list nat))|]; split; [snum false [1%nat] (@None (list nat))|reflexivity]|].
    constructor; [exists 0%nat; exists "-1"; split; [snum true [1%nat] (@None (list nat))|reflexivity]|]. constructor. }
  split.
  { right. set (ls := firstn 2 (skipn 10 _)). vm_compute in ls. subst ls. eexists. split; [reflexivity|]. cbn [no_point_file two_file f_rhs].
    constructor; [exists 0%nat; exists "1", "2"; split; [snum false [1%nat] (@None (list nat))|]; split; [snum false [2%nat] (@None (list nat))|reflexivity]|]. constructor. }
  split; [left; now split|]. split; [left; now split|vm_compute; reflexivity].
Qed.
Lemma no_bound_fixed_spelled : fixed_spells no_bound no_bound_file.
Proof.
  assert (T : text_of (into_lines no_bound) no_bound) by (apply text_split; vm_compute; reflexivity).
  exists (into_lines no_bound). split; [|exact T]. clear T.
  exists "          NOBOUND", [], (firstn 3 (skipn 2 (into_lines no_bound))), (firstn 1 (skipn 1 (into_lines no_bound))), (firstn 4 (skipn 6 (into_lines no_bound))), (firstn 2 (skipn 10 (into_lines no_bound))), [], [].
  split; [apply (spaced_split "          NOBOUND"); reflexivity|].
  split; [vm_compute; exists ""; split; [intros x []|reflexivity]|].
  split; [vm_compute; repeat (constructor; [exists 0%nat; reflexivity|]); constructor|].
  split.
  { set (ls := firstn 4 _). vm_compute in ls. subst ls. cbn [no_bound_file two_file f_columns].
    constructor; [exists 0%nat; exists "-1", "1"; split; [snum true [1%nat] (@None (list nat))|]; split; [snum false [1%nat] (@None (list nat))|reflexivity]|].
    constructor; [exists 0%nat; exists "1"; split; [snum false [1%nat] (@None (list nat))|reflexivity]|].
    constructor; [exists 0%nat; exists "-1", "-1"; split; [snum true [1%nat] (@None (list nat))|]; split; [snum true [1%nat] (@None (list nat))|reflexivity]|].
    constructor; [exists 0%nat; exists "1"; split; [snum false [1%nat] (@None (list nat))|reflexivity]|]. constructor. }
  split.
  { right. set (ls := firstn 2 (skipn 10 _)). vm_compute in ls. subst ls. eexists. split; [reflexivity|]. cbn [no_bound_file two_file f_rhs].
    constructor; [exists 0%nat; exists "1", "2"; split; [snum false [1%nat] (@None (list nat))|]; split; [snum false [2%nat] (@None (list nat))|reflexivity]|]. constructor. }
  split; [left; now split|]. split; [left; now split|vm_compute; reflexivity].
Qed.
Lemma no_point_fixed_case : fixed_ok no_point_file /\ file_solvable no_point_file /\ fixed_spells no_point no_point_file /\ forall b r n, solve_fixed_text b r n 40 no_point = Got (Ok NoSolution).
Proof. split; [now apply two_fixed_ok|]. split; [exact no_point_solvable|]. split; [exact no_point_fixed_spelled|]. intros b r n. apply text_answer_ok. destruct b, r, n; vm_compute; reflexivity. Qed.
Lemma no_bound_fixed_case : fixed_ok no_bound_file /\ file_solvable no_bound_file /\ fixed_spells no_bound no_bound_file /\ forall b r n, solve_fixed_text b r n 40 no_bound = Got (Ok NoBound).
Proof. split; [now apply two_fixed_ok|]. split; [exact no_bound_solvable|]. split; [exact no_bound_fixed_spelled|]. intros b r n. apply text_answer_ok. destruct b, r, n; vm_compute; reflexivity. Qed.
Lemma no_point_pre : (forall b fuel, safe_text b fuel no_point = true) /\ (forall b fuel, safe_fixed_text b fuel no_point = true) /\
  (forall b r n, presolve_text b r n 40 no_point = Got (Ok NoSolution)) /\ forall b r n, presolve_fixed_text b r n 40 no_point = Got (Ok NoSolution).
Proof.
  split; [|split; [|split]].
  - intros b fuel. apply (pre_with_decided (parse_free b) no_point 40); destruct b; vm_compute; reflexivity.
  - intros b fuel. apply (pre_with_decided (parse_fixed b) no_point 40); destruct b; vm_compute; reflexivity.
  - intros b r n. apply text_answer_ok. destruct b, r, n; vm_compute; reflexivity.
  - intros b r n. apply text_answer_ok. destruct b, r, n; vm_compute; reflexivity.
Qed.
Lemma no_bound_pre : (forall b fuel, safe_text b fuel no_bound = true) /\ (forall b fuel, safe_fixed_text b fuel no_bound = true) /\
  (forall b r n, presolve_text b r n 40 no_bound = Got (Ok NoBound)) /\ (forall b r n, presolve_fixed_text b r n 40 no_bound = Got (Ok NoBound)) /\ exists x, ffeasible no_bound_file x.
Proof.
  split; [|split; [|split; [|split]]].
  - intros b fuel. apply (pre_with_decided (parse_free b) no_bound 40); destruct b; vm_compute; reflexivity.
  - intros b fuel. apply (pre_with_decided (parse_fixed b) no_bound 40); destruct b; vm_compute; reflexivity.
  - intros b r n. apply text_answer_ok. destruct b, r, n; vm_compute; reflexivity.
  - intros b r n. apply text_answer_ok. destruct b, r, n; vm_compute; reflexivity.
  - destruct (with_unbounded (parse_free Checked) no_bound_file no_bound UseRows FirstProfitable 40 no_bound_solvable (text_reads Checked _ _ no_bound_ok no_bound_spelled) (no_bound_solved Checked UseRows FirstProfitable)) as [X _]. exact X.
Qed.
(** the structures that are read from these texts *)
Lemma read_cases : (exists m g, mps_solvable m /\ to_general m = Got g /\ forall r n, solve_general r n 40 g = Ok NoSolution) /\
  (exists m g, mps_solvable m /\ to_general m = Got g /\ forall r n, solve_general r n 40 g = Ok NoBound).
Proof.
  split.
  - destruct (with_solved (parse_free Checked) no_point_file no_point no_point_solvable (text_reads Checked _ _ no_point_ok no_point_spelled)) as (m & g & _ & S & G & R). exists m, g. split; [exact S|]. split; [exact G|].
    intros r n. pose proof (no_point_solved Checked r n) as E. unfold solve_text in E. rewrite R in E. now injection E.
  - destruct (with_solved (parse_free Checked) no_bound_file no_bound no_bound_solvable (text_reads Checked _ _ no_bound_ok no_bound_spelled)) as (m & g & _ & S & G & R). exists m, g. split; [exact S|]. split; [exact G|].
    intros r n. pose proof (no_bound_solved Checked r n) as E. unfold solve_text in E. rewrite R in E. now injection E.
Qed.

(** ** Scaled programs without a solution and without a bound *)
Local Open Scope Qc_scope.
(** 6 x + 15 y <= 30, 4 x + 10 y >= 40 *)
Definition ex_scale_none : general :=
  new_general Minimize 2 [zcol [(0%nat, 6%Z); (1%nat, 4%Z)]; zcol [(0%nat, 15%Z); (1%nat, 10%Z)]] [Less; Greater] [zq 30; zq 40] [v_ 6 (Some 0%Z) None; v_ 10 (Some 0%Z) None] ["x"; "y"] 0.
(** min -6 x - 10 y with 6 x - 15 y <= 30, 4 x + 10 y >= 40 *)
Definition ex_scale_unbounded : general :=
  new_general Minimize 2 [zcol [(0%nat, 6%Z); (1%nat, 4%Z)]; zcol [(0%nat, (-15)%Z); (1%nat, 10%Z)]] [Less; Greater] [zq 30; zq 40] [v_ (-6) (Some 0%Z) None; v_ (-10) (Some 0%Z) None] ["x"; "y"] 0.
Definition scaled_answer (g : general) (r : representation) (n : rule_name) : option answer :=
  match scale small 300 g with Ok (g', _) => match solve_general r n 300 g' with Ok a => Some a | _ => None end | _ => None end.
Lemma scaled_answer_none g : (forall r n, match scaled_answer g r n with Some NoSolution => true | _ => false end = true) -> exists g' sc, scale small 300 g = Ok (g', sc) /\ forall r n, solve_general r n 300 g' = Ok NoSolution.
Proof.
  intros H. unfold scaled_answer in H. destruct (scale small 300 g) as [[g' sc]| |]; [|discriminate (H UseRows FirstProfitable)|discriminate (H UseRows FirstProfitable)]. exists g', sc. split; [reflexivity|].
  intros r n. specialize (H r n). destruct (solve_general r n 300 g') as [[s| |]| |]; try discriminate H. reflexivity.
Qed.
Lemma scaled_answer_unbounded g : (forall r n, match scaled_answer g r n with Some NoBound => true | _ => false end = true) -> exists g' sc, scale small 300 g = Ok (g', sc) /\ forall r n, solve_general r n 300 g' = Ok NoBound.
Proof.
  intros H. unfold scaled_answer in H. destruct (scale small 300 g) as [[g' sc]| |]; [|discriminate (H UseRows FirstProfitable)|discriminate (H UseRows FirstProfitable)]. exists g', sc. split; [reflexivity|].
  intros r n. specialize (H r n). destruct (solve_general r n 300 g') as [[s| |]| |]; try discriminate H. reflexivity.
Qed.
Lemma scaled_cases : (general_ok ex_scale_none /\ factorizes small ex_scale_none /\ exists g' sc, scale small 300 ex_scale_none = Ok (g', sc) /\ forall r n, solve_general r n 300 g' = Ok NoSolution) /\
  (general_ok ex_scale_unbounded /\ factorizes small ex_scale_unbounded /\ exists g' sc, scale small 300 ex_scale_unbounded = Ok (g', sc) /\ forall r n, solve_general r n 300 g' = Ok NoBound).
Proof.
  split; (split; [apply new_ok; vm_compute; reflexivity|split; [apply prime_factorizes, factorizesb_ok; vm_compute; reflexivity|]]).
  - apply scaled_answer_none. intros r n. destruct r, n; vm_compute; reflexivity.
  - apply scaled_answer_unbounded. intros r n. destruct r, n; vm_compute; reflexivity.
Qed.

(** ** A start that has no end *)
(** x0 - x1 + s0 = 4, -x0 + s1 = -1, minimize -2 x1 *)
Definition ex_warm_ray : provider :=
  plain 2 [zcol [(0%nat, 1%Z); (1%nat, (-1)%Z)]; zcol [(0%nat, (-1)%Z)]; zcol [(0%nat, 1%Z)]; zcol [(1%nat, 1%Z)]] [0; zq (-2); 0; 0] [zq 4; zq (-1)] NoInit.
Lemma ex_warm_ray_case : well_sized ex_warm_ray /\ feasible_basis ex_warm_ray [2; 0]%nat /\ forall r n, start_from r n 10 ex_warm_ray [2; 0]%nat = Ok Unbounded.
Proof.
  split; [|split].
  - split; [reflexivity|]. intros j L. apply fwfb_ok. do 4 (destruct j as [|j]; [vm_compute; reflexivity|]). cbn in L. lia.
  - exists ex_warm_inverse. split; [split; [reflexivity|split]|].
    + intros j [<-|[<-|[]]]; cbn; lia.
    + split; intros [|[|i]] [|[|j]] Li Lj; cbn in Li, Lj; try lia; apply Qc_is_canon; vm_compute; reflexivity.
    + intros [|[|i]] Li; cbn in Li; try lia; vm_compute; discriminate.
  - intros r n. apply result_is_ok. destruct r, n; vm_compute; reflexivity.
Qed.
