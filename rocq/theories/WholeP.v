(** * Vertices of network programs with whole numbers are whole: proofs *)
From Verif Require Import SpecWhole SpecVertex TextSolveP PairP FlowI.
Local Open Scope Qc_scope.

(** ** Fewer equations than unknowns *)
Lemma total_part (p : nat -> bool) (h : nat -> Qc) l : (forall j, In j l -> p j = false -> h j = 0) -> total (map h (filter p l)) = total (map h l).
Proof.
  induction l as [|j l IH]; intros H; [reflexivity|]. cbn [filter]. specialize (IH (fun k K => H k (or_intror K))). destruct (p j) eqn:P; rewrite !total_cons, ?IH; [reflexivity|]. rewrite (H j (or_introl eq_refl) P). ring.
Qed.
Lemma total_none (h : nat -> Qc) l : (forall j, In j l -> h j = 0) -> total (map h l) = 0.
Proof. intros H. apply total_zero. intros x X. apply in_map_iff in X. destruct X as (j & <- & J). now apply H. Qed.
Lemma total_out (h : nat -> Qc) l k : NoDup l -> In k l -> total (map h l) = h k + total (map h (filter (fun j => negb (Nat.eqb j k)) l)).
Proof.
  induction l as [|j l IH]; intros N K; [destruct K|]. inversion N as [|? ? NJ N']; subst. cbn [filter]. destruct K as [->|K].
  - rewrite Nat.eqb_refl. cbn [negb]. rewrite total_cons. f_equal. symmetry. apply total_part. intros i I E. exfalso. apply negb_false_iff, Nat.eqb_eq in E. subst i. contradiction.
  - destruct (Nat.eqb_spec j k) as [->|J]; [contradiction|]. cbn [negb]. rewrite !total_cons, (IH N' K). ring.
Qed.
Lemma out_length l k : NoDup l -> In k l -> length l = S (length (filter (fun j => negb (Nat.eqb j k)) l)).
Proof.
  induction l as [|j l IH]; intros N K; [destruct K|]. inversion N as [|? ? NJ N']; subst. cbn [filter]. destruct K as [->|K].
  - rewrite Nat.eqb_refl. cbn [negb length]. f_equal. clear IH N. induction l as [|i l IH]; [reflexivity|]. cbn [filter]. destruct (Nat.eqb_spec i k) as [->|I]; [exfalso; apply NJ; now left|]. cbn [negb length]. f_equal. apply IH; [intros X; apply NJ; now right|now inversion N'].
  - destruct (Nat.eqb_spec j k) as [->|J]; [contradiction|]. cbn [negb length]. now rewrite <- IH.
Qed.
Lemma kernel (R : list nat) : forall (F : list nat) (a : nat -> nat -> Qc), NoDup F -> (length R < length F)%nat ->
  exists d : nat -> Qc, (exists j, In j F /\ d j <> 0) /\ (forall j, ~ In j F -> d j = 0) /\ forall i, In i R -> total (map (fun j => a i j * d j) F) = 0.
Proof.
  induction R as [|i R IH]; intros F a N L.
  - destruct F as [|j F]; [cbn in L; lia|]. exists (fun k => if Nat.eqb k j then 1 else 0). split; [|split].
    + exists j. rewrite Nat.eqb_refl. split; [now left|discriminate].
    + intros k K. destruct (Nat.eqb_spec k j) as [->|_]; [elim K; now left|reflexivity].
    + intros k [].
  - destruct (existsb (fun j => negb (qzero (a i j))) F) eqn:E.
    + apply existsb_exists in E. destruct E as (k & K & Z). assert (NZ : a i k <> 0) by (intros X; rewrite X in Z; discriminate Z).
      set (F' := filter (fun j => negb (Nat.eqb j k)) F). pose proof (out_length F k N K) as LE. fold F' in LE.
      assert (N' : NoDup F') by now apply NoDup_filter.
      destruct (IH F' (fun i' j => a i' j - a i' k / a i k * a i j) N') as (d & (j & J & D) & O & H); [cbn in L; lia|].
      assert (INF : forall j, In j F' <-> In j F /\ j <> k). { intros j'. unfold F'. rewrite filter_In, negb_true_iff, Nat.eqb_neq. tauto. }
      set (v := - (total (map (fun j => a i j * d j) F')) / a i k).
      assert (DK : d k = 0) by (apply O; rewrite INF; tauto).
      exists (fun j => if Nat.eqb j k then v else d j). split; [|split].
      * exists j. apply INF in J. destruct J as [J JK]. split; [exact J|]. now rewrite (proj2 (Nat.eqb_neq j k) JK).
      * intros j' J'. destruct (Nat.eqb_spec j' k) as [->|JK]; [contradiction|]. apply O. rewrite INF. tauto.
      * assert (S : forall i', total (map (fun j => a i' j * (if Nat.eqb j k then v else d j)) F) = a i' k * v + total (map (fun j => a i' j * d j) F')).
        { intros i'. rewrite (total_out _ F k N K). fold F'. rewrite Nat.eqb_refl. f_equal. apply total_ext. intros j' J'. apply INF in J'. now rewrite (proj2 (Nat.eqb_neq j' k) (proj2 J')). }
        intros i' [<-|I'].
        -- rewrite S. unfold v. field. exact NZ.
        -- rewrite S. specialize (H i' I'). cbn beta in H. assert (X : total (map (fun j0 => (a i' j0 - a i' k / a i k * a i j0) * d j0) F') = total (map (fun j => a i' j * d j) F') - a i' k / a i k * total (map (fun j => a i j * d j) F')).
           { unfold Qcminus. rewrite <- total_mul. replace (- total (map (fun a0 => a i' k / a i k * (a i a0 * d a0)) F')) with (total (map (fun a0 => - (1) * (a i' k / a i k * (a i a0 * d a0))) F')) by (rewrite total_mul; ring). rewrite <- total_add. apply total_ext. intros; ring. }
           rewrite X in H. unfold v. set (p := total (map (fun j0 => a i j0 * d j0) F')) in *. set (r := total (map (fun j0 => a i' j0 * d j0) F')) in *. rewrite <- H. field. exact NZ.
    + destruct (IH F a N) as (d & D & O & H); [cbn in L; lia|]. exists d. split; [exact D|]. split; [exact O|]. intros i' [<-|I']; [|now apply H].
      apply total_none. intros j J. assert (Z : qzero (a i j) = true). { destruct (qzero (a i j)) eqn:Z; [reflexivity|]. rewrite <- E. apply existsb_exists. exists j. rewrite Z. now split. }
      unfold qzero in Z. apply qeqb_true in Z. rewrite Z. ring.
Qed.

(** ** Counting *)
Definition nz (a : Qc) : bool := negb (qzero a).
Lemma nz_true a : nz a = true <-> a <> 0.
Proof. unfold nz, qzero. rewrite negb_true_iff. split; [intros H ->; discriminate H|]. intros H. destruct (qeqb a 0) eqn:E; [|reflexivity]. apply qeqb_true in E. contradiction. Qed.
Lemma nz_false a : nz a = false -> a = 0.
Proof. unfold nz, qzero. rewrite negb_false_iff. apply qeqb_true. Qed.
Lemma count_swap (h : nat -> nat -> bool) R : forall F, list_sum (map (fun i => length (filter (h i) F)) R) = list_sum (map (fun j => length (filter (fun i => h i j) R)) F).
Proof.
  assert (X : forall F i R', list_sum (map (fun j => length (filter (fun i => h i j) (i :: R'))) F) = (length (filter (h i) F) + list_sum (map (fun j => length (filter (fun i => h i j) R')) F))%nat).
  { intros F i R'. induction F as [|j F IH]; [reflexivity|]. cbn [map list_sum fold_right filter] in *. unfold list_sum in IH. rewrite IH. unfold list_sum. destruct (h i j); cbn [length]; lia. }
  induction R as [|i R IH]; intros F; [symmetry; induction F as [|j F IH]; [reflexivity|exact IH]|]. rewrite X, <- IH. reflexivity.
Qed.
Lemma count_least (c : nat -> nat) l : (forall i, In i l -> 2 <= c i)%nat -> (2 * length l <= list_sum (map c l))%nat.
Proof. induction l as [|i l IH]; intros H; [apply le_n|]. cbn [length map list_sum fold_right]. pose proof (H i (or_introl eq_refl)). specialize (IH (fun k K => H k (or_intror K))). unfold list_sum in IH. lia. Qed.
Lemma count_most (c : nat -> nat) l : (forall i, In i l -> c i <= 2)%nat -> (list_sum (map c l) <= 2 * length l)%nat.
Proof. induction l as [|i l IH]; intros H; [apply le_n|]. cbn [length map list_sum fold_right]. pose proof (H i (or_introl eq_refl)). specialize (IH (fun k K => H k (or_intror K))). unfold list_sum in IH. lia. Qed.
Lemma count_tight (c : nat -> nat) l : (forall i, In i l -> c i <= 2)%nat -> (2 * length l <= list_sum (map c l))%nat -> forall i, In i l -> c i = 2%nat.
Proof.
  induction l as [|k l IH]; intros H T i I; [destruct I|]. cbn [length map list_sum fold_right] in T. pose proof (H k (or_introl eq_refl)) as K. pose proof (count_most c l (fun k K => H k (or_intror K))) as M. unfold list_sum in *. destruct I as [<-|I]; [lia|]. apply IH; [intros; apply H; now right|lia|exact I].
Qed.

(** ** A direction that leaves the constraints as they are *)
Section Direction.
Variables (R F : list nat) (a : nat -> nat -> Qc) (side : nat -> bool).
Hypotheses (NR : NoDup R) (NF : NoDup F) (some : F <> []).
Hypothesis two : forall i, In i R -> (2 <= length (filter (fun j => nz (a i j)) F))%nat.
Hypothesis pairs : forall i i' j, In i R -> In i' R -> i <> i' -> In j F -> opposed (Bool.eqb (side i) (side i')) (a i j) (a i' j).
Definition sign (i : nat) : Qc := if side i then 1 else - (1).
Lemma opposed_signs i i' j : In i R -> In i' R -> i <> i' -> In j F -> a i j <> 0 -> a i' j <> 0 -> sign i * a i j = - (sign i' * a i' j).
Proof using pairs. clear NR NF some two. intros I I' N J A A'. pose proof (pairs i i' j I I' N J A A') as E. unfold sign. destruct (side i), (side i'); cbn in E; rewrite E; ring. Qed.
Lemma sign_nonzero i j : a i j <> 0 -> sign i * a i j <> 0.
Proof using. clear. intros A X. apply A. unfold sign in X. destruct (side i); [replace (a i j) with (1 * a i j) by ring|replace (a i j) with (- (- (1) * a i j)) by ring]; rewrite X; ring. Qed.
Lemma opposite_zero (u : Qc) : u = - u -> u = 0. Proof using. clear. intros H. qlra. Qed.
Lemma at_most_two j : In j F -> (length (filter (fun i => nz (a i j)) R) <= 2)%nat.
Proof using NR pairs.
  intros J. assert (N : NoDup (filter (fun i => nz (a i j)) R)) by now apply NoDup_filter. assert (I : forall i, In i (filter (fun i => nz (a i j)) R) -> In i R /\ a i j <> 0) by (intros i X; apply filter_In in X; rewrite nz_true in X; exact X).
  destruct (filter (fun i => nz (a i j)) R) as [|x [|y [|z l]]]; cbn [length]; try lia. exfalso.
  assert (XY : x <> y) by (intros E; subst y; inversion N as [|? ? Q]; apply Q; now left). assert (XZ : x <> z) by (intros E; subst z; inversion N as [|? ? Q]; apply Q; right; now left).
  assert (YZ : y <> z) by (intros E; subst z; inversion N as [|? ? _ N']; inversion N' as [|? ? Q]; apply Q; now left).
  destruct (I x (or_introl eq_refl)) as [IX AX], (I y (or_intror (or_introl eq_refl))) as [IY AY], (I z (or_intror (or_intror (or_introl eq_refl)))) as [IZ AZ].
  pose proof (opposed_signs x y j IX IY XY J AX AY) as E1. pose proof (opposed_signs x z j IX IZ XZ J AX AZ) as E2. pose proof (opposed_signs y z j IY IZ YZ J AY AZ) as E3.
  apply (sign_nonzero z j AZ). apply opposite_zero. clear - E1 E2 E3. set (p := sign x * a x j) in *. set (r := sign y * a y j) in *. set (t := sign z * a z j) in *. clearbody p r t. qlra.
Qed.
Lemma two_cancel j : In j F -> length (filter (fun i => nz (a i j)) R) = 2%nat -> total (map (fun i => sign i * a i j) R) = 0.
Proof using NR pairs.
  intros J L. rewrite <- (total_part (fun i => nz (a i j))) by (intros i _ Z; apply nz_false in Z; rewrite Z; ring).
  assert (N : NoDup (filter (fun i => nz (a i j)) R)) by now apply NoDup_filter. assert (I : forall i, In i (filter (fun i => nz (a i j)) R) -> In i R /\ a i j <> 0) by (intros i X; apply filter_In in X; rewrite nz_true in X; exact X).
  destruct (filter (fun i => nz (a i j)) R) as [|x [|y [|z l]]]; try discriminate L. rewrite !total_cons. cbn [map total fold_right].
  assert (XY : x <> y) by (intros E; subst y; inversion N as [|? ? Q]; apply Q; now left).
  destruct (I x (or_introl eq_refl)) as [IX AX], (I y (or_intror (or_introl eq_refl))) as [IY AY]. rewrite (opposed_signs x y j IX IY XY J AX AY). ring.
Qed.
Lemma direction : exists d : nat -> Qc, (exists j, In j F /\ d j <> 0) /\ (forall j, ~ In j F -> d j = 0) /\ forall i, In i R -> total (map (fun j => a i j * d j) F) = 0.
Proof using NR NF some two pairs.
  destruct (Nat.lt_ge_cases (length R) (length F)) as [L|L]; [now apply kernel|].
  assert (T : forall j, In j F -> total (map (fun i => sign i * a i j) R) = 0).
  { intros j J. apply two_cancel; [exact J|]. apply (count_tight (fun j => length (filter (fun i => nz (a i j)) R)) F at_most_two); [|exact J].
    rewrite <- (count_swap (fun i j => nz (a i j)) R F). pose proof (count_least (fun i => length (filter (fun j => nz (a i j)) F)) R two). lia. }
  pose proof at_most_two as AM. destruct R as [|r R'] eqn:ER; [destruct F; [contradiction|cbn in L; lia]|].
  assert (LF : (length R' < length F)%nat).
  { pose proof (count_most _ F AM) as M. rewrite <- (count_swap (fun i j => nz (a i j)) (r :: R') F) in M. pose proof (count_least (fun i => length (filter (fun j => nz (a i j)) F)) (r :: R') two) as Q. cbn [length] in *. lia. }
  destruct (kernel R' F a NF LF) as (d & D & O & H). exists d. split; [exact D|]. split; [exact O|]. intros i [<-|I]; [|now apply H].
  assert (Z : total (map (fun i => total (map (fun j => sign i * a i j * d j) F)) (r :: R')) = 0).
  { rewrite total_swap. apply total_none. intros j J. rewrite (total_ext _ _ (fun i => d j * (sign i * a i j))) by (intros; ring). rewrite total_mul, (T j J). ring. }
  rewrite total_cons in Z. rewrite (total_none _ R') in Z.
  - assert (E : total (map (fun j => sign r * a r j * d j) F) = sign r * total (map (fun j => a r j * d j) F)) by (rewrite <- total_mul; apply total_ext; intros; ring).
    rewrite E in Z. unfold sign in Z. destruct (side r); [replace (total (map (fun j => a r j * d j) F)) with (1 * total (map (fun j => a r j * d j) F) + 0) by ring|replace (total (map (fun j => a r j * d j) F)) with (- (- (1) * total (map (fun j => a r j * d j) F) + 0)) by ring]; rewrite Z; ring.
  - intros i I. rewrite (total_ext _ _ (fun j => sign i * (a i j * d j))) by (intros; ring). rewrite total_mul, (H i I). ring.
Qed.
End Direction.
