(** * Presolving: values that are known at the end are filled in *)
From Verif Require Import SpecGeneral SparseP LinAlg KindP InitP PermP KeptP CarryP SearchP StandardP StandardQ RangesP.
From Verif Require Export PreKept.
Local Open Scope Qc_scope.

(** ** Known values *)
Definition known_part (fuel : nat) (orig : list (string * original)) (acc : option Qc) (e : nat * Qc) : res (option Qc) :=
  let '(j, c) := e in
  match acc with
  | None => Ok None
  | Some s => let* v := value_if_known fuel orig j in Ok (match v with Some v => Some (s + c * v) | None => None end)
  end.
Lemma value_if_known_S fuel orig o : value_if_known (S fuel) orig o =
  let* entry := index orig o in
  match snd entry with
  | Active _ | ActiveFree _ _ => Ok None
  | Removed (Solved v) => Ok (Some v)
  | Removed (FunctionOf constant coefficients) =>
      let* parts := foldM (known_part fuel orig) coefficients (Some 0) in
      Ok (match parts with Some s => Some (constant - s) | None => None end)
  end.
Proof. reflexivity. Qed.
Lemma foldM_agree {A B} (f h : A -> B -> res A) l : forall a v, (forall a b v, In b l -> f a b = Ok v -> h a b = Ok v) -> foldM f l a = Ok v -> foldM h l a = Ok v.
Proof.
  induction l as [|b l IH]; intros a v H E; cbn [foldM] in *; [assumption|]. destruct (f a b) as [a'| |] eqn:X; cbn [bind] in E; try discriminate.
  rewrite (H a b a' (or_introl eq_refl) X). cbn [bind]. apply IH; [|assumption]. intros a2 b2 v2 I. apply H. now right.
Qed.
Lemma known_more fuel : forall fuel' orig o v, (fuel <= fuel')%nat -> value_if_known fuel orig o = Ok v -> value_if_known fuel' orig o = Ok v.
Proof.
  induction fuel as [|fuel IH]; intros fuel' orig o v L E; [discriminate|]. destruct fuel' as [|fuel']; [lia|]. rewrite value_if_known_S in *.
  destruct (index orig o) as [[name e]| |]; cbn [bind snd] in *; try discriminate. destruct e as [| |[w|c cs]]; try assumption.
  destruct (foldM (known_part fuel orig) cs (Some 0)) as [p| |] eqn:X; cbn [bind] in E; try discriminate.
  rewrite (foldM_agree (known_part fuel orig) (known_part fuel' orig) cs (Some 0) p); [assumption| |assumption].
  intros a [j c'] w _ Y. cbn in *. destruct a as [s|]; [|assumption]. destruct (value_if_known fuel orig j) as [k| |] eqn:Z; cbn [bind] in Y; try discriminate.
  rewrite (IH fuel' orig j k); [assumption|lia|assumption].
Qed.
Lemma known_sum fuel orig (val : vec) : forall cs s t, (forall j c v, In (j, c) cs -> value_if_known fuel orig j = Ok (Some v) -> val j = v) ->
  foldM (known_part fuel orig) cs (Some s) = Ok (Some t) -> t = s + combination cs val.
Proof.
  induction cs as [|[j c] cs IH]; intros s t H E; cbn [foldM combination] in *.
  - injection E as <-. ring.
  - unfold known_part at 1 in E. destruct (value_if_known fuel orig j) as [[v|]| |] eqn:V; cbn [bind] in E; try discriminate.
    + rewrite (IH (s + c * v) t); [|intros k a w I; apply (H k a w); now right|assumption]. rewrite (H j c v (or_introl eq_refl) V). ring.
    + exfalso. clear -E. induction cs as [|[j c] cs IH]; cbn [foldM] in E; [discriminate|]. cbn in E. apply IH. exact E.
Qed.

Section Resolve.
Variables (fuel : nat) (g2 g3 : general).
Definition resolved_entry (o : nat) (e e' : original) : Prop :=
  match e with
  | Removed (FunctionOf _ _) => exists k, value_if_known fuel (g_orig g2) o = Ok k /\ e' = match k with Some v => Removed (Solved v) | None => e end
  | _ => e' = e
  end.
Record resolves : Prop := mk_resolves {
  rs_objective : g_objective g3 = g_objective g2;
  rs_fixed : g_fixed g3 = g_fixed g2;
  rs_rows : g_rows g3 = g_rows g2;
  rs_cols : g_cols g3 = g_cols g2;
  rs_types : g_types g3 = g_types g2;
  rs_b : g_b g3 = g_b g2;
  rs_vars : g_vars g3 = g_vars g2;
  rs_from : g_from g3 = g_from g2;
  rs_no : length (g_orig g3) = length (g_orig g2);
  rs_orig : forall o name e, nth_error (g_orig g2) o = Some (name, e) -> exists e', nth_error (g_orig g3) o = Some (name, e') /\ resolved_entry o e e' }.
Definition resolve_one (x : nat * (string * original)) : res (string * original) :=
  let '(o, (name, entry)) := x in
  match entry with
  | Removed (FunctionOf _ _) => let* v := value_if_known fuel (g_orig g2) o in Ok (name, match v with Some v => Removed (Solved v) | None => entry end)
  | _ => Ok (name, entry)
  end.
Lemma mapM_nth {A B} (f : A -> res B) : forall l ys, mapM f l = Ok ys -> length ys = length l /\ forall i x, nth_error l i = Some x -> exists y, nth_error ys i = Some y /\ f x = Ok y.
Proof.
  induction l as [|a l IH]; intros ys E; cbn [mapM] in E.
  - injection E as <-. split; [reflexivity|]. intros [|i] x X; discriminate.
  - destruct (f a) as [b| |] eqn:FA; cbn [bind] in E; try discriminate. destruct (mapM f l) as [bs| |]; cbn [bind] in E; try discriminate. injection E as <-.
    destruct (IH bs eq_refl) as [L H]. split; [cbn; now rewrite L|]. intros [|i] x X; cbn in X.
    + injection X as <-. now exists b.
    + now apply H.
Qed.
Lemma nth_number {A} (l : list A) i x : nth_error l i = Some x -> nth_error (number_from 0 l) i = Some (i, x).
Proof.
  intros E. rewrite (number_from_range x). assert (L : (i < length l)%nat) by (apply nth_error_Some; congruence).
  rewrite (map_nth_error _ i (seq 0 (length l)) (d := i)); [rewrite Nat.sub_0_r; now rewrite (nth_error_nth _ _ _ E)|].
  rewrite (nth_error_nth' _ 0%nat) by now rewrite seq_length. now rewrite seq_nth.
Qed.
Lemma resolve_spec : solution_where_possible fuel g2 = Ok g3 -> resolves.
Proof.
  unfold solution_where_possible. fold resolve_one. intros E. destruct (mapM resolve_one (number_from 0 (g_orig g2))) as [orig| |] eqn:X; cbn [bind] in E; try discriminate.
  match type of E with Ok ?x = Ok _ => assert (EG : g3 = x) by congruence end. apply mapM_nth in X. destruct X as [L H]. rewrite number_from_length in L.
  constructor; rewrite ?EG; try reflexivity; cbn [g_orig]; [assumption|].
  intros o name e N0. destruct (H o (o, (name, e)) (nth_number _ _ _ N0)) as ([name' e'] & N & R). cbn in R. exists e'. destruct e as [j|p q|[v|c cs]]; cbn; try (injection R as <- <-; now split).
  destruct (value_if_known fuel (g_orig g2) o) as [k| |]; cbn [bind] in R; try discriminate. injection R as <- <-. split; [assumption|]. now exists k.
Qed.
Hypothesis R : resolves.
Lemma resolved_known x val : completed g3 x val -> forall f o v, (f <= fuel)%nat -> value_if_known f (g_orig g2) o = Ok (Some v) -> val o = v.
Proof.
  intros C f o v L E. pose proof (known_more f fuel _ _ _ L E) as E'. destruct f as [|f]; [discriminate|]. rewrite value_if_known_S in E.
  destruct (index (g_orig g2) o) as [[name e]| |] eqn:I; cbn [bind snd] in E; try discriminate. apply index_ok in I.
  destruct (rs_orig R o name e I) as (e' & N & H). rewrite (C o name e' N). destruct e as [j|p q|[w|c cs]]; try discriminate.
  - cbn in H. subst e'. injection E as <-. reflexivity.
  - cbn in H. destruct H as (k & K & ->). rewrite E' in K. injection K as <-. reflexivity.
Qed.
Lemma resolved_completed x val : completed g3 x val -> completed g2 x val.
Proof.
  intros C o name e E. destruct (rs_orig R o name e E) as (e' & N & H). pose proof (C o name e' N) as V.
  assert (VE : forall j, var g3 j = var g2 j) by (intros j; unfold var; now rewrite (rs_vars R)).
  destruct e as [j|p q|[w|c cs]]; cbn in H.
  - subst e'. cbn in *. now rewrite VE in V.
  - subst e'. cbn in *. now rewrite !VE in V.
  - subst e'. exact V.
  - destruct H as ([v|] & K & ->); [|exact V]. cbn in V |- *. rewrite V. destruct fuel as [|f] eqn:FU; [discriminate|]. rewrite value_if_known_S in K.
    rewrite (proj2 (index_ok _ _ _) E) in K. cbn [bind snd] in K. destruct (foldM (known_part f (g_orig g2)) cs (Some 0)) as [[s|]| |] eqn:X; cbn [bind] in K; try discriminate.
    injection K as <-. rewrite (known_sum f (g_orig g2) val cs 0 s); [ring| |assumption]. intros j a w I Y. apply (resolved_known x val C f); [lia|assumption].
Qed.
End Resolve.

(** ** The values can be computed *)
Section Compute.
Variables (g : general) (u : updates) (g2 : general).
Local Notation n := (nr_vars g).
Hypothesis RD : reduces g u g2.
Hypothesis O : ordered n (u_removed u).

Lemma entry_cases o : (o < n)%nat -> (exists name r, In (o, r) (u_removed u) /\ nth_error (g_orig g2) o = Some (name, Removed r)) \/
  (exists name j, ~ In o (map fst (u_removed u)) /\ nth_error (g_orig g2) o = Some (name, Active j) /\ (j < length (vars_in g u))%nat /\ nth j (vars_in g u) 0%nat = o).
Proof.
  intros L. destruct (rd_orig _ _ _ RD o L) as (name & _ & H1 & H2). destruct (in_dec Nat.eq_dec o (map fst (u_removed u))) as [I|N].
  - apply in_map_iff in I. destruct I as ([o' r] & E & I). cbn in E. subst o'. left. exists name, r. auto.
  - right. assert (I : In o (vars_in g u)) by now apply vars_in_In. apply (In_nth _ _ 0%nat) in I. destruct I as (j & Lj & E). exists name, j. auto.
Qed.
Lemma known_fold fuel : forall cs acc, (forall k a, In (k, a) cs -> exists v, value_if_known fuel (g_orig g2) k = Ok v) -> exists p, foldM (known_part fuel (g_orig g2)) cs acc = Ok p.
Proof.
  induction cs as [|[k a] cs IH]; intros acc H; cbn [foldM]; [now eexists|]. destruct (H k a (or_introl eq_refl)) as [v V].
  assert (X : exists acc', known_part fuel (g_orig g2) acc (k, a) = Ok acc') by (cbn; rewrite V; destruct acc; cbn [bind]; now eexists).
  destruct X as [acc' ->]. cbn [bind]. apply IH. intros k' a' I. apply (H k' a'). now right.
Qed.
Lemma known_depth : forall d pre o c cs post, u_removed u = pre ++ (o, FunctionOf c cs) :: post -> (o < n)%nat -> NoDup (map fst (u_removed u)) -> (length post < d)%nat ->
  exists v, value_if_known (S d) (g_orig g2) o = Ok v.
Proof.
  induction d as [|d IH]; intros pre o c cs post E L ND D; [lia|]. rewrite value_if_known_S.
  assert (I : In (o, FunctionOf c cs) (u_removed u)) by (rewrite E; apply in_or_app; right; now left).
  destruct (rd_orig _ _ _ RD o L) as (name & _ & H1 & _). rewrite (proj2 (index_ok _ _ _) (H1 _ I)). cbn [bind snd].
  destruct (known_fold (S d) cs (Some 0)) as [p ->]; [|cbn [bind]; now eexists].
  intros k a K. destruct (ordered_split n _ O pre o c cs post E k a K) as (Lk & Dk & Pk).
  destruct (entry_cases k Lk) as [(nm & r & Ik & Ek)|(nm & j & _ & Ek & _)].
  - destruct r as [v|c' cs'].
    + exists (Some v). rewrite value_if_known_S. now rewrite (proj2 (index_ok _ _ _) Ek).
    + rewrite E in Ik. apply in_app_or in Ik. destruct Ik as [Ik|[Ik|Ik]].
      * destruct (Pk _ Ik) as [v X]. discriminate.
      * injection Ik as Ik _. congruence.
      * apply in_split in Ik. destruct Ik as (p1 & p2 & ->). apply (IH (pre ++ (o, FunctionOf c cs) :: p1) k c' cs' p2); try assumption.
        -- rewrite E, <- app_assoc. reflexivity.
        -- rewrite app_length in D. cbn in D. lia.
  - exists None. rewrite value_if_known_S. now rewrite (proj2 (index_ok _ _ _) Ek).
Qed.
Lemma known_no_panic : forall fuel o, (o < n)%nat -> value_if_known fuel (g_orig g2) o <> Panic.
Proof.
  induction fuel as [|fuel IH]; intros o L; [discriminate|]. rewrite value_if_known_S. destruct (entry_cases o L) as [(nm & r & I & E)|(nm & j & _ & E & _)]; rewrite (proj2 (index_ok _ _ _) E); cbn [bind snd]; [|discriminate].
  destruct r as [v|c cs]; [discriminate|].
  assert (K : forall k a, In (k, a) cs -> (k < n)%nat).
  { apply in_split in I. destruct I as (p1 & p2 & X). intros k a I. now destruct (ordered_split n _ O p1 o c cs p2 X k a I). }
  assert (X : foldM (known_part fuel (g_orig g2)) cs (Some 0) <> Panic).
  { generalize (Some 0). clear -K IH. induction cs as [|[k a] cs IC]; intros acc; cbn [foldM]; [discriminate|].
    assert (Y : known_part fuel (g_orig g2) acc (k, a) <> Panic).
    { cbn. destruct acc; [|discriminate]. pose proof (IH k (K k a (or_introl eq_refl))). destruct (value_if_known fuel (g_orig g2) k); cbn [bind]; congruence. }
    destruct (known_part fuel (g_orig g2) acc (k, a)); cbn [bind]; [|congruence|discriminate]. apply IC. intros k' a' I. apply (K k' a'). now right. }
  destruct (foldM (known_part fuel (g_orig g2)) cs (Some 0)); cbn [bind]; congruence.
Qed.
Lemma resolve_no_panic fuel : solution_where_possible fuel g2 <> Panic.
Proof.
  unfold solution_where_possible. fold (resolve_one fuel g2). assert (X : mapM (resolve_one fuel g2) (number_from 0 (g_orig g2)) <> Panic).
  { assert (H : forall x, In x (number_from 0 (g_orig g2)) -> resolve_one fuel g2 x <> Panic).
    { intros [o [name e]] I. apply In_number_from in I. destruct I as [_ I]. rewrite Nat.sub_0_r in I. assert (L : (o < n)%nat) by (rewrite <- (rd_no _ _ _ RD); apply nth_error_Some; congruence).
      pose proof (known_no_panic fuel o L). cbn. destruct e as [| |[|]]; try discriminate. destruct (value_if_known fuel (g_orig g2) o); cbn [bind]; congruence. }
    clear -H. induction (number_from 0 (g_orig g2)) as [|x l IH]; cbn [mapM]; [discriminate|]. pose proof (H x (or_introl eq_refl)). destruct (resolve_one fuel g2 x); cbn [bind]; [|congruence|discriminate].
    assert (Y : mapM (resolve_one fuel g2) l <> Panic) by (apply IH; intros y I; apply H; now right). destruct (mapM (resolve_one fuel g2) l); cbn [bind]; congruence. }
  destruct (mapM (resolve_one fuel g2) (number_from 0 (g_orig g2))); cbn [bind]; congruence.
Qed.
Lemma resolve_total fuel : NoDup (map fst (u_removed u)) -> (length (u_removed u) < fuel)%nat -> exists g3, solution_where_possible fuel g2 = Ok g3.
Proof.
  intros ND L. unfold solution_where_possible. fold (resolve_one fuel g2). destruct (mapM_total (resolve_one fuel g2) (number_from 0 (g_orig g2))) as [ys ->]; [|cbn [bind]; now eexists].
  intros [o [name e]] I. apply In_number_from in I. destruct I as [_ I]. rewrite Nat.sub_0_r in I. assert (Lo : (o < n)%nat) by (rewrite <- (rd_no _ _ _ RD); apply nth_error_Some; congruence).
  cbn. destruct e as [j|p q|[v|c cs]]; try (now eexists). destruct (entry_cases o Lo) as [(nm & r & Io & E)|(nm & j & _ & E & _)]; rewrite E in I; [|discriminate].
  injection I as -> ->. pose proof Io as S. apply in_split in S. destruct S as (p1 & p2 & S). destruct (known_depth (length (u_removed u)) p1 o c cs p2 S Lo ND) as [v V].
  - rewrite S, app_length. cbn. lia.
  - rewrite (known_more _ fuel _ _ _ L V). cbn [bind]. now eexists.
Qed.
End Compute.
