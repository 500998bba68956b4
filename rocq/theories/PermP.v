(** * Permutations act on sparse vectors as they act on indices *)
From Verif Require Export FinishP Perm.

(** ** Slices *)
Lemma on_slice_app {A} (f : list A -> res (list A)) P S C a b :
  a = length P -> b = (length P + length S)%nat ->
  on_slice f a b (P ++ S ++ C) = let* s := f S in Ok (P ++ s ++ C).
Proof.
  intros -> ->. unfold on_slice. rewrite !app_length.
  rewrite (proj2 (Nat.leb_le _ _)) by lia. rewrite (proj2 (Nat.leb_le _ _)) by lia. cbn [andb].
  rewrite app_assoc. replace (length P + length S)%nat with (length (P ++ S)) by apply app_length.
  rewrite firstn_app, firstn_all, Nat.sub_diag. cbn [firstn]. rewrite app_nil_r.
  rewrite skipn_app, skipn_all, Nat.sub_diag. cbn [skipn app].
  rewrite skipn_app, skipn_all, Nat.sub_diag. cbn [skipn app].
  rewrite <- app_assoc. rewrite firstn_app, firstn_all, Nat.sub_diag. cbn [firstn].
  rewrite app_nil_r. reflexivity.
Qed.
Lemma upd_app {A} (P : list A) x C y i : i = length P -> upd (P ++ x :: C) i y = P ++ y :: C.
Proof. intros ->. induction P; cbn; [reflexivity|]. now rewrite IHP. Qed.
Lemma index_app {A} (P : list A) x C i : i = length P -> index (P ++ x :: C) i = Ok x.
Proof. intros ->. unfold index. rewrite nth_error_app2 by lia. now rewrite Nat.sub_diag. Qed.
Lemma remove_at_app {A} (P : list A) x C i : i = length P -> remove_at (P ++ x :: C) i = P ++ C.
Proof. intros ->. induction P; cbn; [reflexivity|]. now rewrite IHP. Qed.
Lemma insert_at_app {A} (P : list A) x C i : i = length P -> insert_at (P ++ C) i x = P ++ x :: C.
Proof. intros ->. induction P; cbn; [now destruct C|]. now rewrite IHP. Qed.
Lemma firstn_app_l {A} (P C : list A) i : i = length P -> firstn i (P ++ C) = P.
Proof. intros ->. rewrite firstn_app, firstn_all, Nat.sub_diag. cbn. apply app_nil_r. Qed.
Lemma skipn_app_l {A} (P C : list A) i : i = length P -> skipn i (P ++ C) = C.
Proof. intros ->. rewrite skipn_app, skipn_all, Nat.sub_diag. reflexivity. Qed.
Lemma nth_app_mid {A} (P : list A) x C i d : i = length P -> nth i (P ++ x :: C) d = x.
Proof. intros ->. rewrite app_nth2 by lia. now rewrite Nat.sub_diag. Qed.

(** ** Sorted lists of tuples *)
Lemma fwf_app lo k m P C : fwf lo k P -> fwf k m C -> (lo <= k)%nat -> (k <= m)%nat -> fwf lo m (P ++ C).
Proof.
  revert lo. induction P as [|[i v] P IH]; intros lo HP HC L1 L2; cbn [app].
  - now apply fwf_weaken with k.
  - destruct HP as (H1 & H2 & H3). cbn [fwf]. repeat split; try assumption; try lia.
    apply IH; try assumption. lia.
Qed.
Lemma fwf_split k m l : forall lo, fwf lo m l -> (lo <= k)%nat ->
  exists P C, l = P ++ C /\ fwf lo k P /\ fwf k m C.
Proof.
  induction l as [|[i v] l IH]; intros lo H L; [exists [], []; repeat split|].
  destruct H as (H1 & H2 & H3). destruct (Nat.lt_ge_cases i k) as [C|C].
  - destruct (IH (S i) H3 ltac:(lia)) as (P & C' & -> & HP & HC).
    exists ((i, v) :: P), C'. repeat split; try assumption; lia.
  - exists [], ((i, v) :: l). repeat split; try assumption; lia.
Qed.
(** the tuple at [k], if it is there *)
Lemma fwf_head k m l : fwf k m l ->
  (exists v C, l = (k, v) :: C /\ v <> 0 /\ (k < m)%nat /\ fwf (S k) m C) \/ fwf (S k) m l.
Proof.
  destruct l as [|[i v] C]; [now right|]. intros (H1 & H2 & H3).
  destruct (Nat.eq_dec i k) as [->|N].
  - left. exists v, C. repeat split; try assumption; lia.
  - right. cbn. repeat split; try assumption; lia.
Qed.
Lemma bsearch_app {lo k} (P : svec) (C : svec) : fwf lo k P ->
  bsearch k (P ++ C) = let (b, i) := bsearch k C in (b, (length P + i)%nat).
Proof.
  revert lo. induction P as [|[i v] P IH]; intros lo H; cbn [app bsearch length Nat.add].
  - now destruct (bsearch k C).
  - destruct H as (H1 & H2 & H3). rewrite (proj2 (Nat.ltb_lt i k)) by lia.
    rewrite (IH _ H3). now destruct (bsearch k C).
Qed.
Lemma bsearch_absent {k m} (C : svec) : fwf (S k) m C -> bsearch k C = (false, 0%nat).
Proof.
  destruct C as [|[i v] C]; [reflexivity|]. intros (H & _). cbn [bsearch].
  rewrite (proj2 (Nat.ltb_ge i k)) by lia. rewrite (proj2 (Nat.eqb_neq i k)) by lia. reflexivity.
Qed.
Lemma bsearch_present k v (C : svec) : bsearch k ((k, v) :: C) = (true, 0%nat).
Proof. cbn [bsearch]. now rewrite Nat.ltb_irrefl, Nat.eqb_refl. Qed.
Lemma fwf_dim lo m m' l : (forall i, (m' <= i)%nat -> den l i = 0) -> fwf lo m l -> fwf lo m' l.
Proof.
  revert lo. induction l as [|[i v] l IH]; intros lo D H; [exact I|].
  destruct H as (H1 & H2 & H3).
  assert (Di : den ((i, v) :: l) i = v).
  { cbn [den]. rewrite Nat.eqb_refl. rewrite (den_below (S i) m l) by (assumption || lia). ring. }
  assert (Li : (i < m')%nat).
  { destruct (Nat.lt_ge_cases i m') as [C|C]; [assumption|]. rewrite D in Di by assumption. congruence. }
  cbn [fwf]. repeat split; try assumption; try lia. apply IH; [|assumption].
  intros k Hk. specialize (D k Hk). cbn [den] in D. destruct (Nat.eqb_spec k i); [lia|].
  rewrite <- D. ring.
Qed.
Lemma fwf_low lo lo' m l : (forall i, (i < lo')%nat -> den l i = 0) -> fwf lo m l -> fwf lo' m l.
Proof.
  intros D H. destruct l as [|[i v] l]; [exact I|]. destruct H as (H1 & H2 & H3).
  assert (Di : den ((i, v) :: l) i = v).
  { cbn [den]. rewrite Nat.eqb_refl. rewrite (den_below (S i) m l) by (assumption || lia). ring. }
  cbn [fwf]. repeat split; try assumption; try lia.
  destruct (Nat.lt_ge_cases i lo') as [C|C]; [|lia]. rewrite D in Di by assumption. congruence.
Qed.

(** ** Mapping indices through an injective function *)
Lemma den_map_inj (f g : nat -> nat) n l i :
  (forall x, (x < n)%nat -> g (f x) = x) -> (forall j v, In (j, v) l -> (j < n)%nat) -> f (g i) = i ->
  den (map (fun '(j, v) => (f j, v)) l) i = den l (g i).
Proof.
  intros GF. induction l as [|[j v] l IH]; intros H FG; [reflexivity|].
  cbn [map den]. rewrite IH by (try assumption; intros; apply (H j0 v0); now right).
  f_equal. assert (Lj : (j < n)%nat) by (apply (H j v); now left).
  destruct (Nat.eqb_spec i (f j)) as [E|E].
  - rewrite E, GF by assumption. now rewrite Nat.eqb_refl.
  - destruct (Nat.eqb_spec (g i) j) as [E'|E']; [|reflexivity]. exfalso. apply E. now rewrite <- E', FG.
Qed.
Lemma map_shift_up lo m l : fwf lo m l -> fwf (S lo) (S m) (map (fun '(i, v) => (S i, v)) l).
Proof.
  revert lo. induction l as [|[i v] l IH]; intros lo H; [exact I|]. destruct H as (H1 & H2 & H3).
  cbn. repeat split; try assumption; try lia. now apply IH.
Qed.
Lemma den_shift_up (l : svec) i : den (map (fun '(i, v) => (S i, v)) l) (S i) = den l i.
Proof. induction l as [|[j v] l IH]; [reflexivity|]. cbn [map den]. rewrite IH. reflexivity. Qed.
Lemma mapM_dec lo m l : fwf (S lo) (S m) l ->
  exists l', mapM (@dec_index Qc) l = Ok l' /\ fwf lo m l' /\ length l' = length l /\
    l = map (fun '(i, v) => (S i, v)) l'.
Proof.
  revert lo. induction l as [|[i v] l IH]; intros lo H.
  - exists []. repeat split.
  - destruct H as (H1 & H2 & H3). destruct i as [|i]; [lia|]. destruct (IH (S i) H3) as (l' & E & W & Ln & M).
    exists ((i, v) :: l'). cbn [mapM dec_index bind]. rewrite E. cbn [bind]. repeat split; try assumption; try lia.
    + cbn. now rewrite Ln.
    + cbn. now rewrite M.
Qed.

(** ** Swap *)
Lemma sw_forward_invol a b i : sw_forward a b (sw_forward a b i) = i.
Proof.
  unfold sw_forward. destruct (Nat.eqb_spec i a) as [->|Na].
  - destruct (Nat.eqb_spec b a) as [->|Nb]; [reflexivity|]. now rewrite Nat.eqb_refl.
  - destruct (Nat.eqb_spec i b) as [->|Nb]; [now rewrite Nat.eqb_refl|].
    destruct (Nat.eqb_spec i a); [congruence|]. destruct (Nat.eqb_spec i b); congruence.
Qed.
Lemma sw_forward_lt a b m i : (a < m)%nat -> (b < m)%nat -> (i < m)%nat -> (sw_forward a b i < m)%nat.
Proof. unfold sw_forward. destruct (Nat.eqb i a), (Nat.eqb i b); auto. Qed.
Lemma sw_forward_sym a b i : sw_forward a b i = sw_forward b a i.
Proof. unfold sw_forward. destruct (Nat.eqb_spec i a), (Nat.eqb_spec i b); congruence. Qed.

Lemma sw_rotate_up (P B C : svec) x n f nf : f = length P -> nf = (length P + S (length B))%nat ->
  sw_rotate (P ++ x :: B ++ C) f nf n = Ok (P ++ B ++ (n, snd x) :: C).
Proof.
  intros -> ->. unfold sw_rotate. rewrite index_app by reflexivity. cbn [bind].
  rewrite upd_app by reflexivity.
  replace (Nat.compare (length P) (length P + S (length B))) with Lt by (symmetry; apply Nat.compare_lt_iff; lia).
  change ((n, snd x) :: B ++ C) with (((n, snd x) :: B) ++ C).
  rewrite on_slice_app by (cbn; reflexivity || (cbn; lia)). cbn [rotl1 bind].
  now rewrite <- app_assoc.
Qed.
Lemma sw_rotate_down (P B C : svec) x n f nf : nf = length P -> f = (length P + length B)%nat ->
  sw_rotate (P ++ B ++ x :: C) f nf n = Ok (P ++ (n, snd x) :: B ++ C).
Proof.
  intros -> ->. unfold sw_rotate. rewrite app_assoc. rewrite index_app by now rewrite app_length. cbn [bind].
  rewrite upd_app by now rewrite app_length.
  destruct B as [|y B'] eqn:EB.
  - cbn [length]. rewrite Nat.add_0_r, Nat.compare_refl, app_nil_r. reflexivity.
  - rewrite <- EB.
    replace (Nat.compare (length P + length B) (length P)) with Gt
      by (symmetry; apply Nat.compare_gt_iff; rewrite EB; cbn; lia).
    rewrite <- app_assoc. change ((n, snd x) :: C) with ([(n, snd x)] ++ C). rewrite (app_assoc B).
    rewrite on_slice_app by (try reflexivity; rewrite app_length; cbn; lia).
    unfold rotr1. rewrite rev_app_distr. cbn [rev app bind]. rewrite rev_involutive.
    reflexivity.
Qed.

Lemma sw_sorted_lt m a b l : wfs m l -> (a < b)%nat -> (b < m)%nat ->
  exists l', sw_sorted a b l = Ok l' /\ sw_sorted b a l = Ok l' /\ wfs m l' /\
    forall i, den l' i = den l (sw_forward a b i).
Proof.
  intros W Lab Lb.
  destruct (fwf_split a m l 0 W ltac:(lia)) as (P & R & -> & HP & HR).
  assert (ZP : forall i, (a <= i)%nat -> den P i = 0) by (intros; now apply (den_above 0 a)).
  destruct (fwf_head a m R HR) as [(v & R1 & -> & Nv & _ & HR1)|HR1].
  - destruct (fwf_split b m R1 (S a) HR1 ltac:(lia)) as (B & T & -> & HB & HT).
    assert (HPB : fwf 0 b (P ++ (a, v) :: B)).
    { apply (fwf_app 0 a b); [assumption| |lia|lia]. cbn. repeat split; try assumption; lia. }
    destruct (fwf_head b m T HT) as [(w & C & -> & Nw & _ & HC)|HC].
    + exists (P ++ (a, w) :: B ++ (b, v) :: C). unfold sw_sorted.
      rewrite (bsearch_app P _ HP), bsearch_present.
      replace (P ++ (a, v) :: B ++ (b, w) :: C) with ((P ++ (a, v) :: B) ++ (b, w) :: C)
        by now rewrite <- app_assoc.
      rewrite (bsearch_app _ _ HPB), bsearch_present. rewrite !Nat.add_0_r.
      unfold swap_list. rewrite <- app_assoc. cbn [app].
      rewrite index_app by reflexivity. cbn [bind].
      replace (P ++ (a, v) :: B ++ (b, w) :: C) with ((P ++ (a, v) :: B) ++ (b, w) :: C)
        by now rewrite <- app_assoc.
      rewrite index_app by reflexivity. cbn [bind]. rewrite <- app_assoc. cbn [app].
      rewrite upd_app by reflexivity.
      replace (P ++ (b, w) :: B ++ (b, w) :: C) with ((P ++ (b, w) :: B) ++ (b, w) :: C)
        by now rewrite <- app_assoc.
      rewrite upd_app by now rewrite !app_length.
      rewrite <- app_assoc. cbn [app]. rewrite index_app by reflexivity. cbn [bind snd].
      rewrite upd_app by reflexivity.
      replace (P ++ (a, w) :: B ++ (a, v) :: C) with ((P ++ (a, w) :: B) ++ (a, v) :: C)
        by now rewrite <- app_assoc.
      rewrite index_app by now rewrite !app_length. cbn [bind snd].
      rewrite upd_app by now rewrite !app_length. rewrite <- app_assoc. cbn [app].
      split; [reflexivity|].
      replace (P ++ (a, v) :: B ++ (b, w) :: C) with ((P ++ (a, v) :: B) ++ (b, w) :: C)
        by now rewrite <- app_assoc.
      rewrite (upd_app (P ++ (a, v) :: B)) by reflexivity.
      rewrite <- app_assoc. cbn [app]. rewrite upd_app by reflexivity.
      replace (P ++ (b, w) :: B ++ (a, v) :: C) with ((P ++ (b, w) :: B) ++ (a, v) :: C)
        by now rewrite <- app_assoc.
      rewrite index_app by now rewrite !app_length. cbn [bind snd].
      rewrite upd_app by now rewrite !app_length. rewrite <- app_assoc. cbn [app].
      rewrite index_app by reflexivity. cbn [bind snd].
      rewrite upd_app by reflexivity.
      split; [reflexivity|]. split.
      * apply (fwf_app 0 a m); [assumption| |lia|lia]. cbn [fwf]. repeat split; try assumption; try lia.
        apply (fwf_app (S a) b m); [assumption| |lia|lia]. cbn [fwf]. repeat split; try assumption; try lia.
      * intros i. rewrite !den_app. cbn [den]. rewrite !den_app. cbn [den]. unfold sw_forward.
        destruct (Nat.eqb_spec i a) as [->|Na].
        -- rewrite !ZP by lia. rewrite (proj2 (Nat.eqb_neq a b)) by lia. rewrite (proj2 (Nat.eqb_neq b a)) by lia.
           rewrite Nat.eqb_refl. rewrite (den_below (S a) b B a), (den_above (S a) b B b) by (assumption || lia).
           rewrite (den_below (S b) m C a), (den_below (S b) m C b) by (assumption || lia). ring.
        -- destruct (Nat.eqb_spec i b) as [->|Nb].
           ++ rewrite !ZP by lia. rewrite Nat.eqb_refl. rewrite (proj2 (Nat.eqb_neq a b)) by lia.
              rewrite (den_below (S a) b B a), (den_above (S a) b B b) by (assumption || lia).
              rewrite (den_below (S b) m C a), (den_below (S b) m C b) by (assumption || lia). ring.
           ++ rewrite (proj2 (Nat.eqb_neq i a)) by lia. rewrite (proj2 (Nat.eqb_neq i b)) by lia. ring.
    + exists (P ++ B ++ (b, v) :: T). unfold sw_sorted.
      rewrite (bsearch_app P _ HP), bsearch_present.
      replace (P ++ (a, v) :: B ++ T) with ((P ++ (a, v) :: B) ++ T) by now rewrite <- app_assoc.
      rewrite (bsearch_app _ _ HPB), (bsearch_absent _ HC). rewrite !Nat.add_0_r.
      rewrite <- app_assoc. cbn [app].
      rewrite sw_rotate_up by (try reflexivity; rewrite app_length; reflexivity). cbn [snd].
      split; [reflexivity|]. split; [reflexivity|]. split.
      * apply (fwf_app 0 a m); [assumption| |lia|lia].
        apply fwf_weaken with (S a); [lia|].
        apply (fwf_app (S a) b m); [assumption| |lia|lia]. cbn [fwf]. repeat split; try assumption; try lia.
      * intros i. rewrite !den_app. cbn [den]. rewrite !den_app. cbn [den]. unfold sw_forward.
        destruct (Nat.eqb_spec i a) as [->|Na].
        -- rewrite !ZP by lia. rewrite (proj2 (Nat.eqb_neq a b)) by lia. rewrite (proj2 (Nat.eqb_neq b a)) by lia.
           rewrite (den_below (S a) b B a), (den_above (S a) b B b) by (assumption || lia).
           rewrite (den_below (S b) m T a), (den_below (S b) m T b) by (assumption || lia). ring.
        -- destruct (Nat.eqb_spec i b) as [->|Nb].
           ++ rewrite !ZP by lia. rewrite Nat.eqb_refl.
              rewrite (den_below (S a) b B a), (den_above (S a) b B b) by (assumption || lia).
              rewrite (den_below (S b) m T a), (den_below (S b) m T b) by (assumption || lia). ring.
           ++ rewrite (proj2 (Nat.eqb_neq i a)) by lia. ring.
  - destruct (fwf_split b m R (S a) HR1 ltac:(lia)) as (B & T & -> & HB & HT).
    assert (HPB : fwf 0 b (P ++ B)).
    { apply (fwf_app 0 a b); [assumption| |lia|lia]. apply fwf_weaken with (S a); [lia|assumption]. }
    destruct (fwf_head b m T HT) as [(w & C & -> & Nw & _ & HC)|HC].
    + exists (P ++ (a, w) :: B ++ C). unfold sw_sorted.
      rewrite (bsearch_app P _ HP). rewrite (bsearch_absent _ HR1).
      rewrite (app_assoc P B). rewrite (bsearch_app _ _ HPB), bsearch_present. rewrite !Nat.add_0_r.
      rewrite <- app_assoc.
      rewrite sw_rotate_down by (try reflexivity; now rewrite app_length). cbn [snd].
      split; [reflexivity|]. split; [reflexivity|]. split.
      * apply (fwf_app 0 a m); [assumption| |lia|lia]. cbn [fwf]. repeat split; try assumption; try lia.
        apply (fwf_app (S a) b m); [assumption| |lia|lia]. apply fwf_weaken with (S b); [lia|assumption].
      * intros i. rewrite !den_app. cbn [den]. rewrite !den_app. cbn [den]. unfold sw_forward.
        destruct (Nat.eqb_spec i a) as [->|Na].
        -- rewrite !ZP by lia. rewrite Nat.eqb_refl.
           rewrite (den_below (S a) b B a), (den_above (S a) b B b) by (assumption || lia).
           rewrite (den_below (S b) m C a), (den_below (S b) m C b) by (assumption || lia). ring.
        -- destruct (Nat.eqb_spec i b) as [->|Nb].
           ++ rewrite !ZP by lia. rewrite (proj2 (Nat.eqb_neq a b)) by lia.
              rewrite (den_below (S a) b B a), (den_above (S a) b B b) by (assumption || lia).
              rewrite (den_below (S b) m C a), (den_below (S b) m C b) by (assumption || lia). ring.
           ++ rewrite (proj2 (Nat.eqb_neq i b)) by lia. ring.
    + exists (P ++ B ++ T). unfold sw_sorted.
      rewrite (bsearch_app P _ HP). rewrite (bsearch_absent _ HR1).
      rewrite (app_assoc P B). rewrite (bsearch_app _ _ HPB), (bsearch_absent _ HC).
      rewrite <- app_assoc. split; [reflexivity|]. split; [reflexivity|]. split; [assumption|].
      intros i. rewrite !den_app. unfold sw_forward.
      destruct (Nat.eqb_spec i a) as [->|Na].
      * rewrite !ZP by lia.
        rewrite (den_below (S a) b B a), (den_above (S a) b B b) by (assumption || lia).
        rewrite (den_below (S b) m T a), (den_below (S b) m T b) by (assumption || lia). ring.
      * destruct (Nat.eqb_spec i b) as [->|Nb]; [|reflexivity].
        rewrite !ZP by lia.
        rewrite (den_below (S a) b B a), (den_above (S a) b B b) by (assumption || lia).
        rewrite (den_below (S b) m T a), (den_below (S b) m T b) by (assumption || lia). ring.
Qed.
Lemma sw_sorted_spec m a b l : wfs m l -> (a < m)%nat -> (b < m)%nat ->
  exists l', sw_sorted a b l = Ok l' /\ wfs m l' /\ forall i, den l' i = den l (sw_forward a b i).
Proof.
  intros W La Lb. destruct (Nat.lt_trichotomy a b) as [C|[->|C]].
  - destruct (sw_sorted_lt m a b l W C Lb) as (l' & E & _ & W' & D). exists l'. auto.
  - exists l. destruct (fwf_split b m l 0 W ltac:(lia)) as (P & R & -> & HP & HR).
    unfold sw_sorted. rewrite (bsearch_app P _ HP).
    split; [|split; [assumption|]].
    + destruct (fwf_head b m R HR) as [(v & R1 & -> & _)|HR1].
      * rewrite bsearch_present, Nat.add_0_r. unfold swap_list.
        rewrite index_app by reflexivity. cbn [bind]. rewrite !upd_app by reflexivity.
        rewrite index_app by reflexivity. cbn [bind snd]. rewrite upd_app by reflexivity.
        rewrite index_app by reflexivity. cbn [bind snd]. now rewrite upd_app by reflexivity.
      * now rewrite (bsearch_absent _ HR1).
    + intros i. unfold sw_forward. destruct (Nat.eqb_spec i b) as [->|]; reflexivity.
  - destruct (sw_sorted_lt m b a l W C La) as (l' & _ & E & W' & D). exists l'.
    split; [assumption|]. split; [assumption|]. intros i. now rewrite D, sw_forward_sym.
Qed.

(** ** Rotate to back *)
Lemma rb_forward_lt t m i : (t < m)%nat -> (i < m)%nat -> (rb_forward t m i < m)%nat.
Proof. unfold rb_forward. destruct (Nat.ltb_spec i t), (Nat.eqb_spec i t); lia. Qed.
Lemma rb_backward_lt t m i : (t < m)%nat -> (i < m)%nat -> (rb_backward t m i < m)%nat.
Proof. unfold rb_backward. destruct (Nat.ltb_spec i t), (Nat.ltb_spec i (m - 1)); lia. Qed.
Lemma rb_back_forw t m i : (t < m)%nat -> (i < m)%nat -> rb_backward t m (rb_forward t m i) = i.
Proof.
  intros. unfold rb_forward. destruct (Nat.ltb_spec i t); [|destruct (Nat.eqb_spec i t)]; unfold rb_backward.
  - destruct (Nat.ltb_spec i t); lia.
  - destruct (Nat.ltb_spec (m - 1) t); [lia|]. destruct (Nat.ltb_spec (m - 1) (m - 1)); lia.
  - destruct (Nat.ltb_spec (i - 1) t); [lia|]. destruct (Nat.ltb_spec (i - 1) (m - 1)); lia.
Qed.
Lemma rb_forw_back t m i : (t < m)%nat -> (i < m)%nat -> rb_forward t m (rb_backward t m i) = i.
Proof.
  intros. unfold rb_backward. destruct (Nat.ltb_spec i t); [|destruct (Nat.ltb_spec i (m - 1))]; unfold rb_forward.
  - destruct (Nat.ltb_spec i t); lia.
  - destruct (Nat.ltb_spec (S i) t); [lia|]. destruct (Nat.eqb_spec (S i) t); lia.
  - destruct (Nat.ltb_spec t t); [lia|]. rewrite Nat.eqb_refl. lia.
Qed.
Lemma rb_sorted_spec m t l : wfs m l -> (t < m)%nat ->
  exists l', rb_sorted t m l = Ok l' /\ wfs m l' /\
    forall i, (i < m)%nat -> den l' i = den l (rb_backward t m i).
Proof.
  intros W Lt. destruct (fwf_split t m l 0 W ltac:(lia)) as (P & R & -> & HP & HR).
  destruct m as [|m]; [lia|]. replace (S m - 1)%nat with m by lia.
  unfold rb_sorted. rewrite (bsearch_app P _ HP).
  destruct (fwf_head t (S m) R HR) as [(v & C & -> & Nv & _ & HC)|HC].
  - rewrite bsearch_present, Nat.add_0_r. rewrite index_app by reflexivity. cbn [bind snd].
    rewrite upd_app by reflexivity. replace (S m - 1)%nat with m by lia.
    change ((m, v) :: C) with ([(m, v)] ++ C). rewrite (app_assoc P).
    rewrite skipn_app_l by (rewrite app_length; cbn; lia).
    destruct (mapM_dec t m C HC) as (C' & E & W' & L' & MC). rewrite E. cbn [bind].
    rewrite firstn_app_l by (rewrite app_length; cbn; lia). rewrite <- app_assoc.
    replace (P ++ [(m, v)] ++ C') with (P ++ ([(m, v)] ++ C') ++ []) by now rewrite app_nil_r.
    rewrite on_slice_app; [|reflexivity|rewrite !app_length; cbn; lia].
    cbn [app rotl1 bind]. rewrite app_nil_r. eexists. split; [reflexivity|]. split.
    + rewrite app_assoc. apply fwf_snoc; [|lia|assumption].
      apply (fwf_app 0 t m); [assumption|assumption|lia|lia].
    + intros i Li. rewrite !den_app. cbn [den]. rewrite MC. unfold rb_backward.
      destruct (Nat.ltb_spec i t); [|destruct (Nat.ltb_spec i (S m - 1))].
      * rewrite (proj2 (Nat.eqb_neq i m)) by lia. rewrite (proj2 (Nat.eqb_neq i t)) by lia.
        rewrite (den_below t m C') by (assumption || lia).
        rewrite <- MC. rewrite (den_below (S t) (S m) C) by (assumption || lia). ring.
      * rewrite (proj2 (Nat.eqb_neq i m)) by lia. rewrite (proj2 (Nat.eqb_neq (S i) t)) by lia.
        rewrite den_shift_up. rewrite !(den_above 0 t P) by (assumption || lia). ring.
      * replace i with m by lia. rewrite !Nat.eqb_refl.
        rewrite !(den_above 0 t P) by (assumption || lia). rewrite (den_above t m C') by (assumption || lia).
        rewrite <- MC. rewrite (den_below (S t) (S m) C) by (assumption || lia). ring.
  - rewrite (bsearch_absent _ HC), Nat.add_0_r. rewrite skipn_app_l by reflexivity.
    destruct (mapM_dec t m R HC) as (R' & E & W' & L' & MR). rewrite E. cbn [bind].
    rewrite firstn_app_l by reflexivity. eexists. split; [reflexivity|]. split.
    + apply fwf_grow with m; [lia|]. apply (fwf_app 0 t m); [assumption|assumption|lia|lia].
    + intros i Li. rewrite !den_app. rewrite MR. unfold rb_backward.
      destruct (Nat.ltb_spec i t); [|destruct (Nat.ltb_spec i (S m - 1))].
      * rewrite (den_below t m R') by (assumption || lia).
        rewrite <- MR. rewrite (den_below (S t) (S m) R) by (assumption || lia). ring.
      * rewrite den_shift_up. rewrite !(den_above 0 t P) by (assumption || lia). ring.
      * rewrite !(den_above 0 t P) by (assumption || lia). rewrite (den_above t m R') by (assumption || lia).
        rewrite <- MR. rewrite (den_below (S t) (S m) R) by (assumption || lia). ring.
Qed.
Lemma rb_back_sorted_spec m t l : wfs m l -> (t < m)%nat ->
  exists l', rb_back_sorted t m l = Ok l' /\ wfs m l' /\
    forall i, (i < m)%nat -> den l' i = den l (rb_forward t m i).
Proof.
  intros W Lt. unfold rb_back_sorted.
  destruct (rev l) as [|[la v] rl] eqn:Erl.
  - exists l. split; [reflexivity|]. split; [assumption|].
    assert (l = []) as -> by (rewrite <- (rev_involutive l), Erl; reflexivity). reflexivity.
  - assert (El : l = rev rl ++ [(la, v)]) by (rewrite <- (rev_involutive l), Erl; reflexivity).
    clear Erl. set (D := rev rl) in *. clearbody D. clear rl.
    destruct (fwf_split t m l 0 W ltac:(lia)) as (P & R & E & HP & HR).
    assert (Hd : snd (bsearch t l) = length P).
    { rewrite E, (bsearch_app P _ HP). destruct (fwf_head t m R HR) as [(w & C & -> & _)|HC].
      - rewrite bsearch_present. cbn. lia.
      - rewrite (bsearch_absent _ HC). cbn. lia. }
    rewrite Hd. destruct R as [|x R'] eqn:ER.
    { rewrite app_nil_r in E. rewrite E, Nat.eqb_refl. exists P. rewrite E in W.
      split; [reflexivity|]. split; [assumption|]. intros i Li. unfold rb_forward.
      destruct (Nat.ltb_spec i t); [reflexivity|]. rewrite !(den_above 0 t P); try assumption; try lia; [reflexivity|].
      destruct (Nat.eqb_spec i t); lia. }
    rewrite <- ER in *.
    rewrite (proj2 (Nat.eqb_neq (length P) (length l))) by (rewrite E, ER, app_length; cbn; lia).
    destruct (exists_last (l := R)) as (Q & [la' v'] & EQ); [rewrite ER; discriminate|].
    assert (ED : D = P ++ Q /\ la = la' /\ v = v').
    { rewrite E, EQ in El. rewrite app_assoc in El. apply app_inj_tail in El. destruct El as [E1 E2].
      inversion E2. auto. }
    destruct ED as (ED & <- & <-). clear x R' ER.
    assert (HQ : fwf t la Q /\ (t <= la < m)%nat /\ v <> 0).
    { subst R. clear - HR. revert HR. assert (G : forall lo, fwf lo m (Q ++ [(la, v)]) -> fwf lo la Q /\ (lo <= la < m)%nat /\ v <> 0).
      { induction Q as [|[i w] Q IH]; intros lo H.
        - cbn in H. cbn. intuition lia.
        - destruct H as (H1 & H2 & H3). destruct (IH _ H3) as (A & B & C). cbn. repeat split; try assumption; lia. }
      apply G. }
    destruct HQ as (HQ & Hla & Nv).
    destruct (Nat.eqb_spec la (m - 1)) as [Ela|Nla].
    + assert (Eu : upd l (length l - 1) (t, v) = P ++ Q ++ [(t, v)]).
      { rewrite El. rewrite upd_app; [rewrite ED; now rewrite <- app_assoc|]. rewrite app_length. cbn. lia. }
      rewrite Eu. rewrite <- (app_nil_r (Q ++ [(t, v)])).
      rewrite on_slice_app; [|reflexivity|rewrite !app_length; cbn; lia].
      unfold rotr1. rewrite rev_app_distr. cbn [rev app bind]. rewrite rev_involutive, app_nil_r.
      change ((t, v) :: Q) with ([(t, v)] ++ Q). rewrite app_assoc.
      rewrite firstn_app_l, skipn_app_l by (rewrite app_length; cbn; lia).
      eexists. split; [reflexivity|]. split.
      * rewrite <- app_assoc. cbn [app].
        apply (fwf_app 0 t m); [assumption| |lia|lia]. cbn [fwf]. repeat split; try assumption; try lia.
        apply map_shift_up in HQ. apply fwf_grow with (S la); [lia|assumption].
      * intros i Li. rewrite <- app_assoc. cbn [app]. rewrite E, EQ. rewrite !den_app. cbn [den]. unfold rb_forward.
        pose proof (map_shift_up _ _ _ HQ) as HS.
        destruct (Nat.ltb_spec i t); [|destruct (Nat.eqb_spec i t)].
        -- rewrite (proj2 (Nat.eqb_neq i t)) by lia. rewrite (proj2 (Nat.eqb_neq i la)) by lia.
           rewrite (den_below (S t) (S la) _ i HS) by lia. rewrite (den_below t la Q i HQ) by lia. ring.
        -- subst i. rewrite (proj2 (Nat.eqb_eq (m - 1) la)) by lia.
           rewrite (den_below (S t) (S la) _ t HS) by lia. rewrite (den_above t la Q) by (assumption || lia).
           rewrite !(den_above 0 t P) by (assumption || lia). ring.
        -- destruct i as [|i]; [lia|]. rewrite den_shift_up. replace (S i - 1)%nat with i by lia.
           rewrite (proj2 (Nat.eqb_neq i la)) by lia. rewrite !(den_above 0 t P) by (assumption || lia). ring.
    + rewrite E. rewrite firstn_app_l, skipn_app_l by reflexivity.
      eexists. split; [reflexivity|].
      assert (HR' : fwf t (m - 1) R).
      { rewrite EQ. apply fwf_grow with (S la); [lia|]. apply fwf_snoc; [assumption|lia|assumption]. }
      pose proof (map_shift_up _ _ _ HR') as HS. replace (S (m - 1)) with m in HS by lia. split.
      * apply (fwf_app 0 t m); [assumption| |lia|lia]. apply fwf_weaken with (S t); [lia|assumption].
      * intros i Li. rewrite !den_app. unfold rb_forward.
        destruct (Nat.ltb_spec i t); [|destruct (Nat.eqb_spec i t)].
        -- rewrite (den_below (S t) m _ i HS) by lia. rewrite (den_below t m R i HR) by lia. ring.
        -- subst i. rewrite (den_below (S t) m _ t HS) by lia. rewrite !(den_above 0 t P) by (assumption || lia).
           rewrite (den_above t (m - 1) R) by (assumption || lia). ring.
        -- destruct i as [|i]; [lia|]. rewrite den_shift_up. replace (S i - 1)%nat with i by lia.
           rewrite !(den_above 0 t P) by (assumption || lia). ring.
Qed.

(** ** Full permutations *)
Record is_full (m : nat) (f : full) : Prop := mk_is_full {
  fu_lf : length (f_fw f) = m;
  fu_lb : length (f_bw f) = m;
  fu_f : forall i, (i < m)%nat -> (nth i (f_fw f) 0 < m)%nat /\ nth (nth i (f_fw f) 0%nat) (f_bw f) 0%nat = i;
  fu_b : forall i, (i < m)%nat -> (nth i (f_bw f) 0 < m)%nat /\ nth (nth i (f_bw f) 0%nat) (f_fw f) 0%nat = i
}.
Lemma full_invert_spec m f : is_full m f -> is_full m (full_invert f).
Proof. intros [A B C D]. split; assumption. Qed.
Lemma full_identity_spec m : is_full m (full_identity m).
Proof.
  split; cbn; try apply seq_length; intros i Li; rewrite !seq_nth; rewrite ?seq_nth; lia.
Qed.

Lemma insert_by_length {A} (key : A -> nat) x l : length (insert_by key x l) = S (length l).
Proof. induction l as [|y l IH]; [reflexivity|]. cbn [insert_by]. destruct (Nat.ltb (key x) (key y)); cbn [length]; [reflexivity|]. now rewrite IH. Qed.
Lemma insert_by_In {A} (key : A -> nat) x l y : In y (insert_by key x l) <-> y = x \/ In y l.
Proof.
  induction l as [|z l IH]; cbn [insert_by]; [cbn; intuition|].
  destruct (Nat.ltb (key x) (key z)); cbn [In]; [intuition|]. rewrite IH. intuition.
Qed.
Lemma sort_by_length {A} (key : A -> nat) l : length (sort_by key l) = length l.
Proof.
  unfold sort_by. assert (G : forall l acc, length (fold_left (fun acc x => insert_by key x acc) l acc) = (length acc + length l)%nat).
  { clear l. induction l as [|x l IH]; intros acc; cbn [fold_left length]; [lia|]. rewrite IH, insert_by_length. lia. }
  now rewrite G.
Qed.
Lemma sort_by_In {A} (key : A -> nat) l y : In y (sort_by key l) <-> In y l.
Proof.
  unfold sort_by. assert (G : forall l acc, In y (fold_left (fun acc x => insert_by key x acc) l acc) <-> In y l \/ In y acc).
  { clear l. induction l as [|x l IH]; intros acc; cbn [fold_left In]; [tauto|]. rewrite IH, insert_by_In. intuition. }
  rewrite G. cbn. tauto.
Qed.
Lemma insert_by_increasing {A} (key : A -> nat) x : forall l lo, increasing_from lo (map key l) ->
  (lo <= key x)%nat -> ~ In (key x) (map key l) -> increasing_from lo (map key (insert_by key x l)).
Proof.
  induction l as [|y l IH]; intros lo H L N; cbn [insert_by map increasing_from] in *.
  - split; [assumption|exact I].
  - destruct H as [H1 H2]. destruct (Nat.ltb_spec (key x) (key y)) as [C|C]; cbn [map increasing_from].
    + repeat split; try assumption. 
    + split; [assumption|]. apply IH; [assumption| |].
      * assert (key y <> key x) by (intros E; apply N; left; congruence). lia.
      * intros I. apply N. now right.
Qed.
Lemma insert_by_keys' {A} (key : A -> nat) x l j :
  In j (map key (insert_by key x l)) <-> j = key x \/ In j (map key l).
Proof.
  rewrite !in_map_iff. split.
  - intros (y & <- & H). apply insert_by_In in H. destruct H as [->|H]; [now left|right; now exists y].
  - intros [->|(y & <- & H)].
    + exists x. split; [reflexivity|]. apply insert_by_In. now left.
    + exists y. split; [reflexivity|]. apply insert_by_In. now right.
Qed.
Lemma sort_by_increasing {A} (key : A -> nat) l : NoDup (map key l) ->
  increasing_from 0 (map key (sort_by key l)).
Proof.
  unfold sort_by.
  assert (G : forall l acc, NoDup (map key l) -> increasing_from 0 (map key acc) ->
     (forall j, In j (map key l) -> ~ In j (map key acc)) ->
     increasing_from 0 (map key (fold_left (fun acc x => insert_by key x acc) l acc))).
  { clear l. induction l as [|x l IH]; intros acc ND H Dis; cbn [fold_left]; [assumption|].
    cbn [map] in ND. inversion ND as [|? ? Nin ND']; subst. apply IH; [assumption| |].
    - apply insert_by_increasing; [assumption|lia|]. apply Dis. now left.
    - intros j Hj C. apply insert_by_keys' in C. destruct C as [->|C]; [contradiction|].
      apply (Dis j); [now right|assumption]. }
  intros ND. apply G; [assumption|exact I|]. intros j _ [].
Qed.
Lemma increasing_seq l : forall lo m, increasing_from lo l -> (forall x, In x l -> (x < lo + m)%nat) ->
  length l = m -> l = seq lo m.
Proof.
  induction l as [|x l IH]; intros lo m H B E; cbn in E; subst m; [reflexivity|].
  destruct H as [H1 H2]. cbn [length seq].
  assert (Lb : forall l y, increasing_from y l -> (forall x, In x l -> (x < lo + S (length l))%nat) -> l <> [] -> (y + length l <= lo + S (length l))%nat).
  { clear. intros l. assert (G : forall N y, increasing_from y l -> (forall x, In x l -> (x < N)%nat) -> (l <> [] -> y + length l <= N)%nat).
    { induction l as [|z l IH]; intros N y H B Ne; [congruence|]. destruct H as [H1 H2]. cbn [length].
      destruct l as [|w l']; [specialize (B z (or_introl eq_refl)); cbn; lia|].
      assert (S z + length (w :: l') <= N)%nat by (apply IH; [assumption|intros; apply B; now right|discriminate]). cbn [length] in *. lia. }
    intros y H B Ne. apply G; assumption. }
  assert (x = lo) as ->.
  { destruct l as [|y l']; [specialize (B x (or_introl eq_refl)); cbn in B; lia|].
    assert (G : (S x + length (y :: l') <= lo + S (length (y :: l')))%nat).
    { apply Lb; [assumption| |discriminate]. intros z Hz. apply B. now right. }
    cbn [length] in G. lia. }
  f_equal. apply IH; [assumption| |reflexivity]. intros z Hz. specialize (B z (or_intror Hz)). cbn [length] in B. lia.
Qed.
Lemma full_new_spec m fwd : length fwd = m -> NoDup fwd -> (forall x, In x fwd -> (x < m)%nat) ->
  is_full m (full_new fwd).
Proof.
  intros L ND B. set (l := combine fwd (seq 0 (length fwd))).
  assert (Lc : length l = m) by (unfold l; rewrite combine_length, seq_length; lia).
  assert (Mc : map fst l = fwd).
  { unfold l. clear. generalize 0%nat. induction fwd as [|x f IH]; intros k; cbn; [reflexivity|]. now rewrite IH. }
  assert (Nc : forall i, (i < m)%nat -> In (nth i fwd 0%nat, i) l).
  { intros i Li. assert (E : nth i l (0%nat, 0%nat) = (nth i fwd 0%nat, i)).
    { unfold l. rewrite combine_nth by now rewrite seq_length. rewrite seq_nth by lia. reflexivity. }
    rewrite <- E. apply nth_In. lia. }
  assert (Inv : forall x i, In (x, i) l -> (i < m)%nat /\ nth i fwd 0%nat = x).
  { intros x i H. destruct (In_nth _ _ (0%nat, 0%nat) H) as (k & Lk & E). rewrite Lc in Lk.
    unfold l in E. rewrite combine_nth in E by now rewrite seq_length. rewrite seq_nth in E by lia.
    injection E as E1 E2. cbn in E2. subst k. split; assumption. }
  set (s := sort_by fst l).
  assert (Ls : length s = m) by (unfold s; now rewrite sort_by_length).
  assert (Ms : map fst s = seq 0 m).
  { apply increasing_seq.
    - apply sort_by_increasing. now rewrite Mc.
    - intros x H. apply in_map_iff in H. destruct H as ([x' i] & <- & H). apply (proj1 (sort_by_In _ _ _)) in H.
      cbn. apply B. rewrite <- Mc. now apply (in_map fst) in H.
    - now rewrite map_length. }
  assert (Ns : forall i, (i < m)%nat -> nth i s (0%nat, 0%nat) = (i, nth i (map snd s) 0%nat)).
  { intros i Li. rewrite (surjective_pairing (nth i s (0%nat, 0%nat))). f_equal.
    - rewrite <- (map_nth fst). rewrite Ms. cbn [fst]. now rewrite seq_nth.
    - now rewrite <- (map_nth snd). }
  assert (Hb : forall i, (i < m)%nat -> (nth i (map snd s) 0 < m)%nat /\ nth (nth i (map snd s) 0%nat) fwd 0%nat = i).
  { intros i Li. apply Inv. rewrite <- Ns by assumption. apply (sort_by_In fst l). apply nth_In. fold s. lia. }
  split; cbn; fold l; fold s; try assumption.
  - now rewrite map_length.
  - intros i Li. assert (Lx : (nth i fwd 0 < m)%nat) by (apply B, nth_In; lia). split; [assumption|].
    destruct (Hb _ Lx) as [H1 H2].
    apply (NoDup_nth fwd 0%nat); try assumption; lia.
Qed.

Lemma map_indices_ok (f : nat -> res nat) (F : nat -> nat) m (l : svec) :
  (forall i, (i < m)%nat -> f i = Ok (F i)) -> (forall i v, In (i, v) l -> (i < m)%nat) ->
  map_indices f l = Ok (map (fun '(i, v) => (F i, v)) l).
Proof.
  intros Hf. unfold map_indices. induction l as [|[i v] l IH]; intros H; [reflexivity|].
  cbn [mapM]. rewrite Hf by (apply (H i v); now left). cbn [bind].
  rewrite IH by (intros; apply (H i0 v0); now right). reflexivity.
Qed.
Lemma fwf_NoDup lo m l : fwf lo m l -> NoDup (map fst l).
Proof.
  revert lo. induction l as [|[i v] l IH]; intros lo H; [constructor|]. destruct H as (H1 & H2 & H3).
  cbn. constructor; [|now apply (IH (S i))]. intros C. apply in_map_iff in C. destruct C as ([j w] & E & C).
  cbn in E. subst j. destruct (den_In _ _ _ _ _ H3 C) as (_ & _ & L). lia.
Qed.
(** permuting the indices and sorting again *)
Lemma map_sort_spec (F G : nat -> nat) m l :
  (forall i, (i < m)%nat -> (F i < m)%nat /\ G (F i) = i) ->
  (forall i, (i < m)%nat -> (G i < m)%nat /\ F (G i) = i) -> wfs m l ->
  wfs m (sort_by fst (map (fun '(i, v) => (F i, v)) l)) /\
  forall i, (i < m)%nat -> den (sort_by fst (map (fun '(i, v) => (F i, v)) l)) i = den l (G i).
Proof.
  intros HF HG W.
  assert (B : forall j v, In (j, v) l -> (j < m)%nat) by (intros; now apply (wfs_In_lt m l j v)).
  split.
  - apply sort_by_fwf.
    + rewrite map_map. pose proof (fwf_NoDup 0 m l W) as ND. clear W.
      induction l as [|[i v] l IH]; [constructor|]. cbn in *. inversion ND as [|? ? Nin ND']; subst.
      constructor; [|apply IH; [intros; apply (B j v0); now right|assumption]].
      intros C. apply in_map_iff in C. destruct C as ([j w] & E & C).
      apply Nin. assert (j = i) as <-.
      { cbn in E. rewrite <- (proj2 (HF j (B j w (or_intror C)))). rewrite E. apply HF. apply (B i v). now left. }
      now apply (in_map fst) in C.
    + intros i v H. apply in_map_iff in H. destruct H as ([j w] & E & H). injection E as <- <-.
      split; [apply HF; now apply (B j w)|]. now apply (den_In 0 m l j w).
  - intros i Li. rewrite den_sort. apply (den_map_inj F G m); try assumption.
    + intros x Hx. now apply HF.
    + now apply HG.
Qed.

Lemma full_forward_ok m f i : is_full m f -> (i < m)%nat -> full_forward f i = Ok (nth i (f_fw f) 0%nat).
Proof. intros H L. unfold full_forward. apply index_Ok. now rewrite (fu_lf _ _ H). Qed.
Lemma full_backward_ok m f i : is_full m f -> (i < m)%nat -> full_backward f i = Ok (nth i (f_bw f) 0%nat).
Proof. intros H L. unfold full_backward. apply index_Ok. now rewrite (fu_lb _ _ H). Qed.
Lemma full_backward_sorted m f l : is_full m f -> wfs m l ->
  exists l', map_sorted (full_backward f) l = Ok l' /\ wfs m l' /\
    forall i, (i < m)%nat -> den l' i = den l (nth i (f_fw f) 0%nat).
Proof.
  intros H W. unfold map_sorted.
  rewrite (map_indices_ok _ (fun i => nth i (f_bw f) 0%nat) m).
  - cbn [bind]. eexists. split; [reflexivity|].
    apply (map_sort_spec (fun i => nth i (f_bw f) 0%nat) (fun i => nth i (f_fw f) 0%nat)); [|apply H|assumption].
    apply (fu_b _ _ H).
  - intros. now apply (full_backward_ok m).
  - intros. now apply (wfs_In_lt m l i v).
Qed.
Lemma full_forward_sorted m f l : is_full m f -> wfs m l ->
  exists l', map_sorted (full_forward f) l = Ok l' /\ wfs m l' /\
    forall i, (i < m)%nat -> den l' i = den l (nth i (f_bw f) 0%nat).
Proof. intros H W. exact (full_backward_sorted m (full_invert f) l (full_invert_spec m f H) W). Qed.
