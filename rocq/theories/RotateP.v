(** * Proofs: rotating a full permutation *)
From Verif Require Import SpecRotate SolverQ LuC.

Lemma down_up i m x : (i < m)%nat -> (x < m)%nat -> (down i m x < m)%nat /\ (up i m x < m)%nat /\ up i m (down i m x) = x /\ down i m (up i m x) = x.
Proof.
  intros Li Lx. unfold down, up. destruct (Nat.ltb_spec x i), (Nat.eqb_spec x i), (Nat.eqb_spec x (m - 1)); repeat split; try lia;
    repeat (match goal with |- context [?a <? ?b] => destruct (Nat.ltb_spec a b) | |- context [?a =? ?b] => destruct (Nat.eqb_spec a b) end); lia.
Qed.
Lemma slice_rotr1 {A} (l : list A) d x : (d < length l)%nat ->
  exists l', on_slice rotr1 d (length l) l = Ok l' /\ length l' = length l /\ forall i, (i < length l)%nat -> nth i l' x = nth (down d (length l) i) l x.
Proof.
  intros Ld. assert (NE : l <> []) by (destruct l; cbn in Ld; [lia|discriminate]). destruct (exists_last NE) as (l0 & y & ->). rewrite app_length in *. cbn [length] in *.
  unfold on_slice. rewrite ?app_length. cbn [length]. rewrite (proj2 (Nat.leb_le d (length l0 + 1)) ltac:(lia)), Nat.leb_refl. cbn [andb].
  rewrite firstn_all2 by (rewrite app_length; cbn; lia). rewrite skipn_app. replace (d - length l0)%nat with 0%nat by lia. cbn [skipn].
  unfold rotr1. rewrite rev_app_distr. cbn [rev app bind]. rewrite rev_involutive, firstn_app. replace (d - length l0)%nat with 0%nat by lia. cbn [firstn]. rewrite app_nil_r.
  rewrite (@skipn_all2 _ (length l0 + 1) (l0 ++ [y])) by (rewrite app_length; cbn; lia). rewrite app_nil_r. eexists. split; [reflexivity|]. split.
  - rewrite app_length, firstn_length. cbn [length]. rewrite skipn_length. lia.
  - intros i Li. unfold down. assert (LF : length (firstn d l0) = d) by (rewrite firstn_length; lia). destruct (Nat.ltb_spec i d) as [C|C].
    + rewrite app_nth1 by lia. rewrite app_nth1 by lia. rewrite <- (firstn_skipn d l0) at 2. rewrite app_nth1 by lia. reflexivity.
    + rewrite app_nth2 by lia. rewrite LF. destruct (Nat.eqb_spec i d) as [->|C2].
      * rewrite Nat.sub_diag. cbn [nth]. rewrite app_nth2 by lia. replace (length l0 + 1 - 1 - length l0)%nat with 0%nat by lia. reflexivity.
      * replace (i - d)%nat with (S (i - d - 1)) by lia. cbn [nth]. rewrite app_nth1 by lia. rewrite <- (firstn_skipn d l0) at 2. rewrite app_nth2 by lia. rewrite LF. f_equal. lia.
Qed.
Lemma slice_rotl1' {A} (l : list A) d x : (d < length l)%nat ->
  exists l', on_slice rotl1 d (length l) l = Ok l' /\ length l' = length l /\ forall i, (i < length l)%nat -> nth i l' x = nth (up d (length l) i) l x.
Proof.
  intros Ld. destruct (slice_rotl1 l d x Ld) as (l' & E & L & N). exists l'. split; [exact E|]. split; [exact L|]. intros i Li. rewrite (N i Li). f_equal. unfold rb_backward, up.
  destruct (Nat.ltb_spec i d), (Nat.ltb_spec i (length l - 1)), (Nat.eqb_spec i (length l - 1)); lia.
Qed.
Lemma full_rotated m f i : full_history m f -> (i < m)%nat -> exists f', full_rotate_right_from f i = Ok f' /\
  (forall x, (x < m)%nat -> full_forward f' x = full_forward f (down i m x) /\ full_backward f' x = full_backward f (up i m x)) /\
  ((forall x j, (x < m)%nat -> full_forward f' x = Ok j -> full_backward f' j = Ok x) <->
   forall x j, (x < m)%nat -> full_forward f x = Ok j -> full_forward f (down i m x) = Ok (down i m j)).
Proof.
  intros H Li. apply full_history_full in H. pose proof (fu_lf _ _ H) as LF. pose proof (fu_lb _ _ H) as LB.
  destruct (slice_rotr1 (f_fw f) i 0%nat) as (fw & E1 & L1 & N1); [lia|]. destruct (slice_rotl1' (f_bw f) i 0%nat) as (bw & E2 & L2 & N2); [lia|].
  exists (mk_full fw bw). unfold full_rotate_right_from. rewrite E1. cbn [bind]. rewrite E2. cbn [bind]. split; [reflexivity|].
  rewrite LF in *. rewrite LB in *.
  assert (F : forall x, (x < m)%nat -> full_forward (mk_full fw bw) x = Ok (nth (down i m x) (f_fw f) 0%nat)).
  { intros x Lx. unfold full_forward. cbn [f_fw]. rewrite (index_Ok fw x 0%nat) by lia. now rewrite N1. }
  assert (B : forall x, (x < m)%nat -> full_backward (mk_full fw bw) x = Ok (nth (up i m x) (f_bw f) 0%nat)).
  { intros x Lx. unfold full_backward. cbn [f_bw]. rewrite (index_Ok bw x 0%nat) by lia. now rewrite N2. }
  split.
  - intros x Lx. destruct (down_up i m x Li Lx) as (D & U & _). rewrite (F x Lx), (B x Lx), (full_forward_ok m f _ H D), (full_backward_ok m f _ H U). now split.
  - split.
    + intros T x j Lx E. destruct (down_up i m x Li Lx) as (D & U & UD & DU). rewrite (full_forward_ok m f x H Lx) in E. injection E as <-.
      rewrite (full_forward_ok m f _ H D). specialize (T x _ Lx (F x Lx)). destruct (fu_f m f H _ D) as [Lf Bf]. rewrite (B _ Lf) in T. injection T as T.
      destruct (down_up i m _ Li Lf) as (_ & U' & _ & DU'). destruct (fu_b m f H _ U') as [_ Fb]. rewrite T in Fb. rewrite Fb, DU'. reflexivity.
    + intros C x j Lx E. destruct (down_up i m x Li Lx) as (D & _). rewrite (F x Lx) in E. injection E as <-. destruct (fu_f m f H x Lx) as [Lf Bf].
      pose proof (C x _ Lx (full_forward_ok m f x H Lx)) as K. rewrite (full_forward_ok m f _ H D) in K. injection K as K. rewrite K.
      destruct (down_up i m _ Li Lf) as (D' & _ & UD & _). rewrite (B _ D'), UD, Bf. reflexivity.
Qed.
Lemma full_rotate_fixed m f i f' : full_history m f -> (i < m)%nat -> (forall x, (i <= x < m)%nat -> full_forward f x = Ok x) -> full_rotate_right_from f i = Ok f' ->
  forall x j, (x < m)%nat -> full_forward f' x = Ok j -> full_backward f' j = Ok x.
Proof.
  intros H Li Fix E. destruct (full_rotated m f i H Li) as (f2 & E2 & _ & T). rewrite E in E2. injection E2 as <-. apply T. clear T E. intros x j Lx Ex.
  pose proof (full_history_full m f H) as FU. destruct (Nat.lt_ge_cases x i) as [C|C].
  - assert (Dx : down i m x = x) by (unfold down; now rewrite (proj2 (Nat.ltb_lt x i) C)). rewrite Dx. rewrite Ex. f_equal. unfold down. destruct (Nat.ltb_spec j i) as [|Cj]; [reflexivity|]. exfalso.
    rewrite (full_forward_ok m f x FU Lx) in Ex. injection Ex as <-. destruct (fu_f m f FU x Lx) as [Lf Bf]. pose proof (Fix _ (conj Cj Lf)) as K. rewrite (full_forward_ok m f _ FU Lf) in K. injection K as K.
    destruct (fu_f m f FU _ Lf) as [_ B2]. rewrite K in B2. rewrite Bf in B2. lia.
  - rewrite (Fix x (conj C Lx)) in Ex. injection Ex as <-. destruct (down_up i m x Li Lx) as (D & _). apply Fix. split; [|exact D]. unfold down. destruct (Nat.ltb_spec x i); [lia|]. destruct (Nat.eqb_spec x i); lia.
Qed.
