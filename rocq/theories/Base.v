(** * Results, lists and indices

    Common vocabulary of the model.  A Rust function that may panic is modelled by a function into
    [res]: [Ok], [Panic] (any `panic!`, `unwrap` on `None`, out of range index, integer underflow)
    or [Fuel] (the fuel that stands for a `loop`/`while` was used up; says nothing about the code). *)
From Verif Require Export Qcx.

Inductive res (A : Type) : Type :=
| Ok (a : A)
| Panic
| Fuel.
Arguments Ok {A} a.
Arguments Panic {A}.
Arguments Fuel {A}.

Definition bind {A B} (x : res A) (f : A -> res B) : res B :=
  match x with
  | Ok a => f a
  | Panic => Panic
  | Fuel => Fuel
  end.
Notation "'let*' x ':=' e1 'in' e2" := (bind e1 (fun x => e2))
  (at level 200, x pattern, e1 at level 100, e2 at level 200, right associativity).

Definition ofopt {A} (x : option A) : res A :=
  match x with Some a => Ok a | None => Panic end.

(** `v[i]` on a `Vec`: panics when out of range. *)
Definition index {A} (l : list A) (i : nat) : res A := ofopt (nth_error l i).

(** `v[i] = x` on a `Vec`; [upd] leaves the list unchanged when out of range, [set_index] panics. *)
Fixpoint upd {A} (l : list A) (i : nat) (x : A) : list A :=
  match l, i with
  | [], _ => []
  | _ :: t, O => x :: t
  | y :: t, S k => y :: upd t k x
  end.
Definition set_index {A} (l : list A) (i : nat) (x : A) : res (list A) :=
  if Nat.ltb i (length l) then Ok (upd l i x) else Panic.

(** `Vec::remove`, `Vec::insert`. *)
Fixpoint remove_at {A} (l : list A) (i : nat) : list A :=
  match l, i with
  | [], _ => []
  | _ :: t, O => t
  | y :: t, S k => y :: remove_at t k
  end.
Fixpoint insert_at {A} (l : list A) (i : nat) (x : A) : list A :=
  match i, l with
  | O, _ => x :: l
  | S k, y :: t => y :: insert_at t k x
  | S _, [] => [x]
  end.

Fixpoint mapM {A B} (f : A -> res B) (l : list A) : res (list B) :=
  match l with
  | [] => Ok []
  | x :: t => let* y := f x in let* ys := mapM f t in Ok (y :: ys)
  end.
Fixpoint foldM {A S} (f : S -> A -> res S) (l : list A) (s : S) : res S :=
  match l with
  | [] => Ok s
  | x :: t => let* s' := f s x in foldM f t s'
  end.
(** first element satisfying a predicate that may panic *)
Fixpoint findM {A} (f : A -> res bool) (l : list A) : res (option A) :=
  match l with
  | [] => Ok None
  | x :: t => let* b := f x in if b then Ok (Some x) else findM f t
  end.

(** the range [a..b] *)
Definition range (a b : nat) : list nat := seq a (b - a).

Definition memb (x : nat) (l : list nat) : bool := existsb (Nat.eqb x) l.

(** Values of a dense vector. *)
Definition nthq (l : list Qc) (i : nat) : Qc := nth i l 0.

(** index_utils::remove_indices (external crate): remove the elements at the sorted indices. *)
Fixpoint remove_indices_from {A} (k : nat) (l : list A) (rm : list nat) : list A :=
  match l with
  | [] => []
  | x :: t => if memb k rm then remove_indices_from (S k) t rm
              else x :: remove_indices_from (S k) t rm
  end.
Definition remove_indices {A} (l : list A) (rm : list nat) : list A := remove_indices_from 0 l rm.

(** ** Lemmas *)
Lemma bind_ok {A B} (x : res A) (f : A -> res B) b :
  bind x f = Ok b <-> exists a, x = Ok a /\ f a = Ok b.
Proof.
  destruct x; simpl; split; intro H.
  - now exists a. 
  - destruct H as (a' & E & H). now inversion E; subst.
  - discriminate.
  - destruct H as (a' & E & H). discriminate.
  - discriminate.
  - destruct H as (a' & E & H). discriminate.
Qed.
Ltac inv_ok :=
  repeat match goal with
  | H : bind _ _ = Ok _ |- _ =>
      apply bind_ok in H; let a := fresh "r" in let E := fresh "E" in destruct H as (a & E & H)
  | H : Ok _ = Ok _ |- _ => injection H as H; try subst
  | H : Panic = Ok _ |- _ => discriminate H
  | H : Fuel = Ok _ |- _ => discriminate H
  | H : Ok _ = Panic |- _ => discriminate H
  | H : Ok _ = Fuel |- _ => discriminate H
  end.

Lemma index_ok {A} (l : list A) i x : index l i = Ok x <-> nth_error l i = Some x.
Proof.
  unfold index, ofopt. destruct (nth_error l i); split; intro H; inversion H; reflexivity.
Qed.
Lemma index_total {A} (l : list A) i : (i < length l)%nat -> exists x, index l i = Ok x.
Proof.
  intros H. unfold index, ofopt. destruct (nth_error l i) eqn:E; [now exists a|].
  apply nth_error_None in E. lia.
Qed.
Lemma upd_length {A} (l : list A) i x : length (upd l i x) = length l.
Proof. revert i; induction l; destruct i; simpl; auto. Qed.
Lemma upd_nth_error {A} (l : list A) i x k :
  nth_error (upd l i x) k = if Nat.eqb k i && Nat.ltb i (length l) then Some x else nth_error l k.
Proof.
  revert i k; induction l; intros i k; simpl.
  - replace (Nat.ltb i 0) with false by now destruct i. rewrite andb_false_r. now destruct k, i.
  - destruct i, k; simpl; try reflexivity.
    rewrite IHl. reflexivity.
Qed.
Lemma upd_nth {A} (l : list A) i x k d :
  (i < length l)%nat -> nth k (upd l i x) d = if Nat.eqb k i then x else nth k l d.
Proof.
  revert i k; induction l; intros i k H; simpl in *; [lia|].
  destruct i, k; simpl; try reflexivity. apply IHl. lia.
Qed.
Lemma set_index_ok {A} (l : list A) i x l' :
  set_index l i x = Ok l' <-> (i < length l)%nat /\ l' = upd l i x.
Proof.
  unfold set_index. destruct (Nat.ltb_spec i (length l)); split; intro H0.
  - now inversion H0.
  - destruct H0; now subst.
  - discriminate.
  - lia.
Qed.
Lemma memb_In x l : memb x l = true <-> In x l.
Proof.
  unfold memb. rewrite existsb_exists. split.
  - intros (y & H & E). apply Nat.eqb_eq in E. now subst.
  - intros H. exists x. split; [assumption|apply Nat.eqb_refl].
Qed.
Lemma memb_false x l : memb x l = false <-> ~ In x l.
Proof. rewrite <- memb_In. destruct (memb x l); split; congruence. Qed.
Lemma In_range a b x : In x (range a b) <-> (a <= x < b)%nat.
Proof. unfold range. rewrite in_seq. lia. Qed.
Lemma mapM_ok {A B} (f : A -> res B) l ys :
  mapM f l = Ok ys -> length ys = length l /\
  forall i x, nth_error l i = Some x -> exists y, f x = Ok y /\ nth_error ys i = Some y.
Proof.
  revert ys; induction l; intros ys H; simpl in H.
  - inv_ok. split; [reflexivity|]. intros [|i] x E; discriminate.
  - inv_ok. destruct (IHl _ E0) as [L N]. split; [simpl; congruence|].
    intros [|i] x Ex; simpl in *.
    + inversion Ex; subst. now exists r.
    + now apply N.
Qed.
Lemma mapM_total {A B} (f : A -> res B) l :
  (forall x, In x l -> exists y, f x = Ok y) -> exists ys, mapM f l = Ok ys.
Proof.
  induction l; intros H; simpl; [now exists []|].
  destruct (H a (or_introl eq_refl)) as [y Ey]. rewrite Ey. simpl.
  destruct IHl as [ys Eys]; [intros; apply H; now right|].
  rewrite Eys. simpl. now exists (y :: ys).
Qed.
