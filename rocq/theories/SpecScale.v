(** * What scaling is for: the specification side *)
From Coq Require Export Znumtheory.
From Verif Require Export SpecGeneral Scale.

(** ** Prime factorizations *)
Fixpoint zincreasing (lo : Z) (l : list Z) : Prop := match l with [] => True | a :: t => (lo < a)%Z /\ zincreasing a t end.
(** integer powers *)
Definition qpower (q : Qc) (k : Z) : Qc := Q2Qc (Qpower q k).
Definition product (l : factorization) : Qc := fold_right (fun '(f, k) x => qpower (zq f) k * x) 1 l.
(** the absolute value is the product of powers of increasing primes *)
Definition prime_factorization (l : factorization) (v : Qc) : Prop :=
  zincreasing 1 (map fst l) /\ (forall f k, In (f, k) l -> prime f) /\ qabs v = product l.
(** the power of a factor *)
Fixpoint power (p : Z) (l : factorization) : Z := match l with [] => 0%Z | (f, k) :: t => if (f =? p)%Z then k else power p t end.

(** ** The numbers in a program that scaling is about *)
Definition some_value (o : option Qc) : list Qc := match o with Some x => [x] | None => [] end.
Definition values (g : general) : list Qc :=
  filter (fun v => negb (qzero v))
    (g_b g ++ map v_cost (g_vars g) ++ flat_map (fun v => some_value (v_lower v)) (g_vars g) ++ flat_map (fun v => some_value (v_upper v)) (g_vars g) ++
     concat (map (map snd) (g_cols g))).
(** how often a factor occurs, in numerators and denominators *)
Definition zsum (l : list Z) : Z := fold_right Z.add 0%Z l.
Definition total_exponent (fac : Qc -> factorization) (p : Z) (g : general) : Z := zsum (map (fun v => Z.abs (power p (fac v))) (values g)).

(** ** Scaled programs *)
Definition positive_scaling (g : general) (sc : scaling) : Prop :=
  length (sc_rows sc) = g_rows g /\ length (sc_cols sc) = nr_vars g /\
  0 < sc_cost sc /\ (forall i, (i < g_rows g)%nat -> 0 < nthq (sc_rows sc) i) /\ (forall j, (j < nr_vars g)%nat -> 0 < nthq (sc_cols sc) j).
(** the point of the original program that belongs to a point of the scaled program *)
Definition scaled_point (sc : scaling) (x : vec) : vec := fun j => x j * nthq (sc_cols sc) j.
(** the columns the other way around *)
Definition columns_inverted (sc : scaling) : scaling := mk_scaling (sc_cost sc) (sc_rows sc) (map Qcinv (sc_cols sc)).
(** sizes that agree *)
Definition sizes_agree (g : general) : Prop :=
  length (g_cols g) = nr_vars g /\ length (g_types g) = g_rows g /\ length (g_b g) = g_rows g /\
  forall c i v, In c (g_cols g) -> In (i, v) c -> (i < g_rows g)%nat.
(** the values of the program are factorized in positive factors, in order *)
Definition factorizes (fac : Qc -> factorization) (g : general) : Prop := forall v, In v (values g) -> zincreasing 0 (map fst (fac v)).
