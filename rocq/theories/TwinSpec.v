(** * Data with the same vector. *)

From Coq Require Import String List Bool Arith ZArith QArith.
From Verif Require Import Base Manager Spec SamplingSpec DbscanSpec.
Import ListNotations.
Open Scope nat_scope.

Definition twins {vec} (vectors : dict pystr vec) (x y : pystr) : Prop :=
  exists v, dget x vectors = Some v /\ dget y vectors = Some v.

(** Nothing is known about [x] and any other data. *)
Definition unconstrained (m : mgr) (x : pystr) : Prop := forall y, managed m y -> y <> x -> inferred m x y None.

(** A distance depends on the two vectors only. *)
Definition by_vectors2 {vec D} (pairwise : list vec -> list vec -> nat -> nat -> D) : Prop :=
  forall X Y i i' j, nth_error X i = nth_error X i' -> pairwise X Y i j = pairwise X Y i' j.
Definition by_vectors {vec D} (pairwise : list vec -> nat -> nat -> D) : Prop :=
  forall X i i' j j', nth_error X i = nth_error X i' -> nth_error X j = nth_error X j' -> pairwise X i j = pairwise X i' j'.

(** Distance [zero] exactly for equal vectors, and no distance below it. *)
Definition separates {vec D} (pairwise : list vec -> nat -> nat -> D) (ltb : D -> D -> bool) (zero : D) : Prop :=
  forall X i j u v, nth_error X i = Some u -> nth_error X j = Some v ->
    (pairwise X i j = zero <-> u = v) /\ ltb (pairwise X i j) zero = false.

(** The same for the distance between two centroids; the mean of copies of a vector is this vector. *)
Definition separates2 {vec D} (cdistance : vec -> vec -> D) (ltb : D -> D -> bool) (zero : D) : Prop :=
  forall u v, (cdistance u v = zero <-> u = v) /\ ltb (cdistance u v) zero = false.
Definition exact_mean {vec} (mean : list vec -> vec) : Prop := forall v n, mean (repeat v (S n)) = v.

(** A sum of distances, and a part of one, is [zero] only when they all are. *)
Definition zero_sums {D} (dsum : list D -> D) (ddiv : D -> nat -> D) (ltb : D -> D -> bool) (zero : D) : Prop :=
  (forall l, (forall d, In d l -> ltb d zero = false) -> (dsum l = zero <-> forall d, In d l -> d = zero) /\ ltb (dsum l) zero = false) /\
  (forall d n, 0 < n -> ltb d zero = false -> (ddiv d n = zero <-> d = zero) /\ ltb (ddiv d n) zero = false).

(** What each linkage needs. *)
Definition linkage_separates {vec D} (cdistance : vec -> vec -> D) (ltb : D -> D -> bool) (dsum : list D -> D) (ddiv : D -> nat -> D) (zero : D)
    (mean : list vec -> vec) (linkage : pystr) : Prop :=
  linkage = str "single" \/ linkage = str "complete" \/
  (linkage = str "average" /\ separates2 cdistance ltb zero /\ exact_mean mean) \/
  (linkage = str "ward" /\ zero_sums dsum ddiv ltb zero).

(** No CANNOT_LINK, and MUST_LINK between twins only. *)
Definition at_ease {vec} (m : mgr) (vectors : dict pystr vec) : Prop :=
  forall a b, ~ inferred m a b (Some CANNOT_LINK) /\ (inferred m a b (Some MUST_LINK) -> twins vectors a b).

(** At least [k] data of different vectors. *)
Definition different_vectors {vec} (m : mgr) (vectors : dict pystr vec) (k : nat) : Prop :=
  exists reps, NoDup reps /\ length reps = k /\ (forall a, In a reps -> managed m a) /\
    forall a b, In a reps -> In b reps -> twins vectors a b -> a = b.

(** At least [n] data within [eps], the data itself included. *)
Definition dense {vec D} (pairwise : list vec -> nat -> nat -> D) (leb : D -> D -> bool) (eps : D) (n : nat) (m : mgr) (vectors : dict pystr vec)
    (x : pystr) : Prop :=
  exists l, NoDup l /\ n <= length l /\ forall y, In y l -> within pairwise leb eps m vectors x y.

(** Points on a line. *)
Definition on_line (X : list Z) (i j : nat) : Z := Z.abs (nth i X 0 - nth j X 0)%Z.
Definition line_mean (l : list Z) : Z := (fold_right Z.add 0 l / Z.of_nat (length l))%Z.
Definition line_sum (l : list Z) : Z := fold_right Z.add 0%Z l.

(** A part of a whole number, rounded up. *)
Definition line_part (d : Z) (n : nat) : Z := (- ((- d) / Z.of_nat n))%Z.
