(** * How good a clustering of points is: sums of squared distances, in exact arithmetic. *)

From Coq Require Import String List Bool Arith ZArith QArith.
From Verif Require Import Base Manager Spec.
Import ListNotations.
Open Scope nat_scope.

Definition sumQ (l : list Q) : Q := fold_right Qplus 0%Q l.

(** A point has [n] rational coordinates. *)
Definition coord (v : list Q) (i : nat) : Q := nth i v 0%Q.
Definition sqdist (n : nat) (u v : list Q) : Q :=
  sumQ (map (fun i => (coord u i - coord v i) * (coord u i - coord v i))%Q (seq 0 n)).
Definition centre (n : nat) (l : list (list Q)) : list Q :=
  map (fun i => (sumQ (map (fun v => coord v i) l) / inject_Z (Z.of_nat (length l)))%Q) (seq 0 n).

(** Same first [n] coordinates. *)
Definition same_point (n : nat) (u v : list Q) : Prop := forall i, i < n -> (coord u i == coord v i)%Q.

Definition point (vectors : dict pystr (list Q)) (x : pystr) : list Q :=
  match dget x vectors with Some v => v | None => [] end.

(** The points with the same label as [x]. *)
Definition fellows (ids : list pystr) (d : dict pystr Z) (x : pystr) : list pystr :=
  filter (fun y => match dget x d, dget y d with Some a, Some b => Z.eqb a b | _, _ => false end) ids.

(** Sum, over the data, of the squared distance to the centre of the cluster. *)
Definition inertia (n : nat) (ids : list pystr) (vectors : dict pystr (list Q)) (d : dict pystr Z) : Q :=
  sumQ (map (fun x => sqdist n (point vectors x) (centre n (map (point vectors) (fellows ids d x)))) ids).

(** Distances are those of Euclid: they compare like their squares.  Means are exact. *)
Definition euclidean {D} (n : nat) (pairwise : list (list Q) -> list (list Q) -> nat -> nat -> D) (ltb : D -> D -> bool) : Prop :=
  forall X Y i j i' j' u v u' v',
    nth_error X i = Some u -> nth_error Y j = Some v -> nth_error X i' = Some u' -> nth_error Y j' = Some v' ->
    (ltb (pairwise X Y i j) (pairwise X Y i' j') = true <-> (sqdist n u v < sqdist n u' v')%Q).
Definition exact_mean (n : nat) (mean : list (list Q) -> list Q) : Prop :=
  forall l, l <> [] -> same_point n (mean l) (centre n l).

(** Nothing keeps two data apart, and data that must be linked are at the same place. *)
Definition no_tension (n : nat) (m : mgr) (vectors : dict pystr (list Q)) : Prop :=
  forall a b, managed m a -> managed m b ->
    ~ inferred m a b (Some CANNOT_LINK) /\
    (inferred m a b (Some MUST_LINK) -> same_point n (point vectors a) (point vectors b)).
