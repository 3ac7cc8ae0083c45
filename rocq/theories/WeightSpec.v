(** * Exact arithmetic for MPCKMeans, independent of how numbers are represented. *)

From Coq Require Import List Arith ZArith QArith.
From Verif Require Import Mpckmeans.
Import ListNotations.

(** Square of the Mahalanobis distance for a diagonal matrix. *)
Fixpoint square_distance (x y a : list Q) : Q :=
  match x, y, a with
  | u :: x, v :: y, e :: a => e * (u - v) * (u - v) + square_distance x y a
  | _, _, _ => 0
  end.

(** The operations are those of the rational numbers. *)
Definition exact_numbers (o : ops Q) : Prop :=
  (forall n, Qeq (o_of_nat Q o n) (inject_Z (Z.of_nat n))) /\
  (forall x y, Qeq (o_add Q o x y) (x + y)) /\ (forall x y, Qeq (o_sub Q o x y) (x - y)) /\ (forall x y, Qeq (o_mul Q o x y) (x * y)) /\
  (forall x y, o_ltb Q o x y = true <-> Qlt x y) /\
  (forall x y a, Qeq (o_mahalanobis Q o x y a) (square_distance x y a)).

(** [i] can join cluster [c] without breaking a constraint with a point that has a label. *)
Definition free_of_conflicts (must cannot : nat -> nat -> Prop) (label : nat -> option nat) (i c : nat) : Prop :=
  (forall j c', must i j -> label j = Some c' -> c' = c) /\ (forall j, cannot i j -> label j <> Some c).
