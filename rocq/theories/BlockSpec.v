(** * Solvers that separate blocks, independent of the model. *)

From Coq Require Import String List Bool Arith ZArith.
From Verif Require Import Base SpectralSpec.
Import ListNotations.

(** Whenever the matrix is 1 inside [n >= 2] blocks and 0 between them, the solver asked for [n]
    clusters finds the blocks.  (The relaxed cut that spectral clustering solves has these
    blocks as its only solution: as many zero eigenvalues as blocks.) *)
Definition separates_blocks {D} (zero one : D) (solver : nat -> list (list D) -> res (list Z)) : Prop :=
  forall p M (block : nat -> nat), square p M -> 2 <= length (nodup Nat.eq_dec (map block (seq 0 p))) ->
    (forall i j, i < p -> j < p -> entry M i j = Some (if Nat.eqb (block i) (block j) then one else zero)) ->
    exists labels, solver (length (nodup Nat.eq_dec (map block (seq 0 p)))) M = Ok labels /\ length labels = p /\
      forall i j, i < p -> j < p -> (nth_error labels i = nth_error labels j <-> block i = block j).
