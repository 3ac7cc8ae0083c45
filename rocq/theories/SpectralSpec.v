(** * What spectral clustering should hand to its solver, independent of the model. *)

From Coq Require Import String List Bool Arith ZArith.
From Verif Require Import Base Manager Spec.
Import ListNotations.

(** Entry of a matrix given as the list of its rows. *)
Definition entry {D} (M : list (list D)) (i j : nat) : option D :=
  match nth_error M i with Some row => nth_error row j | None => None end.

Definition square {D} (n : nat) (M : list (list D)) : Prop := length M = n /\ Forall (fun row => length row = n) M.

(** 1 for what must be linked, 0 for what cannot be linked, the kernel elsewhere. *)
Definition affinity_matrix {D} (m : mgr) (ids : list pystr) (zero one : D) (kernel : nat -> nat -> D) (M : list (list D)) : Prop :=
  square (length ids) M /\
  forall i j a b, nth_error ids i = Some a -> nth_error ids j = Some b ->
    (inferred m a b (Some MUST_LINK) -> entry M i j = Some one) /\
    (inferred m a b (Some CANNOT_LINK) -> entry M i j = Some zero) /\
    (inferred m a b None -> entry M i j = Some (kernel i j)).

(** The clustering groups IDs as the list of labels does. *)
Definition grouped_by (ids : list pystr) (labels : list Z) (d : dict pystr Z) : Prop :=
  forall i j a b, nth_error ids i = Some a -> nth_error ids j = Some b ->
    (dget a d = dget b d <-> nth_error labels i = nth_error labels j).
