(** * How many iterations an annotation loop takes *)

From Coq Require Import List Bool Arith.
From Verif Require Import Base Manager Spec EffortSpec.
Import ListNotations.

Definition differ (truth : pystr -> nat) (p : pystr * pystr) : bool := negb (Nat.eqb (truth (fst p)) (truth (snd p))).

(** Pairs of data that do not belong together. *)
Definition nb_different (l : list pystr) (truth : pystr -> nat) : nat := length (filter (differ truth) (pairs l)).

(** Those of them about which the manager does not know it. *)
Definition nb_unknown_different (m : mgr) (l : list pystr) (truth : pystr -> nat) : nat :=
  length (filter (fun p => differ truth p && negb (is_inferred m CANNOT_LINK p)) (pairs l)).
