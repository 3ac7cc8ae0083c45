(** * What clusters and true clusters have in common *)

From Coq Require Import List ZArith.
From Verif Require Import Base Manager Spec ClusterSpec.

(** Data that are together in [d] are together in [e]: every cluster of [d] is a part of one of [e]. *)
Definition finer (m : mgr) (d e : dict pystr Z) : Prop :=
  forall a b, managed m a -> managed m b -> dget a d = dget b d -> dget a e = dget b e.

(** Every clusters that the constraints of the manager allow. *)
Definition for_every_truth (m : mgr) (P : dict pystr Z -> Prop) : Prop := forall e, covers_exactly m e -> respects m e -> P e.
