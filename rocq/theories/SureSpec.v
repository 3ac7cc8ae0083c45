(** * Being sure of clusters *)

From Coq Require Import List Bool ZArith.
From Verif Require Import Base Manager Spec ClusterSpec.
Import ListNotations.

(** Whatever the true clusters are, if the constraints are right, then the data that are together in [d] are those that are truly together. *)
Definition sure (m : mgr) (d : dict pystr Z) : Prop :=
  forall e, covers_exactly m e -> respects m e -> forall a b, managed m a -> managed m b -> (dget a d = dget b d <-> dget a e = dget b e).

(** How many clusters of [d] the data of [l] are in. *)
Definition label_dec : forall x y : option Z, {x = y} + {x <> y}.
Proof. decide equality. apply Z.eq_dec. Defined.
Definition nb_clusters_among (l : list pystr) (d : dict pystr Z) : nat := length (nodup label_dec (map (fun x => dget x d) l)).
