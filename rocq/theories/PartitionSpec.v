(** * What a sampler makes of a clustering (C130) *)

From Coq Require Import String List Bool Arith ZArith.
From Verif Require Import Base Manager Spec Sampling SamplingSpec.
Import ListNotations.

(** The same managed IDs have a cluster, and two of them share one in [d] exactly when they share one in [d']. *)
Definition same_groups (m : mgr) (d d' : option (dict pystr Z)) : Prop :=
  match d, d' with
  | Some d, Some d' =>
      (forall x, managed m x -> (In x (keys d) <-> In x (keys d'))) /\
      (forall x y, managed m x -> managed m y -> (dget x d = dget y d <-> dget x d' = dget y d'))
  | None, None => True
  | _, _ => False
  end.

(** The options [o], with another restriction on the clusters. *)
Definition with_clusters (r : option pystr) (o : options) : options :=
  mkOptions r (o_distance o) (o_without_added o) (o_without_inferred o).
