(** * What a session of the usage guide needs from its clustering *)

From Coq Require Import List ZArith.
From Verif Require Import Base Manager Spec SamplingSpec ClusterSpec.
Import ListNotations.

(** In every iteration [i], for every manager that has vectors for its IDs: a number of
    clusters from 2 is accepted and gives a clustering of exactly the managed IDs, in
    canonical numbering, that respects the constraints; a smaller one is refused.  The
    manager is only read. *)
Definition sound_clustering {vec} (vectors : dict pystr vec) (clustering : nat -> Z -> M mgr (dict pystr Z)) : Prop :=
  forall m i k, reachable m -> has_ids m -> covers (Some vectors) m ->
    ((2 <= k)%Z -> exists d, clustering i k m = (m, Ok d) /\ canonical d /\ covers_exactly m d /\ respects m d) /\
    ((k < 2)%Z -> clustering i k m = (m, Raise ValueError)).
