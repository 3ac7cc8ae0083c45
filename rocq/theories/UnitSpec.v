(** * Another unit for the distances. *)

From Coq Require Import List Bool ZArith.
From Verif Require Import Base Manager Sampling.
Import ListNotations.

(** [f] gives the distances in another unit: the order is the same, no two become equal. *)
Definition increasing {D D'} (ltb : D -> D -> bool) (ltb' : D' -> D' -> bool) (f : D -> D') : Prop :=
  (forall a b, ltb' (f a) (f b) = ltb a b) /\ (forall a b, f a = f b -> a = b).

(** A table of distances in the other unit. *)
Definition in_unit {D D'} (f : D -> D') (t : dict pystr (dict pystr D)) : dict pystr (dict pystr D') :=
  map (fun r => (fst r, map (fun e => (fst e, f (snd e))) (snd r))) t.

(** A sampler that remembers its distances in the other unit. *)
Definition sampler_in_unit {vec D D'} (f : D -> D') (s : sampler vec D) : sampler vec D' :=
  mkSampler vec D' (s_clustering vec D s) (s_vectors vec D s) (option_map (in_unit f) (s_distances vec D s)).
