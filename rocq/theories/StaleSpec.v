(** * Sampling with results that do not fit the manager any more. *)

From Coq Require Import String List Bool Arith ZArith.
From Verif Require Import Base Manager Spec Sampling SamplingSpec.
Import ListNotations.

(** The dictionaries that the restrictions need are given. *)
Definition given {vec} (o : options) (clustering : option (dict pystr Z)) (vectors : option (dict pystr vec)) : Prop :=
  (o_clusters o <> None -> clustering <> None) /\ (o_distance o <> None -> vectors <> None).

(** The clustering is needed and lacks a managed ID that has another one to be paired with. *)
Definition cluster_missing (o : options) (m : mgr) (clustering : option (dict pystr Z)) : Prop :=
  o_clusters o <> None /\ exists c x y, clustering = Some c /\ managed m x /\ managed m y /\ x <> y /\ ~ In x (keys c).

(** The vectors are needed and lack a managed ID. *)
Definition vector_missing {vec} (o : options) (m : mgr) (vectors : option (dict pystr vec)) : Prop :=
  o_distance o <> None /\ exists v x, vectors = Some v /\ managed m x /\ ~ In x (keys v).

(** The same on the managed IDs, whatever else they hold. *)
Definition agree {V} (m : mgr) (d d' : option (dict pystr V)) : Prop :=
  match d, d' with
  | Some d, Some d' => forall x, managed m x -> dget x d = dget x d'
  | None, None => True
  | _, _ => False
  end.
