(** * What a COP-KMeans run is, independent of how it is computed. *)

From Coq Require Import String List Bool Arith ZArith Permutation.
From Verif Require Import Base Manager Spec SamplingSpec ClusterSpec.
Import ListNotations.

(** Vectors of a list of IDs. *)
Definition vectors_are {vec} (vectors : dict pystr vec) (l : list pystr) (rows : list vec) : Prop :=
  map (fun x => dget x vectors) l = map Some rows.

(** Iterating over a set: every distinct value once. *)
Definition valid_set_order (set_order : list Z -> list Z) : Prop :=
  forall l, NoDup (set_order l) /\ forall x, In x (set_order l) <-> In x l.

(** Shuffling: the same elements in some order. *)
Definition valid_shuffle (shuffle : list pystr -> list pystr) : Prop := forall l, Permutation l (shuffle l).

Section Run.
  Context {vec D : Type}.
  Variable pairwise : list vec -> list vec -> nat -> nat -> D.
  Variable ltb : D -> D -> bool.
  Variable dsum : list D -> D.
  Variable mean : list vec -> vec.
  Variable tolerance : D.
  Variable m : mgr.
  Variable ids : list pystr.
  Variable vectors : dict pystr vec.

  (** Distance between an ID and the centroid of a cluster. *)
  Definition distance_to (centroids : dict Z vec) (x : pystr) (c : Z) (d : D) : Prop :=
    exists rows i j, vectors_are vectors ids rows /\ nth_error ids i = Some x /\
      nth_error (keys centroids) j = Some c /\ d = pairwise rows (vals centroids) i j.

  (** Some ID that cannot be linked to [x] is in the cluster. *)
  Definition blocked (labels : dict pystr Z) (x : pystr) (c : Z) : Prop :=
    exists y, managed m y /\ inferred m x y (Some CANNOT_LINK) /\ dget y labels = Some c.

  (** The last ID of its component. *)
  Definition leader (x : pystr) : Prop :=
    managed m x /\ forall y, managed m y -> inferred m x y (Some MUST_LINK) -> y = x \/ before ids y x.

  (** An assignment that respects the constraints and puts each component in the cluster
      nearest to its leader among those not blocked (the last one in case of equality), or
      alone in a new cluster when all are blocked. *)
  Definition nearest_assignment (centroids : dict Z vec) (labels : dict pystr Z) : Prop :=
    keys labels = ids /\ respects m labels /\
    forall x, leader x -> exists c, dget x labels = Some c /\
      ((In c (keys centroids) /\
        forall c' d d', distance_to centroids x c d -> distance_to centroids x c' d' ->
          ltb d' d = true \/ (d' = d /\ before (keys centroids) c c') -> blocked labels x c')
       \/
       (~ In c (keys centroids) /\ (forall c', In c' (keys centroids) -> blocked labels x c') /\
        forall y, dget y labels = Some c -> inferred m x y (Some MUST_LINK))).

  (** Every label in use is mapped to the mean of its members, and nothing else is. *)
  Definition centroids_of (labels : dict pystr Z) (centroids : dict Z vec) : Prop :=
    NoDup (keys centroids) /\
    (forall c, In c (keys centroids) <-> In c (vals labels)) /\
    forall c v, dget c centroids = Some v -> exists rows,
      vectors_are vectors (filter (fun x => match dget x labels with Some c' => Z.eqb c' c | None => false end) ids) rows /\
      v = mean rows.

  (** Same cluster numbers as before, and centroids moved by less than the tolerance. *)
  Definition stable (previous : option (dict pystr Z)) (labels : dict pystr Z) (centroids new_centroids : dict Z vec) : Prop :=
    exists old new_vecs, previous = Some old /\ (forall c, In c (vals old) <-> In c (vals labels)) /\
      map (fun c => dget c new_centroids) (keys centroids) = map Some new_vecs /\
      ltb (dsum (map (fun i => pairwise (vals centroids) new_vecs i i) (seq 0 (length new_vecs)))) tolerance = true.

  (** At most [n] rounds from given centroids; the labels and centroids it ends with. *)
  Inductive cop_run : nat -> dict Z vec -> option (dict pystr Z) -> dict pystr Z -> dict Z vec -> Prop :=
  | cop_last : forall n centroids previous labels new_centroids,
      nearest_assignment centroids labels -> centroids_of labels new_centroids ->
      n = 0 \/ stable previous labels centroids new_centroids ->
      cop_run (S n) centroids previous labels new_centroids
  | cop_next : forall n centroids previous labels new_centroids final final_centroids,
      nearest_assignment centroids labels -> centroids_of labels new_centroids ->
      ~ stable previous labels centroids new_centroids ->
      cop_run n new_centroids (Some labels) final final_centroids ->
      cop_run (S n) centroids previous final final_centroids.

  (** First centroids: the vectors of [k] distinct IDs, numbered 0 to k-1. *)
  Definition initial_centroids (k : nat) (centroids : dict Z vec) : Prop :=
    exists chosen, NoDup chosen /\ incl chosen ids /\ length chosen = k /\
      keys centroids = map Z.of_nat (seq 0 k) /\ vectors_are vectors chosen (vals centroids).
End Run.
