(** * What it means for KMeans to stop before its last round *)

From Coq Require Import String List Bool Arith ZArith.
From Verif Require Import Base Manager Spec SamplingSpec ClusterSpec KMeansSpec LloydSpec.
Import ListNotations.

(** Lengths that can be compared and added, as the nonnegative numbers. *)
Section Lengths.
  Context {D : Type}.
  Variable ltb : D -> D -> bool.
  Variable zero : D.
  Variable add : D -> D -> D.
  Definition at_most (a b : D) : Prop := ltb b a = false.
  Definition lengths : Prop :=
    strict_weak_order ltb /\
    (forall a b c, at_most (add (add a b) c) (add a (add b c))) /\
    (forall a b, at_most (add a b) (add b a)) /\
    (forall a b c, at_most a b -> at_most (add c a) (add c b)).

  (** A sum of lengths is at least the sum of any two of them. *)
  Definition sums_up (dsum : list D -> D) : Prop :=
    forall l i j a b, (forall x, In x l -> at_most zero x) -> i <> j -> nth_error l i = Some a -> nth_error l j = Some b ->
      at_most (add a b) (dsum l).

  Definition metric {vec} (dist : vec -> vec -> D) : Prop :=
    (forall u v, at_most zero (dist u v)) /\ (forall u v, dist u v = dist v u) /\
    (forall u v w, at_most (dist u w) (add (dist u v) (dist v w))).
End Lengths.

Definition computed_by {vec D} (dist : vec -> vec -> D) (pairwise : list vec -> list vec -> nat -> nat -> D) : Prop :=
  forall X Y i j u v, nth_error X i = Some u -> nth_error Y j = Some v -> pairwise X Y i j = dist u v.

Section Stop.
  Context {vec D : Type}.
  Variable pairwise : list vec -> list vec -> nat -> nat -> D.
  Variable ltb : D -> D -> bool.
  Variable dsum : list D -> D.
  Variable mean : list vec -> vec.
  Variable tolerance : D.
  Variable m : mgr.
  Variable ids : list pystr.
  Variable vectors : dict pystr vec.

  (** Exactly [n] rounds from given centroids. *)
  Inductive full_rounds : nat -> dict Z vec -> option (dict pystr Z) -> dict pystr Z -> dict Z vec -> Prop :=
  | one_round : forall centroids previous labels new_centroids,
      nearest_assignment pairwise ltb m ids vectors centroids labels -> centroids_of mean ids vectors labels new_centroids ->
      full_rounds 1 centroids previous labels new_centroids
  | next_round : forall n centroids previous labels new_centroids final final_centroids,
      nearest_assignment pairwise ltb m ids vectors centroids labels -> centroids_of mean ids vectors labels new_centroids ->
      ~ stable pairwise ltb dsum tolerance previous labels centroids new_centroids ->
      full_rounds n new_centroids (Some labels) final final_centroids ->
      full_rounds (S n) centroids previous final final_centroids.

  (** [c] is the mean of the cluster of [x]. *)
  Definition mean_of_cluster (d : dict pystr Z) (x : pystr) (c : vec) : Prop :=
    exists rows, vectors_are vectors (fellows ids d x) rows /\ c = mean rows.

  (** The last data of each component is not farther from the mean of its cluster than from
      the mean of another cluster that no CANNOT_LINK excludes, up to the tolerance. *)
  Definition nearly_settled (add : D -> D -> D) (dist : vec -> vec -> D) (d : dict pystr Z) : Prop :=
    forall x y v c c', leader m ids x -> managed m y -> dget y d <> dget x d ->
      ~ (exists z, managed m z /\ inferred m x z (Some CANNOT_LINK) /\ dget z d = dget y d) ->
      dget x vectors = Some v -> mean_of_cluster d x c -> mean_of_cluster d y c' ->
      at_most ltb (dist v c) (add (dist v c') tolerance).
End Stop.
