(** * The same data in other coordinates. *)

From Coq Require Import List Bool Arith ZArith Qcanon.
From Verif Require Import Base Manager Sampling KMeans Hierarchical.
Import ListNotations.
Open Scope nat_scope.

(** Each vector is replaced by its image. *)
Definition moved {vec vec'} (T : vec -> vec') (vectors : dict pystr vec) : dict pystr vec' :=
  map (fun e => (fst e, T (snd e))) vectors.

(** The images are as far from each other; the image of the mean is the mean of the images. *)
Definition keeps_pairwise {vec vec' D} (T : vec -> vec') (pairwise : list vec -> nat -> nat -> D) (pairwise' : list vec' -> nat -> nat -> D) : Prop :=
  forall X i j, i < length X -> j < length X -> pairwise' (map T X) i j = pairwise X i j.
Definition keeps_pairwise2 {vec vec' D} (T : vec -> vec') (pairwise : list vec -> list vec -> nat -> nat -> D)
    (pairwise' : list vec' -> list vec' -> nat -> nat -> D) : Prop :=
  forall X Y i j, i < length X -> j < length Y -> pairwise' (map T X) (map T Y) i j = pairwise X Y i j.
Definition keeps_distance {vec vec' D} (T : vec -> vec') (cdistance : vec -> vec -> D) (cdistance' : vec' -> vec' -> D) : Prop :=
  forall u v, cdistance' (T u) (T v) = cdistance u v.
Definition keeps_mean {vec vec'} (T : vec -> vec') (mean : list vec -> vec) (mean' : list vec' -> vec') : Prop :=
  forall l, l <> [] -> mean' (map T l) = T (mean l).

(** Objects that remember vectors, in the other coordinates. *)
Fixpoint moved_tree {vec vec'} (T : vec -> vec') (t : tree vec) : tree vec' :=
  match t with Node _ i it c d l v => Node vec' i it (map (moved_tree T) c) d l (T v) end.
Definition moved_hier {vec vec'} (T : vec -> vec') (s : hier vec) : hier vec' :=
  mkHier vec' (h_ids vec s) (option_map (moved_tree T) (h_root vec s)) (h_predicted vec s).
Definition moved_kmeans {vec vec'} (T : vec -> vec') (s : kmeans vec) : kmeans vec' :=
  mkKMeans vec' (k_predicted vec s) (k_clusters vec s) (map (fun e => (fst e, T (snd e))) (k_centroids vec s)).
Definition moved_sampler {vec vec' D} (T : vec -> vec') (s : sampler vec D) : sampler vec' D :=
  mkSampler vec' D (s_clustering vec D s) (option_map (moved T) (s_vectors vec D s)) (s_distances vec D s).

(** ** Euclid's space, in exact arithmetic: points have [n] rational coordinates. *)
Definition total (l : list Qc) : Qc := fold_right Qcplus 0%Qc l.
Definition at_ (u : list Qc) (i : nat) : Qc := nth i u 0%Qc.
Definition over (n : nat) (f : nat -> Qc) : Qc := total (map f (seq 0 n)).
Definition apart2 (n : nat) (u v : list Qc) : Qc := over n (fun i => (at_ u i - at_ v i) * (at_ u i - at_ v i))%Qc.
Definition gravity (n : nat) (l : list (list Qc)) : list Qc :=
  map (fun i => (total (map (fun v => at_ v i) l) / Q2Qc (QArith_base.inject_Z (Z.of_nat (length l))))%Qc) (seq 0 n).

(** The columns of the matrix have length 1 and are orthogonal to each other. *)
Definition orthogonal (n : nat) (M : nat -> nat -> Qc) : Prop :=
  forall j k, j < n -> k < n -> over n (fun i => M i j * M i k)%Qc = if j =? k then 1%Qc else 0%Qc.
(** Turn (or mirror), then shift. *)
Definition isometry (n : nat) (M : nat -> nat -> Qc) (t : list Qc) (u : list Qc) : list Qc :=
  map (fun i => (over n (fun j => M i j * at_ u j) + at_ t i)%Qc) (seq 0 n).
