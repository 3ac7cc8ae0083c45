(** * Model of the three factories
    ([managing_factory], /repo/src/cognitivefactory/interactive_clustering/constraints/factory.py:24-59;
    [sampling_factory], .../sampling/factory.py:22-75;
    [clustering_factory], .../clustering/factory.py:29-99).

    Simplifications: keyword arguments have the types of the signatures; [random_seed] and
    the keywords no signature mentions are left out (every class takes [**kargs], and the
    seed only selects the oracles); warnings are left out. *)

From Coq Require Import String List Bool Arith ZArith.
From Verif Require Import Base Manager Sampling Affinity Dbscan Hierarchical KMeans Spectral Mpckmeans.
Import ListNotations.
Open Scope py_scope.

(** [managing_factory] (24-59). *)
Definition managing_factory (list_of_data_IDs : list pystr) (manager : option pystr) : res mgr :=
  let manager := match manager with Some s => s | None => str "binary" end in
  if negb (eqb manager (str "binary")) then Raise ValueError                             (* 53 *)
  else Ok (init list_of_data_IDs).

(** Keyword arguments of a sampler; [None] when not given. *)
Record sampling_kargs := mkSamplingKargs {
  sk_clusters_restriction : option (option pystr);
  sk_distance_restriction : option (option pystr);
  sk_without_added_constraints : option bool;
  sk_without_inferred_constraints : option bool }.
Definition no_sampling_kargs : sampling_kargs := mkSamplingKargs None None None None.

Definition default {A} (d : A) (o : option A) : A := match o with Some x => x | None => d end.

(** [f(name=v, **kargs)]: TypeError when [kargs] holds the name as well. *)
Definition keyword {A} (given : option A) (from_kargs : option A) : res (option A) :=
  match given, from_kargs with
  | Some _, Some _ => Raise TypeError
  | Some v, None => Ok (Some v)
  | None, v => Ok v
  end.

(** [ClustersBasedConstraintsSampling(clusters_restriction=..., distance_restriction=..., **kargs)]
    with the default values of clusters_based.py:67-75. *)
Definition new_sampler (clusters_restriction distance_restriction : option (option pystr)) (k : sampling_kargs) : res options :=
  c <-- keyword clusters_restriction (sk_clusters_restriction k) ;;;
  d <-- keyword distance_restriction (sk_distance_restriction k) ;;;
  make_options (default None c) (default None d)
    (default true (sk_without_added_constraints k)) (default true (sk_without_inferred_constraints k)).

(** [sampling_factory] (22-75). *)
Definition sampling_factory (algorithm : pystr) (k : sampling_kargs) : res options :=
  if negb (mem algorithm [str "random"; str "random_in_same_cluster"; str "farthest_in_same_cluster";
                          str "closest_in_different_clusters"]) then Raise ValueError    (* 49-55 *)
  else if eqb algorithm (str "random_in_same_cluster") then                              (* 58 *)
    new_sampler (Some (Some SAME_CLUSTER)) None k
  else if eqb algorithm (str "farthest_in_same_cluster") then                            (* 62 *)
    new_sampler (Some (Some SAME_CLUSTER)) (Some (Some FARTHEST)) k
  else if eqb algorithm (str "closest_in_different_clusters") then                       (* 68 *)
    new_sampler (Some (Some DIFFERENT_CLUSTERS)) (Some (Some CLOSEST)) k
  else new_sampler None None k.                                                          (* 75 *)

Section Clustering.
  Variable D : Type.
  Variables leb ltb : D -> D -> bool.
  Variables zero half tolerance_default one : D.   (* 0, 0.5, 1e-4, 1.0 *)
  Variable o : Mpckmeans.ops D.

  (** Keyword arguments of a clustering model; [None] when not given. *)
  Record clustering_kargs := mkClusteringKargs {
    ck_model : option pystr;
    ck_max_iteration : option Z;
    ck_convergence_iteration : option Z;
    ck_absolute_must_links : option bool;
    ck_eps : option D;
    ck_min_samples : option Z;
    ck_linkage : option pystr;
    ck_tolerance : option D;
    ck_w : option D;
    ck_nb_components : option (option Z) }.
  Definition no_clustering_kargs : clustering_kargs := mkClusteringKargs None None None None None None None None None None.

  (** An instance: its class and its parameters. *)
  Inductive clustering_model :=
  | AffinityPropagationModel (p : ap_params)
  | DBScanModel (p : db_params D)
  | HierarchicalModel (linkage : pystr)
  | KMeansModel (p : kparams D)
  | MPCKMeansModel (p : mp_params D)
  | SpectralModel (nb_components : option Z).

  (** The constructors with the default values of their signatures. *)
  Definition new_affinity_propagation (k : clustering_kargs) : res clustering_model :=     (* affinity_propagation.py:94-101 *)
    p <-- make_affinity (default 150%Z (ck_max_iteration k)) (default 10%Z (ck_convergence_iteration k))
            (default true (ck_absolute_must_links k)) ;;;
    Ok (AffinityPropagationModel p).
  Definition new_dbscan (k : clustering_kargs) : res clustering_model :=                   (* dbscan.py:98-104 *)
    p <-- make_dbscan D leb (fun _ => zero) (default half (ck_eps k)) (default 5%Z (ck_min_samples k)) ;;;
    Ok (DBScanModel p).
  Definition new_hierarchical (k : clustering_kargs) : res clustering_model :=             (* hierarchical.py:86 *)
    p <-- make_hierarchical (default (str "ward") (ck_linkage k)) ;;;
    Ok (HierarchicalModel p).
  Definition new_kmeans (k : clustering_kargs) : res clustering_model :=                   (* kmeans.py:92-99 *)
    p <-- make_kmeans D ltb zero (default (str "COP") (ck_model k)) (default 150%Z (ck_max_iteration k))
            (default tolerance_default (ck_tolerance k)) ;;;
    Ok (KMeansModel p).
  Definition new_mpckmeans (k : clustering_kargs) : res clustering_model :=                (* mpckmeans.py:95-102 *)
    p <-- make_mpckmeans D o (default (str "MPC") (ck_model k)) (default 150%Z (ck_max_iteration k))
            (default one (ck_w k)) ;;;
    Ok (MPCKMeansModel p).
  Definition new_spectral (k : clustering_kargs) : res clustering_model :=                 (* spectral.py:93-95 *)
    _ <-- make_spectral (default (str "SPEC") (ck_model k)) (default None (ck_nb_components k)) ;;;
    Ok (SpectralModel (default None (ck_nb_components k))).

  (** [clustering_factory] (29-99); [None] is the default name. *)
  Definition clustering_factory (algorithm : option pystr) (k : clustering_kargs) : res clustering_model :=
    let algorithm := default (str "kmeans") algorithm in
    if negb (mem algorithm [str "affinity_propagation"; str "dbscan"; str "hierarchical"; str "kmeans";
                            str "mpckmeans"; str "spectral"]) then Raise ValueError        (* 61-69 *)
    else if eqb algorithm (str "affinity_propagation") then new_affinity_propagation k     (* 75 *)
    else if eqb algorithm (str "dbscan") then new_dbscan k                                 (* 79 *)
    else if eqb algorithm (str "hierarchical") then new_hierarchical k                     (* 83 *)
    else if eqb algorithm (str "mpckmeans") then new_mpckmeans k                           (* 87 *)
    else if eqb algorithm (str "spectral") then new_spectral k                             (* 91 *)
    else new_kmeans k.                                                                     (* 95 *)
End Clustering.
