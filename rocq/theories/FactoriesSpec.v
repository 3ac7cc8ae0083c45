(** * What the factories are documented to do. *)

From Coq Require Import String List Bool Arith ZArith.
From Verif Require Import Base Affinity Dbscan KMeans Mpckmeans Factories.
Import ListNotations.

(** Names of samplers with their restrictions on clusters and on distances. *)
Definition sampling_table : list (pystr * option pystr * option pystr) :=
  [(str "random", None, None);
   (str "random_in_same_cluster", Some (str "same_cluster"), None);
   (str "farthest_in_same_cluster", Some (str "same_cluster"), Some (str "farthest_neighbors"));
   (str "closest_in_different_clusters", Some (str "different_clusters"), Some (str "closest_neighbors"))].

(** Name of the class of an instance. *)
Definition class_name {D} (M : clustering_model D) : pystr :=
  match M with
  | AffinityPropagationModel _ _ => str "affinity_propagation"
  | DBScanModel _ _ => str "dbscan"
  | HierarchicalModel _ _ => str "hierarchical"
  | KMeansModel _ _ => str "kmeans"
  | MPCKMeansModel _ _ => str "mpckmeans"
  | SpectralModel _ _ => str "spectral"
  end.

(** The argument of the call, or the default. *)
Definition value {A} (given : option A) (default : A) : A := match given with Some v => v | None => default end.

(** The parameters of an instance are those of the call or the defaults, within their bounds. *)
Definition has_parameters {D} (leb ltb : D -> D -> bool) (zero half tolerance one : D) (k : clustering_kargs D) (M : clustering_model D) : Prop :=
  match M with
  | AffinityPropagationModel _ p =>
      Z.of_nat (ap_max_iteration p) = value (ck_max_iteration D k) 150%Z /\
      Z.of_nat (ap_convergence_iteration p) = value (ck_convergence_iteration D k) 10%Z /\
      ap_absolute p = value (ck_absolute_must_links D k) true /\
      (1 <= value (ck_max_iteration D k) 150)%Z /\ (1 <= value (ck_convergence_iteration D k) 10)%Z
  | DBScanModel _ p =>
      db_eps D p = value (ck_eps D k) half /\
      Z.of_nat (db_min_samples D p) = value (ck_min_samples D k) 5%Z /\
      leb (value (ck_eps D k) half) zero = false /\ (1 <= value (ck_min_samples D k) 5)%Z
  | HierarchicalModel _ linkage =>
      linkage = value (ck_linkage D k) (str "ward") /\ In linkage [str "ward"; str "average"; str "complete"; str "single"]
  | KMeansModel _ p =>
      value (ck_model D k) (str "COP") = str "COP" /\
      Z.of_nat (kp_max_iteration D p) = value (ck_max_iteration D k) 150%Z /\
      kp_tolerance D p = value (ck_tolerance D k) tolerance /\
      (1 <= value (ck_max_iteration D k) 150)%Z /\ ltb (value (ck_tolerance D k) tolerance) zero = false
  | MPCKMeansModel _ p =>
      value (ck_model D k) (str "MPC") = str "MPC" /\
      Z.of_nat (mp_max_iteration D p) = value (ck_max_iteration D k) 150%Z /\
      mp_w D p = value (ck_w D k) one /\
      (1 <= value (ck_max_iteration D k) 150)%Z /\ ltb (value (ck_w D k) one) zero = false
  | SpectralModel _ nb_components =>
      value (ck_model D k) (str "SPEC") = str "SPEC" /\
      nb_components = value (ck_nb_components D k) None /\
      forall n, nb_components = Some n -> (2 <= n)%Z
  end.
