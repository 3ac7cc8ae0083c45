(** * Model of [compute_clusters_frequency]
    (/repo/src/cognitivefactory/interactive_clustering/utils/frequency.py:21-53).

    Simplifications: the quotient of two integers is an oracle [div] (the theorems use any
    [div], exact rationals, and binary64 numbers); the order in which Python enumerates
    a set of integers is an oracle. *)

From Coq Require Import String List Bool Arith ZArith.
From Verif Require Import Base Sampling.
Import ListNotations.
Open Scope nat_scope.
Open Scope py_scope.

Section WithOracles.
  Variable D : Type.
  Variable div : nat -> nat -> D.
  Variable set_order : list Z -> list Z.

  (** [{clustering_result[data_ID] for data_ID in clustering_result.keys()}], sorted (40-42) *)
  Definition possible_cluster_IDs (clustering_result : dict pystr Z) : res (list Z) :=
    l <-- rmap (fun data_ID => dlookup data_ID clustering_result) (keys clustering_result) ;;;
    Ok (sorted_by Z.ltb (set_order l)).

  (** [len([data_ID for data_ID in clustering_result if clustering_result[data_ID] == cluster_ID])] (47) *)
  Definition size_of_cluster (clustering_result : dict pystr Z) (cluster_ID : Z) : res nat :=
    l <-- rfilter (fun data_ID => c <-- dlookup data_ID clustering_result ;;; Ok (Z.eqb c cluster_ID)) (keys clustering_result) ;;;
    Ok (length l).

  (** [compute_clusters_frequency] (21-53). *)
  Definition compute_clusters_frequency (clustering_result : dict pystr Z) : res (dict Z D) :=
    let nb_of_data_IDs := length (keys clustering_result) in                            (* 33 *)
    if Nat.eqb nb_of_data_IDs 0 then Ok []                                              (* 36 *)
    else
      list_of_possible_cluster_IDs <-- possible_cluster_IDs clustering_result ;;;
      rfold (fun frequence_of_clusters cluster_ID =>                                    (* 45-50 *)
               n <-- size_of_cluster clustering_result cluster_ID ;;;
               Ok (dset cluster_ID (div n nb_of_data_IDs) frequence_of_clusters))
            list_of_possible_cluster_IDs [].
End WithOracles.
