(** Generated from FactoriesThms.v by tools/gen_props.py: theorem statements,
    each closed by the lemma of the same name proved there. *)

From Coq Require Import String List Bool Arith ZArith QArith Lia.
From Verif Require Import Base Manager Sampling Affinity Dbscan KMeans Mpckmeans MpckThms Factories FactoriesSpec FactoriesThms.
Import ListNotations.
Open Scope py_scope.

(** Rational numbers for the examples. *)
Definition factory_Q := clustering_factory Q Qle_bool Qltb 0%Q (1#2)%Q (1#10000)%Q 1%Q Qops.

(** C53: managing_factory accepts exactly "binary", its default, and then gives a manager of the IDs without constraint. *)
Theorem C53_managing_factory :
  forall ids name m, managing_factory ids name = Ok m <-> (name = None \/ name = Some (str "binary")) /\ m = init ids.
Proof. exact C53_managing_factory_proof. Qed.
Print Assumptions C53_managing_factory.

(** C53: every other name of a manager raises ValueError. *)
Theorem C53_managing_factory_errors :
  forall ids name e, managing_factory ids name = Raise e -> e = ValueError.
Proof. exact C53_managing_factory_errors_proof. Qed.
Print Assumptions C53_managing_factory_errors.

Example C53_managing_ex : managing_factory [str "a"] (Some (str "binary")) = Ok (init [str "a"]) /\ managing_factory [str "a"] (Some (str "unary")) = Raise ValueError.
Proof. split; reflexivity. Qed.

(** C53: sampling_factory maps each documented name to its restrictions; the other options are those of the call, true by default. *)
Theorem C53_sampling_factory :
  forall name c d k, In (name, c, d) sampling_table -> sk_clusters_restriction k = None -> sk_distance_restriction k = None ->
    exists o, sampling_factory name k = Ok o /\
      o_clusters o = c /\ o_distance o = d /\
      o_without_added o = match sk_without_added_constraints k with Some b => b | None => true end /\
      o_without_inferred o = match sk_without_inferred_constraints k with Some b => b | None => true end.
Proof. exact C53_sampling_factory_proof. Qed.
Print Assumptions C53_sampling_factory.

Example C53_sampling_ex : In (str "random_in_same_cluster", Some (str "same_cluster"), None) sampling_table /\
  sampling_factory (str "random_in_same_cluster") (mkSamplingKargs None None (Some false) None) = Ok (mkOptions (Some (str "same_cluster")) None false true).
Proof. split; [right; left; reflexivity|reflexivity]. Qed.

(** C53: every other name of a sampler raises ValueError, whatever the keywords. *)
Theorem C53_sampling_factory_unknown :
  forall name k, (forall c d, ~ In (name, c, d) sampling_table) -> sampling_factory name k = Raise ValueError.
Proof. exact C53_sampling_factory_unknown_proof. Qed.
Print Assumptions C53_sampling_factory_unknown.

Example C53_unknown_ex : sampling_factory (str "Random") no_sampling_kargs = Raise ValueError.
Proof. reflexivity. Qed.

(** C53: a keyword the name already fixes raises TypeError; with "random" the restrictions of the call are used, and must be documented ones. *)
Theorem C53_sampling_factory_keywords :
  forall name c d k,
    In (name, c, d) sampling_table ->
    ((c <> None /\ sk_clusters_restriction k <> None) \/ (d <> None /\ sk_distance_restriction k <> None) ->
       sampling_factory name k = Raise TypeError) /\
    (forall o, sampling_factory name k = Ok o ->
       (forall r, sk_clusters_restriction k = Some r -> o_clusters o = r /\ In r [None; Some (str "same_cluster"); Some (str "different_clusters")]) /\
       (forall r, sk_distance_restriction k = Some r -> o_distance o = r /\ In r [None; Some (str "closest_neighbors"); Some (str "farthest_neighbors")])).
Proof. exact C53_sampling_factory_keywords_proof. Qed.
Print Assumptions C53_sampling_factory_keywords.

Example C53_keywords_ex :
  sampling_factory (str "random_in_same_cluster") (mkSamplingKargs (Some (Some (str "different_clusters"))) None None None) = Raise TypeError /\
  sampling_factory (str "random") (mkSamplingKargs (Some (Some (str "different_clusters"))) None None None) = Ok (mkOptions (Some (str "different_clusters")) None true true) /\
  sampling_factory (str "random") (mkSamplingKargs (Some (Some (str "different"))) None None None) = Raise ValueError.
Proof. repeat split; reflexivity. Qed.

(** C53: a sampler is made exactly from documented restrictions; any others raise ValueError. *)
Theorem C53_sampler_options :
  forall c d wa wi,
    let documented := In c [None; Some (str "same_cluster"); Some (str "different_clusters")] /\
                      In d [None; Some (str "closest_neighbors"); Some (str "farthest_neighbors")] in
    (documented -> make_options c d wa wi = Ok (mkOptions c d wa wi)) /\
    (~ documented -> make_options c d wa wi = Raise ValueError).
Proof. exact C53_sampler_options_proof. Qed.
Print Assumptions C53_sampler_options.

Example C53_options_ex : make_options (Some (str "same_cluster")) (Some (str "closest_neighbors")) true false = Ok (mkOptions (Some (str "same_cluster")) (Some (str "closest_neighbors")) true false) /\
  make_options None (Some (str "closest")) true true = Raise ValueError.
Proof. split; reflexivity. Qed.

(** C53: so sampling_factory raises TypeError for a keyword that the name already fixes and ValueError otherwise, and nothing else. *)
Theorem C53_sampling_factory_errors :
  forall name k e, sampling_factory name k = Raise e ->
    (e = TypeError /\ exists c d, In (name, c, d) sampling_table /\ ((c <> None /\ sk_clusters_restriction k <> None) \/ (d <> None /\ sk_distance_restriction k <> None))) \/
    e = ValueError.
Proof. exact C53_sampling_factory_errors_proof. Qed.
Print Assumptions C53_sampling_factory_errors.

Example C53_sampling_errors_ex : sampling_factory (str "farthest_in_same_cluster") (mkSamplingKargs None (Some None) None None) = Raise TypeError /\
  sampling_factory (str "random") (mkSamplingKargs None (Some (Some (str "far"))) None None) = Raise ValueError.
Proof. split; reflexivity. Qed.

(** C53: clustering_factory gives exactly an instance of the class with the documented name ("kmeans" by default) whose parameters are those of the call or the documented defaults, all within the documented bounds. *)
Theorem C53_clustering_factory :
  forall D leb ltb (zero half tol one : D) o name k M,
    o_of_nat D o 0 = zero -> o_ltb D o = ltb ->
    (clustering_factory D leb ltb zero half tol one o name k = Ok M <->
     class_name M = match name with Some s => s | None => str "kmeans" end /\ has_parameters leb ltb zero half tol one k M).
Proof. exact C53_clustering_factory_proof. Qed.
Print Assumptions C53_clustering_factory.

Example C53_clustering_ex :
  factory_Q None (no_clustering_kargs Q) = Ok (KMeansModel Q (mkKParams Q 150 (1#10000)%Q)) /\
  factory_Q (Some (str "hierarchical")) (no_clustering_kargs Q) = Ok (HierarchicalModel Q (str "ward")) /\
  factory_Q (Some (str "mpckmeans")) (no_clustering_kargs Q) = Ok (MPCKMeansModel Q (mkMPParams Q 150 1%Q)) /\
  factory_Q (Some (str "dbscan")) (no_clustering_kargs Q) = Ok (DBScanModel Q (mkDBParams Q (1#2)%Q 5)) /\
  factory_Q (Some (str "affinity_propagation")) (no_clustering_kargs Q) = Ok (AffinityPropagationModel Q (mkAPParams 150 10 true)) /\
  factory_Q (Some (str "spectral")) (no_clustering_kargs Q) = Ok (SpectralModel Q None) /\
  factory_Q (Some (str "KMeans")) (no_clustering_kargs Q) = Raise ValueError.
Proof. vm_compute. repeat split. Qed.

(** C53: clustering_factory raises nothing but ValueError. *)
Theorem C53_clustering_factory_errors :
  forall D leb ltb (zero half tol one : D) o name k e,
    clustering_factory D leb ltb zero half tol one o name k = Raise e -> e = ValueError.
Proof. exact C53_clustering_factory_errors_proof. Qed.
Print Assumptions C53_clustering_factory_errors.

Example C53_errors_ex : factory_Q (Some (str "kmeans")) (mkClusteringKargs Q (Some (str "MPC")) None None None None None None None None None) = Raise ValueError.
Proof. reflexivity. Qed.
