(** * The project's tests, run on the model

    Written by tools/gen_tests.py from /repo/tests: clustering/test_abstract.py, clustering/test_factory.py, clustering/test_kmeans.py, clustering/test_dbscan.py, utils/test_frequency.py.
    29 tests; see TestLib.v for the numbers and the random draws. *)

From Coq Require Import String List Bool Arith NArith ZArith QArith SpecFloat.
From Verif Require Import Base Manager MinMax Json Rename KMeans Hierarchical Dbscan Affinity Mpckmeans Spectral Sampling Objects Frequency Factories TestLib.
Import ListNotations.
Open Scope nat_scope.

(** [random.seed(2); random.shuffle(l)] for lists of length 0 to 12. *)
Definition shuffle_seed_2 : list (nat * nat * list nat) :=
  [(0, 0, []);
   (1, 1, [0]);
   (2, 2, [1; 0]);
   (3, 3, [1; 2; 0]);
   (4, 4, [1; 2; 3; 0]);
   (5, 5, [2; 1; 3; 4; 0]);
   (6, 6, [2; 3; 1; 4; 5; 0]);
   (7, 7, [2; 3; 1; 4; 5; 0; 6]);
   (8, 8, [5; 3; 4; 1; 2; 6; 7; 0]);
   (9, 9, [3; 6; 4; 5; 7; 2; 8; 1; 0]);
   (10, 10, [5; 9; 3; 4; 6; 7; 2; 8; 1; 0]);
   (11, 11, [7; 10; 3; 4; 2; 8; 6; 5; 9; 1; 0]);
   (12, 12, [9; 11; 3; 4; 7; 6; 8; 2; 5; 10; 1; 0])].

(** [random.seed(3); random.shuffle(l)] for lists of length 0 to 12. *)
Definition shuffle_seed_3 : list (nat * nat * list nat) :=
  [(0, 0, []);
   (1, 1, [0]);
   (2, 2, [1; 0]);
   (3, 3, [1; 2; 0]);
   (4, 4, [3; 0; 2; 1]);
   (5, 5, [0; 2; 3; 4; 1]);
   (6, 6, [0; 2; 3; 5; 4; 1]);
   (7, 7, [0; 2; 3; 6; 5; 4; 1]);
   (8, 8, [0; 5; 7; 2; 1; 6; 4; 3]);
   (9, 9, [1; 5; 6; 0; 8; 4; 7; 2; 3]);
   (10, 10, [1; 5; 6; 0; 9; 4; 7; 2; 8; 3]);
   (11, 11, [1; 5; 6; 0; 10; 4; 7; 2; 8; 9; 3]);
   (12, 12, [1; 7; 10; 0; 6; 11; 4; 5; 2; 8; 9; 3])].

(** clustering/test_abstract.py:39-50 *)
Example test_rename_clusters_by_order :
  same_dict Z.eqb ((rename_clusters_by_order [(str "d", 2%Z); (str "b", 0%Z); (str "a", 1%Z); (str "e", 0%Z); (str "c", 1%Z)])) [(str "a", 0%Z); (str "b", 1%Z); (str "c", 0%Z); (str "d", 2%Z); (str "e", 1%Z)] = true.
Proof. vm_compute. repeat split. Qed.

(** clustering/test_factory.py:33-42 *)
Example test_clustering_factory_for_not_implemented_clustering :
  raises (clustering_factory spec_float SFleb SFltb fzero half (dec 1 10000) (fint 1) mpc_ops (Some (str "unknown")) (mkClusteringKargs spec_float None None None None None None None None None None)) ValueError.
Proof. vm_compute. repeat split. Qed.

(** clustering/test_factory.py:48-61 *)
Example test_clustering_factory_for_affinity_propagation_clustering :
  is_affinity (clustering_factory spec_float SFleb SFltb fzero half (dec 1 10000) (fint 1) mpc_ops (Some (str "affinity_propagation")) (mkClusteringKargs spec_float None (Some (100%Z)) (Some (5%Z)) None None None None None None None)) = true /\
  has_max_iteration (clustering_factory spec_float SFleb SFltb fzero half (dec 1 10000) (fint 1) mpc_ops (Some (str "affinity_propagation")) (mkClusteringKargs spec_float None (Some (100%Z)) (Some (5%Z)) None None None None None None None)) (100%Z) = true /\
  has_convergence_iteration (clustering_factory spec_float SFleb SFltb fzero half (dec 1 10000) (fint 1) mpc_ops (Some (str "affinity_propagation")) (mkClusteringKargs spec_float None (Some (100%Z)) (Some (5%Z)) None None None None None None None)) (5%Z) = true.
Proof. vm_compute. repeat split. Qed.

(** clustering/test_factory.py:67-80 *)
Example test_clustering_factory_for_dbscan_clustering :
  is_dbscan (clustering_factory spec_float SFleb SFltb fzero half (dec 1 10000) (fint 1) mpc_ops (Some (str "dbscan")) (mkClusteringKargs spec_float None None None None (Some (dec (5) 10)) (Some (3%Z)) None None None None)) = true /\
  has_eps (clustering_factory spec_float SFleb SFltb fzero half (dec 1 10000) (fint 1) mpc_ops (Some (str "dbscan")) (mkClusteringKargs spec_float None None None None (Some (dec (5) 10)) (Some (3%Z)) None None None None)) (dec (5) 10) = true /\
  has_min_samples (clustering_factory spec_float SFleb SFltb fzero half (dec 1 10000) (fint 1) mpc_ops (Some (str "dbscan")) (mkClusteringKargs spec_float None None None None (Some (dec (5) 10)) (Some (3%Z)) None None None None)) (3%Z) = true.
Proof. vm_compute. repeat split. Qed.

(** clustering/test_factory.py:86-105 *)
Example test_clustering_factory_for_hierarchical_clustering :
  is_hierarchical (clustering_factory spec_float SFleb SFltb fzero half (dec 1 10000) (fint 1) mpc_ops (Some (str "hierarchical")) (mkClusteringKargs spec_float None None None None None None (Some (str "average")) None None None)) = true /\
  has_linkage (clustering_factory spec_float SFleb SFltb fzero half (dec 1 10000) (fint 1) mpc_ops (Some (str "hierarchical")) (mkClusteringKargs spec_float None None None None None None (Some (str "average")) None None None)) (str "average") = true /\
  is_hierarchical (clustering_factory spec_float SFleb SFltb fzero half (dec 1 10000) (fint 1) mpc_ops (Some (str "hierarchical")) (mkClusteringKargs spec_float None None None None None None (Some (str "single")) None None None)) = true /\
  has_linkage (clustering_factory spec_float SFleb SFltb fzero half (dec 1 10000) (fint 1) mpc_ops (Some (str "hierarchical")) (mkClusteringKargs spec_float None None None None None None (Some (str "single")) None None None)) (str "single") = true.
Proof. vm_compute. repeat split. Qed.

(** clustering/test_factory.py:111-126 *)
Example test_clustering_factory_for_kmeans_clustering :
  is_kmeans (clustering_factory spec_float SFleb SFltb fzero half (dec 1 10000) (fint 1) mpc_ops (Some (str "kmeans")) (mkClusteringKargs spec_float (Some (str "COP")) (Some (100%Z)) None None None None None (Some (dec (1) 1000)) None None)) = true /\
  has_max_iteration (clustering_factory spec_float SFleb SFltb fzero half (dec 1 10000) (fint 1) mpc_ops (Some (str "kmeans")) (mkClusteringKargs spec_float (Some (str "COP")) (Some (100%Z)) None None None None None (Some (dec (1) 1000)) None None)) (100%Z) = true /\
  has_tolerance (clustering_factory spec_float SFleb SFltb fzero half (dec 1 10000) (fint 1) mpc_ops (Some (str "kmeans")) (mkClusteringKargs spec_float (Some (str "COP")) (Some (100%Z)) None None None None None (Some (dec (1) 1000)) None None)) (dec (1) 1000) = true.
Proof. vm_compute. repeat split. Qed.

(** clustering/test_factory.py:132-147 *)
Example test_clustering_factory_for_mpckmeans_clustering :
  is_mpckmeans (clustering_factory spec_float SFleb SFltb fzero half (dec 1 10000) (fint 1) mpc_ops (Some (str "mpckmeans")) (mkClusteringKargs spec_float (Some (str "MPC")) (Some (100%Z)) None None None None None None (Some (dec (5) 10)) None)) = true /\
  has_max_iteration (clustering_factory spec_float SFleb SFltb fzero half (dec 1 10000) (fint 1) mpc_ops (Some (str "mpckmeans")) (mkClusteringKargs spec_float (Some (str "MPC")) (Some (100%Z)) None None None None None None (Some (dec (5) 10)) None)) (100%Z) = true /\
  has_w (clustering_factory spec_float SFleb SFltb fzero half (dec 1 10000) (fint 1) mpc_ops (Some (str "mpckmeans")) (mkClusteringKargs spec_float (Some (str "MPC")) (Some (100%Z)) None None None None None None (Some (dec (5) 10)) None)) (dec (5) 10) = true.
Proof. vm_compute. repeat split. Qed.

(** clustering/test_factory.py:153-166 *)
Example test_clustering_factory_for_spectral_clustering :
  is_spectral (clustering_factory spec_float SFleb SFltb fzero half (dec 1 10000) (fint 1) mpc_ops (Some (str "spectral")) (mkClusteringKargs spec_float (Some (str "SPEC")) None None None None None None None None (Some (Some (10%Z))))) = true /\
  has_nb_components (clustering_factory spec_float SFleb SFltb fzero half (dec 1 10000) (fint 1) mpc_ops (Some (str "spectral")) (mkClusteringKargs spec_float (Some (str "SPEC")) None None None None None None None None (Some (Some (10%Z))))) (10%Z) = true.
Proof. vm_compute. repeat split. Qed.

(** clustering/test_kmeans.py:28-37 *)
Example test_KMeansConstrainedClustering_for_inconsistent_model :
  raises (make_kmeans spec_float SFltb fzero (str "as_you_want") 150%Z (dec (1) 10000)) ValueError.
Proof. vm_compute. repeat split. Qed.

(** clustering/test_kmeans.py:43-52 *)
Example test_KMeansConstrainedClustering_for_inconsistent_max_iteration :
  raises (make_kmeans spec_float SFltb fzero (str "COP") (-1)%Z (dec (1) 10000)) ValueError.
Proof. vm_compute. repeat split. Qed.

(** clustering/test_kmeans.py:58-67 *)
Example test_KMeansConstrainedClustering_for_inconsistent_tolerance :
  raises (make_kmeans spec_float SFltb fzero (str "COP") 150%Z (fint (-1))) ValueError.
Proof. vm_compute. repeat split. Qed.

(** clustering/test_kmeans.py:73-89 *)
Example test_KMeansConstrainedClustering_for_correct_settings :
  succeeds (make_kmeans spec_float SFltb fzero (str "COP") 100%Z (dec (1) 1000)) = true /\
  fail_or (make_kmeans spec_float SFltb fzero (str "COP") 100%Z (dec (1) 1000)) (fun p => Ok (Z.of_nat (kp_max_iteration spec_float p))) = Ok (100%Z) /\
  fail_or (make_kmeans spec_float SFltb fzero (str "COP") 100%Z (dec (1) 1000)) (fun p => Ok (kp_tolerance spec_float p)) = Ok (dec (1) 1000).
Proof. vm_compute. repeat split. Qed.

(** clustering/test_kmeans.py:135-149 (unseeded: checked for two shuffles) *)
Example test_KMeansConstrainedClustering_cluster_for_inconsistent_nb_clusters_1 :
  raises (result (kmeans_run (@rev pystr) 150%Z (dec (1) 10000) (manager [str "first"; str "second"; str "third"] []) [(str "first", [fint 1; fint 2; fint 3]); (str "second", [fint 4; fint 5; fint 6]); (str "third", [fint 7; fint 8; fint 9])] None)) ValueError /\
  raises (result (kmeans_run (shuffled shuffle_seed_2) 150%Z (dec (1) 10000) (manager [str "first"; str "second"; str "third"] []) [(str "first", [fint 1; fint 2; fint 3]); (str "second", [fint 4; fint 5; fint 6]); (str "third", [fint 7; fint 8; fint 9])] None)) ValueError.
Proof. vm_compute. repeat split. Qed.

(** clustering/test_kmeans.py:155-169 (unseeded: checked for two shuffles) *)
Example test_KMeansConstrainedClustering_cluster_for_inconsistent_nb_clusters_2 :
  raises (result (kmeans_run (@rev pystr) 150%Z (dec (1) 10000) (manager [str "first"; str "second"; str "third"] []) [(str "first", [fint 1; fint 2; fint 3]); (str "second", [fint 4; fint 5; fint 6]); (str "third", [fint 7; fint 8; fint 9])] (Some ((-1)%Z)))) ValueError /\
  raises (result (kmeans_run (shuffled shuffle_seed_2) 150%Z (dec (1) 10000) (manager [str "first"; str "second"; str "third"] []) [(str "first", [fint 1; fint 2; fint 3]); (str "second", [fint 4; fint 5; fint 6]); (str "third", [fint 7; fint 8; fint 9])] (Some ((-1)%Z)))) ValueError.
Proof. vm_compute. repeat split. Qed.

(** clustering/test_kmeans.py:175-207 *)
Example test_KMeansConstrainedClustering_cluster_with_no_constraints_1 :
  predicted (k_predicted fvec) (kmeans_run (shuffled shuffle_seed_2) 150%Z (dec (1) 10000) (manager [str "0"; str "1"; str "2"; str "3"; str "4"; str "5"; str "6"; str "7"; str "8"] []) [(str "0", [fint 1; fint 0; fint 0; fint 0]); (str "1", [dec (95) 100; dec (2) 100; dec (2) 100; dec (1) 100]); (str "2", [dec (98) 100; fint 0; dec (2) 100; fint 0]); (str "3", [dec (99) 100; fint 0; dec (1) 100; fint 0]); (str "4", [dec (5) 10; dec (22) 100; dec (21) 100; dec (7) 100]); (str "5", [dec (5) 10; dec (21) 100; dec (22) 100; dec (7) 100]); (str "6", [dec (1) 100; dec (1) 100; dec (1) 100; dec (97) 100]); (str "7", [fint 0; dec (1) 100; fint 0; dec (99) 100]); (str "8", [fint 0; fint 0; fint 0; fint 1])] (Some (2%Z))) = true /\
  gives (result (kmeans_run (shuffled shuffle_seed_2) 150%Z (dec (1) 10000) (manager [str "0"; str "1"; str "2"; str "3"; str "4"; str "5"; str "6"; str "7"; str "8"] []) [(str "0", [fint 1; fint 0; fint 0; fint 0]); (str "1", [dec (95) 100; dec (2) 100; dec (2) 100; dec (1) 100]); (str "2", [dec (98) 100; fint 0; dec (2) 100; fint 0]); (str "3", [dec (99) 100; fint 0; dec (1) 100; fint 0]); (str "4", [dec (5) 10; dec (22) 100; dec (21) 100; dec (7) 100]); (str "5", [dec (5) 10; dec (21) 100; dec (22) 100; dec (7) 100]); (str "6", [dec (1) 100; dec (1) 100; dec (1) 100; dec (97) 100]); (str "7", [fint 0; dec (1) 100; fint 0; dec (99) 100]); (str "8", [fint 0; fint 0; fint 0; fint 1])] (Some (2%Z)))) [(str "0", 0%Z); (str "1", 0%Z); (str "2", 0%Z); (str "3", 0%Z); (str "4", 0%Z); (str "5", 0%Z); (str "6", 1%Z); (str "7", 1%Z); (str "8", 1%Z)].
Proof. vm_compute. repeat split. Qed.

(** clustering/test_kmeans.py:213-256 *)
Example test_KMeansConstrainedClustering_cluster_with_no_constraints_2 :
  predicted (k_predicted fvec) (kmeans_run (shuffled shuffle_seed_2) 150%Z (dec (1) 10000) (manager [str "0"; str "1"; str "2"; str "3"; str "4"; str "5"; str "6"; str "7"; str "8"; str "9"] []) [(str "0", [fint 1; fint 0; fint 0]); (str "1", [dec (95) 100; dec (2) 100; dec (1) 100]); (str "2", [dec (98) 100; fint 0; fint 0]); (str "3", [dec (99) 100; fint 0; fint 0]); (str "4", [dec (1) 100; dec (99) 100; dec (7) 100]); (str "5", [dec (2) 100; dec (99) 100; dec (7) 100]); (str "6", [dec (1) 100; dec (99) 100; dec (2) 100]); (str "7", [dec (1) 100; dec (1) 100; dec (97) 100]); (str "8", [fint 0; dec (1) 100; dec (99) 100]); (str "9", [fint 0; fint 0; fint 1])] (Some (3%Z))) = true /\
  gives (result (kmeans_run (shuffled shuffle_seed_2) 150%Z (dec (1) 10000) (manager [str "0"; str "1"; str "2"; str "3"; str "4"; str "5"; str "6"; str "7"; str "8"; str "9"] []) [(str "0", [fint 1; fint 0; fint 0]); (str "1", [dec (95) 100; dec (2) 100; dec (1) 100]); (str "2", [dec (98) 100; fint 0; fint 0]); (str "3", [dec (99) 100; fint 0; fint 0]); (str "4", [dec (1) 100; dec (99) 100; dec (7) 100]); (str "5", [dec (2) 100; dec (99) 100; dec (7) 100]); (str "6", [dec (1) 100; dec (99) 100; dec (2) 100]); (str "7", [dec (1) 100; dec (1) 100; dec (97) 100]); (str "8", [fint 0; dec (1) 100; dec (99) 100]); (str "9", [fint 0; fint 0; fint 1])] (Some (3%Z)))) [(str "0", 0%Z); (str "1", 0%Z); (str "2", 0%Z); (str "3", 0%Z); (str "4", 1%Z); (str "5", 1%Z); (str "6", 1%Z); (str "7", 2%Z); (str "8", 2%Z); (str "9", 2%Z)].
Proof. vm_compute. repeat split. Qed.

(** clustering/test_kmeans.py:262-309 *)
Example test_KMeansConstrainedClustering_cluster_with_some_constraints :
  succeeds (answer (manager [str "0"; str "1"; str "2"; str "3"; str "4"; str "5"; str "6"; str "7"; str "8"] []) (CallAddConstraint (str "0") (str "1") (str "MUST_LINK") 1)) = true /\
  succeeds (answer (manager [str "0"; str "1"; str "2"; str "3"; str "4"; str "5"; str "6"; str "7"; str "8"] [CallAddConstraint (str "0") (str "1") (str "MUST_LINK") 1]) (CallAddConstraint (str "0") (str "7") (str "MUST_LINK") 1)) = true /\
  succeeds (answer (manager [str "0"; str "1"; str "2"; str "3"; str "4"; str "5"; str "6"; str "7"; str "8"] [CallAddConstraint (str "0") (str "1") (str "MUST_LINK") 1; CallAddConstraint (str "0") (str "7") (str "MUST_LINK") 1]) (CallAddConstraint (str "0") (str "8") (str "MUST_LINK") 1)) = true /\
  succeeds (answer (manager [str "0"; str "1"; str "2"; str "3"; str "4"; str "5"; str "6"; str "7"; str "8"] [CallAddConstraint (str "0") (str "1") (str "MUST_LINK") 1; CallAddConstraint (str "0") (str "7") (str "MUST_LINK") 1; CallAddConstraint (str "0") (str "8") (str "MUST_LINK") 1]) (CallAddConstraint (str "4") (str "5") (str "MUST_LINK") 1)) = true /\
  succeeds (answer (manager [str "0"; str "1"; str "2"; str "3"; str "4"; str "5"; str "6"; str "7"; str "8"] [CallAddConstraint (str "0") (str "1") (str "MUST_LINK") 1; CallAddConstraint (str "0") (str "7") (str "MUST_LINK") 1; CallAddConstraint (str "0") (str "8") (str "MUST_LINK") 1; CallAddConstraint (str "4") (str "5") (str "MUST_LINK") 1]) (CallAddConstraint (str "0") (str "4") (str "CANNOT_LINK") 1)) = true /\
  succeeds (answer (manager [str "0"; str "1"; str "2"; str "3"; str "4"; str "5"; str "6"; str "7"; str "8"] [CallAddConstraint (str "0") (str "1") (str "MUST_LINK") 1; CallAddConstraint (str "0") (str "7") (str "MUST_LINK") 1; CallAddConstraint (str "0") (str "8") (str "MUST_LINK") 1; CallAddConstraint (str "4") (str "5") (str "MUST_LINK") 1; CallAddConstraint (str "0") (str "4") (str "CANNOT_LINK") 1]) (CallAddConstraint (str "2") (str "4") (str "CANNOT_LINK") 1)) = true /\
  predicted (k_predicted fvec) (kmeans_run (shuffled shuffle_seed_2) 150%Z (dec (1) 10000) (manager [str "0"; str "1"; str "2"; str "3"; str "4"; str "5"; str "6"; str "7"; str "8"] [CallAddConstraint (str "0") (str "1") (str "MUST_LINK") 1; CallAddConstraint (str "0") (str "7") (str "MUST_LINK") 1; CallAddConstraint (str "0") (str "8") (str "MUST_LINK") 1; CallAddConstraint (str "4") (str "5") (str "MUST_LINK") 1; CallAddConstraint (str "0") (str "4") (str "CANNOT_LINK") 1; CallAddConstraint (str "2") (str "4") (str "CANNOT_LINK") 1]) [(str "0", [fint 1; fint 0; fint 0; fint 0]); (str "1", [dec (95) 100; dec (2) 100; dec (2) 100; dec (1) 100]); (str "2", [dec (98) 100; fint 0; dec (2) 100; fint 0]); (str "3", [dec (99) 100; fint 0; dec (1) 100; fint 0]); (str "4", [dec (5) 10; dec (22) 100; dec (21) 100; dec (7) 100]); (str "5", [dec (5) 10; dec (21) 100; dec (22) 100; dec (7) 100]); (str "6", [dec (1) 100; dec (1) 100; dec (1) 100; dec (97) 100]); (str "7", [fint 0; dec (1) 100; fint 0; dec (99) 100]); (str "8", [fint 0; fint 0; fint 0; fint 1])] (Some (3%Z))) = true /\
  gives (result (kmeans_run (shuffled shuffle_seed_2) 150%Z (dec (1) 10000) (manager [str "0"; str "1"; str "2"; str "3"; str "4"; str "5"; str "6"; str "7"; str "8"] [CallAddConstraint (str "0") (str "1") (str "MUST_LINK") 1; CallAddConstraint (str "0") (str "7") (str "MUST_LINK") 1; CallAddConstraint (str "0") (str "8") (str "MUST_LINK") 1; CallAddConstraint (str "4") (str "5") (str "MUST_LINK") 1; CallAddConstraint (str "0") (str "4") (str "CANNOT_LINK") 1; CallAddConstraint (str "2") (str "4") (str "CANNOT_LINK") 1]) [(str "0", [fint 1; fint 0; fint 0; fint 0]); (str "1", [dec (95) 100; dec (2) 100; dec (2) 100; dec (1) 100]); (str "2", [dec (98) 100; fint 0; dec (2) 100; fint 0]); (str "3", [dec (99) 100; fint 0; dec (1) 100; fint 0]); (str "4", [dec (5) 10; dec (22) 100; dec (21) 100; dec (7) 100]); (str "5", [dec (5) 10; dec (21) 100; dec (22) 100; dec (7) 100]); (str "6", [dec (1) 100; dec (1) 100; dec (1) 100; dec (97) 100]); (str "7", [fint 0; dec (1) 100; fint 0; dec (99) 100]); (str "8", [fint 0; fint 0; fint 0; fint 1])] (Some (3%Z)))) [(str "0", 0%Z); (str "1", 0%Z); (str "2", 1%Z); (str "3", 1%Z); (str "4", 2%Z); (str "5", 2%Z); (str "6", 0%Z); (str "7", 0%Z); (str "8", 0%Z)].
Proof. vm_compute. repeat split. Qed.

(** clustering/test_kmeans.py:315-365 (unseeded: checked for two shuffles) *)
Example test_KMeansConstrainedClustering_cluster_with_full_constraints :
  succeeds (answer (manager [str "0"; str "1"; str "2"; str "3"; str "4"; str "5"; str "6"; str "7"; str "8"] []) (CallAddConstraint (str "0") (str "4") (str "MUST_LINK") 1)) = true /\
  succeeds (answer (manager [str "0"; str "1"; str "2"; str "3"; str "4"; str "5"; str "6"; str "7"; str "8"] [CallAddConstraint (str "0") (str "4") (str "MUST_LINK") 1]) (CallAddConstraint (str "0") (str "8") (str "MUST_LINK") 1)) = true /\
  succeeds (answer (manager [str "0"; str "1"; str "2"; str "3"; str "4"; str "5"; str "6"; str "7"; str "8"] [CallAddConstraint (str "0") (str "4") (str "MUST_LINK") 1; CallAddConstraint (str "0") (str "8") (str "MUST_LINK") 1]) (CallAddConstraint (str "1") (str "5") (str "MUST_LINK") 1)) = true /\
  succeeds (answer (manager [str "0"; str "1"; str "2"; str "3"; str "4"; str "5"; str "6"; str "7"; str "8"] [CallAddConstraint (str "0") (str "4") (str "MUST_LINK") 1; CallAddConstraint (str "0") (str "8") (str "MUST_LINK") 1; CallAddConstraint (str "1") (str "5") (str "MUST_LINK") 1]) (CallAddConstraint (str "2") (str "6") (str "MUST_LINK") 1)) = true /\
  succeeds (answer (manager [str "0"; str "1"; str "2"; str "3"; str "4"; str "5"; str "6"; str "7"; str "8"] [CallAddConstraint (str "0") (str "4") (str "MUST_LINK") 1; CallAddConstraint (str "0") (str "8") (str "MUST_LINK") 1; CallAddConstraint (str "1") (str "5") (str "MUST_LINK") 1; CallAddConstraint (str "2") (str "6") (str "MUST_LINK") 1]) (CallAddConstraint (str "3") (str "7") (str "MUST_LINK") 1)) = true /\
  succeeds (answer (manager [str "0"; str "1"; str "2"; str "3"; str "4"; str "5"; str "6"; str "7"; str "8"] [CallAddConstraint (str "0") (str "4") (str "MUST_LINK") 1; CallAddConstraint (str "0") (str "8") (str "MUST_LINK") 1; CallAddConstraint (str "1") (str "5") (str "MUST_LINK") 1; CallAddConstraint (str "2") (str "6") (str "MUST_LINK") 1; CallAddConstraint (str "3") (str "7") (str "MUST_LINK") 1]) (CallAddConstraint (str "0") (str "1") (str "CANNOT_LINK") 1)) = true /\
  succeeds (answer (manager [str "0"; str "1"; str "2"; str "3"; str "4"; str "5"; str "6"; str "7"; str "8"] [CallAddConstraint (str "0") (str "4") (str "MUST_LINK") 1; CallAddConstraint (str "0") (str "8") (str "MUST_LINK") 1; CallAddConstraint (str "1") (str "5") (str "MUST_LINK") 1; CallAddConstraint (str "2") (str "6") (str "MUST_LINK") 1; CallAddConstraint (str "3") (str "7") (str "MUST_LINK") 1; CallAddConstraint (str "0") (str "1") (str "CANNOT_LINK") 1]) (CallAddConstraint (str "0") (str "2") (str "CANNOT_LINK") 1)) = true /\
  succeeds (answer (manager [str "0"; str "1"; str "2"; str "3"; str "4"; str "5"; str "6"; str "7"; str "8"] [CallAddConstraint (str "0") (str "4") (str "MUST_LINK") 1; CallAddConstraint (str "0") (str "8") (str "MUST_LINK") 1; CallAddConstraint (str "1") (str "5") (str "MUST_LINK") 1; CallAddConstraint (str "2") (str "6") (str "MUST_LINK") 1; CallAddConstraint (str "3") (str "7") (str "MUST_LINK") 1; CallAddConstraint (str "0") (str "1") (str "CANNOT_LINK") 1; CallAddConstraint (str "0") (str "2") (str "CANNOT_LINK") 1]) (CallAddConstraint (str "0") (str "3") (str "CANNOT_LINK") 1)) = true /\
  succeeds (answer (manager [str "0"; str "1"; str "2"; str "3"; str "4"; str "5"; str "6"; str "7"; str "8"] [CallAddConstraint (str "0") (str "4") (str "MUST_LINK") 1; CallAddConstraint (str "0") (str "8") (str "MUST_LINK") 1; CallAddConstraint (str "1") (str "5") (str "MUST_LINK") 1; CallAddConstraint (str "2") (str "6") (str "MUST_LINK") 1; CallAddConstraint (str "3") (str "7") (str "MUST_LINK") 1; CallAddConstraint (str "0") (str "1") (str "CANNOT_LINK") 1; CallAddConstraint (str "0") (str "2") (str "CANNOT_LINK") 1; CallAddConstraint (str "0") (str "3") (str "CANNOT_LINK") 1]) (CallAddConstraint (str "1") (str "2") (str "CANNOT_LINK") 1)) = true /\
  succeeds (answer (manager [str "0"; str "1"; str "2"; str "3"; str "4"; str "5"; str "6"; str "7"; str "8"] [CallAddConstraint (str "0") (str "4") (str "MUST_LINK") 1; CallAddConstraint (str "0") (str "8") (str "MUST_LINK") 1; CallAddConstraint (str "1") (str "5") (str "MUST_LINK") 1; CallAddConstraint (str "2") (str "6") (str "MUST_LINK") 1; CallAddConstraint (str "3") (str "7") (str "MUST_LINK") 1; CallAddConstraint (str "0") (str "1") (str "CANNOT_LINK") 1; CallAddConstraint (str "0") (str "2") (str "CANNOT_LINK") 1; CallAddConstraint (str "0") (str "3") (str "CANNOT_LINK") 1; CallAddConstraint (str "1") (str "2") (str "CANNOT_LINK") 1]) (CallAddConstraint (str "1") (str "3") (str "CANNOT_LINK") 1)) = true /\
  succeeds (answer (manager [str "0"; str "1"; str "2"; str "3"; str "4"; str "5"; str "6"; str "7"; str "8"] [CallAddConstraint (str "0") (str "4") (str "MUST_LINK") 1; CallAddConstraint (str "0") (str "8") (str "MUST_LINK") 1; CallAddConstraint (str "1") (str "5") (str "MUST_LINK") 1; CallAddConstraint (str "2") (str "6") (str "MUST_LINK") 1; CallAddConstraint (str "3") (str "7") (str "MUST_LINK") 1; CallAddConstraint (str "0") (str "1") (str "CANNOT_LINK") 1; CallAddConstraint (str "0") (str "2") (str "CANNOT_LINK") 1; CallAddConstraint (str "0") (str "3") (str "CANNOT_LINK") 1; CallAddConstraint (str "1") (str "2") (str "CANNOT_LINK") 1; CallAddConstraint (str "1") (str "3") (str "CANNOT_LINK") 1]) (CallAddConstraint (str "2") (str "3") (str "CANNOT_LINK") 1)) = true /\
  predicted (k_predicted fvec) (kmeans_run (@rev pystr) 150%Z (dec (1) 10000) (manager [str "0"; str "1"; str "2"; str "3"; str "4"; str "5"; str "6"; str "7"; str "8"] [CallAddConstraint (str "0") (str "4") (str "MUST_LINK") 1; CallAddConstraint (str "0") (str "8") (str "MUST_LINK") 1; CallAddConstraint (str "1") (str "5") (str "MUST_LINK") 1; CallAddConstraint (str "2") (str "6") (str "MUST_LINK") 1; CallAddConstraint (str "3") (str "7") (str "MUST_LINK") 1; CallAddConstraint (str "0") (str "1") (str "CANNOT_LINK") 1; CallAddConstraint (str "0") (str "2") (str "CANNOT_LINK") 1; CallAddConstraint (str "0") (str "3") (str "CANNOT_LINK") 1; CallAddConstraint (str "1") (str "2") (str "CANNOT_LINK") 1; CallAddConstraint (str "1") (str "3") (str "CANNOT_LINK") 1; CallAddConstraint (str "2") (str "3") (str "CANNOT_LINK") 1]) [(str "0", [fint 1; fint 0; fint 0; fint 0]); (str "1", [dec (95) 100; dec (2) 100; dec (2) 100; dec (1) 100]); (str "2", [dec (98) 100; fint 0; dec (2) 100; fint 0]); (str "3", [dec (99) 100; fint 0; dec (1) 100; fint 0]); (str "4", [dec (5) 10; dec (22) 100; dec (21) 100; dec (7) 100]); (str "5", [dec (5) 10; dec (21) 100; dec (22) 100; dec (7) 100]); (str "6", [dec (1) 100; dec (1) 100; dec (1) 100; dec (97) 100]); (str "7", [fint 0; dec (1) 100; fint 0; dec (99) 100]); (str "8", [fint 0; fint 0; fint 0; fint 1])] (Some (4%Z))) = true /\
  predicted (k_predicted fvec) (kmeans_run (shuffled shuffle_seed_2) 150%Z (dec (1) 10000) (manager [str "0"; str "1"; str "2"; str "3"; str "4"; str "5"; str "6"; str "7"; str "8"] [CallAddConstraint (str "0") (str "4") (str "MUST_LINK") 1; CallAddConstraint (str "0") (str "8") (str "MUST_LINK") 1; CallAddConstraint (str "1") (str "5") (str "MUST_LINK") 1; CallAddConstraint (str "2") (str "6") (str "MUST_LINK") 1; CallAddConstraint (str "3") (str "7") (str "MUST_LINK") 1; CallAddConstraint (str "0") (str "1") (str "CANNOT_LINK") 1; CallAddConstraint (str "0") (str "2") (str "CANNOT_LINK") 1; CallAddConstraint (str "0") (str "3") (str "CANNOT_LINK") 1; CallAddConstraint (str "1") (str "2") (str "CANNOT_LINK") 1; CallAddConstraint (str "1") (str "3") (str "CANNOT_LINK") 1; CallAddConstraint (str "2") (str "3") (str "CANNOT_LINK") 1]) [(str "0", [fint 1; fint 0; fint 0; fint 0]); (str "1", [dec (95) 100; dec (2) 100; dec (2) 100; dec (1) 100]); (str "2", [dec (98) 100; fint 0; dec (2) 100; fint 0]); (str "3", [dec (99) 100; fint 0; dec (1) 100; fint 0]); (str "4", [dec (5) 10; dec (22) 100; dec (21) 100; dec (7) 100]); (str "5", [dec (5) 10; dec (21) 100; dec (22) 100; dec (7) 100]); (str "6", [dec (1) 100; dec (1) 100; dec (1) 100; dec (97) 100]); (str "7", [fint 0; dec (1) 100; fint 0; dec (99) 100]); (str "8", [fint 0; fint 0; fint 0; fint 1])] (Some (4%Z))) = true /\
  gives (result (kmeans_run (@rev pystr) 150%Z (dec (1) 10000) (manager [str "0"; str "1"; str "2"; str "3"; str "4"; str "5"; str "6"; str "7"; str "8"] [CallAddConstraint (str "0") (str "4") (str "MUST_LINK") 1; CallAddConstraint (str "0") (str "8") (str "MUST_LINK") 1; CallAddConstraint (str "1") (str "5") (str "MUST_LINK") 1; CallAddConstraint (str "2") (str "6") (str "MUST_LINK") 1; CallAddConstraint (str "3") (str "7") (str "MUST_LINK") 1; CallAddConstraint (str "0") (str "1") (str "CANNOT_LINK") 1; CallAddConstraint (str "0") (str "2") (str "CANNOT_LINK") 1; CallAddConstraint (str "0") (str "3") (str "CANNOT_LINK") 1; CallAddConstraint (str "1") (str "2") (str "CANNOT_LINK") 1; CallAddConstraint (str "1") (str "3") (str "CANNOT_LINK") 1; CallAddConstraint (str "2") (str "3") (str "CANNOT_LINK") 1]) [(str "0", [fint 1; fint 0; fint 0; fint 0]); (str "1", [dec (95) 100; dec (2) 100; dec (2) 100; dec (1) 100]); (str "2", [dec (98) 100; fint 0; dec (2) 100; fint 0]); (str "3", [dec (99) 100; fint 0; dec (1) 100; fint 0]); (str "4", [dec (5) 10; dec (22) 100; dec (21) 100; dec (7) 100]); (str "5", [dec (5) 10; dec (21) 100; dec (22) 100; dec (7) 100]); (str "6", [dec (1) 100; dec (1) 100; dec (1) 100; dec (97) 100]); (str "7", [fint 0; dec (1) 100; fint 0; dec (99) 100]); (str "8", [fint 0; fint 0; fint 0; fint 1])] (Some (4%Z)))) [(str "0", 0%Z); (str "1", 1%Z); (str "2", 2%Z); (str "3", 3%Z); (str "4", 0%Z); (str "5", 1%Z); (str "6", 2%Z); (str "7", 3%Z); (str "8", 0%Z)] /\
  gives (result (kmeans_run (shuffled shuffle_seed_2) 150%Z (dec (1) 10000) (manager [str "0"; str "1"; str "2"; str "3"; str "4"; str "5"; str "6"; str "7"; str "8"] [CallAddConstraint (str "0") (str "4") (str "MUST_LINK") 1; CallAddConstraint (str "0") (str "8") (str "MUST_LINK") 1; CallAddConstraint (str "1") (str "5") (str "MUST_LINK") 1; CallAddConstraint (str "2") (str "6") (str "MUST_LINK") 1; CallAddConstraint (str "3") (str "7") (str "MUST_LINK") 1; CallAddConstraint (str "0") (str "1") (str "CANNOT_LINK") 1; CallAddConstraint (str "0") (str "2") (str "CANNOT_LINK") 1; CallAddConstraint (str "0") (str "3") (str "CANNOT_LINK") 1; CallAddConstraint (str "1") (str "2") (str "CANNOT_LINK") 1; CallAddConstraint (str "1") (str "3") (str "CANNOT_LINK") 1; CallAddConstraint (str "2") (str "3") (str "CANNOT_LINK") 1]) [(str "0", [fint 1; fint 0; fint 0; fint 0]); (str "1", [dec (95) 100; dec (2) 100; dec (2) 100; dec (1) 100]); (str "2", [dec (98) 100; fint 0; dec (2) 100; fint 0]); (str "3", [dec (99) 100; fint 0; dec (1) 100; fint 0]); (str "4", [dec (5) 10; dec (22) 100; dec (21) 100; dec (7) 100]); (str "5", [dec (5) 10; dec (21) 100; dec (22) 100; dec (7) 100]); (str "6", [dec (1) 100; dec (1) 100; dec (1) 100; dec (97) 100]); (str "7", [fint 0; dec (1) 100; fint 0; dec (99) 100]); (str "8", [fint 0; fint 0; fint 0; fint 1])] (Some (4%Z)))) [(str "0", 0%Z); (str "1", 1%Z); (str "2", 2%Z); (str "3", 3%Z); (str "4", 0%Z); (str "5", 1%Z); (str "6", 2%Z); (str "7", 3%Z); (str "8", 0%Z)].
Proof. vm_compute. repeat split. Qed.

(** clustering/test_kmeans.py:371-448 *)
Example test_KMeansConstrainedClustering_cluster_with_no_possible_cluster :
  succeeds (answer (manager [str "0"; str "1"; str "2"; str "3"; str "4"; str "5"; str "6"; str "7"; str "8"] []) (CallAddConstraint (str "0") (str "1") (str "CANNOT_LINK") 1)) = true /\
  succeeds (answer (manager [str "0"; str "1"; str "2"; str "3"; str "4"; str "5"; str "6"; str "7"; str "8"] [CallAddConstraint (str "0") (str "1") (str "CANNOT_LINK") 1]) (CallAddConstraint (str "0") (str "2") (str "CANNOT_LINK") 1)) = true /\
  succeeds (answer (manager [str "0"; str "1"; str "2"; str "3"; str "4"; str "5"; str "6"; str "7"; str "8"] [CallAddConstraint (str "0") (str "1") (str "CANNOT_LINK") 1; CallAddConstraint (str "0") (str "2") (str "CANNOT_LINK") 1]) (CallAddConstraint (str "0") (str "3") (str "CANNOT_LINK") 1)) = true /\
  succeeds (answer (manager [str "0"; str "1"; str "2"; str "3"; str "4"; str "5"; str "6"; str "7"; str "8"] [CallAddConstraint (str "0") (str "1") (str "CANNOT_LINK") 1; CallAddConstraint (str "0") (str "2") (str "CANNOT_LINK") 1; CallAddConstraint (str "0") (str "3") (str "CANNOT_LINK") 1]) (CallAddConstraint (str "0") (str "4") (str "CANNOT_LINK") 1)) = true /\
  succeeds (answer (manager [str "0"; str "1"; str "2"; str "3"; str "4"; str "5"; str "6"; str "7"; str "8"] [CallAddConstraint (str "0") (str "1") (str "CANNOT_LINK") 1; CallAddConstraint (str "0") (str "2") (str "CANNOT_LINK") 1; CallAddConstraint (str "0") (str "3") (str "CANNOT_LINK") 1; CallAddConstraint (str "0") (str "4") (str "CANNOT_LINK") 1]) (CallAddConstraint (str "0") (str "5") (str "CANNOT_LINK") 1)) = true /\
  succeeds (answer (manager [str "0"; str "1"; str "2"; str "3"; str "4"; str "5"; str "6"; str "7"; str "8"] [CallAddConstraint (str "0") (str "1") (str "CANNOT_LINK") 1; CallAddConstraint (str "0") (str "2") (str "CANNOT_LINK") 1; CallAddConstraint (str "0") (str "3") (str "CANNOT_LINK") 1; CallAddConstraint (str "0") (str "4") (str "CANNOT_LINK") 1; CallAddConstraint (str "0") (str "5") (str "CANNOT_LINK") 1]) (CallAddConstraint (str "0") (str "6") (str "CANNOT_LINK") 1)) = true /\
  succeeds (answer (manager [str "0"; str "1"; str "2"; str "3"; str "4"; str "5"; str "6"; str "7"; str "8"] [CallAddConstraint (str "0") (str "1") (str "CANNOT_LINK") 1; CallAddConstraint (str "0") (str "2") (str "CANNOT_LINK") 1; CallAddConstraint (str "0") (str "3") (str "CANNOT_LINK") 1; CallAddConstraint (str "0") (str "4") (str "CANNOT_LINK") 1; CallAddConstraint (str "0") (str "5") (str "CANNOT_LINK") 1; CallAddConstraint (str "0") (str "6") (str "CANNOT_LINK") 1]) (CallAddConstraint (str "0") (str "7") (str "CANNOT_LINK") 1)) = true /\
  succeeds (answer (manager [str "0"; str "1"; str "2"; str "3"; str "4"; str "5"; str "6"; str "7"; str "8"] [CallAddConstraint (str "0") (str "1") (str "CANNOT_LINK") 1; CallAddConstraint (str "0") (str "2") (str "CANNOT_LINK") 1; CallAddConstraint (str "0") (str "3") (str "CANNOT_LINK") 1; CallAddConstraint (str "0") (str "4") (str "CANNOT_LINK") 1; CallAddConstraint (str "0") (str "5") (str "CANNOT_LINK") 1; CallAddConstraint (str "0") (str "6") (str "CANNOT_LINK") 1; CallAddConstraint (str "0") (str "7") (str "CANNOT_LINK") 1]) (CallAddConstraint (str "0") (str "8") (str "CANNOT_LINK") 1)) = true /\
  succeeds (answer (manager [str "0"; str "1"; str "2"; str "3"; str "4"; str "5"; str "6"; str "7"; str "8"] [CallAddConstraint (str "0") (str "1") (str "CANNOT_LINK") 1; CallAddConstraint (str "0") (str "2") (str "CANNOT_LINK") 1; CallAddConstraint (str "0") (str "3") (str "CANNOT_LINK") 1; CallAddConstraint (str "0") (str "4") (str "CANNOT_LINK") 1; CallAddConstraint (str "0") (str "5") (str "CANNOT_LINK") 1; CallAddConstraint (str "0") (str "6") (str "CANNOT_LINK") 1; CallAddConstraint (str "0") (str "7") (str "CANNOT_LINK") 1; CallAddConstraint (str "0") (str "8") (str "CANNOT_LINK") 1]) (CallAddConstraint (str "1") (str "2") (str "CANNOT_LINK") 1)) = true /\
  succeeds (answer (manager [str "0"; str "1"; str "2"; str "3"; str "4"; str "5"; str "6"; str "7"; str "8"] [CallAddConstraint (str "0") (str "1") (str "CANNOT_LINK") 1; CallAddConstraint (str "0") (str "2") (str "CANNOT_LINK") 1; CallAddConstraint (str "0") (str "3") (str "CANNOT_LINK") 1; CallAddConstraint (str "0") (str "4") (str "CANNOT_LINK") 1; CallAddConstraint (str "0") (str "5") (str "CANNOT_LINK") 1; CallAddConstraint (str "0") (str "6") (str "CANNOT_LINK") 1; CallAddConstraint (str "0") (str "7") (str "CANNOT_LINK") 1; CallAddConstraint (str "0") (str "8") (str "CANNOT_LINK") 1; CallAddConstraint (str "1") (str "2") (str "CANNOT_LINK") 1]) (CallAddConstraint (str "1") (str "3") (str "CANNOT_LINK") 1)) = true /\
  succeeds (answer (manager [str "0"; str "1"; str "2"; str "3"; str "4"; str "5"; str "6"; str "7"; str "8"] [CallAddConstraint (str "0") (str "1") (str "CANNOT_LINK") 1; CallAddConstraint (str "0") (str "2") (str "CANNOT_LINK") 1; CallAddConstraint (str "0") (str "3") (str "CANNOT_LINK") 1; CallAddConstraint (str "0") (str "4") (str "CANNOT_LINK") 1; CallAddConstraint (str "0") (str "5") (str "CANNOT_LINK") 1; CallAddConstraint (str "0") (str "6") (str "CANNOT_LINK") 1; CallAddConstraint (str "0") (str "7") (str "CANNOT_LINK") 1; CallAddConstraint (str "0") (str "8") (str "CANNOT_LINK") 1; CallAddConstraint (str "1") (str "2") (str "CANNOT_LINK") 1; CallAddConstraint (str "1") (str "3") (str "CANNOT_LINK") 1]) (CallAddConstraint (str "1") (str "4") (str "CANNOT_LINK") 1)) = true /\
  succeeds (answer (manager [str "0"; str "1"; str "2"; str "3"; str "4"; str "5"; str "6"; str "7"; str "8"] [CallAddConstraint (str "0") (str "1") (str "CANNOT_LINK") 1; CallAddConstraint (str "0") (str "2") (str "CANNOT_LINK") 1; CallAddConstraint (str "0") (str "3") (str "CANNOT_LINK") 1; CallAddConstraint (str "0") (str "4") (str "CANNOT_LINK") 1; CallAddConstraint (str "0") (str "5") (str "CANNOT_LINK") 1; CallAddConstraint (str "0") (str "6") (str "CANNOT_LINK") 1; CallAddConstraint (str "0") (str "7") (str "CANNOT_LINK") 1; CallAddConstraint (str "0") (str "8") (str "CANNOT_LINK") 1; CallAddConstraint (str "1") (str "2") (str "CANNOT_LINK") 1; CallAddConstraint (str "1") (str "3") (str "CANNOT_LINK") 1; CallAddConstraint (str "1") (str "4") (str "CANNOT_LINK") 1]) (CallAddConstraint (str "1") (str "5") (str "CANNOT_LINK") 1)) = true /\
  succeeds (answer (manager [str "0"; str "1"; str "2"; str "3"; str "4"; str "5"; str "6"; str "7"; str "8"] [CallAddConstraint (str "0") (str "1") (str "CANNOT_LINK") 1; CallAddConstraint (str "0") (str "2") (str "CANNOT_LINK") 1; CallAddConstraint (str "0") (str "3") (str "CANNOT_LINK") 1; CallAddConstraint (str "0") (str "4") (str "CANNOT_LINK") 1; CallAddConstraint (str "0") (str "5") (str "CANNOT_LINK") 1; CallAddConstraint (str "0") (str "6") (str "CANNOT_LINK") 1; CallAddConstraint (str "0") (str "7") (str "CANNOT_LINK") 1; CallAddConstraint (str "0") (str "8") (str "CANNOT_LINK") 1; CallAddConstraint (str "1") (str "2") (str "CANNOT_LINK") 1; CallAddConstraint (str "1") (str "3") (str "CANNOT_LINK") 1; CallAddConstraint (str "1") (str "4") (str "CANNOT_LINK") 1; CallAddConstraint (str "1") (str "5") (str "CANNOT_LINK") 1]) (CallAddConstraint (str "1") (str "6") (str "CANNOT_LINK") 1)) = true /\
  succeeds (answer (manager [str "0"; str "1"; str "2"; str "3"; str "4"; str "5"; str "6"; str "7"; str "8"] [CallAddConstraint (str "0") (str "1") (str "CANNOT_LINK") 1; CallAddConstraint (str "0") (str "2") (str "CANNOT_LINK") 1; CallAddConstraint (str "0") (str "3") (str "CANNOT_LINK") 1; CallAddConstraint (str "0") (str "4") (str "CANNOT_LINK") 1; CallAddConstraint (str "0") (str "5") (str "CANNOT_LINK") 1; CallAddConstraint (str "0") (str "6") (str "CANNOT_LINK") 1; CallAddConstraint (str "0") (str "7") (str "CANNOT_LINK") 1; CallAddConstraint (str "0") (str "8") (str "CANNOT_LINK") 1; CallAddConstraint (str "1") (str "2") (str "CANNOT_LINK") 1; CallAddConstraint (str "1") (str "3") (str "CANNOT_LINK") 1; CallAddConstraint (str "1") (str "4") (str "CANNOT_LINK") 1; CallAddConstraint (str "1") (str "5") (str "CANNOT_LINK") 1; CallAddConstraint (str "1") (str "6") (str "CANNOT_LINK") 1]) (CallAddConstraint (str "1") (str "7") (str "CANNOT_LINK") 1)) = true /\
  succeeds (answer (manager [str "0"; str "1"; str "2"; str "3"; str "4"; str "5"; str "6"; str "7"; str "8"] [CallAddConstraint (str "0") (str "1") (str "CANNOT_LINK") 1; CallAddConstraint (str "0") (str "2") (str "CANNOT_LINK") 1; CallAddConstraint (str "0") (str "3") (str "CANNOT_LINK") 1; CallAddConstraint (str "0") (str "4") (str "CANNOT_LINK") 1; CallAddConstraint (str "0") (str "5") (str "CANNOT_LINK") 1; CallAddConstraint (str "0") (str "6") (str "CANNOT_LINK") 1; CallAddConstraint (str "0") (str "7") (str "CANNOT_LINK") 1; CallAddConstraint (str "0") (str "8") (str "CANNOT_LINK") 1; CallAddConstraint (str "1") (str "2") (str "CANNOT_LINK") 1; CallAddConstraint (str "1") (str "3") (str "CANNOT_LINK") 1; CallAddConstraint (str "1") (str "4") (str "CANNOT_LINK") 1; CallAddConstraint (str "1") (str "5") (str "CANNOT_LINK") 1; CallAddConstraint (str "1") (str "6") (str "CANNOT_LINK") 1; CallAddConstraint (str "1") (str "7") (str "CANNOT_LINK") 1]) (CallAddConstraint (str "1") (str "8") (str "CANNOT_LINK") 1)) = true /\
  succeeds (answer (manager [str "0"; str "1"; str "2"; str "3"; str "4"; str "5"; str "6"; str "7"; str "8"] [CallAddConstraint (str "0") (str "1") (str "CANNOT_LINK") 1; CallAddConstraint (str "0") (str "2") (str "CANNOT_LINK") 1; CallAddConstraint (str "0") (str "3") (str "CANNOT_LINK") 1; CallAddConstraint (str "0") (str "4") (str "CANNOT_LINK") 1; CallAddConstraint (str "0") (str "5") (str "CANNOT_LINK") 1; CallAddConstraint (str "0") (str "6") (str "CANNOT_LINK") 1; CallAddConstraint (str "0") (str "7") (str "CANNOT_LINK") 1; CallAddConstraint (str "0") (str "8") (str "CANNOT_LINK") 1; CallAddConstraint (str "1") (str "2") (str "CANNOT_LINK") 1; CallAddConstraint (str "1") (str "3") (str "CANNOT_LINK") 1; CallAddConstraint (str "1") (str "4") (str "CANNOT_LINK") 1; CallAddConstraint (str "1") (str "5") (str "CANNOT_LINK") 1; CallAddConstraint (str "1") (str "6") (str "CANNOT_LINK") 1; CallAddConstraint (str "1") (str "7") (str "CANNOT_LINK") 1; CallAddConstraint (str "1") (str "8") (str "CANNOT_LINK") 1]) (CallAddConstraint (str "2") (str "3") (str "CANNOT_LINK") 1)) = true /\
  succeeds (answer (manager [str "0"; str "1"; str "2"; str "3"; str "4"; str "5"; str "6"; str "7"; str "8"] [CallAddConstraint (str "0") (str "1") (str "CANNOT_LINK") 1; CallAddConstraint (str "0") (str "2") (str "CANNOT_LINK") 1; CallAddConstraint (str "0") (str "3") (str "CANNOT_LINK") 1; CallAddConstraint (str "0") (str "4") (str "CANNOT_LINK") 1; CallAddConstraint (str "0") (str "5") (str "CANNOT_LINK") 1; CallAddConstraint (str "0") (str "6") (str "CANNOT_LINK") 1; CallAddConstraint (str "0") (str "7") (str "CANNOT_LINK") 1; CallAddConstraint (str "0") (str "8") (str "CANNOT_LINK") 1; CallAddConstraint (str "1") (str "2") (str "CANNOT_LINK") 1; CallAddConstraint (str "1") (str "3") (str "CANNOT_LINK") 1; CallAddConstraint (str "1") (str "4") (str "CANNOT_LINK") 1; CallAddConstraint (str "1") (str "5") (str "CANNOT_LINK") 1; CallAddConstraint (str "1") (str "6") (str "CANNOT_LINK") 1; CallAddConstraint (str "1") (str "7") (str "CANNOT_LINK") 1; CallAddConstraint (str "1") (str "8") (str "CANNOT_LINK") 1; CallAddConstraint (str "2") (str "3") (str "CANNOT_LINK") 1]) (CallAddConstraint (str "2") (str "4") (str "CANNOT_LINK") 1)) = true /\
  succeeds (answer (manager [str "0"; str "1"; str "2"; str "3"; str "4"; str "5"; str "6"; str "7"; str "8"] [CallAddConstraint (str "0") (str "1") (str "CANNOT_LINK") 1; CallAddConstraint (str "0") (str "2") (str "CANNOT_LINK") 1; CallAddConstraint (str "0") (str "3") (str "CANNOT_LINK") 1; CallAddConstraint (str "0") (str "4") (str "CANNOT_LINK") 1; CallAddConstraint (str "0") (str "5") (str "CANNOT_LINK") 1; CallAddConstraint (str "0") (str "6") (str "CANNOT_LINK") 1; CallAddConstraint (str "0") (str "7") (str "CANNOT_LINK") 1; CallAddConstraint (str "0") (str "8") (str "CANNOT_LINK") 1; CallAddConstraint (str "1") (str "2") (str "CANNOT_LINK") 1; CallAddConstraint (str "1") (str "3") (str "CANNOT_LINK") 1; CallAddConstraint (str "1") (str "4") (str "CANNOT_LINK") 1; CallAddConstraint (str "1") (str "5") (str "CANNOT_LINK") 1; CallAddConstraint (str "1") (str "6") (str "CANNOT_LINK") 1; CallAddConstraint (str "1") (str "7") (str "CANNOT_LINK") 1; CallAddConstraint (str "1") (str "8") (str "CANNOT_LINK") 1; CallAddConstraint (str "2") (str "3") (str "CANNOT_LINK") 1; CallAddConstraint (str "2") (str "4") (str "CANNOT_LINK") 1]) (CallAddConstraint (str "2") (str "5") (str "CANNOT_LINK") 1)) = true /\
  succeeds (answer (manager [str "0"; str "1"; str "2"; str "3"; str "4"; str "5"; str "6"; str "7"; str "8"] [CallAddConstraint (str "0") (str "1") (str "CANNOT_LINK") 1; CallAddConstraint (str "0") (str "2") (str "CANNOT_LINK") 1; CallAddConstraint (str "0") (str "3") (str "CANNOT_LINK") 1; CallAddConstraint (str "0") (str "4") (str "CANNOT_LINK") 1; CallAddConstraint (str "0") (str "5") (str "CANNOT_LINK") 1; CallAddConstraint (str "0") (str "6") (str "CANNOT_LINK") 1; CallAddConstraint (str "0") (str "7") (str "CANNOT_LINK") 1; CallAddConstraint (str "0") (str "8") (str "CANNOT_LINK") 1; CallAddConstraint (str "1") (str "2") (str "CANNOT_LINK") 1; CallAddConstraint (str "1") (str "3") (str "CANNOT_LINK") 1; CallAddConstraint (str "1") (str "4") (str "CANNOT_LINK") 1; CallAddConstraint (str "1") (str "5") (str "CANNOT_LINK") 1; CallAddConstraint (str "1") (str "6") (str "CANNOT_LINK") 1; CallAddConstraint (str "1") (str "7") (str "CANNOT_LINK") 1; CallAddConstraint (str "1") (str "8") (str "CANNOT_LINK") 1; CallAddConstraint (str "2") (str "3") (str "CANNOT_LINK") 1; CallAddConstraint (str "2") (str "4") (str "CANNOT_LINK") 1; CallAddConstraint (str "2") (str "5") (str "CANNOT_LINK") 1]) (CallAddConstraint (str "2") (str "6") (str "CANNOT_LINK") 1)) = true /\
  succeeds (answer (manager [str "0"; str "1"; str "2"; str "3"; str "4"; str "5"; str "6"; str "7"; str "8"] [CallAddConstraint (str "0") (str "1") (str "CANNOT_LINK") 1; CallAddConstraint (str "0") (str "2") (str "CANNOT_LINK") 1; CallAddConstraint (str "0") (str "3") (str "CANNOT_LINK") 1; CallAddConstraint (str "0") (str "4") (str "CANNOT_LINK") 1; CallAddConstraint (str "0") (str "5") (str "CANNOT_LINK") 1; CallAddConstraint (str "0") (str "6") (str "CANNOT_LINK") 1; CallAddConstraint (str "0") (str "7") (str "CANNOT_LINK") 1; CallAddConstraint (str "0") (str "8") (str "CANNOT_LINK") 1; CallAddConstraint (str "1") (str "2") (str "CANNOT_LINK") 1; CallAddConstraint (str "1") (str "3") (str "CANNOT_LINK") 1; CallAddConstraint (str "1") (str "4") (str "CANNOT_LINK") 1; CallAddConstraint (str "1") (str "5") (str "CANNOT_LINK") 1; CallAddConstraint (str "1") (str "6") (str "CANNOT_LINK") 1; CallAddConstraint (str "1") (str "7") (str "CANNOT_LINK") 1; CallAddConstraint (str "1") (str "8") (str "CANNOT_LINK") 1; CallAddConstraint (str "2") (str "3") (str "CANNOT_LINK") 1; CallAddConstraint (str "2") (str "4") (str "CANNOT_LINK") 1; CallAddConstraint (str "2") (str "5") (str "CANNOT_LINK") 1; CallAddConstraint (str "2") (str "6") (str "CANNOT_LINK") 1]) (CallAddConstraint (str "2") (str "7") (str "CANNOT_LINK") 1)) = true /\
  succeeds (answer (manager [str "0"; str "1"; str "2"; str "3"; str "4"; str "5"; str "6"; str "7"; str "8"] [CallAddConstraint (str "0") (str "1") (str "CANNOT_LINK") 1; CallAddConstraint (str "0") (str "2") (str "CANNOT_LINK") 1; CallAddConstraint (str "0") (str "3") (str "CANNOT_LINK") 1; CallAddConstraint (str "0") (str "4") (str "CANNOT_LINK") 1; CallAddConstraint (str "0") (str "5") (str "CANNOT_LINK") 1; CallAddConstraint (str "0") (str "6") (str "CANNOT_LINK") 1; CallAddConstraint (str "0") (str "7") (str "CANNOT_LINK") 1; CallAddConstraint (str "0") (str "8") (str "CANNOT_LINK") 1; CallAddConstraint (str "1") (str "2") (str "CANNOT_LINK") 1; CallAddConstraint (str "1") (str "3") (str "CANNOT_LINK") 1; CallAddConstraint (str "1") (str "4") (str "CANNOT_LINK") 1; CallAddConstraint (str "1") (str "5") (str "CANNOT_LINK") 1; CallAddConstraint (str "1") (str "6") (str "CANNOT_LINK") 1; CallAddConstraint (str "1") (str "7") (str "CANNOT_LINK") 1; CallAddConstraint (str "1") (str "8") (str "CANNOT_LINK") 1; CallAddConstraint (str "2") (str "3") (str "CANNOT_LINK") 1; CallAddConstraint (str "2") (str "4") (str "CANNOT_LINK") 1; CallAddConstraint (str "2") (str "5") (str "CANNOT_LINK") 1; CallAddConstraint (str "2") (str "6") (str "CANNOT_LINK") 1; CallAddConstraint (str "2") (str "7") (str "CANNOT_LINK") 1]) (CallAddConstraint (str "2") (str "8") (str "CANNOT_LINK") 1)) = true /\
  succeeds (answer (manager [str "0"; str "1"; str "2"; str "3"; str "4"; str "5"; str "6"; str "7"; str "8"] [CallAddConstraint (str "0") (str "1") (str "CANNOT_LINK") 1; CallAddConstraint (str "0") (str "2") (str "CANNOT_LINK") 1; CallAddConstraint (str "0") (str "3") (str "CANNOT_LINK") 1; CallAddConstraint (str "0") (str "4") (str "CANNOT_LINK") 1; CallAddConstraint (str "0") (str "5") (str "CANNOT_LINK") 1; CallAddConstraint (str "0") (str "6") (str "CANNOT_LINK") 1; CallAddConstraint (str "0") (str "7") (str "CANNOT_LINK") 1; CallAddConstraint (str "0") (str "8") (str "CANNOT_LINK") 1; CallAddConstraint (str "1") (str "2") (str "CANNOT_LINK") 1; CallAddConstraint (str "1") (str "3") (str "CANNOT_LINK") 1; CallAddConstraint (str "1") (str "4") (str "CANNOT_LINK") 1; CallAddConstraint (str "1") (str "5") (str "CANNOT_LINK") 1; CallAddConstraint (str "1") (str "6") (str "CANNOT_LINK") 1; CallAddConstraint (str "1") (str "7") (str "CANNOT_LINK") 1; CallAddConstraint (str "1") (str "8") (str "CANNOT_LINK") 1; CallAddConstraint (str "2") (str "3") (str "CANNOT_LINK") 1; CallAddConstraint (str "2") (str "4") (str "CANNOT_LINK") 1; CallAddConstraint (str "2") (str "5") (str "CANNOT_LINK") 1; CallAddConstraint (str "2") (str "6") (str "CANNOT_LINK") 1; CallAddConstraint (str "2") (str "7") (str "CANNOT_LINK") 1; CallAddConstraint (str "2") (str "8") (str "CANNOT_LINK") 1]) (CallAddConstraint (str "3") (str "4") (str "CANNOT_LINK") 1)) = true /\
  succeeds (answer (manager [str "0"; str "1"; str "2"; str "3"; str "4"; str "5"; str "6"; str "7"; str "8"] [CallAddConstraint (str "0") (str "1") (str "CANNOT_LINK") 1; CallAddConstraint (str "0") (str "2") (str "CANNOT_LINK") 1; CallAddConstraint (str "0") (str "3") (str "CANNOT_LINK") 1; CallAddConstraint (str "0") (str "4") (str "CANNOT_LINK") 1; CallAddConstraint (str "0") (str "5") (str "CANNOT_LINK") 1; CallAddConstraint (str "0") (str "6") (str "CANNOT_LINK") 1; CallAddConstraint (str "0") (str "7") (str "CANNOT_LINK") 1; CallAddConstraint (str "0") (str "8") (str "CANNOT_LINK") 1; CallAddConstraint (str "1") (str "2") (str "CANNOT_LINK") 1; CallAddConstraint (str "1") (str "3") (str "CANNOT_LINK") 1; CallAddConstraint (str "1") (str "4") (str "CANNOT_LINK") 1; CallAddConstraint (str "1") (str "5") (str "CANNOT_LINK") 1; CallAddConstraint (str "1") (str "6") (str "CANNOT_LINK") 1; CallAddConstraint (str "1") (str "7") (str "CANNOT_LINK") 1; CallAddConstraint (str "1") (str "8") (str "CANNOT_LINK") 1; CallAddConstraint (str "2") (str "3") (str "CANNOT_LINK") 1; CallAddConstraint (str "2") (str "4") (str "CANNOT_LINK") 1; CallAddConstraint (str "2") (str "5") (str "CANNOT_LINK") 1; CallAddConstraint (str "2") (str "6") (str "CANNOT_LINK") 1; CallAddConstraint (str "2") (str "7") (str "CANNOT_LINK") 1; CallAddConstraint (str "2") (str "8") (str "CANNOT_LINK") 1; CallAddConstraint (str "3") (str "4") (str "CANNOT_LINK") 1]) (CallAddConstraint (str "3") (str "5") (str "CANNOT_LINK") 1)) = true /\
  succeeds (answer (manager [str "0"; str "1"; str "2"; str "3"; str "4"; str "5"; str "6"; str "7"; str "8"] [CallAddConstraint (str "0") (str "1") (str "CANNOT_LINK") 1; CallAddConstraint (str "0") (str "2") (str "CANNOT_LINK") 1; CallAddConstraint (str "0") (str "3") (str "CANNOT_LINK") 1; CallAddConstraint (str "0") (str "4") (str "CANNOT_LINK") 1; CallAddConstraint (str "0") (str "5") (str "CANNOT_LINK") 1; CallAddConstraint (str "0") (str "6") (str "CANNOT_LINK") 1; CallAddConstraint (str "0") (str "7") (str "CANNOT_LINK") 1; CallAddConstraint (str "0") (str "8") (str "CANNOT_LINK") 1; CallAddConstraint (str "1") (str "2") (str "CANNOT_LINK") 1; CallAddConstraint (str "1") (str "3") (str "CANNOT_LINK") 1; CallAddConstraint (str "1") (str "4") (str "CANNOT_LINK") 1; CallAddConstraint (str "1") (str "5") (str "CANNOT_LINK") 1; CallAddConstraint (str "1") (str "6") (str "CANNOT_LINK") 1; CallAddConstraint (str "1") (str "7") (str "CANNOT_LINK") 1; CallAddConstraint (str "1") (str "8") (str "CANNOT_LINK") 1; CallAddConstraint (str "2") (str "3") (str "CANNOT_LINK") 1; CallAddConstraint (str "2") (str "4") (str "CANNOT_LINK") 1; CallAddConstraint (str "2") (str "5") (str "CANNOT_LINK") 1; CallAddConstraint (str "2") (str "6") (str "CANNOT_LINK") 1; CallAddConstraint (str "2") (str "7") (str "CANNOT_LINK") 1; CallAddConstraint (str "2") (str "8") (str "CANNOT_LINK") 1; CallAddConstraint (str "3") (str "4") (str "CANNOT_LINK") 1; CallAddConstraint (str "3") (str "5") (str "CANNOT_LINK") 1]) (CallAddConstraint (str "3") (str "6") (str "CANNOT_LINK") 1)) = true /\
  succeeds (answer (manager [str "0"; str "1"; str "2"; str "3"; str "4"; str "5"; str "6"; str "7"; str "8"] [CallAddConstraint (str "0") (str "1") (str "CANNOT_LINK") 1; CallAddConstraint (str "0") (str "2") (str "CANNOT_LINK") 1; CallAddConstraint (str "0") (str "3") (str "CANNOT_LINK") 1; CallAddConstraint (str "0") (str "4") (str "CANNOT_LINK") 1; CallAddConstraint (str "0") (str "5") (str "CANNOT_LINK") 1; CallAddConstraint (str "0") (str "6") (str "CANNOT_LINK") 1; CallAddConstraint (str "0") (str "7") (str "CANNOT_LINK") 1; CallAddConstraint (str "0") (str "8") (str "CANNOT_LINK") 1; CallAddConstraint (str "1") (str "2") (str "CANNOT_LINK") 1; CallAddConstraint (str "1") (str "3") (str "CANNOT_LINK") 1; CallAddConstraint (str "1") (str "4") (str "CANNOT_LINK") 1; CallAddConstraint (str "1") (str "5") (str "CANNOT_LINK") 1; CallAddConstraint (str "1") (str "6") (str "CANNOT_LINK") 1; CallAddConstraint (str "1") (str "7") (str "CANNOT_LINK") 1; CallAddConstraint (str "1") (str "8") (str "CANNOT_LINK") 1; CallAddConstraint (str "2") (str "3") (str "CANNOT_LINK") 1; CallAddConstraint (str "2") (str "4") (str "CANNOT_LINK") 1; CallAddConstraint (str "2") (str "5") (str "CANNOT_LINK") 1; CallAddConstraint (str "2") (str "6") (str "CANNOT_LINK") 1; CallAddConstraint (str "2") (str "7") (str "CANNOT_LINK") 1; CallAddConstraint (str "2") (str "8") (str "CANNOT_LINK") 1; CallAddConstraint (str "3") (str "4") (str "CANNOT_LINK") 1; CallAddConstraint (str "3") (str "5") (str "CANNOT_LINK") 1; CallAddConstraint (str "3") (str "6") (str "CANNOT_LINK") 1]) (CallAddConstraint (str "3") (str "7") (str "CANNOT_LINK") 1)) = true /\
  succeeds (answer (manager [str "0"; str "1"; str "2"; str "3"; str "4"; str "5"; str "6"; str "7"; str "8"] [CallAddConstraint (str "0") (str "1") (str "CANNOT_LINK") 1; CallAddConstraint (str "0") (str "2") (str "CANNOT_LINK") 1; CallAddConstraint (str "0") (str "3") (str "CANNOT_LINK") 1; CallAddConstraint (str "0") (str "4") (str "CANNOT_LINK") 1; CallAddConstraint (str "0") (str "5") (str "CANNOT_LINK") 1; CallAddConstraint (str "0") (str "6") (str "CANNOT_LINK") 1; CallAddConstraint (str "0") (str "7") (str "CANNOT_LINK") 1; CallAddConstraint (str "0") (str "8") (str "CANNOT_LINK") 1; CallAddConstraint (str "1") (str "2") (str "CANNOT_LINK") 1; CallAddConstraint (str "1") (str "3") (str "CANNOT_LINK") 1; CallAddConstraint (str "1") (str "4") (str "CANNOT_LINK") 1; CallAddConstraint (str "1") (str "5") (str "CANNOT_LINK") 1; CallAddConstraint (str "1") (str "6") (str "CANNOT_LINK") 1; CallAddConstraint (str "1") (str "7") (str "CANNOT_LINK") 1; CallAddConstraint (str "1") (str "8") (str "CANNOT_LINK") 1; CallAddConstraint (str "2") (str "3") (str "CANNOT_LINK") 1; CallAddConstraint (str "2") (str "4") (str "CANNOT_LINK") 1; CallAddConstraint (str "2") (str "5") (str "CANNOT_LINK") 1; CallAddConstraint (str "2") (str "6") (str "CANNOT_LINK") 1; CallAddConstraint (str "2") (str "7") (str "CANNOT_LINK") 1; CallAddConstraint (str "2") (str "8") (str "CANNOT_LINK") 1; CallAddConstraint (str "3") (str "4") (str "CANNOT_LINK") 1; CallAddConstraint (str "3") (str "5") (str "CANNOT_LINK") 1; CallAddConstraint (str "3") (str "6") (str "CANNOT_LINK") 1; CallAddConstraint (str "3") (str "7") (str "CANNOT_LINK") 1]) (CallAddConstraint (str "3") (str "8") (str "CANNOT_LINK") 1)) = true /\
  succeeds (answer (manager [str "0"; str "1"; str "2"; str "3"; str "4"; str "5"; str "6"; str "7"; str "8"] [CallAddConstraint (str "0") (str "1") (str "CANNOT_LINK") 1; CallAddConstraint (str "0") (str "2") (str "CANNOT_LINK") 1; CallAddConstraint (str "0") (str "3") (str "CANNOT_LINK") 1; CallAddConstraint (str "0") (str "4") (str "CANNOT_LINK") 1; CallAddConstraint (str "0") (str "5") (str "CANNOT_LINK") 1; CallAddConstraint (str "0") (str "6") (str "CANNOT_LINK") 1; CallAddConstraint (str "0") (str "7") (str "CANNOT_LINK") 1; CallAddConstraint (str "0") (str "8") (str "CANNOT_LINK") 1; CallAddConstraint (str "1") (str "2") (str "CANNOT_LINK") 1; CallAddConstraint (str "1") (str "3") (str "CANNOT_LINK") 1; CallAddConstraint (str "1") (str "4") (str "CANNOT_LINK") 1; CallAddConstraint (str "1") (str "5") (str "CANNOT_LINK") 1; CallAddConstraint (str "1") (str "6") (str "CANNOT_LINK") 1; CallAddConstraint (str "1") (str "7") (str "CANNOT_LINK") 1; CallAddConstraint (str "1") (str "8") (str "CANNOT_LINK") 1; CallAddConstraint (str "2") (str "3") (str "CANNOT_LINK") 1; CallAddConstraint (str "2") (str "4") (str "CANNOT_LINK") 1; CallAddConstraint (str "2") (str "5") (str "CANNOT_LINK") 1; CallAddConstraint (str "2") (str "6") (str "CANNOT_LINK") 1; CallAddConstraint (str "2") (str "7") (str "CANNOT_LINK") 1; CallAddConstraint (str "2") (str "8") (str "CANNOT_LINK") 1; CallAddConstraint (str "3") (str "4") (str "CANNOT_LINK") 1; CallAddConstraint (str "3") (str "5") (str "CANNOT_LINK") 1; CallAddConstraint (str "3") (str "6") (str "CANNOT_LINK") 1; CallAddConstraint (str "3") (str "7") (str "CANNOT_LINK") 1; CallAddConstraint (str "3") (str "8") (str "CANNOT_LINK") 1]) (CallAddConstraint (str "4") (str "5") (str "CANNOT_LINK") 1)) = true /\
  succeeds (answer (manager [str "0"; str "1"; str "2"; str "3"; str "4"; str "5"; str "6"; str "7"; str "8"] [CallAddConstraint (str "0") (str "1") (str "CANNOT_LINK") 1; CallAddConstraint (str "0") (str "2") (str "CANNOT_LINK") 1; CallAddConstraint (str "0") (str "3") (str "CANNOT_LINK") 1; CallAddConstraint (str "0") (str "4") (str "CANNOT_LINK") 1; CallAddConstraint (str "0") (str "5") (str "CANNOT_LINK") 1; CallAddConstraint (str "0") (str "6") (str "CANNOT_LINK") 1; CallAddConstraint (str "0") (str "7") (str "CANNOT_LINK") 1; CallAddConstraint (str "0") (str "8") (str "CANNOT_LINK") 1; CallAddConstraint (str "1") (str "2") (str "CANNOT_LINK") 1; CallAddConstraint (str "1") (str "3") (str "CANNOT_LINK") 1; CallAddConstraint (str "1") (str "4") (str "CANNOT_LINK") 1; CallAddConstraint (str "1") (str "5") (str "CANNOT_LINK") 1; CallAddConstraint (str "1") (str "6") (str "CANNOT_LINK") 1; CallAddConstraint (str "1") (str "7") (str "CANNOT_LINK") 1; CallAddConstraint (str "1") (str "8") (str "CANNOT_LINK") 1; CallAddConstraint (str "2") (str "3") (str "CANNOT_LINK") 1; CallAddConstraint (str "2") (str "4") (str "CANNOT_LINK") 1; CallAddConstraint (str "2") (str "5") (str "CANNOT_LINK") 1; CallAddConstraint (str "2") (str "6") (str "CANNOT_LINK") 1; CallAddConstraint (str "2") (str "7") (str "CANNOT_LINK") 1; CallAddConstraint (str "2") (str "8") (str "CANNOT_LINK") 1; CallAddConstraint (str "3") (str "4") (str "CANNOT_LINK") 1; CallAddConstraint (str "3") (str "5") (str "CANNOT_LINK") 1; CallAddConstraint (str "3") (str "6") (str "CANNOT_LINK") 1; CallAddConstraint (str "3") (str "7") (str "CANNOT_LINK") 1; CallAddConstraint (str "3") (str "8") (str "CANNOT_LINK") 1; CallAddConstraint (str "4") (str "5") (str "CANNOT_LINK") 1]) (CallAddConstraint (str "4") (str "6") (str "CANNOT_LINK") 1)) = true /\
  succeeds (answer (manager [str "0"; str "1"; str "2"; str "3"; str "4"; str "5"; str "6"; str "7"; str "8"] [CallAddConstraint (str "0") (str "1") (str "CANNOT_LINK") 1; CallAddConstraint (str "0") (str "2") (str "CANNOT_LINK") 1; CallAddConstraint (str "0") (str "3") (str "CANNOT_LINK") 1; CallAddConstraint (str "0") (str "4") (str "CANNOT_LINK") 1; CallAddConstraint (str "0") (str "5") (str "CANNOT_LINK") 1; CallAddConstraint (str "0") (str "6") (str "CANNOT_LINK") 1; CallAddConstraint (str "0") (str "7") (str "CANNOT_LINK") 1; CallAddConstraint (str "0") (str "8") (str "CANNOT_LINK") 1; CallAddConstraint (str "1") (str "2") (str "CANNOT_LINK") 1; CallAddConstraint (str "1") (str "3") (str "CANNOT_LINK") 1; CallAddConstraint (str "1") (str "4") (str "CANNOT_LINK") 1; CallAddConstraint (str "1") (str "5") (str "CANNOT_LINK") 1; CallAddConstraint (str "1") (str "6") (str "CANNOT_LINK") 1; CallAddConstraint (str "1") (str "7") (str "CANNOT_LINK") 1; CallAddConstraint (str "1") (str "8") (str "CANNOT_LINK") 1; CallAddConstraint (str "2") (str "3") (str "CANNOT_LINK") 1; CallAddConstraint (str "2") (str "4") (str "CANNOT_LINK") 1; CallAddConstraint (str "2") (str "5") (str "CANNOT_LINK") 1; CallAddConstraint (str "2") (str "6") (str "CANNOT_LINK") 1; CallAddConstraint (str "2") (str "7") (str "CANNOT_LINK") 1; CallAddConstraint (str "2") (str "8") (str "CANNOT_LINK") 1; CallAddConstraint (str "3") (str "4") (str "CANNOT_LINK") 1; CallAddConstraint (str "3") (str "5") (str "CANNOT_LINK") 1; CallAddConstraint (str "3") (str "6") (str "CANNOT_LINK") 1; CallAddConstraint (str "3") (str "7") (str "CANNOT_LINK") 1; CallAddConstraint (str "3") (str "8") (str "CANNOT_LINK") 1; CallAddConstraint (str "4") (str "5") (str "CANNOT_LINK") 1; CallAddConstraint (str "4") (str "6") (str "CANNOT_LINK") 1]) (CallAddConstraint (str "4") (str "7") (str "CANNOT_LINK") 1)) = true /\
  succeeds (answer (manager [str "0"; str "1"; str "2"; str "3"; str "4"; str "5"; str "6"; str "7"; str "8"] [CallAddConstraint (str "0") (str "1") (str "CANNOT_LINK") 1; CallAddConstraint (str "0") (str "2") (str "CANNOT_LINK") 1; CallAddConstraint (str "0") (str "3") (str "CANNOT_LINK") 1; CallAddConstraint (str "0") (str "4") (str "CANNOT_LINK") 1; CallAddConstraint (str "0") (str "5") (str "CANNOT_LINK") 1; CallAddConstraint (str "0") (str "6") (str "CANNOT_LINK") 1; CallAddConstraint (str "0") (str "7") (str "CANNOT_LINK") 1; CallAddConstraint (str "0") (str "8") (str "CANNOT_LINK") 1; CallAddConstraint (str "1") (str "2") (str "CANNOT_LINK") 1; CallAddConstraint (str "1") (str "3") (str "CANNOT_LINK") 1; CallAddConstraint (str "1") (str "4") (str "CANNOT_LINK") 1; CallAddConstraint (str "1") (str "5") (str "CANNOT_LINK") 1; CallAddConstraint (str "1") (str "6") (str "CANNOT_LINK") 1; CallAddConstraint (str "1") (str "7") (str "CANNOT_LINK") 1; CallAddConstraint (str "1") (str "8") (str "CANNOT_LINK") 1; CallAddConstraint (str "2") (str "3") (str "CANNOT_LINK") 1; CallAddConstraint (str "2") (str "4") (str "CANNOT_LINK") 1; CallAddConstraint (str "2") (str "5") (str "CANNOT_LINK") 1; CallAddConstraint (str "2") (str "6") (str "CANNOT_LINK") 1; CallAddConstraint (str "2") (str "7") (str "CANNOT_LINK") 1; CallAddConstraint (str "2") (str "8") (str "CANNOT_LINK") 1; CallAddConstraint (str "3") (str "4") (str "CANNOT_LINK") 1; CallAddConstraint (str "3") (str "5") (str "CANNOT_LINK") 1; CallAddConstraint (str "3") (str "6") (str "CANNOT_LINK") 1; CallAddConstraint (str "3") (str "7") (str "CANNOT_LINK") 1; CallAddConstraint (str "3") (str "8") (str "CANNOT_LINK") 1; CallAddConstraint (str "4") (str "5") (str "CANNOT_LINK") 1; CallAddConstraint (str "4") (str "6") (str "CANNOT_LINK") 1; CallAddConstraint (str "4") (str "7") (str "CANNOT_LINK") 1]) (CallAddConstraint (str "4") (str "8") (str "CANNOT_LINK") 1)) = true /\
  succeeds (answer (manager [str "0"; str "1"; str "2"; str "3"; str "4"; str "5"; str "6"; str "7"; str "8"] [CallAddConstraint (str "0") (str "1") (str "CANNOT_LINK") 1; CallAddConstraint (str "0") (str "2") (str "CANNOT_LINK") 1; CallAddConstraint (str "0") (str "3") (str "CANNOT_LINK") 1; CallAddConstraint (str "0") (str "4") (str "CANNOT_LINK") 1; CallAddConstraint (str "0") (str "5") (str "CANNOT_LINK") 1; CallAddConstraint (str "0") (str "6") (str "CANNOT_LINK") 1; CallAddConstraint (str "0") (str "7") (str "CANNOT_LINK") 1; CallAddConstraint (str "0") (str "8") (str "CANNOT_LINK") 1; CallAddConstraint (str "1") (str "2") (str "CANNOT_LINK") 1; CallAddConstraint (str "1") (str "3") (str "CANNOT_LINK") 1; CallAddConstraint (str "1") (str "4") (str "CANNOT_LINK") 1; CallAddConstraint (str "1") (str "5") (str "CANNOT_LINK") 1; CallAddConstraint (str "1") (str "6") (str "CANNOT_LINK") 1; CallAddConstraint (str "1") (str "7") (str "CANNOT_LINK") 1; CallAddConstraint (str "1") (str "8") (str "CANNOT_LINK") 1; CallAddConstraint (str "2") (str "3") (str "CANNOT_LINK") 1; CallAddConstraint (str "2") (str "4") (str "CANNOT_LINK") 1; CallAddConstraint (str "2") (str "5") (str "CANNOT_LINK") 1; CallAddConstraint (str "2") (str "6") (str "CANNOT_LINK") 1; CallAddConstraint (str "2") (str "7") (str "CANNOT_LINK") 1; CallAddConstraint (str "2") (str "8") (str "CANNOT_LINK") 1; CallAddConstraint (str "3") (str "4") (str "CANNOT_LINK") 1; CallAddConstraint (str "3") (str "5") (str "CANNOT_LINK") 1; CallAddConstraint (str "3") (str "6") (str "CANNOT_LINK") 1; CallAddConstraint (str "3") (str "7") (str "CANNOT_LINK") 1; CallAddConstraint (str "3") (str "8") (str "CANNOT_LINK") 1; CallAddConstraint (str "4") (str "5") (str "CANNOT_LINK") 1; CallAddConstraint (str "4") (str "6") (str "CANNOT_LINK") 1; CallAddConstraint (str "4") (str "7") (str "CANNOT_LINK") 1; CallAddConstraint (str "4") (str "8") (str "CANNOT_LINK") 1]) (CallAddConstraint (str "5") (str "6") (str "CANNOT_LINK") 1)) = true /\
  succeeds (answer (manager [str "0"; str "1"; str "2"; str "3"; str "4"; str "5"; str "6"; str "7"; str "8"] [CallAddConstraint (str "0") (str "1") (str "CANNOT_LINK") 1; CallAddConstraint (str "0") (str "2") (str "CANNOT_LINK") 1; CallAddConstraint (str "0") (str "3") (str "CANNOT_LINK") 1; CallAddConstraint (str "0") (str "4") (str "CANNOT_LINK") 1; CallAddConstraint (str "0") (str "5") (str "CANNOT_LINK") 1; CallAddConstraint (str "0") (str "6") (str "CANNOT_LINK") 1; CallAddConstraint (str "0") (str "7") (str "CANNOT_LINK") 1; CallAddConstraint (str "0") (str "8") (str "CANNOT_LINK") 1; CallAddConstraint (str "1") (str "2") (str "CANNOT_LINK") 1; CallAddConstraint (str "1") (str "3") (str "CANNOT_LINK") 1; CallAddConstraint (str "1") (str "4") (str "CANNOT_LINK") 1; CallAddConstraint (str "1") (str "5") (str "CANNOT_LINK") 1; CallAddConstraint (str "1") (str "6") (str "CANNOT_LINK") 1; CallAddConstraint (str "1") (str "7") (str "CANNOT_LINK") 1; CallAddConstraint (str "1") (str "8") (str "CANNOT_LINK") 1; CallAddConstraint (str "2") (str "3") (str "CANNOT_LINK") 1; CallAddConstraint (str "2") (str "4") (str "CANNOT_LINK") 1; CallAddConstraint (str "2") (str "5") (str "CANNOT_LINK") 1; CallAddConstraint (str "2") (str "6") (str "CANNOT_LINK") 1; CallAddConstraint (str "2") (str "7") (str "CANNOT_LINK") 1; CallAddConstraint (str "2") (str "8") (str "CANNOT_LINK") 1; CallAddConstraint (str "3") (str "4") (str "CANNOT_LINK") 1; CallAddConstraint (str "3") (str "5") (str "CANNOT_LINK") 1; CallAddConstraint (str "3") (str "6") (str "CANNOT_LINK") 1; CallAddConstraint (str "3") (str "7") (str "CANNOT_LINK") 1; CallAddConstraint (str "3") (str "8") (str "CANNOT_LINK") 1; CallAddConstraint (str "4") (str "5") (str "CANNOT_LINK") 1; CallAddConstraint (str "4") (str "6") (str "CANNOT_LINK") 1; CallAddConstraint (str "4") (str "7") (str "CANNOT_LINK") 1; CallAddConstraint (str "4") (str "8") (str "CANNOT_LINK") 1; CallAddConstraint (str "5") (str "6") (str "CANNOT_LINK") 1]) (CallAddConstraint (str "5") (str "7") (str "CANNOT_LINK") 1)) = true /\
  succeeds (answer (manager [str "0"; str "1"; str "2"; str "3"; str "4"; str "5"; str "6"; str "7"; str "8"] [CallAddConstraint (str "0") (str "1") (str "CANNOT_LINK") 1; CallAddConstraint (str "0") (str "2") (str "CANNOT_LINK") 1; CallAddConstraint (str "0") (str "3") (str "CANNOT_LINK") 1; CallAddConstraint (str "0") (str "4") (str "CANNOT_LINK") 1; CallAddConstraint (str "0") (str "5") (str "CANNOT_LINK") 1; CallAddConstraint (str "0") (str "6") (str "CANNOT_LINK") 1; CallAddConstraint (str "0") (str "7") (str "CANNOT_LINK") 1; CallAddConstraint (str "0") (str "8") (str "CANNOT_LINK") 1; CallAddConstraint (str "1") (str "2") (str "CANNOT_LINK") 1; CallAddConstraint (str "1") (str "3") (str "CANNOT_LINK") 1; CallAddConstraint (str "1") (str "4") (str "CANNOT_LINK") 1; CallAddConstraint (str "1") (str "5") (str "CANNOT_LINK") 1; CallAddConstraint (str "1") (str "6") (str "CANNOT_LINK") 1; CallAddConstraint (str "1") (str "7") (str "CANNOT_LINK") 1; CallAddConstraint (str "1") (str "8") (str "CANNOT_LINK") 1; CallAddConstraint (str "2") (str "3") (str "CANNOT_LINK") 1; CallAddConstraint (str "2") (str "4") (str "CANNOT_LINK") 1; CallAddConstraint (str "2") (str "5") (str "CANNOT_LINK") 1; CallAddConstraint (str "2") (str "6") (str "CANNOT_LINK") 1; CallAddConstraint (str "2") (str "7") (str "CANNOT_LINK") 1; CallAddConstraint (str "2") (str "8") (str "CANNOT_LINK") 1; CallAddConstraint (str "3") (str "4") (str "CANNOT_LINK") 1; CallAddConstraint (str "3") (str "5") (str "CANNOT_LINK") 1; CallAddConstraint (str "3") (str "6") (str "CANNOT_LINK") 1; CallAddConstraint (str "3") (str "7") (str "CANNOT_LINK") 1; CallAddConstraint (str "3") (str "8") (str "CANNOT_LINK") 1; CallAddConstraint (str "4") (str "5") (str "CANNOT_LINK") 1; CallAddConstraint (str "4") (str "6") (str "CANNOT_LINK") 1; CallAddConstraint (str "4") (str "7") (str "CANNOT_LINK") 1; CallAddConstraint (str "4") (str "8") (str "CANNOT_LINK") 1; CallAddConstraint (str "5") (str "6") (str "CANNOT_LINK") 1; CallAddConstraint (str "5") (str "7") (str "CANNOT_LINK") 1]) (CallAddConstraint (str "5") (str "8") (str "CANNOT_LINK") 1)) = true /\
  succeeds (answer (manager [str "0"; str "1"; str "2"; str "3"; str "4"; str "5"; str "6"; str "7"; str "8"] [CallAddConstraint (str "0") (str "1") (str "CANNOT_LINK") 1; CallAddConstraint (str "0") (str "2") (str "CANNOT_LINK") 1; CallAddConstraint (str "0") (str "3") (str "CANNOT_LINK") 1; CallAddConstraint (str "0") (str "4") (str "CANNOT_LINK") 1; CallAddConstraint (str "0") (str "5") (str "CANNOT_LINK") 1; CallAddConstraint (str "0") (str "6") (str "CANNOT_LINK") 1; CallAddConstraint (str "0") (str "7") (str "CANNOT_LINK") 1; CallAddConstraint (str "0") (str "8") (str "CANNOT_LINK") 1; CallAddConstraint (str "1") (str "2") (str "CANNOT_LINK") 1; CallAddConstraint (str "1") (str "3") (str "CANNOT_LINK") 1; CallAddConstraint (str "1") (str "4") (str "CANNOT_LINK") 1; CallAddConstraint (str "1") (str "5") (str "CANNOT_LINK") 1; CallAddConstraint (str "1") (str "6") (str "CANNOT_LINK") 1; CallAddConstraint (str "1") (str "7") (str "CANNOT_LINK") 1; CallAddConstraint (str "1") (str "8") (str "CANNOT_LINK") 1; CallAddConstraint (str "2") (str "3") (str "CANNOT_LINK") 1; CallAddConstraint (str "2") (str "4") (str "CANNOT_LINK") 1; CallAddConstraint (str "2") (str "5") (str "CANNOT_LINK") 1; CallAddConstraint (str "2") (str "6") (str "CANNOT_LINK") 1; CallAddConstraint (str "2") (str "7") (str "CANNOT_LINK") 1; CallAddConstraint (str "2") (str "8") (str "CANNOT_LINK") 1; CallAddConstraint (str "3") (str "4") (str "CANNOT_LINK") 1; CallAddConstraint (str "3") (str "5") (str "CANNOT_LINK") 1; CallAddConstraint (str "3") (str "6") (str "CANNOT_LINK") 1; CallAddConstraint (str "3") (str "7") (str "CANNOT_LINK") 1; CallAddConstraint (str "3") (str "8") (str "CANNOT_LINK") 1; CallAddConstraint (str "4") (str "5") (str "CANNOT_LINK") 1; CallAddConstraint (str "4") (str "6") (str "CANNOT_LINK") 1; CallAddConstraint (str "4") (str "7") (str "CANNOT_LINK") 1; CallAddConstraint (str "4") (str "8") (str "CANNOT_LINK") 1; CallAddConstraint (str "5") (str "6") (str "CANNOT_LINK") 1; CallAddConstraint (str "5") (str "7") (str "CANNOT_LINK") 1; CallAddConstraint (str "5") (str "8") (str "CANNOT_LINK") 1]) (CallAddConstraint (str "6") (str "7") (str "CANNOT_LINK") 1)) = true /\
  succeeds (answer (manager [str "0"; str "1"; str "2"; str "3"; str "4"; str "5"; str "6"; str "7"; str "8"] [CallAddConstraint (str "0") (str "1") (str "CANNOT_LINK") 1; CallAddConstraint (str "0") (str "2") (str "CANNOT_LINK") 1; CallAddConstraint (str "0") (str "3") (str "CANNOT_LINK") 1; CallAddConstraint (str "0") (str "4") (str "CANNOT_LINK") 1; CallAddConstraint (str "0") (str "5") (str "CANNOT_LINK") 1; CallAddConstraint (str "0") (str "6") (str "CANNOT_LINK") 1; CallAddConstraint (str "0") (str "7") (str "CANNOT_LINK") 1; CallAddConstraint (str "0") (str "8") (str "CANNOT_LINK") 1; CallAddConstraint (str "1") (str "2") (str "CANNOT_LINK") 1; CallAddConstraint (str "1") (str "3") (str "CANNOT_LINK") 1; CallAddConstraint (str "1") (str "4") (str "CANNOT_LINK") 1; CallAddConstraint (str "1") (str "5") (str "CANNOT_LINK") 1; CallAddConstraint (str "1") (str "6") (str "CANNOT_LINK") 1; CallAddConstraint (str "1") (str "7") (str "CANNOT_LINK") 1; CallAddConstraint (str "1") (str "8") (str "CANNOT_LINK") 1; CallAddConstraint (str "2") (str "3") (str "CANNOT_LINK") 1; CallAddConstraint (str "2") (str "4") (str "CANNOT_LINK") 1; CallAddConstraint (str "2") (str "5") (str "CANNOT_LINK") 1; CallAddConstraint (str "2") (str "6") (str "CANNOT_LINK") 1; CallAddConstraint (str "2") (str "7") (str "CANNOT_LINK") 1; CallAddConstraint (str "2") (str "8") (str "CANNOT_LINK") 1; CallAddConstraint (str "3") (str "4") (str "CANNOT_LINK") 1; CallAddConstraint (str "3") (str "5") (str "CANNOT_LINK") 1; CallAddConstraint (str "3") (str "6") (str "CANNOT_LINK") 1; CallAddConstraint (str "3") (str "7") (str "CANNOT_LINK") 1; CallAddConstraint (str "3") (str "8") (str "CANNOT_LINK") 1; CallAddConstraint (str "4") (str "5") (str "CANNOT_LINK") 1; CallAddConstraint (str "4") (str "6") (str "CANNOT_LINK") 1; CallAddConstraint (str "4") (str "7") (str "CANNOT_LINK") 1; CallAddConstraint (str "4") (str "8") (str "CANNOT_LINK") 1; CallAddConstraint (str "5") (str "6") (str "CANNOT_LINK") 1; CallAddConstraint (str "5") (str "7") (str "CANNOT_LINK") 1; CallAddConstraint (str "5") (str "8") (str "CANNOT_LINK") 1; CallAddConstraint (str "6") (str "7") (str "CANNOT_LINK") 1]) (CallAddConstraint (str "6") (str "8") (str "CANNOT_LINK") 1)) = true /\
  succeeds (answer (manager [str "0"; str "1"; str "2"; str "3"; str "4"; str "5"; str "6"; str "7"; str "8"] [CallAddConstraint (str "0") (str "1") (str "CANNOT_LINK") 1; CallAddConstraint (str "0") (str "2") (str "CANNOT_LINK") 1; CallAddConstraint (str "0") (str "3") (str "CANNOT_LINK") 1; CallAddConstraint (str "0") (str "4") (str "CANNOT_LINK") 1; CallAddConstraint (str "0") (str "5") (str "CANNOT_LINK") 1; CallAddConstraint (str "0") (str "6") (str "CANNOT_LINK") 1; CallAddConstraint (str "0") (str "7") (str "CANNOT_LINK") 1; CallAddConstraint (str "0") (str "8") (str "CANNOT_LINK") 1; CallAddConstraint (str "1") (str "2") (str "CANNOT_LINK") 1; CallAddConstraint (str "1") (str "3") (str "CANNOT_LINK") 1; CallAddConstraint (str "1") (str "4") (str "CANNOT_LINK") 1; CallAddConstraint (str "1") (str "5") (str "CANNOT_LINK") 1; CallAddConstraint (str "1") (str "6") (str "CANNOT_LINK") 1; CallAddConstraint (str "1") (str "7") (str "CANNOT_LINK") 1; CallAddConstraint (str "1") (str "8") (str "CANNOT_LINK") 1; CallAddConstraint (str "2") (str "3") (str "CANNOT_LINK") 1; CallAddConstraint (str "2") (str "4") (str "CANNOT_LINK") 1; CallAddConstraint (str "2") (str "5") (str "CANNOT_LINK") 1; CallAddConstraint (str "2") (str "6") (str "CANNOT_LINK") 1; CallAddConstraint (str "2") (str "7") (str "CANNOT_LINK") 1; CallAddConstraint (str "2") (str "8") (str "CANNOT_LINK") 1; CallAddConstraint (str "3") (str "4") (str "CANNOT_LINK") 1; CallAddConstraint (str "3") (str "5") (str "CANNOT_LINK") 1; CallAddConstraint (str "3") (str "6") (str "CANNOT_LINK") 1; CallAddConstraint (str "3") (str "7") (str "CANNOT_LINK") 1; CallAddConstraint (str "3") (str "8") (str "CANNOT_LINK") 1; CallAddConstraint (str "4") (str "5") (str "CANNOT_LINK") 1; CallAddConstraint (str "4") (str "6") (str "CANNOT_LINK") 1; CallAddConstraint (str "4") (str "7") (str "CANNOT_LINK") 1; CallAddConstraint (str "4") (str "8") (str "CANNOT_LINK") 1; CallAddConstraint (str "5") (str "6") (str "CANNOT_LINK") 1; CallAddConstraint (str "5") (str "7") (str "CANNOT_LINK") 1; CallAddConstraint (str "5") (str "8") (str "CANNOT_LINK") 1; CallAddConstraint (str "6") (str "7") (str "CANNOT_LINK") 1; CallAddConstraint (str "6") (str "8") (str "CANNOT_LINK") 1]) (CallAddConstraint (str "7") (str "8") (str "CANNOT_LINK") 1)) = true /\
  predicted (k_predicted fvec) (kmeans_run (shuffled shuffle_seed_3) 150%Z (dec (1) 10000) (manager [str "0"; str "1"; str "2"; str "3"; str "4"; str "5"; str "6"; str "7"; str "8"] [CallAddConstraint (str "0") (str "1") (str "CANNOT_LINK") 1; CallAddConstraint (str "0") (str "2") (str "CANNOT_LINK") 1; CallAddConstraint (str "0") (str "3") (str "CANNOT_LINK") 1; CallAddConstraint (str "0") (str "4") (str "CANNOT_LINK") 1; CallAddConstraint (str "0") (str "5") (str "CANNOT_LINK") 1; CallAddConstraint (str "0") (str "6") (str "CANNOT_LINK") 1; CallAddConstraint (str "0") (str "7") (str "CANNOT_LINK") 1; CallAddConstraint (str "0") (str "8") (str "CANNOT_LINK") 1; CallAddConstraint (str "1") (str "2") (str "CANNOT_LINK") 1; CallAddConstraint (str "1") (str "3") (str "CANNOT_LINK") 1; CallAddConstraint (str "1") (str "4") (str "CANNOT_LINK") 1; CallAddConstraint (str "1") (str "5") (str "CANNOT_LINK") 1; CallAddConstraint (str "1") (str "6") (str "CANNOT_LINK") 1; CallAddConstraint (str "1") (str "7") (str "CANNOT_LINK") 1; CallAddConstraint (str "1") (str "8") (str "CANNOT_LINK") 1; CallAddConstraint (str "2") (str "3") (str "CANNOT_LINK") 1; CallAddConstraint (str "2") (str "4") (str "CANNOT_LINK") 1; CallAddConstraint (str "2") (str "5") (str "CANNOT_LINK") 1; CallAddConstraint (str "2") (str "6") (str "CANNOT_LINK") 1; CallAddConstraint (str "2") (str "7") (str "CANNOT_LINK") 1; CallAddConstraint (str "2") (str "8") (str "CANNOT_LINK") 1; CallAddConstraint (str "3") (str "4") (str "CANNOT_LINK") 1; CallAddConstraint (str "3") (str "5") (str "CANNOT_LINK") 1; CallAddConstraint (str "3") (str "6") (str "CANNOT_LINK") 1; CallAddConstraint (str "3") (str "7") (str "CANNOT_LINK") 1; CallAddConstraint (str "3") (str "8") (str "CANNOT_LINK") 1; CallAddConstraint (str "4") (str "5") (str "CANNOT_LINK") 1; CallAddConstraint (str "4") (str "6") (str "CANNOT_LINK") 1; CallAddConstraint (str "4") (str "7") (str "CANNOT_LINK") 1; CallAddConstraint (str "4") (str "8") (str "CANNOT_LINK") 1; CallAddConstraint (str "5") (str "6") (str "CANNOT_LINK") 1; CallAddConstraint (str "5") (str "7") (str "CANNOT_LINK") 1; CallAddConstraint (str "5") (str "8") (str "CANNOT_LINK") 1; CallAddConstraint (str "6") (str "7") (str "CANNOT_LINK") 1; CallAddConstraint (str "6") (str "8") (str "CANNOT_LINK") 1; CallAddConstraint (str "7") (str "8") (str "CANNOT_LINK") 1]) [(str "0", [fint 1; fint 0; fint 0; fint 0]); (str "1", [dec (95) 100; dec (2) 100; dec (2) 100; dec (1) 100]); (str "2", [dec (98) 100; fint 0; dec (2) 100; fint 0]); (str "3", [dec (99) 100; fint 0; dec (1) 100; fint 0]); (str "4", [dec (5) 10; dec (22) 100; dec (21) 100; dec (7) 100]); (str "5", [dec (5) 10; dec (21) 100; dec (22) 100; dec (7) 100]); (str "6", [dec (1) 100; dec (1) 100; dec (1) 100; dec (97) 100]); (str "7", [fint 0; dec (1) 100; fint 0; dec (99) 100]); (str "8", [fint 0; fint 0; fint 0; fint 1])] (Some (5%Z))) = true /\
  gives (result (kmeans_run (shuffled shuffle_seed_3) 150%Z (dec (1) 10000) (manager [str "0"; str "1"; str "2"; str "3"; str "4"; str "5"; str "6"; str "7"; str "8"] [CallAddConstraint (str "0") (str "1") (str "CANNOT_LINK") 1; CallAddConstraint (str "0") (str "2") (str "CANNOT_LINK") 1; CallAddConstraint (str "0") (str "3") (str "CANNOT_LINK") 1; CallAddConstraint (str "0") (str "4") (str "CANNOT_LINK") 1; CallAddConstraint (str "0") (str "5") (str "CANNOT_LINK") 1; CallAddConstraint (str "0") (str "6") (str "CANNOT_LINK") 1; CallAddConstraint (str "0") (str "7") (str "CANNOT_LINK") 1; CallAddConstraint (str "0") (str "8") (str "CANNOT_LINK") 1; CallAddConstraint (str "1") (str "2") (str "CANNOT_LINK") 1; CallAddConstraint (str "1") (str "3") (str "CANNOT_LINK") 1; CallAddConstraint (str "1") (str "4") (str "CANNOT_LINK") 1; CallAddConstraint (str "1") (str "5") (str "CANNOT_LINK") 1; CallAddConstraint (str "1") (str "6") (str "CANNOT_LINK") 1; CallAddConstraint (str "1") (str "7") (str "CANNOT_LINK") 1; CallAddConstraint (str "1") (str "8") (str "CANNOT_LINK") 1; CallAddConstraint (str "2") (str "3") (str "CANNOT_LINK") 1; CallAddConstraint (str "2") (str "4") (str "CANNOT_LINK") 1; CallAddConstraint (str "2") (str "5") (str "CANNOT_LINK") 1; CallAddConstraint (str "2") (str "6") (str "CANNOT_LINK") 1; CallAddConstraint (str "2") (str "7") (str "CANNOT_LINK") 1; CallAddConstraint (str "2") (str "8") (str "CANNOT_LINK") 1; CallAddConstraint (str "3") (str "4") (str "CANNOT_LINK") 1; CallAddConstraint (str "3") (str "5") (str "CANNOT_LINK") 1; CallAddConstraint (str "3") (str "6") (str "CANNOT_LINK") 1; CallAddConstraint (str "3") (str "7") (str "CANNOT_LINK") 1; CallAddConstraint (str "3") (str "8") (str "CANNOT_LINK") 1; CallAddConstraint (str "4") (str "5") (str "CANNOT_LINK") 1; CallAddConstraint (str "4") (str "6") (str "CANNOT_LINK") 1; CallAddConstraint (str "4") (str "7") (str "CANNOT_LINK") 1; CallAddConstraint (str "4") (str "8") (str "CANNOT_LINK") 1; CallAddConstraint (str "5") (str "6") (str "CANNOT_LINK") 1; CallAddConstraint (str "5") (str "7") (str "CANNOT_LINK") 1; CallAddConstraint (str "5") (str "8") (str "CANNOT_LINK") 1; CallAddConstraint (str "6") (str "7") (str "CANNOT_LINK") 1; CallAddConstraint (str "6") (str "8") (str "CANNOT_LINK") 1; CallAddConstraint (str "7") (str "8") (str "CANNOT_LINK") 1]) [(str "0", [fint 1; fint 0; fint 0; fint 0]); (str "1", [dec (95) 100; dec (2) 100; dec (2) 100; dec (1) 100]); (str "2", [dec (98) 100; fint 0; dec (2) 100; fint 0]); (str "3", [dec (99) 100; fint 0; dec (1) 100; fint 0]); (str "4", [dec (5) 10; dec (22) 100; dec (21) 100; dec (7) 100]); (str "5", [dec (5) 10; dec (21) 100; dec (22) 100; dec (7) 100]); (str "6", [dec (1) 100; dec (1) 100; dec (1) 100; dec (97) 100]); (str "7", [fint 0; dec (1) 100; fint 0; dec (99) 100]); (str "8", [fint 0; fint 0; fint 0; fint 1])] (Some (5%Z)))) [(str "0", 0%Z); (str "1", 1%Z); (str "2", 2%Z); (str "3", 3%Z); (str "4", 4%Z); (str "5", 5%Z); (str "6", 6%Z); (str "7", 7%Z); (str "8", 8%Z)].
Proof. vm_compute. repeat split. Qed.

(** clustering/test_kmeans.py:454-485 (unseeded: checked for two shuffles) *)
Example test_KMeansConstrainedClustering_cluster_with_max_iteration_ending :
  predicted (k_predicted fvec) (kmeans_run (@rev pystr) 1%Z (dec (1) 10000) (manager [str "0"; str "1"; str "2"; str "3"; str "4"; str "5"; str "6"; str "7"; str "8"] []) [(str "0", [fint 1; fint 0; fint 0; fint 0]); (str "1", [dec (95) 100; dec (2) 100; dec (2) 100; dec (1) 100]); (str "2", [dec (98) 100; fint 0; dec (2) 100; fint 0]); (str "3", [dec (99) 100; fint 0; dec (1) 100; fint 0]); (str "4", [dec (5) 10; dec (22) 100; dec (21) 100; dec (7) 100]); (str "5", [dec (5) 10; dec (21) 100; dec (22) 100; dec (7) 100]); (str "6", [dec (1) 100; dec (1) 100; dec (1) 100; dec (97) 100]); (str "7", [fint 0; dec (1) 100; fint 0; dec (99) 100]); (str "8", [fint 0; fint 0; fint 0; fint 1])] (Some (2%Z))) = true /\
  predicted (k_predicted fvec) (kmeans_run (shuffled shuffle_seed_2) 1%Z (dec (1) 10000) (manager [str "0"; str "1"; str "2"; str "3"; str "4"; str "5"; str "6"; str "7"; str "8"] []) [(str "0", [fint 1; fint 0; fint 0; fint 0]); (str "1", [dec (95) 100; dec (2) 100; dec (2) 100; dec (1) 100]); (str "2", [dec (98) 100; fint 0; dec (2) 100; fint 0]); (str "3", [dec (99) 100; fint 0; dec (1) 100; fint 0]); (str "4", [dec (5) 10; dec (22) 100; dec (21) 100; dec (7) 100]); (str "5", [dec (5) 10; dec (21) 100; dec (22) 100; dec (7) 100]); (str "6", [dec (1) 100; dec (1) 100; dec (1) 100; dec (97) 100]); (str "7", [fint 0; dec (1) 100; fint 0; dec (99) 100]); (str "8", [fint 0; fint 0; fint 0; fint 1])] (Some (2%Z))) = true /\
  succeeds (result (kmeans_run (@rev pystr) 1%Z (dec (1) 10000) (manager [str "0"; str "1"; str "2"; str "3"; str "4"; str "5"; str "6"; str "7"; str "8"] []) [(str "0", [fint 1; fint 0; fint 0; fint 0]); (str "1", [dec (95) 100; dec (2) 100; dec (2) 100; dec (1) 100]); (str "2", [dec (98) 100; fint 0; dec (2) 100; fint 0]); (str "3", [dec (99) 100; fint 0; dec (1) 100; fint 0]); (str "4", [dec (5) 10; dec (22) 100; dec (21) 100; dec (7) 100]); (str "5", [dec (5) 10; dec (21) 100; dec (22) 100; dec (7) 100]); (str "6", [dec (1) 100; dec (1) 100; dec (1) 100; dec (97) 100]); (str "7", [fint 0; dec (1) 100; fint 0; dec (99) 100]); (str "8", [fint 0; fint 0; fint 0; fint 1])] (Some (2%Z)))) = true /\
  succeeds (result (kmeans_run (shuffled shuffle_seed_2) 1%Z (dec (1) 10000) (manager [str "0"; str "1"; str "2"; str "3"; str "4"; str "5"; str "6"; str "7"; str "8"] []) [(str "0", [fint 1; fint 0; fint 0; fint 0]); (str "1", [dec (95) 100; dec (2) 100; dec (2) 100; dec (1) 100]); (str "2", [dec (98) 100; fint 0; dec (2) 100; fint 0]); (str "3", [dec (99) 100; fint 0; dec (1) 100; fint 0]); (str "4", [dec (5) 10; dec (22) 100; dec (21) 100; dec (7) 100]); (str "5", [dec (5) 10; dec (21) 100; dec (22) 100; dec (7) 100]); (str "6", [dec (1) 100; dec (1) 100; dec (1) 100; dec (97) 100]); (str "7", [fint 0; dec (1) 100; fint 0; dec (99) 100]); (str "8", [fint 0; fint 0; fint 0; fint 1])] (Some (2%Z)))) = true.
Proof. vm_compute. repeat split. Qed.

(** clustering/test_dbscan.py:28-37 *)
Example test_DBScanConstrainedClustering_for_inconsistent_eps :
  raises (make_dbscan spec_float SFleb fnat (fint (-1)) 5%Z) ValueError.
Proof. vm_compute. repeat split. Qed.

(** clustering/test_dbscan.py:43-52 *)
Example test_DBScanConstrainedClustering_for_inconsistent_min_samples :
  raises (make_dbscan spec_float SFleb fnat (dec (5) 10) (-1)%Z) ValueError.
Proof. vm_compute. repeat split. Qed.

(** clustering/test_dbscan.py:58-70 *)
Example test_DBScanConstrainedClustering_for_correct_settings :
  succeeds (make_dbscan spec_float SFleb fnat (dec (5) 10) 3%Z) = true /\
  fail_or (make_dbscan spec_float SFleb fnat (dec (5) 10) 3%Z) (fun p => Ok (db_eps spec_float p)) = Ok (dec (5) 10) /\
  fail_or (make_dbscan spec_float SFleb fnat (dec (5) 10) 3%Z) (fun p => Ok (Z.of_nat (db_min_samples spec_float p))) = Ok (3%Z).
Proof. vm_compute. repeat split. Qed.

(** clustering/test_dbscan.py:114-128 (list(set(l)): checked for two orders) *)
Example test_DBScanConstrainedClustering_cluster_for_inconsistent_nb_clusters :
  raises (result (dbscan_run (@dedup pystr _) (dec (5) 10) 5%Z (manager [str "first"; str "second"; str "third"] []) [(str "first", [fint 1; fint 2; fint 3]); (str "second", [fint 4; fint 5; fint 6]); (str "third", [fint 7; fint 8; fint 9])] (Some (4%Z)))) ValueError /\
  raises (result (dbscan_run (fun l => rev (dedup l)) (dec (5) 10) 5%Z (manager [str "first"; str "second"; str "third"] []) [(str "first", [fint 1; fint 2; fint 3]); (str "second", [fint 4; fint 5; fint 6]); (str "third", [fint 7; fint 8; fint 9])] (Some (4%Z)))) ValueError.
Proof. vm_compute. repeat split. Qed.

(** clustering/test_dbscan.py:134-180 (list(set(l)): checked for two orders) *)
Example test_DBScanConstrainedClustering_cluster_with_no_constraints_1 :
  predicted (db_predicted) (dbscan_run (@dedup pystr _) (dec (5) 10) 3%Z (manager [str "0"; str "1"; str "2"; str "3"; str "4"; str "5"; str "6"; str "7"; str "8"; str "9"; str "10"; str "11"] []) [(str "0", [fint 1; fint 0; fint 0; fint 0]); (str "1", [fint 0; dec (43) 100; fint 0; fint 0]); (str "2", [fint 0; fint 0; dec (29) 100; fint 0]); (str "3", [fint 0; fint 0; dec (5) 10; fint 0]); (str "4", [fint 0; fint 0; fint 0; dec (98) 100]); (str "5", [fint 0; fint 0; dec (33) 100; fint 0]); (str "6", [fint 0; fint 0; fint 0; dec (14) 10]); (str "7", [dec (8) 10; fint 0; fint 0; fint 0]); (str "8", [fint 0; dec (54) 100; fint 0; fint 0]); (str "9", [fint 0; fint 0; fint 0; dec (11) 10]); (str "10", [dec (11) 10; fint 0; fint 0; fint 0]); (str "11", [fint 0; dec (49) 100; fint 0; fint 0])] None) = true /\
  predicted (db_predicted) (dbscan_run (fun l => rev (dedup l)) (dec (5) 10) 3%Z (manager [str "0"; str "1"; str "2"; str "3"; str "4"; str "5"; str "6"; str "7"; str "8"; str "9"; str "10"; str "11"] []) [(str "0", [fint 1; fint 0; fint 0; fint 0]); (str "1", [fint 0; dec (43) 100; fint 0; fint 0]); (str "2", [fint 0; fint 0; dec (29) 100; fint 0]); (str "3", [fint 0; fint 0; dec (5) 10; fint 0]); (str "4", [fint 0; fint 0; fint 0; dec (98) 100]); (str "5", [fint 0; fint 0; dec (33) 100; fint 0]); (str "6", [fint 0; fint 0; fint 0; dec (14) 10]); (str "7", [dec (8) 10; fint 0; fint 0; fint 0]); (str "8", [fint 0; dec (54) 100; fint 0; fint 0]); (str "9", [fint 0; fint 0; fint 0; dec (11) 10]); (str "10", [dec (11) 10; fint 0; fint 0; fint 0]); (str "11", [fint 0; dec (49) 100; fint 0; fint 0])] None) = true /\
  gives (result (dbscan_run (@dedup pystr _) (dec (5) 10) 3%Z (manager [str "0"; str "1"; str "2"; str "3"; str "4"; str "5"; str "6"; str "7"; str "8"; str "9"; str "10"; str "11"] []) [(str "0", [fint 1; fint 0; fint 0; fint 0]); (str "1", [fint 0; dec (43) 100; fint 0; fint 0]); (str "2", [fint 0; fint 0; dec (29) 100; fint 0]); (str "3", [fint 0; fint 0; dec (5) 10; fint 0]); (str "4", [fint 0; fint 0; fint 0; dec (98) 100]); (str "5", [fint 0; fint 0; dec (33) 100; fint 0]); (str "6", [fint 0; fint 0; fint 0; dec (14) 10]); (str "7", [dec (8) 10; fint 0; fint 0; fint 0]); (str "8", [fint 0; dec (54) 100; fint 0; fint 0]); (str "9", [fint 0; fint 0; fint 0; dec (11) 10]); (str "10", [dec (11) 10; fint 0; fint 0; fint 0]); (str "11", [fint 0; dec (49) 100; fint 0; fint 0])] None)) [(str "0", 0%Z); (str "1", 1%Z); (str "2", 2%Z); (str "3", 2%Z); (str "4", 3%Z); (str "5", 2%Z); (str "6", 3%Z); (str "7", 0%Z); (str "8", 1%Z); (str "9", 3%Z); (str "10", 0%Z); (str "11", 1%Z)] /\
  gives (result (dbscan_run (fun l => rev (dedup l)) (dec (5) 10) 3%Z (manager [str "0"; str "1"; str "2"; str "3"; str "4"; str "5"; str "6"; str "7"; str "8"; str "9"; str "10"; str "11"] []) [(str "0", [fint 1; fint 0; fint 0; fint 0]); (str "1", [fint 0; dec (43) 100; fint 0; fint 0]); (str "2", [fint 0; fint 0; dec (29) 100; fint 0]); (str "3", [fint 0; fint 0; dec (5) 10; fint 0]); (str "4", [fint 0; fint 0; fint 0; dec (98) 100]); (str "5", [fint 0; fint 0; dec (33) 100; fint 0]); (str "6", [fint 0; fint 0; fint 0; dec (14) 10]); (str "7", [dec (8) 10; fint 0; fint 0; fint 0]); (str "8", [fint 0; dec (54) 100; fint 0; fint 0]); (str "9", [fint 0; fint 0; fint 0; dec (11) 10]); (str "10", [dec (11) 10; fint 0; fint 0; fint 0]); (str "11", [fint 0; dec (49) 100; fint 0; fint 0])] None)) [(str "0", 0%Z); (str "1", 1%Z); (str "2", 2%Z); (str "3", 2%Z); (str "4", 3%Z); (str "5", 2%Z); (str "6", 3%Z); (str "7", 0%Z); (str "8", 1%Z); (str "9", 3%Z); (str "10", 0%Z); (str "11", 1%Z)].
Proof. vm_compute. repeat split. Qed.

(** clustering/test_dbscan.py:186-242 (list(set(l)): checked for two orders) *)
Example test_DBScanConstrainedClustering_cluster_with_no_constraints_2 :
  predicted (db_predicted) (dbscan_run (@dedup pystr _) (dec (5) 10) 3%Z (manager [str "0"; str "1"; str "2"; str "3"; str "4"; str "5"; str "6"; str "7"; str "8"; str "9"; str "10"; str "11"] []) [(str "0", [fint 2; fint 0; fint 0; fint 0]); (str "1", [fint 0; dec (43) 100; fint 0; fint 0]); (str "2", [fint 0; fint 0; dec (29) 100; fint 0]); (str "3", [fint 0; fint 0; dec (5) 10; fint 0]); (str "4", [fint 0; fint 0; fint 0; dec (98) 100]); (str "5", [fint 0; fint 0; dec (33) 100; fint 0]); (str "6", [fint 0; fint 0; fint 0; dec (14) 10]); (str "7", [dec (8) 10; fint 0; fint 0; fint 0]); (str "8", [fint 0; dec (54) 100; fint 0; fint 0]); (str "9", [fint 0; fint 0; fint 0; dec (11) 10]); (str "10", [dec (11) 10; fint 0; fint 0; fint 0]); (str "11", [fint 0; dec (49) 100; fint 0; fint 0])] None) = true /\
  predicted (db_predicted) (dbscan_run (fun l => rev (dedup l)) (dec (5) 10) 3%Z (manager [str "0"; str "1"; str "2"; str "3"; str "4"; str "5"; str "6"; str "7"; str "8"; str "9"; str "10"; str "11"] []) [(str "0", [fint 2; fint 0; fint 0; fint 0]); (str "1", [fint 0; dec (43) 100; fint 0; fint 0]); (str "2", [fint 0; fint 0; dec (29) 100; fint 0]); (str "3", [fint 0; fint 0; dec (5) 10; fint 0]); (str "4", [fint 0; fint 0; fint 0; dec (98) 100]); (str "5", [fint 0; fint 0; dec (33) 100; fint 0]); (str "6", [fint 0; fint 0; fint 0; dec (14) 10]); (str "7", [dec (8) 10; fint 0; fint 0; fint 0]); (str "8", [fint 0; dec (54) 100; fint 0; fint 0]); (str "9", [fint 0; fint 0; fint 0; dec (11) 10]); (str "10", [dec (11) 10; fint 0; fint 0; fint 0]); (str "11", [fint 0; dec (49) 100; fint 0; fint 0])] None) = true /\
  gives (result (dbscan_run (@dedup pystr _) (dec (5) 10) 3%Z (manager [str "0"; str "1"; str "2"; str "3"; str "4"; str "5"; str "6"; str "7"; str "8"; str "9"; str "10"; str "11"] []) [(str "0", [fint 2; fint 0; fint 0; fint 0]); (str "1", [fint 0; dec (43) 100; fint 0; fint 0]); (str "2", [fint 0; fint 0; dec (29) 100; fint 0]); (str "3", [fint 0; fint 0; dec (5) 10; fint 0]); (str "4", [fint 0; fint 0; fint 0; dec (98) 100]); (str "5", [fint 0; fint 0; dec (33) 100; fint 0]); (str "6", [fint 0; fint 0; fint 0; dec (14) 10]); (str "7", [dec (8) 10; fint 0; fint 0; fint 0]); (str "8", [fint 0; dec (54) 100; fint 0; fint 0]); (str "9", [fint 0; fint 0; fint 0; dec (11) 10]); (str "10", [dec (11) 10; fint 0; fint 0; fint 0]); (str "11", [fint 0; dec (49) 100; fint 0; fint 0])] None)) [(str "0", (-1)%Z); (str "1", 0%Z); (str "2", 1%Z); (str "3", 1%Z); (str "4", 2%Z); (str "5", 1%Z); (str "6", 2%Z); (str "7", (-2)%Z); (str "8", 0%Z); (str "9", 2%Z); (str "10", (-3)%Z); (str "11", 0%Z)] /\
  gives (result (dbscan_run (fun l => rev (dedup l)) (dec (5) 10) 3%Z (manager [str "0"; str "1"; str "2"; str "3"; str "4"; str "5"; str "6"; str "7"; str "8"; str "9"; str "10"; str "11"] []) [(str "0", [fint 2; fint 0; fint 0; fint 0]); (str "1", [fint 0; dec (43) 100; fint 0; fint 0]); (str "2", [fint 0; fint 0; dec (29) 100; fint 0]); (str "3", [fint 0; fint 0; dec (5) 10; fint 0]); (str "4", [fint 0; fint 0; fint 0; dec (98) 100]); (str "5", [fint 0; fint 0; dec (33) 100; fint 0]); (str "6", [fint 0; fint 0; fint 0; dec (14) 10]); (str "7", [dec (8) 10; fint 0; fint 0; fint 0]); (str "8", [fint 0; dec (54) 100; fint 0; fint 0]); (str "9", [fint 0; fint 0; fint 0; dec (11) 10]); (str "10", [dec (11) 10; fint 0; fint 0; fint 0]); (str "11", [fint 0; dec (49) 100; fint 0; fint 0])] None)) [(str "0", (-1)%Z); (str "1", 0%Z); (str "2", 1%Z); (str "3", 1%Z); (str "4", 2%Z); (str "5", 1%Z); (str "6", 2%Z); (str "7", (-2)%Z); (str "8", 0%Z); (str "9", 2%Z); (str "10", (-3)%Z); (str "11", 0%Z)].
Proof. vm_compute. repeat split. Qed.

(** clustering/test_dbscan.py:248-297 (list(set(l)): checked for two orders) *)
Example test_DBScanConstrainedClustering_cluster_with_some_constraints :
  succeeds (answer (manager [str "0"; str "1"; str "2"; str "3"; str "4"; str "5"; str "6"; str "7"; str "8"; str "9"; str "10"; str "11"] []) (CallAddConstraint (str "0") (str "7") (str "MUST_LINK") 1)) = true /\
  succeeds (answer (manager [str "0"; str "1"; str "2"; str "3"; str "4"; str "5"; str "6"; str "7"; str "8"; str "9"; str "10"; str "11"] [CallAddConstraint (str "0") (str "7") (str "MUST_LINK") 1]) (CallAddConstraint (str "0") (str "10") (str "MUST_LINK") 1)) = true /\
  succeeds (answer (manager [str "0"; str "1"; str "2"; str "3"; str "4"; str "5"; str "6"; str "7"; str "8"; str "9"; str "10"; str "11"] [CallAddConstraint (str "0") (str "7") (str "MUST_LINK") 1; CallAddConstraint (str "0") (str "10") (str "MUST_LINK") 1]) (CallAddConstraint (str "0") (str "4") (str "CANNOT_LINK") 1)) = true /\
  predicted (db_predicted) (dbscan_run (@dedup pystr _) (dec (5) 10) 3%Z (manager [str "0"; str "1"; str "2"; str "3"; str "4"; str "5"; str "6"; str "7"; str "8"; str "9"; str "10"; str "11"] [CallAddConstraint (str "0") (str "7") (str "MUST_LINK") 1; CallAddConstraint (str "0") (str "10") (str "MUST_LINK") 1; CallAddConstraint (str "0") (str "4") (str "CANNOT_LINK") 1]) [(str "0", [fint 2; fint 0; fint 0; fint 0]); (str "1", [fint 0; dec (43) 100; fint 0; fint 0]); (str "2", [fint 0; fint 0; dec (29) 100; fint 0]); (str "3", [fint 0; fint 0; dec (5) 10; fint 0]); (str "4", [fint 0; fint 0; fint 0; dec (98) 100]); (str "5", [fint 0; fint 0; dec (33) 100; fint 0]); (str "6", [fint 0; fint 0; fint 0; dec (14) 10]); (str "7", [dec (8) 10; fint 0; fint 0; fint 0]); (str "8", [fint 0; dec (54) 100; fint 0; fint 0]); (str "9", [fint 0; fint 0; fint 0; dec (11) 10]); (str "10", [dec (11) 10; fint 0; fint 0; fint 0]); (str "11", [fint 0; dec (49) 100; fint 0; fint 0])] None) = true /\
  predicted (db_predicted) (dbscan_run (fun l => rev (dedup l)) (dec (5) 10) 3%Z (manager [str "0"; str "1"; str "2"; str "3"; str "4"; str "5"; str "6"; str "7"; str "8"; str "9"; str "10"; str "11"] [CallAddConstraint (str "0") (str "7") (str "MUST_LINK") 1; CallAddConstraint (str "0") (str "10") (str "MUST_LINK") 1; CallAddConstraint (str "0") (str "4") (str "CANNOT_LINK") 1]) [(str "0", [fint 2; fint 0; fint 0; fint 0]); (str "1", [fint 0; dec (43) 100; fint 0; fint 0]); (str "2", [fint 0; fint 0; dec (29) 100; fint 0]); (str "3", [fint 0; fint 0; dec (5) 10; fint 0]); (str "4", [fint 0; fint 0; fint 0; dec (98) 100]); (str "5", [fint 0; fint 0; dec (33) 100; fint 0]); (str "6", [fint 0; fint 0; fint 0; dec (14) 10]); (str "7", [dec (8) 10; fint 0; fint 0; fint 0]); (str "8", [fint 0; dec (54) 100; fint 0; fint 0]); (str "9", [fint 0; fint 0; fint 0; dec (11) 10]); (str "10", [dec (11) 10; fint 0; fint 0; fint 0]); (str "11", [fint 0; dec (49) 100; fint 0; fint 0])] None) = true /\
  gives (result (dbscan_run (@dedup pystr _) (dec (5) 10) 3%Z (manager [str "0"; str "1"; str "2"; str "3"; str "4"; str "5"; str "6"; str "7"; str "8"; str "9"; str "10"; str "11"] [CallAddConstraint (str "0") (str "7") (str "MUST_LINK") 1; CallAddConstraint (str "0") (str "10") (str "MUST_LINK") 1; CallAddConstraint (str "0") (str "4") (str "CANNOT_LINK") 1]) [(str "0", [fint 2; fint 0; fint 0; fint 0]); (str "1", [fint 0; dec (43) 100; fint 0; fint 0]); (str "2", [fint 0; fint 0; dec (29) 100; fint 0]); (str "3", [fint 0; fint 0; dec (5) 10; fint 0]); (str "4", [fint 0; fint 0; fint 0; dec (98) 100]); (str "5", [fint 0; fint 0; dec (33) 100; fint 0]); (str "6", [fint 0; fint 0; fint 0; dec (14) 10]); (str "7", [dec (8) 10; fint 0; fint 0; fint 0]); (str "8", [fint 0; dec (54) 100; fint 0; fint 0]); (str "9", [fint 0; fint 0; fint 0; dec (11) 10]); (str "10", [dec (11) 10; fint 0; fint 0; fint 0]); (str "11", [fint 0; dec (49) 100; fint 0; fint 0])] None)) [(str "0", 0%Z); (str "1", 1%Z); (str "2", 2%Z); (str "3", 2%Z); (str "4", 3%Z); (str "5", 2%Z); (str "6", 3%Z); (str "7", 0%Z); (str "8", 1%Z); (str "9", 3%Z); (str "10", 0%Z); (str "11", 1%Z)] /\
  gives (result (dbscan_run (fun l => rev (dedup l)) (dec (5) 10) 3%Z (manager [str "0"; str "1"; str "2"; str "3"; str "4"; str "5"; str "6"; str "7"; str "8"; str "9"; str "10"; str "11"] [CallAddConstraint (str "0") (str "7") (str "MUST_LINK") 1; CallAddConstraint (str "0") (str "10") (str "MUST_LINK") 1; CallAddConstraint (str "0") (str "4") (str "CANNOT_LINK") 1]) [(str "0", [fint 2; fint 0; fint 0; fint 0]); (str "1", [fint 0; dec (43) 100; fint 0; fint 0]); (str "2", [fint 0; fint 0; dec (29) 100; fint 0]); (str "3", [fint 0; fint 0; dec (5) 10; fint 0]); (str "4", [fint 0; fint 0; fint 0; dec (98) 100]); (str "5", [fint 0; fint 0; dec (33) 100; fint 0]); (str "6", [fint 0; fint 0; fint 0; dec (14) 10]); (str "7", [dec (8) 10; fint 0; fint 0; fint 0]); (str "8", [fint 0; dec (54) 100; fint 0; fint 0]); (str "9", [fint 0; fint 0; fint 0; dec (11) 10]); (str "10", [dec (11) 10; fint 0; fint 0; fint 0]); (str "11", [fint 0; dec (49) 100; fint 0; fint 0])] None)) [(str "0", 0%Z); (str "1", 1%Z); (str "2", 2%Z); (str "3", 2%Z); (str "4", 3%Z); (str "5", 2%Z); (str "6", 3%Z); (str "7", 0%Z); (str "8", 1%Z); (str "9", 3%Z); (str "10", 0%Z); (str "11", 1%Z)].
Proof. vm_compute. repeat split. Qed.

(** utils/test_frequency.py:21-27 *)
Example test_compute_clusters_frequency_for_no_clustering_result :
  (compute_clusters_frequency spec_float (fun a b => fdiv (fnat a) (fnat b)) ascending []) = Ok [].
Proof. vm_compute. repeat split. Qed.

(** utils/test_frequency.py:33-56 *)
Example test_compute_clusters_frequency_for_correct_clustering_result :
  same_dict float_eqb ((compute_clusters_frequency spec_float (fun a b => fdiv (fnat a) (fnat b)) ascending [(str "01", 0%Z); (str "02", 0%Z); (str "03", 0%Z); (str "04", 0%Z); (str "05", 0%Z); (str "06", 1%Z); (str "07", 1%Z); (str "08", 2%Z); (str "09", 2%Z); (str "10", 2%Z)])) [(0%Z, dec (5) 10); (1%Z, dec (2) 10); (2%Z, dec (3) 10)] = true.
Proof. vm_compute. repeat split. Qed.

(** Not expressed:
    - clustering/test_abstract.py:26-33 test_AbstractConstrainedClustering_is_abstract: raises TypeError;
    - clustering/test_kmeans.py:95-109 test_KMeansConstrainedClustering_cluster_for_inconsistent_constraints_manager: a manager that is not a manager;
    - clustering/test_kmeans.py:115-129 test_KMeansConstrainedClustering_cluster_for_inconsistent_vectors: vectors that are not a dictionary;
    - clustering/test_dbscan.py:76-89 test_DBScanConstrainedClustering_cluster_for_inconsistent_constraints_manager: a manager that is not a manager;
    - clustering/test_dbscan.py:95-108 test_DBScanConstrainedClustering_cluster_for_inconsistent_vectors: vectors that are not a dictionary. *)
