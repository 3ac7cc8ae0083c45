(** * The project's tests, run on the model

    Written by tools/gen_tests.py from /repo/tests: clustering/test_hierarchical.py.
    20 tests; see TestLib.v for the numbers and the random draws. *)

From Coq Require Import String List Bool Arith NArith ZArith QArith SpecFloat.
From Verif Require Import Base Manager MinMax Json Rename KMeans Hierarchical Dbscan Affinity Mpckmeans Spectral Sampling Objects Frequency Factories TestLib.
Import ListNotations.
Open Scope nat_scope.

(** clustering/test_hierarchical.py:26-35 *)
Example test_HierarchicalConstrainedClustering_for_inconsistent_linkage :
  raises (make_hierarchical (str "as_you_want")) ValueError.
Proof. vm_compute. repeat split. Qed.

(** clustering/test_hierarchical.py:41-53 *)
Example test_HierarchicalConstrainedClustering_for_correct_settings :
  succeeds (make_hierarchical (str "average")) = true /\
  fail_or (make_hierarchical (str "average")) (fun p => Ok (p)) = Ok (str "average").
Proof. vm_compute. repeat split. Qed.

(** clustering/test_hierarchical.py:99-113 *)
Example test_HierarchicalConstrainedClustering_cluster_for_inconsistent_nb_clusters_1 :
  raises (result (hierarchical_run (str "ward") (manager [str "first"; str "second"; str "third"] []) [(str "first", [fint 1; fint 2; fint 3]); (str "second", [fint 4; fint 5; fint 6]); (str "third", [fint 7; fint 8; fint 9])] None)) ValueError.
Proof. vm_compute. repeat split. Qed.

(** clustering/test_hierarchical.py:119-133 *)
Example test_HierarchicalConstrainedClustering_cluster_for_inconsistent_nb_clusters_2 :
  raises (result (hierarchical_run (str "ward") (manager [str "first"; str "second"; str "third"] []) [(str "first", [fint 1; fint 2; fint 3]); (str "second", [fint 4; fint 5; fint 6]); (str "third", [fint 7; fint 8; fint 9])] (Some ((-1)%Z)))) ValueError.
Proof. vm_compute. repeat split. Qed.

(** clustering/test_hierarchical.py:139-186 *)
Example test_HierarchicalConstrainedClustering_cluster_with_ward_linkage :
  succeeds (answer (manager [str "0"; str "1"; str "2"; str "3"; str "4"; str "5"; str "6"; str "7"; str "8"; str "9"] []) (CallAddConstraint (str "0") (str "1") (str "MUST_LINK") 1)) = true /\
  succeeds (answer (manager [str "0"; str "1"; str "2"; str "3"; str "4"; str "5"; str "6"; str "7"; str "8"; str "9"] [CallAddConstraint (str "0") (str "1") (str "MUST_LINK") 1]) (CallAddConstraint (str "5") (str "7") (str "CANNOT_LINK") 1)) = true /\
  predicted (h_predicted fvec) (hierarchical_run (str "ward") (manager [str "0"; str "1"; str "2"; str "3"; str "4"; str "5"; str "6"; str "7"; str "8"; str "9"] [CallAddConstraint (str "0") (str "1") (str "MUST_LINK") 1; CallAddConstraint (str "5") (str "7") (str "CANNOT_LINK") 1]) [(str "0", [fint 1; fint 0; fint 0]); (str "1", [dec (95) 100; dec (2) 100; dec (1) 100]); (str "2", [dec (98) 100; fint 0; fint 0]); (str "3", [dec (99) 100; fint 0; fint 0]); (str "4", [dec (1) 100; dec (99) 100; dec (7) 100]); (str "5", [dec (2) 100; dec (99) 100; dec (7) 100]); (str "6", [dec (1) 100; dec (99) 100; dec (2) 100]); (str "7", [dec (1) 100; dec (1) 100; dec (97) 100]); (str "8", [fint 0; dec (1) 100; dec (99) 100]); (str "9", [fint 0; fint 0; fint 1])] (Some (3%Z))) = true /\
  gives (result (hierarchical_run (str "ward") (manager [str "0"; str "1"; str "2"; str "3"; str "4"; str "5"; str "6"; str "7"; str "8"; str "9"] [CallAddConstraint (str "0") (str "1") (str "MUST_LINK") 1; CallAddConstraint (str "5") (str "7") (str "CANNOT_LINK") 1]) [(str "0", [fint 1; fint 0; fint 0]); (str "1", [dec (95) 100; dec (2) 100; dec (1) 100]); (str "2", [dec (98) 100; fint 0; fint 0]); (str "3", [dec (99) 100; fint 0; fint 0]); (str "4", [dec (1) 100; dec (99) 100; dec (7) 100]); (str "5", [dec (2) 100; dec (99) 100; dec (7) 100]); (str "6", [dec (1) 100; dec (99) 100; dec (2) 100]); (str "7", [dec (1) 100; dec (1) 100; dec (97) 100]); (str "8", [fint 0; dec (1) 100; dec (99) 100]); (str "9", [fint 0; fint 0; fint 1])] (Some (3%Z)))) [(str "0", 0%Z); (str "1", 0%Z); (str "2", 0%Z); (str "3", 0%Z); (str "4", 1%Z); (str "5", 1%Z); (str "6", 1%Z); (str "7", 2%Z); (str "8", 2%Z); (str "9", 2%Z)].
Proof. vm_compute. repeat split. Qed.

(** clustering/test_hierarchical.py:192-239 *)
Example test_HierarchicalConstrainedClustering_cluster_with_average_linkage :
  succeeds (answer (manager [str "0"; str "1"; str "2"; str "3"; str "4"; str "5"; str "6"; str "7"; str "8"; str "9"] []) (CallAddConstraint (str "0") (str "1") (str "MUST_LINK") 1)) = true /\
  succeeds (answer (manager [str "0"; str "1"; str "2"; str "3"; str "4"; str "5"; str "6"; str "7"; str "8"; str "9"] [CallAddConstraint (str "0") (str "1") (str "MUST_LINK") 1]) (CallAddConstraint (str "5") (str "7") (str "CANNOT_LINK") 1)) = true /\
  predicted (h_predicted fvec) (hierarchical_run (str "average") (manager [str "0"; str "1"; str "2"; str "3"; str "4"; str "5"; str "6"; str "7"; str "8"; str "9"] [CallAddConstraint (str "0") (str "1") (str "MUST_LINK") 1; CallAddConstraint (str "5") (str "7") (str "CANNOT_LINK") 1]) [(str "0", [fint 1; fint 0; fint 0]); (str "1", [dec (95) 100; dec (2) 100; dec (1) 100]); (str "2", [dec (98) 100; fint 0; fint 0]); (str "3", [dec (99) 100; fint 0; fint 0]); (str "4", [dec (1) 100; dec (99) 100; dec (7) 100]); (str "5", [dec (2) 100; dec (99) 100; dec (7) 100]); (str "6", [dec (1) 100; dec (99) 100; dec (2) 100]); (str "7", [dec (1) 100; dec (1) 100; dec (97) 100]); (str "8", [fint 0; dec (1) 100; dec (99) 100]); (str "9", [fint 0; fint 0; fint 1])] (Some (3%Z))) = true /\
  gives (result (hierarchical_run (str "average") (manager [str "0"; str "1"; str "2"; str "3"; str "4"; str "5"; str "6"; str "7"; str "8"; str "9"] [CallAddConstraint (str "0") (str "1") (str "MUST_LINK") 1; CallAddConstraint (str "5") (str "7") (str "CANNOT_LINK") 1]) [(str "0", [fint 1; fint 0; fint 0]); (str "1", [dec (95) 100; dec (2) 100; dec (1) 100]); (str "2", [dec (98) 100; fint 0; fint 0]); (str "3", [dec (99) 100; fint 0; fint 0]); (str "4", [dec (1) 100; dec (99) 100; dec (7) 100]); (str "5", [dec (2) 100; dec (99) 100; dec (7) 100]); (str "6", [dec (1) 100; dec (99) 100; dec (2) 100]); (str "7", [dec (1) 100; dec (1) 100; dec (97) 100]); (str "8", [fint 0; dec (1) 100; dec (99) 100]); (str "9", [fint 0; fint 0; fint 1])] (Some (3%Z)))) [(str "0", 0%Z); (str "1", 0%Z); (str "2", 0%Z); (str "3", 0%Z); (str "4", 1%Z); (str "5", 1%Z); (str "6", 1%Z); (str "7", 2%Z); (str "8", 2%Z); (str "9", 2%Z)].
Proof. vm_compute. repeat split. Qed.

(** clustering/test_hierarchical.py:245-292 *)
Example test_HierarchicalConstrainedClustering_cluster_with_single_linkage :
  succeeds (answer (manager [str "0"; str "1"; str "2"; str "3"; str "4"; str "5"; str "6"; str "7"; str "8"; str "9"] []) (CallAddConstraint (str "0") (str "1") (str "MUST_LINK") 1)) = true /\
  succeeds (answer (manager [str "0"; str "1"; str "2"; str "3"; str "4"; str "5"; str "6"; str "7"; str "8"; str "9"] [CallAddConstraint (str "0") (str "1") (str "MUST_LINK") 1]) (CallAddConstraint (str "5") (str "7") (str "CANNOT_LINK") 1)) = true /\
  predicted (h_predicted fvec) (hierarchical_run (str "single") (manager [str "0"; str "1"; str "2"; str "3"; str "4"; str "5"; str "6"; str "7"; str "8"; str "9"] [CallAddConstraint (str "0") (str "1") (str "MUST_LINK") 1; CallAddConstraint (str "5") (str "7") (str "CANNOT_LINK") 1]) [(str "0", [fint 1; fint 0; fint 0]); (str "1", [dec (95) 100; dec (2) 100; dec (1) 100]); (str "2", [dec (98) 100; fint 0; fint 0]); (str "3", [dec (99) 100; fint 0; fint 0]); (str "4", [dec (1) 100; dec (99) 100; dec (7) 100]); (str "5", [dec (2) 100; dec (99) 100; dec (7) 100]); (str "6", [dec (1) 100; dec (99) 100; dec (2) 100]); (str "7", [dec (1) 100; dec (1) 100; dec (97) 100]); (str "8", [fint 0; dec (1) 100; dec (99) 100]); (str "9", [fint 0; fint 0; fint 1])] (Some (3%Z))) = true /\
  gives (result (hierarchical_run (str "single") (manager [str "0"; str "1"; str "2"; str "3"; str "4"; str "5"; str "6"; str "7"; str "8"; str "9"] [CallAddConstraint (str "0") (str "1") (str "MUST_LINK") 1; CallAddConstraint (str "5") (str "7") (str "CANNOT_LINK") 1]) [(str "0", [fint 1; fint 0; fint 0]); (str "1", [dec (95) 100; dec (2) 100; dec (1) 100]); (str "2", [dec (98) 100; fint 0; fint 0]); (str "3", [dec (99) 100; fint 0; fint 0]); (str "4", [dec (1) 100; dec (99) 100; dec (7) 100]); (str "5", [dec (2) 100; dec (99) 100; dec (7) 100]); (str "6", [dec (1) 100; dec (99) 100; dec (2) 100]); (str "7", [dec (1) 100; dec (1) 100; dec (97) 100]); (str "8", [fint 0; dec (1) 100; dec (99) 100]); (str "9", [fint 0; fint 0; fint 1])] (Some (3%Z)))) [(str "0", 0%Z); (str "1", 0%Z); (str "2", 0%Z); (str "3", 0%Z); (str "4", 1%Z); (str "5", 1%Z); (str "6", 1%Z); (str "7", 2%Z); (str "8", 2%Z); (str "9", 2%Z)].
Proof. vm_compute. repeat split. Qed.

(** clustering/test_hierarchical.py:298-345 *)
Example test_HierarchicalConstrainedClustering_cluster_with_complete_linkage :
  succeeds (answer (manager [str "0"; str "1"; str "2"; str "3"; str "4"; str "5"; str "6"; str "7"; str "8"; str "9"] []) (CallAddConstraint (str "0") (str "1") (str "MUST_LINK") 1)) = true /\
  succeeds (answer (manager [str "0"; str "1"; str "2"; str "3"; str "4"; str "5"; str "6"; str "7"; str "8"; str "9"] [CallAddConstraint (str "0") (str "1") (str "MUST_LINK") 1]) (CallAddConstraint (str "5") (str "7") (str "CANNOT_LINK") 1)) = true /\
  predicted (h_predicted fvec) (hierarchical_run (str "complete") (manager [str "0"; str "1"; str "2"; str "3"; str "4"; str "5"; str "6"; str "7"; str "8"; str "9"] [CallAddConstraint (str "0") (str "1") (str "MUST_LINK") 1; CallAddConstraint (str "5") (str "7") (str "CANNOT_LINK") 1]) [(str "0", [fint 1; fint 0; fint 0]); (str "1", [dec (95) 100; dec (2) 100; dec (1) 100]); (str "2", [dec (98) 100; fint 0; fint 0]); (str "3", [dec (99) 100; fint 0; fint 0]); (str "4", [dec (1) 100; dec (99) 100; dec (7) 100]); (str "5", [dec (2) 100; dec (99) 100; dec (7) 100]); (str "6", [dec (1) 100; dec (99) 100; dec (2) 100]); (str "7", [dec (1) 100; dec (1) 100; dec (97) 100]); (str "8", [fint 0; dec (1) 100; dec (99) 100]); (str "9", [fint 0; fint 0; fint 1])] (Some (3%Z))) = true /\
  gives (result (hierarchical_run (str "complete") (manager [str "0"; str "1"; str "2"; str "3"; str "4"; str "5"; str "6"; str "7"; str "8"; str "9"] [CallAddConstraint (str "0") (str "1") (str "MUST_LINK") 1; CallAddConstraint (str "5") (str "7") (str "CANNOT_LINK") 1]) [(str "0", [fint 1; fint 0; fint 0]); (str "1", [dec (95) 100; dec (2) 100; dec (1) 100]); (str "2", [dec (98) 100; fint 0; fint 0]); (str "3", [dec (99) 100; fint 0; fint 0]); (str "4", [dec (1) 100; dec (99) 100; dec (7) 100]); (str "5", [dec (2) 100; dec (99) 100; dec (7) 100]); (str "6", [dec (1) 100; dec (99) 100; dec (2) 100]); (str "7", [dec (1) 100; dec (1) 100; dec (97) 100]); (str "8", [fint 0; dec (1) 100; dec (99) 100]); (str "9", [fint 0; fint 0; fint 1])] (Some (3%Z)))) [(str "0", 0%Z); (str "1", 0%Z); (str "2", 0%Z); (str "3", 0%Z); (str "4", 1%Z); (str "5", 1%Z); (str "6", 1%Z); (str "7", 2%Z); (str "8", 2%Z); (str "9", 2%Z)].
Proof. vm_compute. repeat split. Qed.

(** clustering/test_hierarchical.py:351-383 *)
Example test_HierarchicalConstrainedClustering_cluster_with_no_constraints_1 :
  predicted (h_predicted fvec) (hierarchical_run (str "ward") (manager [str "0"; str "1"; str "2"; str "3"; str "4"; str "5"; str "6"; str "7"; str "8"] []) [(str "0", [fint 1; fint 0; fint 0; fint 0]); (str "1", [dec (95) 100; dec (2) 100; dec (2) 100; dec (1) 100]); (str "2", [dec (98) 100; fint 0; dec (2) 100; fint 0]); (str "3", [dec (99) 100; fint 0; dec (1) 100; fint 0]); (str "4", [dec (5) 10; dec (22) 100; dec (21) 100; dec (7) 100]); (str "5", [dec (5) 10; dec (21) 100; dec (22) 100; dec (7) 100]); (str "6", [dec (1) 100; dec (1) 100; dec (1) 100; dec (97) 100]); (str "7", [fint 0; dec (1) 100; fint 0; dec (99) 100]); (str "8", [fint 0; fint 0; fint 0; fint 1])] (Some (2%Z))) = true /\
  gives (result (hierarchical_run (str "ward") (manager [str "0"; str "1"; str "2"; str "3"; str "4"; str "5"; str "6"; str "7"; str "8"] []) [(str "0", [fint 1; fint 0; fint 0; fint 0]); (str "1", [dec (95) 100; dec (2) 100; dec (2) 100; dec (1) 100]); (str "2", [dec (98) 100; fint 0; dec (2) 100; fint 0]); (str "3", [dec (99) 100; fint 0; dec (1) 100; fint 0]); (str "4", [dec (5) 10; dec (22) 100; dec (21) 100; dec (7) 100]); (str "5", [dec (5) 10; dec (21) 100; dec (22) 100; dec (7) 100]); (str "6", [dec (1) 100; dec (1) 100; dec (1) 100; dec (97) 100]); (str "7", [fint 0; dec (1) 100; fint 0; dec (99) 100]); (str "8", [fint 0; fint 0; fint 0; fint 1])] (Some (2%Z)))) [(str "0", 0%Z); (str "1", 0%Z); (str "2", 0%Z); (str "3", 0%Z); (str "4", 0%Z); (str "5", 0%Z); (str "6", 1%Z); (str "7", 1%Z); (str "8", 1%Z)].
Proof. vm_compute. repeat split. Qed.

(** clustering/test_hierarchical.py:389-432 *)
Example test_HierarchicalConstrainedClustering_cluster_with_no_constraints_2 :
  predicted (h_predicted fvec) (hierarchical_run (str "ward") (manager [str "0"; str "1"; str "2"; str "3"; str "4"; str "5"; str "6"; str "7"; str "8"; str "9"] []) [(str "0", [fint 1; fint 0; fint 0]); (str "1", [dec (95) 100; dec (2) 100; dec (1) 100]); (str "2", [dec (98) 100; fint 0; fint 0]); (str "3", [dec (99) 100; fint 0; fint 0]); (str "4", [dec (1) 100; dec (99) 100; dec (7) 100]); (str "5", [dec (2) 100; dec (99) 100; dec (7) 100]); (str "6", [dec (1) 100; dec (99) 100; dec (2) 100]); (str "7", [dec (1) 100; dec (1) 100; dec (97) 100]); (str "8", [fint 0; dec (1) 100; dec (99) 100]); (str "9", [fint 0; fint 0; fint 1])] (Some (3%Z))) = true /\
  gives (result (hierarchical_run (str "ward") (manager [str "0"; str "1"; str "2"; str "3"; str "4"; str "5"; str "6"; str "7"; str "8"; str "9"] []) [(str "0", [fint 1; fint 0; fint 0]); (str "1", [dec (95) 100; dec (2) 100; dec (1) 100]); (str "2", [dec (98) 100; fint 0; fint 0]); (str "3", [dec (99) 100; fint 0; fint 0]); (str "4", [dec (1) 100; dec (99) 100; dec (7) 100]); (str "5", [dec (2) 100; dec (99) 100; dec (7) 100]); (str "6", [dec (1) 100; dec (99) 100; dec (2) 100]); (str "7", [dec (1) 100; dec (1) 100; dec (97) 100]); (str "8", [fint 0; dec (1) 100; dec (99) 100]); (str "9", [fint 0; fint 0; fint 1])] (Some (3%Z)))) [(str "0", 0%Z); (str "1", 0%Z); (str "2", 0%Z); (str "3", 0%Z); (str "4", 1%Z); (str "5", 1%Z); (str "6", 1%Z); (str "7", 2%Z); (str "8", 2%Z); (str "9", 2%Z)].
Proof. vm_compute. repeat split. Qed.

(** clustering/test_hierarchical.py:438-486 *)
Example test_HierarchicalConstrainedClustering_cluster_with_some_constraints :
  succeeds (answer (manager [str "0"; str "1"; str "2"; str "3"; str "4"; str "5"; str "6"; str "7"; str "8"] []) (CallAddConstraint (str "0") (str "1") (str "MUST_LINK") 1)) = true /\
  succeeds (answer (manager [str "0"; str "1"; str "2"; str "3"; str "4"; str "5"; str "6"; str "7"; str "8"] [CallAddConstraint (str "0") (str "1") (str "MUST_LINK") 1]) (CallAddConstraint (str "0") (str "6") (str "MUST_LINK") 1)) = true /\
  succeeds (answer (manager [str "0"; str "1"; str "2"; str "3"; str "4"; str "5"; str "6"; str "7"; str "8"] [CallAddConstraint (str "0") (str "1") (str "MUST_LINK") 1; CallAddConstraint (str "0") (str "6") (str "MUST_LINK") 1]) (CallAddConstraint (str "0") (str "7") (str "MUST_LINK") 1)) = true /\
  succeeds (answer (manager [str "0"; str "1"; str "2"; str "3"; str "4"; str "5"; str "6"; str "7"; str "8"] [CallAddConstraint (str "0") (str "1") (str "MUST_LINK") 1; CallAddConstraint (str "0") (str "6") (str "MUST_LINK") 1; CallAddConstraint (str "0") (str "7") (str "MUST_LINK") 1]) (CallAddConstraint (str "0") (str "8") (str "MUST_LINK") 1)) = true /\
  succeeds (answer (manager [str "0"; str "1"; str "2"; str "3"; str "4"; str "5"; str "6"; str "7"; str "8"] [CallAddConstraint (str "0") (str "1") (str "MUST_LINK") 1; CallAddConstraint (str "0") (str "6") (str "MUST_LINK") 1; CallAddConstraint (str "0") (str "7") (str "MUST_LINK") 1; CallAddConstraint (str "0") (str "8") (str "MUST_LINK") 1]) (CallAddConstraint (str "4") (str "5") (str "MUST_LINK") 1)) = true /\
  succeeds (answer (manager [str "0"; str "1"; str "2"; str "3"; str "4"; str "5"; str "6"; str "7"; str "8"] [CallAddConstraint (str "0") (str "1") (str "MUST_LINK") 1; CallAddConstraint (str "0") (str "6") (str "MUST_LINK") 1; CallAddConstraint (str "0") (str "7") (str "MUST_LINK") 1; CallAddConstraint (str "0") (str "8") (str "MUST_LINK") 1; CallAddConstraint (str "4") (str "5") (str "MUST_LINK") 1]) (CallAddConstraint (str "0") (str "4") (str "CANNOT_LINK") 1)) = true /\
  succeeds (answer (manager [str "0"; str "1"; str "2"; str "3"; str "4"; str "5"; str "6"; str "7"; str "8"] [CallAddConstraint (str "0") (str "1") (str "MUST_LINK") 1; CallAddConstraint (str "0") (str "6") (str "MUST_LINK") 1; CallAddConstraint (str "0") (str "7") (str "MUST_LINK") 1; CallAddConstraint (str "0") (str "8") (str "MUST_LINK") 1; CallAddConstraint (str "4") (str "5") (str "MUST_LINK") 1; CallAddConstraint (str "0") (str "4") (str "CANNOT_LINK") 1]) (CallAddConstraint (str "2") (str "4") (str "CANNOT_LINK") 1)) = true /\
  predicted (h_predicted fvec) (hierarchical_run (str "ward") (manager [str "0"; str "1"; str "2"; str "3"; str "4"; str "5"; str "6"; str "7"; str "8"] [CallAddConstraint (str "0") (str "1") (str "MUST_LINK") 1; CallAddConstraint (str "0") (str "6") (str "MUST_LINK") 1; CallAddConstraint (str "0") (str "7") (str "MUST_LINK") 1; CallAddConstraint (str "0") (str "8") (str "MUST_LINK") 1; CallAddConstraint (str "4") (str "5") (str "MUST_LINK") 1; CallAddConstraint (str "0") (str "4") (str "CANNOT_LINK") 1; CallAddConstraint (str "2") (str "4") (str "CANNOT_LINK") 1]) [(str "0", [fint 1; fint 0; fint 0; fint 0]); (str "1", [dec (95) 100; dec (2) 100; dec (2) 100; dec (1) 100]); (str "2", [dec (98) 100; fint 0; dec (2) 100; fint 0]); (str "3", [dec (99) 100; fint 0; dec (1) 100; fint 0]); (str "4", [dec (5) 10; dec (22) 100; dec (21) 100; dec (7) 100]); (str "5", [dec (5) 10; dec (21) 100; dec (22) 100; dec (7) 100]); (str "6", [dec (1) 100; dec (1) 100; dec (1) 100; dec (97) 100]); (str "7", [fint 0; dec (1) 100; fint 0; dec (99) 100]); (str "8", [fint 0; fint 0; fint 0; fint 1])] (Some (3%Z))) = true /\
  gives (result (hierarchical_run (str "ward") (manager [str "0"; str "1"; str "2"; str "3"; str "4"; str "5"; str "6"; str "7"; str "8"] [CallAddConstraint (str "0") (str "1") (str "MUST_LINK") 1; CallAddConstraint (str "0") (str "6") (str "MUST_LINK") 1; CallAddConstraint (str "0") (str "7") (str "MUST_LINK") 1; CallAddConstraint (str "0") (str "8") (str "MUST_LINK") 1; CallAddConstraint (str "4") (str "5") (str "MUST_LINK") 1; CallAddConstraint (str "0") (str "4") (str "CANNOT_LINK") 1; CallAddConstraint (str "2") (str "4") (str "CANNOT_LINK") 1]) [(str "0", [fint 1; fint 0; fint 0; fint 0]); (str "1", [dec (95) 100; dec (2) 100; dec (2) 100; dec (1) 100]); (str "2", [dec (98) 100; fint 0; dec (2) 100; fint 0]); (str "3", [dec (99) 100; fint 0; dec (1) 100; fint 0]); (str "4", [dec (5) 10; dec (22) 100; dec (21) 100; dec (7) 100]); (str "5", [dec (5) 10; dec (21) 100; dec (22) 100; dec (7) 100]); (str "6", [dec (1) 100; dec (1) 100; dec (1) 100; dec (97) 100]); (str "7", [fint 0; dec (1) 100; fint 0; dec (99) 100]); (str "8", [fint 0; fint 0; fint 0; fint 1])] (Some (3%Z)))) [(str "0", 0%Z); (str "1", 0%Z); (str "2", 1%Z); (str "3", 1%Z); (str "4", 2%Z); (str "5", 2%Z); (str "6", 0%Z); (str "7", 0%Z); (str "8", 0%Z)].
Proof. vm_compute. repeat split. Qed.

(** clustering/test_hierarchical.py:492-542 *)
Example test_HierarchicalConstrainedClustering_cluster_with_full_constraints :
  succeeds (answer (manager [str "0"; str "1"; str "2"; str "3"; str "4"; str "5"; str "6"; str "7"; str "8"] []) (CallAddConstraint (str "0") (str "4") (str "MUST_LINK") 1)) = true /\
  succeeds (answer (manager [str "0"; str "1"; str "2"; str "3"; str "4"; str "5"; str "6"; str "7"; str "8"] [CallAddConstraint (str "0") (str "4") (str "MUST_LINK") 1]) (CallAddConstraint (str "0") (str "8") (str "MUST_LINK") 1)) = true /\
  succeeds (answer (manager [str "0"; str "1"; str "2"; str "3"; str "4"; str "5"; str "6"; str "7"; str "8"] [CallAddConstraint (str "0") (str "4") (str "MUST_LINK") 1; CallAddConstraint (str "0") (str "8") (str "MUST_LINK") 1]) (CallAddConstraint (str "1") (str "5") (str "MUST_LINK") 1)) = true /\
  succeeds (answer (manager [str "0"; str "1"; str "2"; str "3"; str "4"; str "5"; str "6"; str "7"; str "8"] [CallAddConstraint (str "0") (str "4") (str "MUST_LINK") 1; CallAddConstraint (str "0") (str "8") (str "MUST_LINK") 1; CallAddConstraint (str "1") (str "5") (str "MUST_LINK") 1]) (CallAddConstraint (str "2") (str "6") (str "MUST_LINK") 1)) = true /\
  succeeds (answer (manager [str "0"; str "1"; str "2"; str "3"; str "4"; str "5"; str "6"; str "7"; str "8"] [CallAddConstraint (str "0") (str "4") (str "MUST_LINK") 1; CallAddConstraint (str "0") (str "8") (str "MUST_LINK") 1; CallAddConstraint (str "1") (str "5") (str "MUST_LINK") 1; CallAddConstraint (str "2") (str "6") (str "MUST_LINK") 1]) (CallAddConstraint (str "3") (str "7") (str "MUST_LINK") 1)) = true /\
  succeeds (answer (manager [str "0"; str "1"; str "2"; str "3"; str "4"; str "5"; str "6"; str "7"; str "8"] [CallAddConstraint (str "0") (str "4") (str "MUST_LINK") 1; CallAddConstraint (str "0") (str "8") (str "MUST_LINK") 1; CallAddConstraint (str "1") (str "5") (str "MUST_LINK") 1; CallAddConstraint (str "2") (str "6") (str "MUST_LINK") 1; CallAddConstraint (str "3") (str "7") (str "MUST_LINK") 1]) (CallAddConstraint (str "0") (str "1") (str "CANNOT_LINK") 1)) = true /\
  succeeds (answer (manager [str "0"; str "1"; str "2"; str "3"; str "4"; str "5"; str "6"; str "7"; str "8"] [CallAddConstraint (str "0") (str "4") (str "MUST_LINK") 1; CallAddConstraint (str "0") (str "8") (str "MUST_LINK") 1; CallAddConstraint (str "1") (str "5") (str "MUST_LINK") 1; CallAddConstraint (str "2") (str "6") (str "MUST_LINK") 1; CallAddConstraint (str "3") (str "7") (str "MUST_LINK") 1; CallAddConstraint (str "0") (str "1") (str "CANNOT_LINK") 1]) (CallAddConstraint (str "0") (str "2") (str "CANNOT_LINK") 1)) = true /\
  succeeds (answer (manager [str "0"; str "1"; str "2"; str "3"; str "4"; str "5"; str "6"; str "7"; str "8"] [CallAddConstraint (str "0") (str "4") (str "MUST_LINK") 1; CallAddConstraint (str "0") (str "8") (str "MUST_LINK") 1; CallAddConstraint (str "1") (str "5") (str "MUST_LINK") 1; CallAddConstraint (str "2") (str "6") (str "MUST_LINK") 1; CallAddConstraint (str "3") (str "7") (str "MUST_LINK") 1; CallAddConstraint (str "0") (str "1") (str "CANNOT_LINK") 1; CallAddConstraint (str "0") (str "2") (str "CANNOT_LINK") 1]) (CallAddConstraint (str "0") (str "3") (str "CANNOT_LINK") 1)) = true /\
  succeeds (answer (manager [str "0"; str "1"; str "2"; str "3"; str "4"; str "5"; str "6"; str "7"; str "8"] [CallAddConstraint (str "0") (str "4") (str "MUST_LINK") 1; CallAddConstraint (str "0") (str "8") (str "MUST_LINK") 1; CallAddConstraint (str "1") (str "5") (str "MUST_LINK") 1; CallAddConstraint (str "2") (str "6") (str "MUST_LINK") 1; CallAddConstraint (str "3") (str "7") (str "MUST_LINK") 1; CallAddConstraint (str "0") (str "1") (str "CANNOT_LINK") 1; CallAddConstraint (str "0") (str "2") (str "CANNOT_LINK") 1; CallAddConstraint (str "0") (str "3") (str "CANNOT_LINK") 1]) (CallAddConstraint (str "1") (str "2") (str "CANNOT_LINK") 1)) = true /\
  succeeds (answer (manager [str "0"; str "1"; str "2"; str "3"; str "4"; str "5"; str "6"; str "7"; str "8"] [CallAddConstraint (str "0") (str "4") (str "MUST_LINK") 1; CallAddConstraint (str "0") (str "8") (str "MUST_LINK") 1; CallAddConstraint (str "1") (str "5") (str "MUST_LINK") 1; CallAddConstraint (str "2") (str "6") (str "MUST_LINK") 1; CallAddConstraint (str "3") (str "7") (str "MUST_LINK") 1; CallAddConstraint (str "0") (str "1") (str "CANNOT_LINK") 1; CallAddConstraint (str "0") (str "2") (str "CANNOT_LINK") 1; CallAddConstraint (str "0") (str "3") (str "CANNOT_LINK") 1; CallAddConstraint (str "1") (str "2") (str "CANNOT_LINK") 1]) (CallAddConstraint (str "1") (str "3") (str "CANNOT_LINK") 1)) = true /\
  succeeds (answer (manager [str "0"; str "1"; str "2"; str "3"; str "4"; str "5"; str "6"; str "7"; str "8"] [CallAddConstraint (str "0") (str "4") (str "MUST_LINK") 1; CallAddConstraint (str "0") (str "8") (str "MUST_LINK") 1; CallAddConstraint (str "1") (str "5") (str "MUST_LINK") 1; CallAddConstraint (str "2") (str "6") (str "MUST_LINK") 1; CallAddConstraint (str "3") (str "7") (str "MUST_LINK") 1; CallAddConstraint (str "0") (str "1") (str "CANNOT_LINK") 1; CallAddConstraint (str "0") (str "2") (str "CANNOT_LINK") 1; CallAddConstraint (str "0") (str "3") (str "CANNOT_LINK") 1; CallAddConstraint (str "1") (str "2") (str "CANNOT_LINK") 1; CallAddConstraint (str "1") (str "3") (str "CANNOT_LINK") 1]) (CallAddConstraint (str "2") (str "3") (str "CANNOT_LINK") 1)) = true /\
  predicted (h_predicted fvec) (hierarchical_run (str "ward") (manager [str "0"; str "1"; str "2"; str "3"; str "4"; str "5"; str "6"; str "7"; str "8"] [CallAddConstraint (str "0") (str "4") (str "MUST_LINK") 1; CallAddConstraint (str "0") (str "8") (str "MUST_LINK") 1; CallAddConstraint (str "1") (str "5") (str "MUST_LINK") 1; CallAddConstraint (str "2") (str "6") (str "MUST_LINK") 1; CallAddConstraint (str "3") (str "7") (str "MUST_LINK") 1; CallAddConstraint (str "0") (str "1") (str "CANNOT_LINK") 1; CallAddConstraint (str "0") (str "2") (str "CANNOT_LINK") 1; CallAddConstraint (str "0") (str "3") (str "CANNOT_LINK") 1; CallAddConstraint (str "1") (str "2") (str "CANNOT_LINK") 1; CallAddConstraint (str "1") (str "3") (str "CANNOT_LINK") 1; CallAddConstraint (str "2") (str "3") (str "CANNOT_LINK") 1]) [(str "0", [fint 1; fint 0; fint 0; fint 0]); (str "1", [dec (95) 100; dec (2) 100; dec (2) 100; dec (1) 100]); (str "2", [dec (98) 100; fint 0; dec (2) 100; fint 0]); (str "3", [dec (99) 100; fint 0; dec (1) 100; fint 0]); (str "4", [dec (5) 10; dec (22) 100; dec (21) 100; dec (7) 100]); (str "5", [dec (5) 10; dec (21) 100; dec (22) 100; dec (7) 100]); (str "6", [dec (1) 100; dec (1) 100; dec (1) 100; dec (97) 100]); (str "7", [fint 0; dec (1) 100; fint 0; dec (99) 100]); (str "8", [fint 0; fint 0; fint 0; fint 1])] (Some (4%Z))) = true /\
  gives (result (hierarchical_run (str "ward") (manager [str "0"; str "1"; str "2"; str "3"; str "4"; str "5"; str "6"; str "7"; str "8"] [CallAddConstraint (str "0") (str "4") (str "MUST_LINK") 1; CallAddConstraint (str "0") (str "8") (str "MUST_LINK") 1; CallAddConstraint (str "1") (str "5") (str "MUST_LINK") 1; CallAddConstraint (str "2") (str "6") (str "MUST_LINK") 1; CallAddConstraint (str "3") (str "7") (str "MUST_LINK") 1; CallAddConstraint (str "0") (str "1") (str "CANNOT_LINK") 1; CallAddConstraint (str "0") (str "2") (str "CANNOT_LINK") 1; CallAddConstraint (str "0") (str "3") (str "CANNOT_LINK") 1; CallAddConstraint (str "1") (str "2") (str "CANNOT_LINK") 1; CallAddConstraint (str "1") (str "3") (str "CANNOT_LINK") 1; CallAddConstraint (str "2") (str "3") (str "CANNOT_LINK") 1]) [(str "0", [fint 1; fint 0; fint 0; fint 0]); (str "1", [dec (95) 100; dec (2) 100; dec (2) 100; dec (1) 100]); (str "2", [dec (98) 100; fint 0; dec (2) 100; fint 0]); (str "3", [dec (99) 100; fint 0; dec (1) 100; fint 0]); (str "4", [dec (5) 10; dec (22) 100; dec (21) 100; dec (7) 100]); (str "5", [dec (5) 10; dec (21) 100; dec (22) 100; dec (7) 100]); (str "6", [dec (1) 100; dec (1) 100; dec (1) 100; dec (97) 100]); (str "7", [fint 0; dec (1) 100; fint 0; dec (99) 100]); (str "8", [fint 0; fint 0; fint 0; fint 1])] (Some (4%Z)))) [(str "0", 0%Z); (str "1", 1%Z); (str "2", 2%Z); (str "3", 3%Z); (str "4", 0%Z); (str "5", 1%Z); (str "6", 2%Z); (str "7", 3%Z); (str "8", 0%Z)].
Proof. vm_compute. repeat split. Qed.

(** clustering/test_hierarchical.py:548-564 *)
Example test_HierarchicalConstrainedClustering_compute_predicted_clusters_without_clustering_tree :
  raises (result (Ok (Hierarchical.compute_predicted_clusters fvec 2%Z (str "size") (fresh_hier fvec)))) ValueError.
Proof. vm_compute. repeat split. Qed.

(** clustering/test_hierarchical.py:570-623 *)
Example test_HierarchicalConstrainedClustering_compute_predicted_clusters_travelling_by_size :
  succeeds (result (hierarchical_run (str "single") (manager [str "00"; str "01"; str "02"; str "03"; str "04"; str "05"; str "06"; str "07"; str "08"; str "09"; str "10"; str "11"] []) [(str "00", [fint 1; fint 0; fint 0]); (str "01", [dec (99) 100; fint 0; fint 0]); (str "02", [dec (97) 100; fint 0; fint 0]); (str "03", [dec (96) 100; fint 0; fint 0]); (str "04", [dec (94) 100; fint 0; fint 0]); (str "05", [dec (93) 100; fint 0; fint 0]); (str "06", [dec (8) 10; dec (8) 10; fint 0]); (str "07", [dec (8) 10; dec (81) 100; fint 0]); (str "08", [fint 0; fint 0; dec (7) 10]); (str "09", [fint 0; fint 0; dec (71) 100]); (str "10", [fint 0; fint 0; dec (99) 100]); (str "11", [fint 0; fint 0; fint 1])] (Some (2%Z)))) = true /\
  gives (result (fail_or (hierarchical_run (str "single") (manager [str "00"; str "01"; str "02"; str "03"; str "04"; str "05"; str "06"; str "07"; str "08"; str "09"; str "10"; str "11"] []) [(str "00", [fint 1; fint 0; fint 0]); (str "01", [dec (99) 100; fint 0; fint 0]); (str "02", [dec (97) 100; fint 0; fint 0]); (str "03", [dec (96) 100; fint 0; fint 0]); (str "04", [dec (94) 100; fint 0; fint 0]); (str "05", [dec (93) 100; fint 0; fint 0]); (str "06", [dec (8) 10; dec (8) 10; fint 0]); (str "07", [dec (8) 10; dec (81) 100; fint 0]); (str "08", [fint 0; fint 0; dec (7) 10]); (str "09", [fint 0; fint 0; dec (71) 100]); (str "10", [fint 0; fint 0; dec (99) 100]); (str "11", [fint 0; fint 0; fint 1])] (Some (2%Z))) (fun s => Ok (Hierarchical.compute_predicted_clusters fvec 4%Z (str "size") (fst s))))) [(str "00", 0%Z); (str "01", 0%Z); (str "02", 0%Z); (str "03", 0%Z); (str "04", 1%Z); (str "05", 1%Z); (str "06", 2%Z); (str "07", 2%Z); (str "08", 3%Z); (str "09", 3%Z); (str "10", 3%Z); (str "11", 3%Z)].
Proof. vm_compute. repeat split. Qed.

(** clustering/test_hierarchical.py:629-702 *)
Example test_HierarchicalConstrainedClustering_compute_predicted_clusters_travelling_by_iteration :
  succeeds (result (hierarchical_run (str "single") (manager [str "00"; str "01"; str "02"; str "03"; str "04"; str "05"; str "06"; str "07"; str "08"; str "09"; str "10"; str "11"] []) [(str "00", [fint 1; fint 0; fint 0]); (str "01", [dec (99) 100; fint 0; fint 0]); (str "02", [dec (97) 100; fint 0; fint 0]); (str "03", [dec (96) 100; fint 0; fint 0]); (str "04", [dec (94) 100; fint 0; fint 0]); (str "05", [dec (93) 100; fint 0; fint 0]); (str "06", [dec (8) 10; dec (8) 10; fint 0]); (str "07", [dec (8) 10; dec (81) 100; fint 0]); (str "08", [fint 0; fint 0; dec (7) 10]); (str "09", [fint 0; fint 0; dec (71) 100]); (str "10", [fint 0; fint 0; dec (99) 100]); (str "11", [fint 0; fint 0; fint 1])] (Some (2%Z)))) = true /\
  gives (result (fail_or (hierarchical_run (str "single") (manager [str "00"; str "01"; str "02"; str "03"; str "04"; str "05"; str "06"; str "07"; str "08"; str "09"; str "10"; str "11"] []) [(str "00", [fint 1; fint 0; fint 0]); (str "01", [dec (99) 100; fint 0; fint 0]); (str "02", [dec (97) 100; fint 0; fint 0]); (str "03", [dec (96) 100; fint 0; fint 0]); (str "04", [dec (94) 100; fint 0; fint 0]); (str "05", [dec (93) 100; fint 0; fint 0]); (str "06", [dec (8) 10; dec (8) 10; fint 0]); (str "07", [dec (8) 10; dec (81) 100; fint 0]); (str "08", [fint 0; fint 0; dec (7) 10]); (str "09", [fint 0; fint 0; dec (71) 100]); (str "10", [fint 0; fint 0; dec (99) 100]); (str "11", [fint 0; fint 0; fint 1])] (Some (2%Z))) (fun s => Ok (Hierarchical.compute_predicted_clusters fvec 4%Z (str "iteration") (fst s))))) [(str "00", 0%Z); (str "01", 0%Z); (str "02", 0%Z); (str "03", 0%Z); (str "04", 0%Z); (str "05", 0%Z); (str "06", 1%Z); (str "07", 1%Z); (str "08", 2%Z); (str "09", 2%Z); (str "10", 3%Z); (str "11", 3%Z)] /\
  gives (result (fail_or (hierarchical_run (str "single") (manager [str "00"; str "01"; str "02"; str "03"; str "04"; str "05"; str "06"; str "07"; str "08"; str "09"; str "10"; str "11"] []) [(str "00", [fint 1; fint 0; fint 0]); (str "01", [dec (99) 100; fint 0; fint 0]); (str "02", [dec (97) 100; fint 0; fint 0]); (str "03", [dec (96) 100; fint 0; fint 0]); (str "04", [dec (94) 100; fint 0; fint 0]); (str "05", [dec (93) 100; fint 0; fint 0]); (str "06", [dec (8) 10; dec (8) 10; fint 0]); (str "07", [dec (8) 10; dec (81) 100; fint 0]); (str "08", [fint 0; fint 0; dec (7) 10]); (str "09", [fint 0; fint 0; dec (71) 100]); (str "10", [fint 0; fint 0; dec (99) 100]); (str "11", [fint 0; fint 0; fint 1])] (Some (2%Z))) (fun s => Ok (Hierarchical.compute_predicted_clusters fvec 99%Z (str "iteration") (fst s))))) [(str "00", 0%Z); (str "01", 1%Z); (str "02", 2%Z); (str "03", 3%Z); (str "04", 4%Z); (str "05", 5%Z); (str "06", 6%Z); (str "07", 7%Z); (str "08", 8%Z); (str "09", 9%Z); (str "10", 10%Z); (str "11", 11%Z)].
Proof. vm_compute. repeat split. Qed.

(** clustering/test_hierarchical.py:708-785 *)
Example test_HierarchicalConstrainedClustering_cluster_with_break_loop :
  succeeds (answer (manager [str "0"; str "1"; str "2"; str "3"; str "4"; str "5"; str "6"; str "7"; str "8"] []) (CallAddConstraint (str "0") (str "1") (str "CANNOT_LINK") 1)) = true /\
  succeeds (answer (manager [str "0"; str "1"; str "2"; str "3"; str "4"; str "5"; str "6"; str "7"; str "8"] [CallAddConstraint (str "0") (str "1") (str "CANNOT_LINK") 1]) (CallAddConstraint (str "0") (str "2") (str "CANNOT_LINK") 1)) = true /\
  succeeds (answer (manager [str "0"; str "1"; str "2"; str "3"; str "4"; str "5"; str "6"; str "7"; str "8"] [CallAddConstraint (str "0") (str "1") (str "CANNOT_LINK") 1; CallAddConstraint (str "0") (str "2") (str "CANNOT_LINK") 1]) (CallAddConstraint (str "0") (str "3") (str "CANNOT_LINK") 1)) = true /\
  succeeds (answer (manager [str "0"; str "1"; str "2"; str "3"; str "4"; str "5"; str "6"; str "7"; str "8"] [CallAddConstraint (str "0") (str "1") (str "CANNOT_LINK") 1; CallAddConstraint (str "0") (str "2") (str "CANNOT_LINK") 1; CallAddConstraint (str "0") (str "3") (str "CANNOT_LINK") 1]) (CallAddConstraint (str "0") (str "4") (str "CANNOT_LINK") 1)) = true /\
  succeeds (answer (manager [str "0"; str "1"; str "2"; str "3"; str "4"; str "5"; str "6"; str "7"; str "8"] [CallAddConstraint (str "0") (str "1") (str "CANNOT_LINK") 1; CallAddConstraint (str "0") (str "2") (str "CANNOT_LINK") 1; CallAddConstraint (str "0") (str "3") (str "CANNOT_LINK") 1; CallAddConstraint (str "0") (str "4") (str "CANNOT_LINK") 1]) (CallAddConstraint (str "0") (str "5") (str "CANNOT_LINK") 1)) = true /\
  succeeds (answer (manager [str "0"; str "1"; str "2"; str "3"; str "4"; str "5"; str "6"; str "7"; str "8"] [CallAddConstraint (str "0") (str "1") (str "CANNOT_LINK") 1; CallAddConstraint (str "0") (str "2") (str "CANNOT_LINK") 1; CallAddConstraint (str "0") (str "3") (str "CANNOT_LINK") 1; CallAddConstraint (str "0") (str "4") (str "CANNOT_LINK") 1; CallAddConstraint (str "0") (str "5") (str "CANNOT_LINK") 1]) (CallAddConstraint (str "0") (str "6") (str "CANNOT_LINK") 1)) = true /\
  succeeds (answer (manager [str "0"; str "1"; str "2"; str "3"; str "4"; str "5"; str "6"; str "7"; str "8"] [CallAddConstraint (str "0") (str "1") (str "CANNOT_LINK") 1; CallAddConstraint (str "0") (str "2") (str "CANNOT_LINK") 1; CallAddConstraint (str "0") (str "3") (str "CANNOT_LINK") 1; CallAddConstraint (str "0") (str "4") (str "CANNOT_LINK") 1; CallAddConstraint (str "0") (str "5") (str "CANNOT_LINK") 1; CallAddConstraint (str "0") (str "6") (str "CANNOT_LINK") 1]) (CallAddConstraint (str "0") (str "7") (str "CANNOT_LINK") 1)) = true /\
  succeeds (answer (manager [str "0"; str "1"; str "2"; str "3"; str "4"; str "5"; str "6"; str "7"; str "8"] [CallAddConstraint (str "0") (str "1") (str "CANNOT_LINK") 1; CallAddConstraint (str "0") (str "2") (str "CANNOT_LINK") 1; CallAddConstraint (str "0") (str "3") (str "CANNOT_LINK") 1; CallAddConstraint (str "0") (str "4") (str "CANNOT_LINK") 1; CallAddConstraint (str "0") (str "5") (str "CANNOT_LINK") 1; CallAddConstraint (str "0") (str "6") (str "CANNOT_LINK") 1; CallAddConstraint (str "0") (str "7") (str "CANNOT_LINK") 1]) (CallAddConstraint (str "0") (str "8") (str "CANNOT_LINK") 1)) = true /\
  succeeds (answer (manager [str "0"; str "1"; str "2"; str "3"; str "4"; str "5"; str "6"; str "7"; str "8"] [CallAddConstraint (str "0") (str "1") (str "CANNOT_LINK") 1; CallAddConstraint (str "0") (str "2") (str "CANNOT_LINK") 1; CallAddConstraint (str "0") (str "3") (str "CANNOT_LINK") 1; CallAddConstraint (str "0") (str "4") (str "CANNOT_LINK") 1; CallAddConstraint (str "0") (str "5") (str "CANNOT_LINK") 1; CallAddConstraint (str "0") (str "6") (str "CANNOT_LINK") 1; CallAddConstraint (str "0") (str "7") (str "CANNOT_LINK") 1; CallAddConstraint (str "0") (str "8") (str "CANNOT_LINK") 1]) (CallAddConstraint (str "1") (str "2") (str "CANNOT_LINK") 1)) = true /\
  succeeds (answer (manager [str "0"; str "1"; str "2"; str "3"; str "4"; str "5"; str "6"; str "7"; str "8"] [CallAddConstraint (str "0") (str "1") (str "CANNOT_LINK") 1; CallAddConstraint (str "0") (str "2") (str "CANNOT_LINK") 1; CallAddConstraint (str "0") (str "3") (str "CANNOT_LINK") 1; CallAddConstraint (str "0") (str "4") (str "CANNOT_LINK") 1; CallAddConstraint (str "0") (str "5") (str "CANNOT_LINK") 1; CallAddConstraint (str "0") (str "6") (str "CANNOT_LINK") 1; CallAddConstraint (str "0") (str "7") (str "CANNOT_LINK") 1; CallAddConstraint (str "0") (str "8") (str "CANNOT_LINK") 1; CallAddConstraint (str "1") (str "2") (str "CANNOT_LINK") 1]) (CallAddConstraint (str "1") (str "3") (str "CANNOT_LINK") 1)) = true /\
  succeeds (answer (manager [str "0"; str "1"; str "2"; str "3"; str "4"; str "5"; str "6"; str "7"; str "8"] [CallAddConstraint (str "0") (str "1") (str "CANNOT_LINK") 1; CallAddConstraint (str "0") (str "2") (str "CANNOT_LINK") 1; CallAddConstraint (str "0") (str "3") (str "CANNOT_LINK") 1; CallAddConstraint (str "0") (str "4") (str "CANNOT_LINK") 1; CallAddConstraint (str "0") (str "5") (str "CANNOT_LINK") 1; CallAddConstraint (str "0") (str "6") (str "CANNOT_LINK") 1; CallAddConstraint (str "0") (str "7") (str "CANNOT_LINK") 1; CallAddConstraint (str "0") (str "8") (str "CANNOT_LINK") 1; CallAddConstraint (str "1") (str "2") (str "CANNOT_LINK") 1; CallAddConstraint (str "1") (str "3") (str "CANNOT_LINK") 1]) (CallAddConstraint (str "1") (str "4") (str "CANNOT_LINK") 1)) = true /\
  succeeds (answer (manager [str "0"; str "1"; str "2"; str "3"; str "4"; str "5"; str "6"; str "7"; str "8"] [CallAddConstraint (str "0") (str "1") (str "CANNOT_LINK") 1; CallAddConstraint (str "0") (str "2") (str "CANNOT_LINK") 1; CallAddConstraint (str "0") (str "3") (str "CANNOT_LINK") 1; CallAddConstraint (str "0") (str "4") (str "CANNOT_LINK") 1; CallAddConstraint (str "0") (str "5") (str "CANNOT_LINK") 1; CallAddConstraint (str "0") (str "6") (str "CANNOT_LINK") 1; CallAddConstraint (str "0") (str "7") (str "CANNOT_LINK") 1; CallAddConstraint (str "0") (str "8") (str "CANNOT_LINK") 1; CallAddConstraint (str "1") (str "2") (str "CANNOT_LINK") 1; CallAddConstraint (str "1") (str "3") (str "CANNOT_LINK") 1; CallAddConstraint (str "1") (str "4") (str "CANNOT_LINK") 1]) (CallAddConstraint (str "1") (str "5") (str "CANNOT_LINK") 1)) = true /\
  succeeds (answer (manager [str "0"; str "1"; str "2"; str "3"; str "4"; str "5"; str "6"; str "7"; str "8"] [CallAddConstraint (str "0") (str "1") (str "CANNOT_LINK") 1; CallAddConstraint (str "0") (str "2") (str "CANNOT_LINK") 1; CallAddConstraint (str "0") (str "3") (str "CANNOT_LINK") 1; CallAddConstraint (str "0") (str "4") (str "CANNOT_LINK") 1; CallAddConstraint (str "0") (str "5") (str "CANNOT_LINK") 1; CallAddConstraint (str "0") (str "6") (str "CANNOT_LINK") 1; CallAddConstraint (str "0") (str "7") (str "CANNOT_LINK") 1; CallAddConstraint (str "0") (str "8") (str "CANNOT_LINK") 1; CallAddConstraint (str "1") (str "2") (str "CANNOT_LINK") 1; CallAddConstraint (str "1") (str "3") (str "CANNOT_LINK") 1; CallAddConstraint (str "1") (str "4") (str "CANNOT_LINK") 1; CallAddConstraint (str "1") (str "5") (str "CANNOT_LINK") 1]) (CallAddConstraint (str "1") (str "6") (str "CANNOT_LINK") 1)) = true /\
  succeeds (answer (manager [str "0"; str "1"; str "2"; str "3"; str "4"; str "5"; str "6"; str "7"; str "8"] [CallAddConstraint (str "0") (str "1") (str "CANNOT_LINK") 1; CallAddConstraint (str "0") (str "2") (str "CANNOT_LINK") 1; CallAddConstraint (str "0") (str "3") (str "CANNOT_LINK") 1; CallAddConstraint (str "0") (str "4") (str "CANNOT_LINK") 1; CallAddConstraint (str "0") (str "5") (str "CANNOT_LINK") 1; CallAddConstraint (str "0") (str "6") (str "CANNOT_LINK") 1; CallAddConstraint (str "0") (str "7") (str "CANNOT_LINK") 1; CallAddConstraint (str "0") (str "8") (str "CANNOT_LINK") 1; CallAddConstraint (str "1") (str "2") (str "CANNOT_LINK") 1; CallAddConstraint (str "1") (str "3") (str "CANNOT_LINK") 1; CallAddConstraint (str "1") (str "4") (str "CANNOT_LINK") 1; CallAddConstraint (str "1") (str "5") (str "CANNOT_LINK") 1; CallAddConstraint (str "1") (str "6") (str "CANNOT_LINK") 1]) (CallAddConstraint (str "1") (str "7") (str "CANNOT_LINK") 1)) = true /\
  succeeds (answer (manager [str "0"; str "1"; str "2"; str "3"; str "4"; str "5"; str "6"; str "7"; str "8"] [CallAddConstraint (str "0") (str "1") (str "CANNOT_LINK") 1; CallAddConstraint (str "0") (str "2") (str "CANNOT_LINK") 1; CallAddConstraint (str "0") (str "3") (str "CANNOT_LINK") 1; CallAddConstraint (str "0") (str "4") (str "CANNOT_LINK") 1; CallAddConstraint (str "0") (str "5") (str "CANNOT_LINK") 1; CallAddConstraint (str "0") (str "6") (str "CANNOT_LINK") 1; CallAddConstraint (str "0") (str "7") (str "CANNOT_LINK") 1; CallAddConstraint (str "0") (str "8") (str "CANNOT_LINK") 1; CallAddConstraint (str "1") (str "2") (str "CANNOT_LINK") 1; CallAddConstraint (str "1") (str "3") (str "CANNOT_LINK") 1; CallAddConstraint (str "1") (str "4") (str "CANNOT_LINK") 1; CallAddConstraint (str "1") (str "5") (str "CANNOT_LINK") 1; CallAddConstraint (str "1") (str "6") (str "CANNOT_LINK") 1; CallAddConstraint (str "1") (str "7") (str "CANNOT_LINK") 1]) (CallAddConstraint (str "1") (str "8") (str "CANNOT_LINK") 1)) = true /\
  succeeds (answer (manager [str "0"; str "1"; str "2"; str "3"; str "4"; str "5"; str "6"; str "7"; str "8"] [CallAddConstraint (str "0") (str "1") (str "CANNOT_LINK") 1; CallAddConstraint (str "0") (str "2") (str "CANNOT_LINK") 1; CallAddConstraint (str "0") (str "3") (str "CANNOT_LINK") 1; CallAddConstraint (str "0") (str "4") (str "CANNOT_LINK") 1; CallAddConstraint (str "0") (str "5") (str "CANNOT_LINK") 1; CallAddConstraint (str "0") (str "6") (str "CANNOT_LINK") 1; CallAddConstraint (str "0") (str "7") (str "CANNOT_LINK") 1; CallAddConstraint (str "0") (str "8") (str "CANNOT_LINK") 1; CallAddConstraint (str "1") (str "2") (str "CANNOT_LINK") 1; CallAddConstraint (str "1") (str "3") (str "CANNOT_LINK") 1; CallAddConstraint (str "1") (str "4") (str "CANNOT_LINK") 1; CallAddConstraint (str "1") (str "5") (str "CANNOT_LINK") 1; CallAddConstraint (str "1") (str "6") (str "CANNOT_LINK") 1; CallAddConstraint (str "1") (str "7") (str "CANNOT_LINK") 1; CallAddConstraint (str "1") (str "8") (str "CANNOT_LINK") 1]) (CallAddConstraint (str "2") (str "3") (str "CANNOT_LINK") 1)) = true /\
  succeeds (answer (manager [str "0"; str "1"; str "2"; str "3"; str "4"; str "5"; str "6"; str "7"; str "8"] [CallAddConstraint (str "0") (str "1") (str "CANNOT_LINK") 1; CallAddConstraint (str "0") (str "2") (str "CANNOT_LINK") 1; CallAddConstraint (str "0") (str "3") (str "CANNOT_LINK") 1; CallAddConstraint (str "0") (str "4") (str "CANNOT_LINK") 1; CallAddConstraint (str "0") (str "5") (str "CANNOT_LINK") 1; CallAddConstraint (str "0") (str "6") (str "CANNOT_LINK") 1; CallAddConstraint (str "0") (str "7") (str "CANNOT_LINK") 1; CallAddConstraint (str "0") (str "8") (str "CANNOT_LINK") 1; CallAddConstraint (str "1") (str "2") (str "CANNOT_LINK") 1; CallAddConstraint (str "1") (str "3") (str "CANNOT_LINK") 1; CallAddConstraint (str "1") (str "4") (str "CANNOT_LINK") 1; CallAddConstraint (str "1") (str "5") (str "CANNOT_LINK") 1; CallAddConstraint (str "1") (str "6") (str "CANNOT_LINK") 1; CallAddConstraint (str "1") (str "7") (str "CANNOT_LINK") 1; CallAddConstraint (str "1") (str "8") (str "CANNOT_LINK") 1; CallAddConstraint (str "2") (str "3") (str "CANNOT_LINK") 1]) (CallAddConstraint (str "2") (str "4") (str "CANNOT_LINK") 1)) = true /\
  succeeds (answer (manager [str "0"; str "1"; str "2"; str "3"; str "4"; str "5"; str "6"; str "7"; str "8"] [CallAddConstraint (str "0") (str "1") (str "CANNOT_LINK") 1; CallAddConstraint (str "0") (str "2") (str "CANNOT_LINK") 1; CallAddConstraint (str "0") (str "3") (str "CANNOT_LINK") 1; CallAddConstraint (str "0") (str "4") (str "CANNOT_LINK") 1; CallAddConstraint (str "0") (str "5") (str "CANNOT_LINK") 1; CallAddConstraint (str "0") (str "6") (str "CANNOT_LINK") 1; CallAddConstraint (str "0") (str "7") (str "CANNOT_LINK") 1; CallAddConstraint (str "0") (str "8") (str "CANNOT_LINK") 1; CallAddConstraint (str "1") (str "2") (str "CANNOT_LINK") 1; CallAddConstraint (str "1") (str "3") (str "CANNOT_LINK") 1; CallAddConstraint (str "1") (str "4") (str "CANNOT_LINK") 1; CallAddConstraint (str "1") (str "5") (str "CANNOT_LINK") 1; CallAddConstraint (str "1") (str "6") (str "CANNOT_LINK") 1; CallAddConstraint (str "1") (str "7") (str "CANNOT_LINK") 1; CallAddConstraint (str "1") (str "8") (str "CANNOT_LINK") 1; CallAddConstraint (str "2") (str "3") (str "CANNOT_LINK") 1; CallAddConstraint (str "2") (str "4") (str "CANNOT_LINK") 1]) (CallAddConstraint (str "2") (str "5") (str "CANNOT_LINK") 1)) = true /\
  succeeds (answer (manager [str "0"; str "1"; str "2"; str "3"; str "4"; str "5"; str "6"; str "7"; str "8"] [CallAddConstraint (str "0") (str "1") (str "CANNOT_LINK") 1; CallAddConstraint (str "0") (str "2") (str "CANNOT_LINK") 1; CallAddConstraint (str "0") (str "3") (str "CANNOT_LINK") 1; CallAddConstraint (str "0") (str "4") (str "CANNOT_LINK") 1; CallAddConstraint (str "0") (str "5") (str "CANNOT_LINK") 1; CallAddConstraint (str "0") (str "6") (str "CANNOT_LINK") 1; CallAddConstraint (str "0") (str "7") (str "CANNOT_LINK") 1; CallAddConstraint (str "0") (str "8") (str "CANNOT_LINK") 1; CallAddConstraint (str "1") (str "2") (str "CANNOT_LINK") 1; CallAddConstraint (str "1") (str "3") (str "CANNOT_LINK") 1; CallAddConstraint (str "1") (str "4") (str "CANNOT_LINK") 1; CallAddConstraint (str "1") (str "5") (str "CANNOT_LINK") 1; CallAddConstraint (str "1") (str "6") (str "CANNOT_LINK") 1; CallAddConstraint (str "1") (str "7") (str "CANNOT_LINK") 1; CallAddConstraint (str "1") (str "8") (str "CANNOT_LINK") 1; CallAddConstraint (str "2") (str "3") (str "CANNOT_LINK") 1; CallAddConstraint (str "2") (str "4") (str "CANNOT_LINK") 1; CallAddConstraint (str "2") (str "5") (str "CANNOT_LINK") 1]) (CallAddConstraint (str "2") (str "6") (str "CANNOT_LINK") 1)) = true /\
  succeeds (answer (manager [str "0"; str "1"; str "2"; str "3"; str "4"; str "5"; str "6"; str "7"; str "8"] [CallAddConstraint (str "0") (str "1") (str "CANNOT_LINK") 1; CallAddConstraint (str "0") (str "2") (str "CANNOT_LINK") 1; CallAddConstraint (str "0") (str "3") (str "CANNOT_LINK") 1; CallAddConstraint (str "0") (str "4") (str "CANNOT_LINK") 1; CallAddConstraint (str "0") (str "5") (str "CANNOT_LINK") 1; CallAddConstraint (str "0") (str "6") (str "CANNOT_LINK") 1; CallAddConstraint (str "0") (str "7") (str "CANNOT_LINK") 1; CallAddConstraint (str "0") (str "8") (str "CANNOT_LINK") 1; CallAddConstraint (str "1") (str "2") (str "CANNOT_LINK") 1; CallAddConstraint (str "1") (str "3") (str "CANNOT_LINK") 1; CallAddConstraint (str "1") (str "4") (str "CANNOT_LINK") 1; CallAddConstraint (str "1") (str "5") (str "CANNOT_LINK") 1; CallAddConstraint (str "1") (str "6") (str "CANNOT_LINK") 1; CallAddConstraint (str "1") (str "7") (str "CANNOT_LINK") 1; CallAddConstraint (str "1") (str "8") (str "CANNOT_LINK") 1; CallAddConstraint (str "2") (str "3") (str "CANNOT_LINK") 1; CallAddConstraint (str "2") (str "4") (str "CANNOT_LINK") 1; CallAddConstraint (str "2") (str "5") (str "CANNOT_LINK") 1; CallAddConstraint (str "2") (str "6") (str "CANNOT_LINK") 1]) (CallAddConstraint (str "2") (str "7") (str "CANNOT_LINK") 1)) = true /\
  succeeds (answer (manager [str "0"; str "1"; str "2"; str "3"; str "4"; str "5"; str "6"; str "7"; str "8"] [CallAddConstraint (str "0") (str "1") (str "CANNOT_LINK") 1; CallAddConstraint (str "0") (str "2") (str "CANNOT_LINK") 1; CallAddConstraint (str "0") (str "3") (str "CANNOT_LINK") 1; CallAddConstraint (str "0") (str "4") (str "CANNOT_LINK") 1; CallAddConstraint (str "0") (str "5") (str "CANNOT_LINK") 1; CallAddConstraint (str "0") (str "6") (str "CANNOT_LINK") 1; CallAddConstraint (str "0") (str "7") (str "CANNOT_LINK") 1; CallAddConstraint (str "0") (str "8") (str "CANNOT_LINK") 1; CallAddConstraint (str "1") (str "2") (str "CANNOT_LINK") 1; CallAddConstraint (str "1") (str "3") (str "CANNOT_LINK") 1; CallAddConstraint (str "1") (str "4") (str "CANNOT_LINK") 1; CallAddConstraint (str "1") (str "5") (str "CANNOT_LINK") 1; CallAddConstraint (str "1") (str "6") (str "CANNOT_LINK") 1; CallAddConstraint (str "1") (str "7") (str "CANNOT_LINK") 1; CallAddConstraint (str "1") (str "8") (str "CANNOT_LINK") 1; CallAddConstraint (str "2") (str "3") (str "CANNOT_LINK") 1; CallAddConstraint (str "2") (str "4") (str "CANNOT_LINK") 1; CallAddConstraint (str "2") (str "5") (str "CANNOT_LINK") 1; CallAddConstraint (str "2") (str "6") (str "CANNOT_LINK") 1; CallAddConstraint (str "2") (str "7") (str "CANNOT_LINK") 1]) (CallAddConstraint (str "2") (str "8") (str "CANNOT_LINK") 1)) = true /\
  succeeds (answer (manager [str "0"; str "1"; str "2"; str "3"; str "4"; str "5"; str "6"; str "7"; str "8"] [CallAddConstraint (str "0") (str "1") (str "CANNOT_LINK") 1; CallAddConstraint (str "0") (str "2") (str "CANNOT_LINK") 1; CallAddConstraint (str "0") (str "3") (str "CANNOT_LINK") 1; CallAddConstraint (str "0") (str "4") (str "CANNOT_LINK") 1; CallAddConstraint (str "0") (str "5") (str "CANNOT_LINK") 1; CallAddConstraint (str "0") (str "6") (str "CANNOT_LINK") 1; CallAddConstraint (str "0") (str "7") (str "CANNOT_LINK") 1; CallAddConstraint (str "0") (str "8") (str "CANNOT_LINK") 1; CallAddConstraint (str "1") (str "2") (str "CANNOT_LINK") 1; CallAddConstraint (str "1") (str "3") (str "CANNOT_LINK") 1; CallAddConstraint (str "1") (str "4") (str "CANNOT_LINK") 1; CallAddConstraint (str "1") (str "5") (str "CANNOT_LINK") 1; CallAddConstraint (str "1") (str "6") (str "CANNOT_LINK") 1; CallAddConstraint (str "1") (str "7") (str "CANNOT_LINK") 1; CallAddConstraint (str "1") (str "8") (str "CANNOT_LINK") 1; CallAddConstraint (str "2") (str "3") (str "CANNOT_LINK") 1; CallAddConstraint (str "2") (str "4") (str "CANNOT_LINK") 1; CallAddConstraint (str "2") (str "5") (str "CANNOT_LINK") 1; CallAddConstraint (str "2") (str "6") (str "CANNOT_LINK") 1; CallAddConstraint (str "2") (str "7") (str "CANNOT_LINK") 1; CallAddConstraint (str "2") (str "8") (str "CANNOT_LINK") 1]) (CallAddConstraint (str "3") (str "4") (str "CANNOT_LINK") 1)) = true /\
  succeeds (answer (manager [str "0"; str "1"; str "2"; str "3"; str "4"; str "5"; str "6"; str "7"; str "8"] [CallAddConstraint (str "0") (str "1") (str "CANNOT_LINK") 1; CallAddConstraint (str "0") (str "2") (str "CANNOT_LINK") 1; CallAddConstraint (str "0") (str "3") (str "CANNOT_LINK") 1; CallAddConstraint (str "0") (str "4") (str "CANNOT_LINK") 1; CallAddConstraint (str "0") (str "5") (str "CANNOT_LINK") 1; CallAddConstraint (str "0") (str "6") (str "CANNOT_LINK") 1; CallAddConstraint (str "0") (str "7") (str "CANNOT_LINK") 1; CallAddConstraint (str "0") (str "8") (str "CANNOT_LINK") 1; CallAddConstraint (str "1") (str "2") (str "CANNOT_LINK") 1; CallAddConstraint (str "1") (str "3") (str "CANNOT_LINK") 1; CallAddConstraint (str "1") (str "4") (str "CANNOT_LINK") 1; CallAddConstraint (str "1") (str "5") (str "CANNOT_LINK") 1; CallAddConstraint (str "1") (str "6") (str "CANNOT_LINK") 1; CallAddConstraint (str "1") (str "7") (str "CANNOT_LINK") 1; CallAddConstraint (str "1") (str "8") (str "CANNOT_LINK") 1; CallAddConstraint (str "2") (str "3") (str "CANNOT_LINK") 1; CallAddConstraint (str "2") (str "4") (str "CANNOT_LINK") 1; CallAddConstraint (str "2") (str "5") (str "CANNOT_LINK") 1; CallAddConstraint (str "2") (str "6") (str "CANNOT_LINK") 1; CallAddConstraint (str "2") (str "7") (str "CANNOT_LINK") 1; CallAddConstraint (str "2") (str "8") (str "CANNOT_LINK") 1; CallAddConstraint (str "3") (str "4") (str "CANNOT_LINK") 1]) (CallAddConstraint (str "3") (str "5") (str "CANNOT_LINK") 1)) = true /\
  succeeds (answer (manager [str "0"; str "1"; str "2"; str "3"; str "4"; str "5"; str "6"; str "7"; str "8"] [CallAddConstraint (str "0") (str "1") (str "CANNOT_LINK") 1; CallAddConstraint (str "0") (str "2") (str "CANNOT_LINK") 1; CallAddConstraint (str "0") (str "3") (str "CANNOT_LINK") 1; CallAddConstraint (str "0") (str "4") (str "CANNOT_LINK") 1; CallAddConstraint (str "0") (str "5") (str "CANNOT_LINK") 1; CallAddConstraint (str "0") (str "6") (str "CANNOT_LINK") 1; CallAddConstraint (str "0") (str "7") (str "CANNOT_LINK") 1; CallAddConstraint (str "0") (str "8") (str "CANNOT_LINK") 1; CallAddConstraint (str "1") (str "2") (str "CANNOT_LINK") 1; CallAddConstraint (str "1") (str "3") (str "CANNOT_LINK") 1; CallAddConstraint (str "1") (str "4") (str "CANNOT_LINK") 1; CallAddConstraint (str "1") (str "5") (str "CANNOT_LINK") 1; CallAddConstraint (str "1") (str "6") (str "CANNOT_LINK") 1; CallAddConstraint (str "1") (str "7") (str "CANNOT_LINK") 1; CallAddConstraint (str "1") (str "8") (str "CANNOT_LINK") 1; CallAddConstraint (str "2") (str "3") (str "CANNOT_LINK") 1; CallAddConstraint (str "2") (str "4") (str "CANNOT_LINK") 1; CallAddConstraint (str "2") (str "5") (str "CANNOT_LINK") 1; CallAddConstraint (str "2") (str "6") (str "CANNOT_LINK") 1; CallAddConstraint (str "2") (str "7") (str "CANNOT_LINK") 1; CallAddConstraint (str "2") (str "8") (str "CANNOT_LINK") 1; CallAddConstraint (str "3") (str "4") (str "CANNOT_LINK") 1; CallAddConstraint (str "3") (str "5") (str "CANNOT_LINK") 1]) (CallAddConstraint (str "3") (str "6") (str "CANNOT_LINK") 1)) = true /\
  succeeds (answer (manager [str "0"; str "1"; str "2"; str "3"; str "4"; str "5"; str "6"; str "7"; str "8"] [CallAddConstraint (str "0") (str "1") (str "CANNOT_LINK") 1; CallAddConstraint (str "0") (str "2") (str "CANNOT_LINK") 1; CallAddConstraint (str "0") (str "3") (str "CANNOT_LINK") 1; CallAddConstraint (str "0") (str "4") (str "CANNOT_LINK") 1; CallAddConstraint (str "0") (str "5") (str "CANNOT_LINK") 1; CallAddConstraint (str "0") (str "6") (str "CANNOT_LINK") 1; CallAddConstraint (str "0") (str "7") (str "CANNOT_LINK") 1; CallAddConstraint (str "0") (str "8") (str "CANNOT_LINK") 1; CallAddConstraint (str "1") (str "2") (str "CANNOT_LINK") 1; CallAddConstraint (str "1") (str "3") (str "CANNOT_LINK") 1; CallAddConstraint (str "1") (str "4") (str "CANNOT_LINK") 1; CallAddConstraint (str "1") (str "5") (str "CANNOT_LINK") 1; CallAddConstraint (str "1") (str "6") (str "CANNOT_LINK") 1; CallAddConstraint (str "1") (str "7") (str "CANNOT_LINK") 1; CallAddConstraint (str "1") (str "8") (str "CANNOT_LINK") 1; CallAddConstraint (str "2") (str "3") (str "CANNOT_LINK") 1; CallAddConstraint (str "2") (str "4") (str "CANNOT_LINK") 1; CallAddConstraint (str "2") (str "5") (str "CANNOT_LINK") 1; CallAddConstraint (str "2") (str "6") (str "CANNOT_LINK") 1; CallAddConstraint (str "2") (str "7") (str "CANNOT_LINK") 1; CallAddConstraint (str "2") (str "8") (str "CANNOT_LINK") 1; CallAddConstraint (str "3") (str "4") (str "CANNOT_LINK") 1; CallAddConstraint (str "3") (str "5") (str "CANNOT_LINK") 1; CallAddConstraint (str "3") (str "6") (str "CANNOT_LINK") 1]) (CallAddConstraint (str "3") (str "7") (str "CANNOT_LINK") 1)) = true /\
  succeeds (answer (manager [str "0"; str "1"; str "2"; str "3"; str "4"; str "5"; str "6"; str "7"; str "8"] [CallAddConstraint (str "0") (str "1") (str "CANNOT_LINK") 1; CallAddConstraint (str "0") (str "2") (str "CANNOT_LINK") 1; CallAddConstraint (str "0") (str "3") (str "CANNOT_LINK") 1; CallAddConstraint (str "0") (str "4") (str "CANNOT_LINK") 1; CallAddConstraint (str "0") (str "5") (str "CANNOT_LINK") 1; CallAddConstraint (str "0") (str "6") (str "CANNOT_LINK") 1; CallAddConstraint (str "0") (str "7") (str "CANNOT_LINK") 1; CallAddConstraint (str "0") (str "8") (str "CANNOT_LINK") 1; CallAddConstraint (str "1") (str "2") (str "CANNOT_LINK") 1; CallAddConstraint (str "1") (str "3") (str "CANNOT_LINK") 1; CallAddConstraint (str "1") (str "4") (str "CANNOT_LINK") 1; CallAddConstraint (str "1") (str "5") (str "CANNOT_LINK") 1; CallAddConstraint (str "1") (str "6") (str "CANNOT_LINK") 1; CallAddConstraint (str "1") (str "7") (str "CANNOT_LINK") 1; CallAddConstraint (str "1") (str "8") (str "CANNOT_LINK") 1; CallAddConstraint (str "2") (str "3") (str "CANNOT_LINK") 1; CallAddConstraint (str "2") (str "4") (str "CANNOT_LINK") 1; CallAddConstraint (str "2") (str "5") (str "CANNOT_LINK") 1; CallAddConstraint (str "2") (str "6") (str "CANNOT_LINK") 1; CallAddConstraint (str "2") (str "7") (str "CANNOT_LINK") 1; CallAddConstraint (str "2") (str "8") (str "CANNOT_LINK") 1; CallAddConstraint (str "3") (str "4") (str "CANNOT_LINK") 1; CallAddConstraint (str "3") (str "5") (str "CANNOT_LINK") 1; CallAddConstraint (str "3") (str "6") (str "CANNOT_LINK") 1; CallAddConstraint (str "3") (str "7") (str "CANNOT_LINK") 1]) (CallAddConstraint (str "3") (str "8") (str "CANNOT_LINK") 1)) = true /\
  succeeds (answer (manager [str "0"; str "1"; str "2"; str "3"; str "4"; str "5"; str "6"; str "7"; str "8"] [CallAddConstraint (str "0") (str "1") (str "CANNOT_LINK") 1; CallAddConstraint (str "0") (str "2") (str "CANNOT_LINK") 1; CallAddConstraint (str "0") (str "3") (str "CANNOT_LINK") 1; CallAddConstraint (str "0") (str "4") (str "CANNOT_LINK") 1; CallAddConstraint (str "0") (str "5") (str "CANNOT_LINK") 1; CallAddConstraint (str "0") (str "6") (str "CANNOT_LINK") 1; CallAddConstraint (str "0") (str "7") (str "CANNOT_LINK") 1; CallAddConstraint (str "0") (str "8") (str "CANNOT_LINK") 1; CallAddConstraint (str "1") (str "2") (str "CANNOT_LINK") 1; CallAddConstraint (str "1") (str "3") (str "CANNOT_LINK") 1; CallAddConstraint (str "1") (str "4") (str "CANNOT_LINK") 1; CallAddConstraint (str "1") (str "5") (str "CANNOT_LINK") 1; CallAddConstraint (str "1") (str "6") (str "CANNOT_LINK") 1; CallAddConstraint (str "1") (str "7") (str "CANNOT_LINK") 1; CallAddConstraint (str "1") (str "8") (str "CANNOT_LINK") 1; CallAddConstraint (str "2") (str "3") (str "CANNOT_LINK") 1; CallAddConstraint (str "2") (str "4") (str "CANNOT_LINK") 1; CallAddConstraint (str "2") (str "5") (str "CANNOT_LINK") 1; CallAddConstraint (str "2") (str "6") (str "CANNOT_LINK") 1; CallAddConstraint (str "2") (str "7") (str "CANNOT_LINK") 1; CallAddConstraint (str "2") (str "8") (str "CANNOT_LINK") 1; CallAddConstraint (str "3") (str "4") (str "CANNOT_LINK") 1; CallAddConstraint (str "3") (str "5") (str "CANNOT_LINK") 1; CallAddConstraint (str "3") (str "6") (str "CANNOT_LINK") 1; CallAddConstraint (str "3") (str "7") (str "CANNOT_LINK") 1; CallAddConstraint (str "3") (str "8") (str "CANNOT_LINK") 1]) (CallAddConstraint (str "4") (str "5") (str "CANNOT_LINK") 1)) = true /\
  succeeds (answer (manager [str "0"; str "1"; str "2"; str "3"; str "4"; str "5"; str "6"; str "7"; str "8"] [CallAddConstraint (str "0") (str "1") (str "CANNOT_LINK") 1; CallAddConstraint (str "0") (str "2") (str "CANNOT_LINK") 1; CallAddConstraint (str "0") (str "3") (str "CANNOT_LINK") 1; CallAddConstraint (str "0") (str "4") (str "CANNOT_LINK") 1; CallAddConstraint (str "0") (str "5") (str "CANNOT_LINK") 1; CallAddConstraint (str "0") (str "6") (str "CANNOT_LINK") 1; CallAddConstraint (str "0") (str "7") (str "CANNOT_LINK") 1; CallAddConstraint (str "0") (str "8") (str "CANNOT_LINK") 1; CallAddConstraint (str "1") (str "2") (str "CANNOT_LINK") 1; CallAddConstraint (str "1") (str "3") (str "CANNOT_LINK") 1; CallAddConstraint (str "1") (str "4") (str "CANNOT_LINK") 1; CallAddConstraint (str "1") (str "5") (str "CANNOT_LINK") 1; CallAddConstraint (str "1") (str "6") (str "CANNOT_LINK") 1; CallAddConstraint (str "1") (str "7") (str "CANNOT_LINK") 1; CallAddConstraint (str "1") (str "8") (str "CANNOT_LINK") 1; CallAddConstraint (str "2") (str "3") (str "CANNOT_LINK") 1; CallAddConstraint (str "2") (str "4") (str "CANNOT_LINK") 1; CallAddConstraint (str "2") (str "5") (str "CANNOT_LINK") 1; CallAddConstraint (str "2") (str "6") (str "CANNOT_LINK") 1; CallAddConstraint (str "2") (str "7") (str "CANNOT_LINK") 1; CallAddConstraint (str "2") (str "8") (str "CANNOT_LINK") 1; CallAddConstraint (str "3") (str "4") (str "CANNOT_LINK") 1; CallAddConstraint (str "3") (str "5") (str "CANNOT_LINK") 1; CallAddConstraint (str "3") (str "6") (str "CANNOT_LINK") 1; CallAddConstraint (str "3") (str "7") (str "CANNOT_LINK") 1; CallAddConstraint (str "3") (str "8") (str "CANNOT_LINK") 1; CallAddConstraint (str "4") (str "5") (str "CANNOT_LINK") 1]) (CallAddConstraint (str "4") (str "6") (str "CANNOT_LINK") 1)) = true /\
  succeeds (answer (manager [str "0"; str "1"; str "2"; str "3"; str "4"; str "5"; str "6"; str "7"; str "8"] [CallAddConstraint (str "0") (str "1") (str "CANNOT_LINK") 1; CallAddConstraint (str "0") (str "2") (str "CANNOT_LINK") 1; CallAddConstraint (str "0") (str "3") (str "CANNOT_LINK") 1; CallAddConstraint (str "0") (str "4") (str "CANNOT_LINK") 1; CallAddConstraint (str "0") (str "5") (str "CANNOT_LINK") 1; CallAddConstraint (str "0") (str "6") (str "CANNOT_LINK") 1; CallAddConstraint (str "0") (str "7") (str "CANNOT_LINK") 1; CallAddConstraint (str "0") (str "8") (str "CANNOT_LINK") 1; CallAddConstraint (str "1") (str "2") (str "CANNOT_LINK") 1; CallAddConstraint (str "1") (str "3") (str "CANNOT_LINK") 1; CallAddConstraint (str "1") (str "4") (str "CANNOT_LINK") 1; CallAddConstraint (str "1") (str "5") (str "CANNOT_LINK") 1; CallAddConstraint (str "1") (str "6") (str "CANNOT_LINK") 1; CallAddConstraint (str "1") (str "7") (str "CANNOT_LINK") 1; CallAddConstraint (str "1") (str "8") (str "CANNOT_LINK") 1; CallAddConstraint (str "2") (str "3") (str "CANNOT_LINK") 1; CallAddConstraint (str "2") (str "4") (str "CANNOT_LINK") 1; CallAddConstraint (str "2") (str "5") (str "CANNOT_LINK") 1; CallAddConstraint (str "2") (str "6") (str "CANNOT_LINK") 1; CallAddConstraint (str "2") (str "7") (str "CANNOT_LINK") 1; CallAddConstraint (str "2") (str "8") (str "CANNOT_LINK") 1; CallAddConstraint (str "3") (str "4") (str "CANNOT_LINK") 1; CallAddConstraint (str "3") (str "5") (str "CANNOT_LINK") 1; CallAddConstraint (str "3") (str "6") (str "CANNOT_LINK") 1; CallAddConstraint (str "3") (str "7") (str "CANNOT_LINK") 1; CallAddConstraint (str "3") (str "8") (str "CANNOT_LINK") 1; CallAddConstraint (str "4") (str "5") (str "CANNOT_LINK") 1; CallAddConstraint (str "4") (str "6") (str "CANNOT_LINK") 1]) (CallAddConstraint (str "4") (str "7") (str "CANNOT_LINK") 1)) = true /\
  succeeds (answer (manager [str "0"; str "1"; str "2"; str "3"; str "4"; str "5"; str "6"; str "7"; str "8"] [CallAddConstraint (str "0") (str "1") (str "CANNOT_LINK") 1; CallAddConstraint (str "0") (str "2") (str "CANNOT_LINK") 1; CallAddConstraint (str "0") (str "3") (str "CANNOT_LINK") 1; CallAddConstraint (str "0") (str "4") (str "CANNOT_LINK") 1; CallAddConstraint (str "0") (str "5") (str "CANNOT_LINK") 1; CallAddConstraint (str "0") (str "6") (str "CANNOT_LINK") 1; CallAddConstraint (str "0") (str "7") (str "CANNOT_LINK") 1; CallAddConstraint (str "0") (str "8") (str "CANNOT_LINK") 1; CallAddConstraint (str "1") (str "2") (str "CANNOT_LINK") 1; CallAddConstraint (str "1") (str "3") (str "CANNOT_LINK") 1; CallAddConstraint (str "1") (str "4") (str "CANNOT_LINK") 1; CallAddConstraint (str "1") (str "5") (str "CANNOT_LINK") 1; CallAddConstraint (str "1") (str "6") (str "CANNOT_LINK") 1; CallAddConstraint (str "1") (str "7") (str "CANNOT_LINK") 1; CallAddConstraint (str "1") (str "8") (str "CANNOT_LINK") 1; CallAddConstraint (str "2") (str "3") (str "CANNOT_LINK") 1; CallAddConstraint (str "2") (str "4") (str "CANNOT_LINK") 1; CallAddConstraint (str "2") (str "5") (str "CANNOT_LINK") 1; CallAddConstraint (str "2") (str "6") (str "CANNOT_LINK") 1; CallAddConstraint (str "2") (str "7") (str "CANNOT_LINK") 1; CallAddConstraint (str "2") (str "8") (str "CANNOT_LINK") 1; CallAddConstraint (str "3") (str "4") (str "CANNOT_LINK") 1; CallAddConstraint (str "3") (str "5") (str "CANNOT_LINK") 1; CallAddConstraint (str "3") (str "6") (str "CANNOT_LINK") 1; CallAddConstraint (str "3") (str "7") (str "CANNOT_LINK") 1; CallAddConstraint (str "3") (str "8") (str "CANNOT_LINK") 1; CallAddConstraint (str "4") (str "5") (str "CANNOT_LINK") 1; CallAddConstraint (str "4") (str "6") (str "CANNOT_LINK") 1; CallAddConstraint (str "4") (str "7") (str "CANNOT_LINK") 1]) (CallAddConstraint (str "4") (str "8") (str "CANNOT_LINK") 1)) = true /\
  succeeds (answer (manager [str "0"; str "1"; str "2"; str "3"; str "4"; str "5"; str "6"; str "7"; str "8"] [CallAddConstraint (str "0") (str "1") (str "CANNOT_LINK") 1; CallAddConstraint (str "0") (str "2") (str "CANNOT_LINK") 1; CallAddConstraint (str "0") (str "3") (str "CANNOT_LINK") 1; CallAddConstraint (str "0") (str "4") (str "CANNOT_LINK") 1; CallAddConstraint (str "0") (str "5") (str "CANNOT_LINK") 1; CallAddConstraint (str "0") (str "6") (str "CANNOT_LINK") 1; CallAddConstraint (str "0") (str "7") (str "CANNOT_LINK") 1; CallAddConstraint (str "0") (str "8") (str "CANNOT_LINK") 1; CallAddConstraint (str "1") (str "2") (str "CANNOT_LINK") 1; CallAddConstraint (str "1") (str "3") (str "CANNOT_LINK") 1; CallAddConstraint (str "1") (str "4") (str "CANNOT_LINK") 1; CallAddConstraint (str "1") (str "5") (str "CANNOT_LINK") 1; CallAddConstraint (str "1") (str "6") (str "CANNOT_LINK") 1; CallAddConstraint (str "1") (str "7") (str "CANNOT_LINK") 1; CallAddConstraint (str "1") (str "8") (str "CANNOT_LINK") 1; CallAddConstraint (str "2") (str "3") (str "CANNOT_LINK") 1; CallAddConstraint (str "2") (str "4") (str "CANNOT_LINK") 1; CallAddConstraint (str "2") (str "5") (str "CANNOT_LINK") 1; CallAddConstraint (str "2") (str "6") (str "CANNOT_LINK") 1; CallAddConstraint (str "2") (str "7") (str "CANNOT_LINK") 1; CallAddConstraint (str "2") (str "8") (str "CANNOT_LINK") 1; CallAddConstraint (str "3") (str "4") (str "CANNOT_LINK") 1; CallAddConstraint (str "3") (str "5") (str "CANNOT_LINK") 1; CallAddConstraint (str "3") (str "6") (str "CANNOT_LINK") 1; CallAddConstraint (str "3") (str "7") (str "CANNOT_LINK") 1; CallAddConstraint (str "3") (str "8") (str "CANNOT_LINK") 1; CallAddConstraint (str "4") (str "5") (str "CANNOT_LINK") 1; CallAddConstraint (str "4") (str "6") (str "CANNOT_LINK") 1; CallAddConstraint (str "4") (str "7") (str "CANNOT_LINK") 1; CallAddConstraint (str "4") (str "8") (str "CANNOT_LINK") 1]) (CallAddConstraint (str "5") (str "6") (str "CANNOT_LINK") 1)) = true /\
  succeeds (answer (manager [str "0"; str "1"; str "2"; str "3"; str "4"; str "5"; str "6"; str "7"; str "8"] [CallAddConstraint (str "0") (str "1") (str "CANNOT_LINK") 1; CallAddConstraint (str "0") (str "2") (str "CANNOT_LINK") 1; CallAddConstraint (str "0") (str "3") (str "CANNOT_LINK") 1; CallAddConstraint (str "0") (str "4") (str "CANNOT_LINK") 1; CallAddConstraint (str "0") (str "5") (str "CANNOT_LINK") 1; CallAddConstraint (str "0") (str "6") (str "CANNOT_LINK") 1; CallAddConstraint (str "0") (str "7") (str "CANNOT_LINK") 1; CallAddConstraint (str "0") (str "8") (str "CANNOT_LINK") 1; CallAddConstraint (str "1") (str "2") (str "CANNOT_LINK") 1; CallAddConstraint (str "1") (str "3") (str "CANNOT_LINK") 1; CallAddConstraint (str "1") (str "4") (str "CANNOT_LINK") 1; CallAddConstraint (str "1") (str "5") (str "CANNOT_LINK") 1; CallAddConstraint (str "1") (str "6") (str "CANNOT_LINK") 1; CallAddConstraint (str "1") (str "7") (str "CANNOT_LINK") 1; CallAddConstraint (str "1") (str "8") (str "CANNOT_LINK") 1; CallAddConstraint (str "2") (str "3") (str "CANNOT_LINK") 1; CallAddConstraint (str "2") (str "4") (str "CANNOT_LINK") 1; CallAddConstraint (str "2") (str "5") (str "CANNOT_LINK") 1; CallAddConstraint (str "2") (str "6") (str "CANNOT_LINK") 1; CallAddConstraint (str "2") (str "7") (str "CANNOT_LINK") 1; CallAddConstraint (str "2") (str "8") (str "CANNOT_LINK") 1; CallAddConstraint (str "3") (str "4") (str "CANNOT_LINK") 1; CallAddConstraint (str "3") (str "5") (str "CANNOT_LINK") 1; CallAddConstraint (str "3") (str "6") (str "CANNOT_LINK") 1; CallAddConstraint (str "3") (str "7") (str "CANNOT_LINK") 1; CallAddConstraint (str "3") (str "8") (str "CANNOT_LINK") 1; CallAddConstraint (str "4") (str "5") (str "CANNOT_LINK") 1; CallAddConstraint (str "4") (str "6") (str "CANNOT_LINK") 1; CallAddConstraint (str "4") (str "7") (str "CANNOT_LINK") 1; CallAddConstraint (str "4") (str "8") (str "CANNOT_LINK") 1; CallAddConstraint (str "5") (str "6") (str "CANNOT_LINK") 1]) (CallAddConstraint (str "5") (str "7") (str "CANNOT_LINK") 1)) = true /\
  succeeds (answer (manager [str "0"; str "1"; str "2"; str "3"; str "4"; str "5"; str "6"; str "7"; str "8"] [CallAddConstraint (str "0") (str "1") (str "CANNOT_LINK") 1; CallAddConstraint (str "0") (str "2") (str "CANNOT_LINK") 1; CallAddConstraint (str "0") (str "3") (str "CANNOT_LINK") 1; CallAddConstraint (str "0") (str "4") (str "CANNOT_LINK") 1; CallAddConstraint (str "0") (str "5") (str "CANNOT_LINK") 1; CallAddConstraint (str "0") (str "6") (str "CANNOT_LINK") 1; CallAddConstraint (str "0") (str "7") (str "CANNOT_LINK") 1; CallAddConstraint (str "0") (str "8") (str "CANNOT_LINK") 1; CallAddConstraint (str "1") (str "2") (str "CANNOT_LINK") 1; CallAddConstraint (str "1") (str "3") (str "CANNOT_LINK") 1; CallAddConstraint (str "1") (str "4") (str "CANNOT_LINK") 1; CallAddConstraint (str "1") (str "5") (str "CANNOT_LINK") 1; CallAddConstraint (str "1") (str "6") (str "CANNOT_LINK") 1; CallAddConstraint (str "1") (str "7") (str "CANNOT_LINK") 1; CallAddConstraint (str "1") (str "8") (str "CANNOT_LINK") 1; CallAddConstraint (str "2") (str "3") (str "CANNOT_LINK") 1; CallAddConstraint (str "2") (str "4") (str "CANNOT_LINK") 1; CallAddConstraint (str "2") (str "5") (str "CANNOT_LINK") 1; CallAddConstraint (str "2") (str "6") (str "CANNOT_LINK") 1; CallAddConstraint (str "2") (str "7") (str "CANNOT_LINK") 1; CallAddConstraint (str "2") (str "8") (str "CANNOT_LINK") 1; CallAddConstraint (str "3") (str "4") (str "CANNOT_LINK") 1; CallAddConstraint (str "3") (str "5") (str "CANNOT_LINK") 1; CallAddConstraint (str "3") (str "6") (str "CANNOT_LINK") 1; CallAddConstraint (str "3") (str "7") (str "CANNOT_LINK") 1; CallAddConstraint (str "3") (str "8") (str "CANNOT_LINK") 1; CallAddConstraint (str "4") (str "5") (str "CANNOT_LINK") 1; CallAddConstraint (str "4") (str "6") (str "CANNOT_LINK") 1; CallAddConstraint (str "4") (str "7") (str "CANNOT_LINK") 1; CallAddConstraint (str "4") (str "8") (str "CANNOT_LINK") 1; CallAddConstraint (str "5") (str "6") (str "CANNOT_LINK") 1; CallAddConstraint (str "5") (str "7") (str "CANNOT_LINK") 1]) (CallAddConstraint (str "5") (str "8") (str "CANNOT_LINK") 1)) = true /\
  succeeds (answer (manager [str "0"; str "1"; str "2"; str "3"; str "4"; str "5"; str "6"; str "7"; str "8"] [CallAddConstraint (str "0") (str "1") (str "CANNOT_LINK") 1; CallAddConstraint (str "0") (str "2") (str "CANNOT_LINK") 1; CallAddConstraint (str "0") (str "3") (str "CANNOT_LINK") 1; CallAddConstraint (str "0") (str "4") (str "CANNOT_LINK") 1; CallAddConstraint (str "0") (str "5") (str "CANNOT_LINK") 1; CallAddConstraint (str "0") (str "6") (str "CANNOT_LINK") 1; CallAddConstraint (str "0") (str "7") (str "CANNOT_LINK") 1; CallAddConstraint (str "0") (str "8") (str "CANNOT_LINK") 1; CallAddConstraint (str "1") (str "2") (str "CANNOT_LINK") 1; CallAddConstraint (str "1") (str "3") (str "CANNOT_LINK") 1; CallAddConstraint (str "1") (str "4") (str "CANNOT_LINK") 1; CallAddConstraint (str "1") (str "5") (str "CANNOT_LINK") 1; CallAddConstraint (str "1") (str "6") (str "CANNOT_LINK") 1; CallAddConstraint (str "1") (str "7") (str "CANNOT_LINK") 1; CallAddConstraint (str "1") (str "8") (str "CANNOT_LINK") 1; CallAddConstraint (str "2") (str "3") (str "CANNOT_LINK") 1; CallAddConstraint (str "2") (str "4") (str "CANNOT_LINK") 1; CallAddConstraint (str "2") (str "5") (str "CANNOT_LINK") 1; CallAddConstraint (str "2") (str "6") (str "CANNOT_LINK") 1; CallAddConstraint (str "2") (str "7") (str "CANNOT_LINK") 1; CallAddConstraint (str "2") (str "8") (str "CANNOT_LINK") 1; CallAddConstraint (str "3") (str "4") (str "CANNOT_LINK") 1; CallAddConstraint (str "3") (str "5") (str "CANNOT_LINK") 1; CallAddConstraint (str "3") (str "6") (str "CANNOT_LINK") 1; CallAddConstraint (str "3") (str "7") (str "CANNOT_LINK") 1; CallAddConstraint (str "3") (str "8") (str "CANNOT_LINK") 1; CallAddConstraint (str "4") (str "5") (str "CANNOT_LINK") 1; CallAddConstraint (str "4") (str "6") (str "CANNOT_LINK") 1; CallAddConstraint (str "4") (str "7") (str "CANNOT_LINK") 1; CallAddConstraint (str "4") (str "8") (str "CANNOT_LINK") 1; CallAddConstraint (str "5") (str "6") (str "CANNOT_LINK") 1; CallAddConstraint (str "5") (str "7") (str "CANNOT_LINK") 1; CallAddConstraint (str "5") (str "8") (str "CANNOT_LINK") 1]) (CallAddConstraint (str "6") (str "7") (str "CANNOT_LINK") 1)) = true /\
  succeeds (answer (manager [str "0"; str "1"; str "2"; str "3"; str "4"; str "5"; str "6"; str "7"; str "8"] [CallAddConstraint (str "0") (str "1") (str "CANNOT_LINK") 1; CallAddConstraint (str "0") (str "2") (str "CANNOT_LINK") 1; CallAddConstraint (str "0") (str "3") (str "CANNOT_LINK") 1; CallAddConstraint (str "0") (str "4") (str "CANNOT_LINK") 1; CallAddConstraint (str "0") (str "5") (str "CANNOT_LINK") 1; CallAddConstraint (str "0") (str "6") (str "CANNOT_LINK") 1; CallAddConstraint (str "0") (str "7") (str "CANNOT_LINK") 1; CallAddConstraint (str "0") (str "8") (str "CANNOT_LINK") 1; CallAddConstraint (str "1") (str "2") (str "CANNOT_LINK") 1; CallAddConstraint (str "1") (str "3") (str "CANNOT_LINK") 1; CallAddConstraint (str "1") (str "4") (str "CANNOT_LINK") 1; CallAddConstraint (str "1") (str "5") (str "CANNOT_LINK") 1; CallAddConstraint (str "1") (str "6") (str "CANNOT_LINK") 1; CallAddConstraint (str "1") (str "7") (str "CANNOT_LINK") 1; CallAddConstraint (str "1") (str "8") (str "CANNOT_LINK") 1; CallAddConstraint (str "2") (str "3") (str "CANNOT_LINK") 1; CallAddConstraint (str "2") (str "4") (str "CANNOT_LINK") 1; CallAddConstraint (str "2") (str "5") (str "CANNOT_LINK") 1; CallAddConstraint (str "2") (str "6") (str "CANNOT_LINK") 1; CallAddConstraint (str "2") (str "7") (str "CANNOT_LINK") 1; CallAddConstraint (str "2") (str "8") (str "CANNOT_LINK") 1; CallAddConstraint (str "3") (str "4") (str "CANNOT_LINK") 1; CallAddConstraint (str "3") (str "5") (str "CANNOT_LINK") 1; CallAddConstraint (str "3") (str "6") (str "CANNOT_LINK") 1; CallAddConstraint (str "3") (str "7") (str "CANNOT_LINK") 1; CallAddConstraint (str "3") (str "8") (str "CANNOT_LINK") 1; CallAddConstraint (str "4") (str "5") (str "CANNOT_LINK") 1; CallAddConstraint (str "4") (str "6") (str "CANNOT_LINK") 1; CallAddConstraint (str "4") (str "7") (str "CANNOT_LINK") 1; CallAddConstraint (str "4") (str "8") (str "CANNOT_LINK") 1; CallAddConstraint (str "5") (str "6") (str "CANNOT_LINK") 1; CallAddConstraint (str "5") (str "7") (str "CANNOT_LINK") 1; CallAddConstraint (str "5") (str "8") (str "CANNOT_LINK") 1; CallAddConstraint (str "6") (str "7") (str "CANNOT_LINK") 1]) (CallAddConstraint (str "6") (str "8") (str "CANNOT_LINK") 1)) = true /\
  succeeds (answer (manager [str "0"; str "1"; str "2"; str "3"; str "4"; str "5"; str "6"; str "7"; str "8"] [CallAddConstraint (str "0") (str "1") (str "CANNOT_LINK") 1; CallAddConstraint (str "0") (str "2") (str "CANNOT_LINK") 1; CallAddConstraint (str "0") (str "3") (str "CANNOT_LINK") 1; CallAddConstraint (str "0") (str "4") (str "CANNOT_LINK") 1; CallAddConstraint (str "0") (str "5") (str "CANNOT_LINK") 1; CallAddConstraint (str "0") (str "6") (str "CANNOT_LINK") 1; CallAddConstraint (str "0") (str "7") (str "CANNOT_LINK") 1; CallAddConstraint (str "0") (str "8") (str "CANNOT_LINK") 1; CallAddConstraint (str "1") (str "2") (str "CANNOT_LINK") 1; CallAddConstraint (str "1") (str "3") (str "CANNOT_LINK") 1; CallAddConstraint (str "1") (str "4") (str "CANNOT_LINK") 1; CallAddConstraint (str "1") (str "5") (str "CANNOT_LINK") 1; CallAddConstraint (str "1") (str "6") (str "CANNOT_LINK") 1; CallAddConstraint (str "1") (str "7") (str "CANNOT_LINK") 1; CallAddConstraint (str "1") (str "8") (str "CANNOT_LINK") 1; CallAddConstraint (str "2") (str "3") (str "CANNOT_LINK") 1; CallAddConstraint (str "2") (str "4") (str "CANNOT_LINK") 1; CallAddConstraint (str "2") (str "5") (str "CANNOT_LINK") 1; CallAddConstraint (str "2") (str "6") (str "CANNOT_LINK") 1; CallAddConstraint (str "2") (str "7") (str "CANNOT_LINK") 1; CallAddConstraint (str "2") (str "8") (str "CANNOT_LINK") 1; CallAddConstraint (str "3") (str "4") (str "CANNOT_LINK") 1; CallAddConstraint (str "3") (str "5") (str "CANNOT_LINK") 1; CallAddConstraint (str "3") (str "6") (str "CANNOT_LINK") 1; CallAddConstraint (str "3") (str "7") (str "CANNOT_LINK") 1; CallAddConstraint (str "3") (str "8") (str "CANNOT_LINK") 1; CallAddConstraint (str "4") (str "5") (str "CANNOT_LINK") 1; CallAddConstraint (str "4") (str "6") (str "CANNOT_LINK") 1; CallAddConstraint (str "4") (str "7") (str "CANNOT_LINK") 1; CallAddConstraint (str "4") (str "8") (str "CANNOT_LINK") 1; CallAddConstraint (str "5") (str "6") (str "CANNOT_LINK") 1; CallAddConstraint (str "5") (str "7") (str "CANNOT_LINK") 1; CallAddConstraint (str "5") (str "8") (str "CANNOT_LINK") 1; CallAddConstraint (str "6") (str "7") (str "CANNOT_LINK") 1; CallAddConstraint (str "6") (str "8") (str "CANNOT_LINK") 1]) (CallAddConstraint (str "7") (str "8") (str "CANNOT_LINK") 1)) = true /\
  succeeds (result (hierarchical_run (str "average") (manager [str "0"; str "1"; str "2"; str "3"; str "4"; str "5"; str "6"; str "7"; str "8"] [CallAddConstraint (str "0") (str "1") (str "CANNOT_LINK") 1; CallAddConstraint (str "0") (str "2") (str "CANNOT_LINK") 1; CallAddConstraint (str "0") (str "3") (str "CANNOT_LINK") 1; CallAddConstraint (str "0") (str "4") (str "CANNOT_LINK") 1; CallAddConstraint (str "0") (str "5") (str "CANNOT_LINK") 1; CallAddConstraint (str "0") (str "6") (str "CANNOT_LINK") 1; CallAddConstraint (str "0") (str "7") (str "CANNOT_LINK") 1; CallAddConstraint (str "0") (str "8") (str "CANNOT_LINK") 1; CallAddConstraint (str "1") (str "2") (str "CANNOT_LINK") 1; CallAddConstraint (str "1") (str "3") (str "CANNOT_LINK") 1; CallAddConstraint (str "1") (str "4") (str "CANNOT_LINK") 1; CallAddConstraint (str "1") (str "5") (str "CANNOT_LINK") 1; CallAddConstraint (str "1") (str "6") (str "CANNOT_LINK") 1; CallAddConstraint (str "1") (str "7") (str "CANNOT_LINK") 1; CallAddConstraint (str "1") (str "8") (str "CANNOT_LINK") 1; CallAddConstraint (str "2") (str "3") (str "CANNOT_LINK") 1; CallAddConstraint (str "2") (str "4") (str "CANNOT_LINK") 1; CallAddConstraint (str "2") (str "5") (str "CANNOT_LINK") 1; CallAddConstraint (str "2") (str "6") (str "CANNOT_LINK") 1; CallAddConstraint (str "2") (str "7") (str "CANNOT_LINK") 1; CallAddConstraint (str "2") (str "8") (str "CANNOT_LINK") 1; CallAddConstraint (str "3") (str "4") (str "CANNOT_LINK") 1; CallAddConstraint (str "3") (str "5") (str "CANNOT_LINK") 1; CallAddConstraint (str "3") (str "6") (str "CANNOT_LINK") 1; CallAddConstraint (str "3") (str "7") (str "CANNOT_LINK") 1; CallAddConstraint (str "3") (str "8") (str "CANNOT_LINK") 1; CallAddConstraint (str "4") (str "5") (str "CANNOT_LINK") 1; CallAddConstraint (str "4") (str "6") (str "CANNOT_LINK") 1; CallAddConstraint (str "4") (str "7") (str "CANNOT_LINK") 1; CallAddConstraint (str "4") (str "8") (str "CANNOT_LINK") 1; CallAddConstraint (str "5") (str "6") (str "CANNOT_LINK") 1; CallAddConstraint (str "5") (str "7") (str "CANNOT_LINK") 1; CallAddConstraint (str "5") (str "8") (str "CANNOT_LINK") 1; CallAddConstraint (str "6") (str "7") (str "CANNOT_LINK") 1; CallAddConstraint (str "6") (str "8") (str "CANNOT_LINK") 1; CallAddConstraint (str "7") (str "8") (str "CANNOT_LINK") 1]) [(str "0", [fint 1; fint 0; fint 0; fint 0]); (str "1", [dec (95) 100; dec (2) 100; dec (2) 100; dec (1) 100]); (str "2", [dec (98) 100; fint 0; dec (2) 100; fint 0]); (str "3", [dec (99) 100; fint 0; dec (1) 100; fint 0]); (str "4", [dec (5) 10; dec (22) 100; dec (21) 100; dec (7) 100]); (str "5", [dec (5) 10; dec (21) 100; dec (22) 100; dec (7) 100]); (str "6", [dec (1) 100; dec (1) 100; dec (1) 100; dec (97) 100]); (str "7", [fint 0; dec (1) 100; fint 0; dec (99) 100]); (str "8", [fint 0; fint 0; fint 0; fint 1])] (Some (5%Z)))) = true /\
  predicted (h_predicted fvec) (hierarchical_run (str "average") (manager [str "0"; str "1"; str "2"; str "3"; str "4"; str "5"; str "6"; str "7"; str "8"] [CallAddConstraint (str "0") (str "1") (str "CANNOT_LINK") 1; CallAddConstraint (str "0") (str "2") (str "CANNOT_LINK") 1; CallAddConstraint (str "0") (str "3") (str "CANNOT_LINK") 1; CallAddConstraint (str "0") (str "4") (str "CANNOT_LINK") 1; CallAddConstraint (str "0") (str "5") (str "CANNOT_LINK") 1; CallAddConstraint (str "0") (str "6") (str "CANNOT_LINK") 1; CallAddConstraint (str "0") (str "7") (str "CANNOT_LINK") 1; CallAddConstraint (str "0") (str "8") (str "CANNOT_LINK") 1; CallAddConstraint (str "1") (str "2") (str "CANNOT_LINK") 1; CallAddConstraint (str "1") (str "3") (str "CANNOT_LINK") 1; CallAddConstraint (str "1") (str "4") (str "CANNOT_LINK") 1; CallAddConstraint (str "1") (str "5") (str "CANNOT_LINK") 1; CallAddConstraint (str "1") (str "6") (str "CANNOT_LINK") 1; CallAddConstraint (str "1") (str "7") (str "CANNOT_LINK") 1; CallAddConstraint (str "1") (str "8") (str "CANNOT_LINK") 1; CallAddConstraint (str "2") (str "3") (str "CANNOT_LINK") 1; CallAddConstraint (str "2") (str "4") (str "CANNOT_LINK") 1; CallAddConstraint (str "2") (str "5") (str "CANNOT_LINK") 1; CallAddConstraint (str "2") (str "6") (str "CANNOT_LINK") 1; CallAddConstraint (str "2") (str "7") (str "CANNOT_LINK") 1; CallAddConstraint (str "2") (str "8") (str "CANNOT_LINK") 1; CallAddConstraint (str "3") (str "4") (str "CANNOT_LINK") 1; CallAddConstraint (str "3") (str "5") (str "CANNOT_LINK") 1; CallAddConstraint (str "3") (str "6") (str "CANNOT_LINK") 1; CallAddConstraint (str "3") (str "7") (str "CANNOT_LINK") 1; CallAddConstraint (str "3") (str "8") (str "CANNOT_LINK") 1; CallAddConstraint (str "4") (str "5") (str "CANNOT_LINK") 1; CallAddConstraint (str "4") (str "6") (str "CANNOT_LINK") 1; CallAddConstraint (str "4") (str "7") (str "CANNOT_LINK") 1; CallAddConstraint (str "4") (str "8") (str "CANNOT_LINK") 1; CallAddConstraint (str "5") (str "6") (str "CANNOT_LINK") 1; CallAddConstraint (str "5") (str "7") (str "CANNOT_LINK") 1; CallAddConstraint (str "5") (str "8") (str "CANNOT_LINK") 1; CallAddConstraint (str "6") (str "7") (str "CANNOT_LINK") 1; CallAddConstraint (str "6") (str "8") (str "CANNOT_LINK") 1; CallAddConstraint (str "7") (str "8") (str "CANNOT_LINK") 1]) [(str "0", [fint 1; fint 0; fint 0; fint 0]); (str "1", [dec (95) 100; dec (2) 100; dec (2) 100; dec (1) 100]); (str "2", [dec (98) 100; fint 0; dec (2) 100; fint 0]); (str "3", [dec (99) 100; fint 0; dec (1) 100; fint 0]); (str "4", [dec (5) 10; dec (22) 100; dec (21) 100; dec (7) 100]); (str "5", [dec (5) 10; dec (21) 100; dec (22) 100; dec (7) 100]); (str "6", [dec (1) 100; dec (1) 100; dec (1) 100; dec (97) 100]); (str "7", [fint 0; dec (1) 100; fint 0; dec (99) 100]); (str "8", [fint 0; fint 0; fint 0; fint 1])] (Some (5%Z))) = true /\
  gives (result (hierarchical_run (str "average") (manager [str "0"; str "1"; str "2"; str "3"; str "4"; str "5"; str "6"; str "7"; str "8"] [CallAddConstraint (str "0") (str "1") (str "CANNOT_LINK") 1; CallAddConstraint (str "0") (str "2") (str "CANNOT_LINK") 1; CallAddConstraint (str "0") (str "3") (str "CANNOT_LINK") 1; CallAddConstraint (str "0") (str "4") (str "CANNOT_LINK") 1; CallAddConstraint (str "0") (str "5") (str "CANNOT_LINK") 1; CallAddConstraint (str "0") (str "6") (str "CANNOT_LINK") 1; CallAddConstraint (str "0") (str "7") (str "CANNOT_LINK") 1; CallAddConstraint (str "0") (str "8") (str "CANNOT_LINK") 1; CallAddConstraint (str "1") (str "2") (str "CANNOT_LINK") 1; CallAddConstraint (str "1") (str "3") (str "CANNOT_LINK") 1; CallAddConstraint (str "1") (str "4") (str "CANNOT_LINK") 1; CallAddConstraint (str "1") (str "5") (str "CANNOT_LINK") 1; CallAddConstraint (str "1") (str "6") (str "CANNOT_LINK") 1; CallAddConstraint (str "1") (str "7") (str "CANNOT_LINK") 1; CallAddConstraint (str "1") (str "8") (str "CANNOT_LINK") 1; CallAddConstraint (str "2") (str "3") (str "CANNOT_LINK") 1; CallAddConstraint (str "2") (str "4") (str "CANNOT_LINK") 1; CallAddConstraint (str "2") (str "5") (str "CANNOT_LINK") 1; CallAddConstraint (str "2") (str "6") (str "CANNOT_LINK") 1; CallAddConstraint (str "2") (str "7") (str "CANNOT_LINK") 1; CallAddConstraint (str "2") (str "8") (str "CANNOT_LINK") 1; CallAddConstraint (str "3") (str "4") (str "CANNOT_LINK") 1; CallAddConstraint (str "3") (str "5") (str "CANNOT_LINK") 1; CallAddConstraint (str "3") (str "6") (str "CANNOT_LINK") 1; CallAddConstraint (str "3") (str "7") (str "CANNOT_LINK") 1; CallAddConstraint (str "3") (str "8") (str "CANNOT_LINK") 1; CallAddConstraint (str "4") (str "5") (str "CANNOT_LINK") 1; CallAddConstraint (str "4") (str "6") (str "CANNOT_LINK") 1; CallAddConstraint (str "4") (str "7") (str "CANNOT_LINK") 1; CallAddConstraint (str "4") (str "8") (str "CANNOT_LINK") 1; CallAddConstraint (str "5") (str "6") (str "CANNOT_LINK") 1; CallAddConstraint (str "5") (str "7") (str "CANNOT_LINK") 1; CallAddConstraint (str "5") (str "8") (str "CANNOT_LINK") 1; CallAddConstraint (str "6") (str "7") (str "CANNOT_LINK") 1; CallAddConstraint (str "6") (str "8") (str "CANNOT_LINK") 1; CallAddConstraint (str "7") (str "8") (str "CANNOT_LINK") 1]) [(str "0", [fint 1; fint 0; fint 0; fint 0]); (str "1", [dec (95) 100; dec (2) 100; dec (2) 100; dec (1) 100]); (str "2", [dec (98) 100; fint 0; dec (2) 100; fint 0]); (str "3", [dec (99) 100; fint 0; dec (1) 100; fint 0]); (str "4", [dec (5) 10; dec (22) 100; dec (21) 100; dec (7) 100]); (str "5", [dec (5) 10; dec (21) 100; dec (22) 100; dec (7) 100]); (str "6", [dec (1) 100; dec (1) 100; dec (1) 100; dec (97) 100]); (str "7", [fint 0; dec (1) 100; fint 0; dec (99) 100]); (str "8", [fint 0; fint 0; fint 0; fint 1])] (Some (5%Z)))) [(str "0", 0%Z); (str "1", 1%Z); (str "2", 2%Z); (str "3", 3%Z); (str "4", 4%Z); (str "5", 5%Z); (str "6", 6%Z); (str "7", 7%Z); (str "8", 8%Z)].
Proof. vm_compute. repeat split. Qed.

(** clustering/test_hierarchical.py:791-832 *)
Example test_HierarchicalConstrainedClustering_cluster_end_cases_with_too_many_clusters :
  predicted (h_predicted fvec) (hierarchical_run (str "average") (manager [str "0"; str "1"; str "2"; str "3"; str "4"; str "5"; str "6"; str "7"; str "8"] []) [(str "0", [fint 1; fint 0; fint 0; fint 0]); (str "1", [dec (95) 100; dec (2) 100; dec (2) 100; dec (1) 100]); (str "2", [dec (98) 100; fint 0; dec (2) 100; fint 0]); (str "3", [dec (99) 100; fint 0; dec (1) 100; fint 0]); (str "4", [dec (5) 10; dec (22) 100; dec (21) 100; dec (7) 100]); (str "5", [dec (5) 10; dec (21) 100; dec (22) 100; dec (7) 100]); (str "6", [dec (1) 100; dec (1) 100; dec (1) 100; dec (97) 100]); (str "7", [fint 0; dec (1) 100; fint 0; dec (99) 100]); (str "8", [fint 0; fint 0; fint 0; fint 1])] (Some (99%Z))) = true /\
  gives (result (hierarchical_run (str "average") (manager [str "0"; str "1"; str "2"; str "3"; str "4"; str "5"; str "6"; str "7"; str "8"] []) [(str "0", [fint 1; fint 0; fint 0; fint 0]); (str "1", [dec (95) 100; dec (2) 100; dec (2) 100; dec (1) 100]); (str "2", [dec (98) 100; fint 0; dec (2) 100; fint 0]); (str "3", [dec (99) 100; fint 0; dec (1) 100; fint 0]); (str "4", [dec (5) 10; dec (22) 100; dec (21) 100; dec (7) 100]); (str "5", [dec (5) 10; dec (21) 100; dec (22) 100; dec (7) 100]); (str "6", [dec (1) 100; dec (1) 100; dec (1) 100; dec (97) 100]); (str "7", [fint 0; dec (1) 100; fint 0; dec (99) 100]); (str "8", [fint 0; fint 0; fint 0; fint 1])] (Some (99%Z)))) [(str "0", 0%Z); (str "1", 1%Z); (str "2", 2%Z); (str "3", 3%Z); (str "4", 4%Z); (str "5", 5%Z); (str "6", 6%Z); (str "7", 7%Z); (str "8", 8%Z)].
Proof. vm_compute. repeat split. Qed.

(** clustering/test_hierarchical.py:838-877 *)
Example test_Cluster_for_inconsistent_children_and_members :
  raises (snd (construct fvec fmean [(str "0", [fint 1; fint 0]); (str "1", [dec (99) 100; dec (1) 100]); (str "2", [dec (2) 100; dec (98) 100]); (str "3", [dec (1) 100; dec (99) 100]); (str "4", [fint 0; fint 1])] 2%Z 1%Z None None [])) ValueError /\
  raises (snd (construct fvec fmean [(str "0", [fint 1; fint 0]); (str "1", [dec (99) 100; dec (1) 100]); (str "2", [dec (2) 100; dec (98) 100]); (str "3", [dec (1) 100; dec (99) 100]); (str "4", [fint 0; fint 1])] 2%Z 1%Z (Some ([0; 1])) (Some ([str "5"; str "6"; str "7"; str "8"; str "9"])) (fst (construct fvec fmean [(str "0", [fint 1; fint 0]); (str "1", [dec (99) 100; dec (1) 100]); (str "2", [dec (2) 100; dec (98) 100]); (str "3", [dec (1) 100; dec (99) 100]); (str "4", [fint 0; fint 1])] 1%Z 0%Z None (Some ([str "2"; str "3"; str "4"])) (fst (construct fvec fmean [(str "0", [fint 1; fint 0]); (str "1", [dec (99) 100; dec (1) 100]); (str "2", [dec (2) 100; dec (98) 100]); (str "3", [dec (1) 100; dec (99) 100]); (str "4", [fint 0; fint 1])] 0%Z 0%Z None (Some ([str "0"; str "1"])) [])))))) ValueError.
Proof. vm_compute. repeat split. Qed.

(** clustering/test_hierarchical.py:883-930 *)
Example test_Cluster_add_new_children :
  option_map (o_members fvec) (nth_error (fst (construct fvec fmean [(str "0", [fint 1; fint 0]); (str "1", [dec (99) 100; dec (1) 100]); (str "2", [dec (2) 100; dec (98) 100]); (str "3", [dec (1) 100; dec (99) 100]); (str "4", [fint 0; fint 1])] 2%Z 1%Z (Some ([0])) None (fst (construct fvec fmean [(str "0", [fint 1; fint 0]); (str "1", [dec (99) 100; dec (1) 100]); (str "2", [dec (2) 100; dec (98) 100]); (str "3", [dec (1) 100; dec (99) 100]); (str "4", [fint 0; fint 1])] 0%Z 0%Z None (Some ([str "0"; str "1"])) [])))) 1) = Some [str "0"; str "1"] /\
  option_map (o_iteration fvec) (nth_error (fst (construct fvec fmean [(str "0", [fint 1; fint 0]); (str "1", [dec (99) 100; dec (1) 100]); (str "2", [dec (2) 100; dec (98) 100]); (str "3", [dec (1) 100; dec (99) 100]); (str "4", [fint 0; fint 1])] 2%Z 1%Z (Some ([0])) None (fst (construct fvec fmean [(str "0", [fint 1; fint 0]); (str "1", [dec (99) 100; dec (1) 100]); (str "2", [dec (2) 100; dec (98) 100]); (str "3", [dec (1) 100; dec (99) 100]); (str "4", [fint 0; fint 1])] 0%Z 0%Z None (Some ([str "0"; str "1"])) [])))) 1) = Some 1%Z /\
  option_map (fun c => length (o_members fvec c)) (nth_error (fst (construct fvec fmean [(str "0", [fint 1; fint 0]); (str "1", [dec (99) 100; dec (1) 100]); (str "2", [dec (2) 100; dec (98) 100]); (str "3", [dec (1) 100; dec (99) 100]); (str "4", [fint 0; fint 1])] 2%Z 1%Z (Some ([0])) None (fst (construct fvec fmean [(str "0", [fint 1; fint 0]); (str "1", [dec (99) 100; dec (1) 100]); (str "2", [dec (2) 100; dec (98) 100]); (str "3", [dec (1) 100; dec (99) 100]); (str "4", [fint 0; fint 1])] 0%Z 0%Z None (Some ([str "0"; str "1"])) [])))) 1) = Some 2 /\
  option_map (o_members fvec) (nth_error (fst (add_new_children fvec fmean 1 [2] 2%Z (fst (construct fvec fmean [(str "0", [fint 1; fint 0]); (str "1", [dec (99) 100; dec (1) 100]); (str "2", [dec (2) 100; dec (98) 100]); (str "3", [dec (1) 100; dec (99) 100]); (str "4", [fint 0; fint 1])] 1%Z 0%Z None (Some ([str "2"; str "3"; str "4"])) (fst (construct fvec fmean [(str "0", [fint 1; fint 0]); (str "1", [dec (99) 100; dec (1) 100]); (str "2", [dec (2) 100; dec (98) 100]); (str "3", [dec (1) 100; dec (99) 100]); (str "4", [fint 0; fint 1])] 2%Z 1%Z (Some ([0])) None (fst (construct fvec fmean [(str "0", [fint 1; fint 0]); (str "1", [dec (99) 100; dec (1) 100]); (str "2", [dec (2) 100; dec (98) 100]); (str "3", [dec (1) 100; dec (99) 100]); (str "4", [fint 0; fint 1])] 0%Z 0%Z None (Some ([str "0"; str "1"])) [])))))))) 1) = Some [str "0"; str "1"; str "2"; str "3"; str "4"] /\
  option_map (o_iteration fvec) (nth_error (fst (add_new_children fvec fmean 1 [2] 2%Z (fst (construct fvec fmean [(str "0", [fint 1; fint 0]); (str "1", [dec (99) 100; dec (1) 100]); (str "2", [dec (2) 100; dec (98) 100]); (str "3", [dec (1) 100; dec (99) 100]); (str "4", [fint 0; fint 1])] 1%Z 0%Z None (Some ([str "2"; str "3"; str "4"])) (fst (construct fvec fmean [(str "0", [fint 1; fint 0]); (str "1", [dec (99) 100; dec (1) 100]); (str "2", [dec (2) 100; dec (98) 100]); (str "3", [dec (1) 100; dec (99) 100]); (str "4", [fint 0; fint 1])] 2%Z 1%Z (Some ([0])) None (fst (construct fvec fmean [(str "0", [fint 1; fint 0]); (str "1", [dec (99) 100; dec (1) 100]); (str "2", [dec (2) 100; dec (98) 100]); (str "3", [dec (1) 100; dec (99) 100]); (str "4", [fint 0; fint 1])] 0%Z 0%Z None (Some ([str "0"; str "1"])) [])))))))) 1) = Some 2%Z /\
  option_map (fun c => length (o_members fvec c)) (nth_error (fst (add_new_children fvec fmean 1 [2] 2%Z (fst (construct fvec fmean [(str "0", [fint 1; fint 0]); (str "1", [dec (99) 100; dec (1) 100]); (str "2", [dec (2) 100; dec (98) 100]); (str "3", [dec (1) 100; dec (99) 100]); (str "4", [fint 0; fint 1])] 1%Z 0%Z None (Some ([str "2"; str "3"; str "4"])) (fst (construct fvec fmean [(str "0", [fint 1; fint 0]); (str "1", [dec (99) 100; dec (1) 100]); (str "2", [dec (2) 100; dec (98) 100]); (str "3", [dec (1) 100; dec (99) 100]); (str "4", [fint 0; fint 1])] 2%Z 1%Z (Some ([0])) None (fst (construct fvec fmean [(str "0", [fint 1; fint 0]); (str "1", [dec (99) 100; dec (1) 100]); (str "2", [dec (2) 100; dec (98) 100]); (str "3", [dec (1) 100; dec (99) 100]); (str "4", [fint 0; fint 1])] 0%Z 0%Z None (Some ([str "0"; str "1"])) [])))))))) 1) = Some 5.
Proof. vm_compute. repeat split. Qed.

(** clustering/test_hierarchical.py:936-995 *)
Example test_Cluster_to_dict :
  to_dict fvec 900 (fst (construct fvec fmean [(str "0", [fint 1; fint 0]); (str "1", [dec (99) 100; dec (1) 100]); (str "2", [dec (2) 100; dec (98) 100]); (str "3", [dec (1) 100; dec (99) 100]); (str "4", [fint 0; fint 1])] 2%Z 1%Z (Some ([0; 1])) None (fst (construct fvec fmean [(str "0", [fint 1; fint 0]); (str "1", [dec (99) 100; dec (1) 100]); (str "2", [dec (2) 100; dec (98) 100]); (str "3", [dec (1) 100; dec (99) 100]); (str "4", [fint 0; fint 1])] 1%Z 0%Z None (Some ([str "2"; str "3"; str "4"])) (fst (construct fvec fmean [(str "0", [fint 1; fint 0]); (str "1", [dec (99) 100; dec (1) 100]); (str "2", [dec (2) 100; dec (98) 100]); (str "3", [dec (1) 100; dec (99) 100]); (str "4", [fint 0; fint 1])] 0%Z 0%Z None (Some ([str "0"; str "1"])) [])))))) 2 = Ok (JObj [(str "cluster_ID", JNum (str "2")); (str "clustering_iteration", JNum (str "1")); (str "children", JArr [JObj [(str "cluster_ID", JNum (str "0")); (str "clustering_iteration", JNum (str "0")); (str "children", JArr []); (str "cluster_inverse_depth", JNum (str "0")); (str "members", JArr [JStr (str "0"); JStr (str "1")])]; JObj [(str "cluster_ID", JNum (str "1")); (str "clustering_iteration", JNum (str "0")); (str "children", JArr []); (str "cluster_inverse_depth", JNum (str "0")); (str "members", JArr [JStr (str "2"); JStr (str "3"); JStr (str "4")])]]); (str "cluster_inverse_depth", JNum (str "1")); (str "members", JArr [JStr (str "0"); JStr (str "1"); JStr (str "2"); JStr (str "3"); JStr (str "4")])]).
Proof. vm_compute. repeat split. Qed.

(** Not expressed:
    - clustering/test_hierarchical.py:59-73 test_HierarchicalConstrainedClustering_cluster_for_inconsistent_constraints_manager: a manager that is not a manager;
    - clustering/test_hierarchical.py:79-93 test_HierarchicalConstrainedClustering_cluster_for_inconsistent_vectors: vectors that are not a dictionary. *)
