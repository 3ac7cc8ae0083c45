(** * The project's tests, run on the model

    Written by tools/gen_tests.py from /repo/tests: clustering/test_affinity_propagation.py, clustering/test_mpckmeans.py, clustering/test_spectral.py.
    21 tests; see TestLib.v for the numbers and the random draws. *)

From Coq Require Import String List Bool Arith NArith ZArith QArith SpecFloat.
From Verif Require Import Base Manager MinMax Json Rename KMeans Hierarchical Dbscan Affinity Mpckmeans Spectral Sampling Objects Frequency Factories TestLib.
Import ListNotations.
Open Scope nat_scope.

(** clustering/test_affinity_propagation.py:27-36 *)
Example test_AffinityPropagationConstrainedClustering_for_inconsistent_max_iteration :
  raises (make_affinity (-1)%Z 10%Z true) ValueError.
Proof. vm_compute. repeat split. Qed.

(** clustering/test_affinity_propagation.py:42-51 *)
Example test_AffinityPropagationConstrainedClustering_for_inconsistent_convergence_iteration :
  raises (make_affinity 150%Z (-1)%Z true) ValueError.
Proof. vm_compute. repeat split. Qed.

(** clustering/test_affinity_propagation.py:57-69 *)
Example test_AffinityPropagationConstrainedClustering_for_correct_settings :
  succeeds (make_affinity 100%Z 5%Z true) = true /\
  fail_or (make_affinity 100%Z 5%Z true) (fun p => Ok (Z.of_nat (ap_max_iteration p))) = Ok (100%Z) /\
  fail_or (make_affinity 100%Z 5%Z true) (fun p => Ok (Z.of_nat (ap_convergence_iteration p))) = Ok (5%Z).
Proof. vm_compute. repeat split. Qed.

(** clustering/test_affinity_propagation.py:115-129 (unseeded: checked without noise) *)
Example test_AffinityPropagationConstrainedClustering_cluster_for_inconsistent_nb_clusters_1 :
  raises (result (affinity_run 150%Z 10%Z (manager [str "first"; str "second"; str "third"] []) [(str "first", [fint 1; fint 2; fint 3]); (str "second", [fint 4; fint 5; fint 6]); (str "third", [fint 7; fint 8; fint 9])] (Some (2%Z)))) ValueError.
Proof. vm_compute. repeat split. Qed.

(** clustering/test_affinity_propagation.py:135-181 (unseeded: checked without noise) *)
Example test_AffinityPropagationConstrainedClustering_cluster_with_no_constraints_1 :
  predicted ((fun s => s)) (affinity_run 150%Z 10%Z (manager [str "0"; str "1"; str "2"; str "3"; str "4"; str "5"; str "6"; str "7"; str "8"; str "9"; str "10"; str "11"] []) [(str "0", [fint 1; fint 0; fint 0; fint 0]); (str "1", [fint 0; dec (43) 100; fint 0; fint 0]); (str "2", [fint 0; fint 0; dec (29) 100; fint 0]); (str "3", [fint 0; fint 0; dec (5) 10; fint 0]); (str "4", [fint 0; fint 0; fint 0; dec (98) 100]); (str "5", [fint 0; fint 0; dec (33) 100; fint 0]); (str "6", [fint 0; fint 0; fint 0; dec (14) 10]); (str "7", [dec (8) 10; fint 0; fint 0; fint 0]); (str "8", [fint 0; dec (54) 100; fint 0; fint 0]); (str "9", [fint 0; fint 0; fint 0; dec (11) 10]); (str "10", [dec (11) 10; fint 0; fint 0; fint 0]); (str "11", [fint 0; dec (49) 100; fint 0; fint 0])] None) = true /\
  gives (result (affinity_run 150%Z 10%Z (manager [str "0"; str "1"; str "2"; str "3"; str "4"; str "5"; str "6"; str "7"; str "8"; str "9"; str "10"; str "11"] []) [(str "0", [fint 1; fint 0; fint 0; fint 0]); (str "1", [fint 0; dec (43) 100; fint 0; fint 0]); (str "2", [fint 0; fint 0; dec (29) 100; fint 0]); (str "3", [fint 0; fint 0; dec (5) 10; fint 0]); (str "4", [fint 0; fint 0; fint 0; dec (98) 100]); (str "5", [fint 0; fint 0; dec (33) 100; fint 0]); (str "6", [fint 0; fint 0; fint 0; dec (14) 10]); (str "7", [dec (8) 10; fint 0; fint 0; fint 0]); (str "8", [fint 0; dec (54) 100; fint 0; fint 0]); (str "9", [fint 0; fint 0; fint 0; dec (11) 10]); (str "10", [dec (11) 10; fint 0; fint 0; fint 0]); (str "11", [fint 0; dec (49) 100; fint 0; fint 0])] None)) [(str "0", 0%Z); (str "1", 1%Z); (str "2", 2%Z); (str "3", 2%Z); (str "4", 3%Z); (str "5", 2%Z); (str "6", 3%Z); (str "7", 0%Z); (str "8", 1%Z); (str "9", 3%Z); (str "10", 0%Z); (str "11", 1%Z)].
Proof. vm_compute. repeat split. Qed.

(** clustering/test_affinity_propagation.py:187-239 (unseeded: checked without noise) *)
Example test_AffinityPropagationConstrainedClustering_cluster_with_no_constraints_2 :
  predicted ((fun s => s)) (affinity_run 150%Z 10%Z (manager [str "0"; str "1"; str "2"; str "3"; str "4"; str "5"; str "6"; str "7"; str "8"; str "9"; str "10"; str "11"] []) [(str "0", [fint 2; fint 0; fint 0; fint 0]); (str "1", [fint 0; dec (43) 100; fint 0; fint 0]); (str "2", [fint 0; fint 0; dec (29) 100; fint 0]); (str "3", [fint 0; fint 0; dec (5) 10; fint 0]); (str "4", [fint 0; fint 0; fint 0; dec (98) 100]); (str "5", [fint 0; fint 0; dec (33) 100; fint 0]); (str "6", [fint 0; fint 0; fint 0; dec (14) 10]); (str "7", [dec (8) 10; fint 0; fint 0; fint 0]); (str "8", [fint 0; dec (54) 100; fint 0; fint 0]); (str "9", [fint 0; fint 0; fint 0; dec (11) 10]); (str "10", [dec (11) 10; fint 0; fint 0; fint 0]); (str "11", [fint 0; dec (49) 100; fint 0; fint 0])] None) = true /\
  gives (result (affinity_run 150%Z 10%Z (manager [str "0"; str "1"; str "2"; str "3"; str "4"; str "5"; str "6"; str "7"; str "8"; str "9"; str "10"; str "11"] []) [(str "0", [fint 2; fint 0; fint 0; fint 0]); (str "1", [fint 0; dec (43) 100; fint 0; fint 0]); (str "2", [fint 0; fint 0; dec (29) 100; fint 0]); (str "3", [fint 0; fint 0; dec (5) 10; fint 0]); (str "4", [fint 0; fint 0; fint 0; dec (98) 100]); (str "5", [fint 0; fint 0; dec (33) 100; fint 0]); (str "6", [fint 0; fint 0; fint 0; dec (14) 10]); (str "7", [dec (8) 10; fint 0; fint 0; fint 0]); (str "8", [fint 0; dec (54) 100; fint 0; fint 0]); (str "9", [fint 0; fint 0; fint 0; dec (11) 10]); (str "10", [dec (11) 10; fint 0; fint 0; fint 0]); (str "11", [fint 0; dec (49) 100; fint 0; fint 0])] None)) [(str "0", 0%Z); (str "1", 1%Z); (str "2", 2%Z); (str "3", 2%Z); (str "4", 3%Z); (str "5", 2%Z); (str "6", 3%Z); (str "7", 0%Z); (str "8", 1%Z); (str "9", 3%Z); (str "10", 0%Z); (str "11", 1%Z)].
Proof. vm_compute. repeat split. Qed.

(** clustering/test_affinity_propagation.py:245-294 (unseeded: checked without noise) *)
Example test_AffinityPropagationConstrainedClustering_cluster_with_some_constraints :
  succeeds (answer (manager [str "0"; str "1"; str "2"; str "3"; str "4"; str "5"; str "6"; str "7"; str "8"; str "9"; str "10"; str "11"] []) (CallAddConstraint (str "0") (str "7") (str "MUST_LINK") 1)) = true /\
  succeeds (answer (manager [str "0"; str "1"; str "2"; str "3"; str "4"; str "5"; str "6"; str "7"; str "8"; str "9"; str "10"; str "11"] [CallAddConstraint (str "0") (str "7") (str "MUST_LINK") 1]) (CallAddConstraint (str "0") (str "10") (str "MUST_LINK") 1)) = true /\
  succeeds (answer (manager [str "0"; str "1"; str "2"; str "3"; str "4"; str "5"; str "6"; str "7"; str "8"; str "9"; str "10"; str "11"] [CallAddConstraint (str "0") (str "7") (str "MUST_LINK") 1; CallAddConstraint (str "0") (str "10") (str "MUST_LINK") 1]) (CallAddConstraint (str "0") (str "4") (str "CANNOT_LINK") 1)) = true /\
  predicted ((fun s => s)) (affinity_run 150%Z 10%Z (manager [str "0"; str "1"; str "2"; str "3"; str "4"; str "5"; str "6"; str "7"; str "8"; str "9"; str "10"; str "11"] [CallAddConstraint (str "0") (str "7") (str "MUST_LINK") 1; CallAddConstraint (str "0") (str "10") (str "MUST_LINK") 1; CallAddConstraint (str "0") (str "4") (str "CANNOT_LINK") 1]) [(str "0", [fint 2; fint 0; fint 0; fint 0]); (str "1", [fint 0; dec (43) 100; fint 0; fint 0]); (str "2", [fint 0; fint 0; dec (29) 100; fint 0]); (str "3", [fint 0; fint 0; dec (5) 10; fint 0]); (str "4", [fint 0; fint 0; fint 0; dec (98) 100]); (str "5", [fint 0; fint 0; dec (33) 100; fint 0]); (str "6", [fint 0; fint 0; fint 0; dec (14) 10]); (str "7", [dec (8) 10; fint 0; fint 0; fint 0]); (str "8", [fint 0; dec (54) 100; fint 0; fint 0]); (str "9", [fint 0; fint 0; fint 0; dec (11) 10]); (str "10", [dec (11) 10; fint 0; fint 0; fint 0]); (str "11", [fint 0; dec (49) 100; fint 0; fint 0])] None) = true /\
  gives (result (affinity_run 150%Z 10%Z (manager [str "0"; str "1"; str "2"; str "3"; str "4"; str "5"; str "6"; str "7"; str "8"; str "9"; str "10"; str "11"] [CallAddConstraint (str "0") (str "7") (str "MUST_LINK") 1; CallAddConstraint (str "0") (str "10") (str "MUST_LINK") 1; CallAddConstraint (str "0") (str "4") (str "CANNOT_LINK") 1]) [(str "0", [fint 2; fint 0; fint 0; fint 0]); (str "1", [fint 0; dec (43) 100; fint 0; fint 0]); (str "2", [fint 0; fint 0; dec (29) 100; fint 0]); (str "3", [fint 0; fint 0; dec (5) 10; fint 0]); (str "4", [fint 0; fint 0; fint 0; dec (98) 100]); (str "5", [fint 0; fint 0; dec (33) 100; fint 0]); (str "6", [fint 0; fint 0; fint 0; dec (14) 10]); (str "7", [dec (8) 10; fint 0; fint 0; fint 0]); (str "8", [fint 0; dec (54) 100; fint 0; fint 0]); (str "9", [fint 0; fint 0; fint 0; dec (11) 10]); (str "10", [dec (11) 10; fint 0; fint 0; fint 0]); (str "11", [fint 0; dec (49) 100; fint 0; fint 0])] None)) [(str "0", 0%Z); (str "1", 1%Z); (str "2", 0%Z); (str "3", 0%Z); (str "4", 2%Z); (str "5", 0%Z); (str "6", 2%Z); (str "7", 0%Z); (str "8", 1%Z); (str "9", 2%Z); (str "10", 0%Z); (str "11", 1%Z)].
Proof. vm_compute. repeat split. Qed.

(** clustering/test_mpckmeans.py:28-37 *)
Example test_MPCKMeansConstrainedClustering_for_inconsistent_model :
  raises (make_mpckmeans spec_float mpc_ops (str "as_you_want") 150%Z (fint 1)) ValueError.
Proof. vm_compute. repeat split. Qed.

(** clustering/test_mpckmeans.py:43-52 *)
Example test_MPCKMeansConstrainedClustering_for_inconsistent_max_iteration :
  raises (make_mpckmeans spec_float mpc_ops (str "MPC") (-1)%Z (fint 1)) ValueError.
Proof. vm_compute. repeat split. Qed.

(** clustering/test_mpckmeans.py:58-67 *)
Example test_MPCKMeansConstrainedClustering_for_inconsistent_w :
  raises (make_mpckmeans spec_float mpc_ops (str "MPC") 150%Z (fint (-1))) ValueError.
Proof. vm_compute. repeat split. Qed.

(** clustering/test_mpckmeans.py:73-89 *)
Example test_MPCKMeansConstrainedClustering_for_correct_settings :
  succeeds (make_mpckmeans spec_float mpc_ops (str "MPC") 100%Z (dec (5) 10)) = true /\
  fail_or (make_mpckmeans spec_float mpc_ops (str "MPC") 100%Z (dec (5) 10)) (fun p => Ok (Z.of_nat (mp_max_iteration spec_float p))) = Ok (100%Z) /\
  fail_or (make_mpckmeans spec_float mpc_ops (str "MPC") 100%Z (dec (5) 10)) (fun p => Ok (mp_w spec_float p)) = Ok (dec (5) 10).
Proof. vm_compute. repeat split. Qed.

(** clustering/test_mpckmeans.py:135-149 (unseeded: checked for three draws) *)
Example test_MPCKMeansConstrainedClustering_cluster_for_inconsistent_nb_clusters_1 :
  raises (result (mpckmeans_run (fun _ _ => 0) (fun _ l => l) (str "MPC") 150%Z (fint 1) (manager [str "first"; str "second"; str "third"] []) [(str "first", [fint 1; fint 2; fint 3]); (str "second", [fint 4; fint 5; fint 6]); (str "third", [fint 7; fint 8; fint 9])] None)) ValueError /\
  raises (result (mpckmeans_run (fun _ _ => 4) (fun _ l => l) (str "MPC") 150%Z (fint 1) (manager [str "first"; str "second"; str "third"] []) [(str "first", [fint 1; fint 2; fint 3]); (str "second", [fint 4; fint 5; fint 6]); (str "third", [fint 7; fint 8; fint 9])] None)) ValueError /\
  raises (result (mpckmeans_run (fun _ _ => 9) (fun _ l => rev l) (str "MPC") 150%Z (fint 1) (manager [str "first"; str "second"; str "third"] []) [(str "first", [fint 1; fint 2; fint 3]); (str "second", [fint 4; fint 5; fint 6]); (str "third", [fint 7; fint 8; fint 9])] None)) ValueError.
Proof. vm_compute. repeat split. Qed.

(** clustering/test_mpckmeans.py:155-169 (unseeded: checked for three draws) *)
Example test_MPCKMeansConstrainedClustering_cluster_for_inconsistent_nb_clusters_2 :
  raises (result (mpckmeans_run (fun _ _ => 0) (fun _ l => l) (str "MPC") 150%Z (fint 1) (manager [str "first"; str "second"; str "third"] []) [(str "first", [fint 1; fint 2; fint 3]); (str "second", [fint 4; fint 5; fint 6]); (str "third", [fint 7; fint 8; fint 9])] (Some ((-1)%Z)))) ValueError /\
  raises (result (mpckmeans_run (fun _ _ => 4) (fun _ l => l) (str "MPC") 150%Z (fint 1) (manager [str "first"; str "second"; str "third"] []) [(str "first", [fint 1; fint 2; fint 3]); (str "second", [fint 4; fint 5; fint 6]); (str "third", [fint 7; fint 8; fint 9])] (Some ((-1)%Z)))) ValueError /\
  raises (result (mpckmeans_run (fun _ _ => 9) (fun _ l => rev l) (str "MPC") 150%Z (fint 1) (manager [str "first"; str "second"; str "third"] []) [(str "first", [fint 1; fint 2; fint 3]); (str "second", [fint 4; fint 5; fint 6]); (str "third", [fint 7; fint 8; fint 9])] (Some ((-1)%Z)))) ValueError.
Proof. vm_compute. repeat split. Qed.

(** clustering/test_mpckmeans.py:175-222 (unseeded: checked for three draws) *)
Example test_MPCKMeansConstrainedClustering_cluster_with_no_constraints_1 :
  predicted (mp_predicted spec_float) (mpckmeans_run (fun _ _ => 0) (fun _ l => l) (str "MPC") 150%Z (fint 1) (manager [str "0"; str "1"; str "2"; str "3"; str "4"; str "5"; str "6"; str "7"; str "8"; str "9"; str "10"; str "11"] []) [(str "0", [fint 1; fint 0; fint 0; fint 0]); (str "1", [fint 0; dec (43) 100; fint 0; fint 0]); (str "2", [fint 0; fint 0; dec (29) 100; fint 0]); (str "3", [fint 0; fint 0; dec (5) 10; fint 0]); (str "4", [fint 0; fint 0; fint 0; dec (98) 100]); (str "5", [fint 0; fint 0; dec (33) 100; fint 0]); (str "6", [fint 0; fint 0; fint 0; dec (14) 10]); (str "7", [dec (8) 10; fint 0; fint 0; fint 0]); (str "8", [fint 0; dec (54) 100; fint 0; fint 0]); (str "9", [fint 0; fint 0; fint 0; dec (11) 10]); (str "10", [dec (11) 10; fint 0; fint 0; fint 0]); (str "11", [fint 0; dec (49) 100; fint 0; fint 0])] (Some (4%Z))) = true /\
  predicted (mp_predicted spec_float) (mpckmeans_run (fun _ _ => 4) (fun _ l => l) (str "MPC") 150%Z (fint 1) (manager [str "0"; str "1"; str "2"; str "3"; str "4"; str "5"; str "6"; str "7"; str "8"; str "9"; str "10"; str "11"] []) [(str "0", [fint 1; fint 0; fint 0; fint 0]); (str "1", [fint 0; dec (43) 100; fint 0; fint 0]); (str "2", [fint 0; fint 0; dec (29) 100; fint 0]); (str "3", [fint 0; fint 0; dec (5) 10; fint 0]); (str "4", [fint 0; fint 0; fint 0; dec (98) 100]); (str "5", [fint 0; fint 0; dec (33) 100; fint 0]); (str "6", [fint 0; fint 0; fint 0; dec (14) 10]); (str "7", [dec (8) 10; fint 0; fint 0; fint 0]); (str "8", [fint 0; dec (54) 100; fint 0; fint 0]); (str "9", [fint 0; fint 0; fint 0; dec (11) 10]); (str "10", [dec (11) 10; fint 0; fint 0; fint 0]); (str "11", [fint 0; dec (49) 100; fint 0; fint 0])] (Some (4%Z))) = true /\
  predicted (mp_predicted spec_float) (mpckmeans_run (fun _ _ => 9) (fun _ l => rev l) (str "MPC") 150%Z (fint 1) (manager [str "0"; str "1"; str "2"; str "3"; str "4"; str "5"; str "6"; str "7"; str "8"; str "9"; str "10"; str "11"] []) [(str "0", [fint 1; fint 0; fint 0; fint 0]); (str "1", [fint 0; dec (43) 100; fint 0; fint 0]); (str "2", [fint 0; fint 0; dec (29) 100; fint 0]); (str "3", [fint 0; fint 0; dec (5) 10; fint 0]); (str "4", [fint 0; fint 0; fint 0; dec (98) 100]); (str "5", [fint 0; fint 0; dec (33) 100; fint 0]); (str "6", [fint 0; fint 0; fint 0; dec (14) 10]); (str "7", [dec (8) 10; fint 0; fint 0; fint 0]); (str "8", [fint 0; dec (54) 100; fint 0; fint 0]); (str "9", [fint 0; fint 0; fint 0; dec (11) 10]); (str "10", [dec (11) 10; fint 0; fint 0; fint 0]); (str "11", [fint 0; dec (49) 100; fint 0; fint 0])] (Some (4%Z))) = true /\
  gives (result (mpckmeans_run (fun _ _ => 0) (fun _ l => l) (str "MPC") 150%Z (fint 1) (manager [str "0"; str "1"; str "2"; str "3"; str "4"; str "5"; str "6"; str "7"; str "8"; str "9"; str "10"; str "11"] []) [(str "0", [fint 1; fint 0; fint 0; fint 0]); (str "1", [fint 0; dec (43) 100; fint 0; fint 0]); (str "2", [fint 0; fint 0; dec (29) 100; fint 0]); (str "3", [fint 0; fint 0; dec (5) 10; fint 0]); (str "4", [fint 0; fint 0; fint 0; dec (98) 100]); (str "5", [fint 0; fint 0; dec (33) 100; fint 0]); (str "6", [fint 0; fint 0; fint 0; dec (14) 10]); (str "7", [dec (8) 10; fint 0; fint 0; fint 0]); (str "8", [fint 0; dec (54) 100; fint 0; fint 0]); (str "9", [fint 0; fint 0; fint 0; dec (11) 10]); (str "10", [dec (11) 10; fint 0; fint 0; fint 0]); (str "11", [fint 0; dec (49) 100; fint 0; fint 0])] (Some (4%Z)))) [(str "0", 0%Z); (str "1", 1%Z); (str "2", 2%Z); (str "3", 2%Z); (str "4", 3%Z); (str "5", 2%Z); (str "6", 3%Z); (str "7", 0%Z); (str "8", 1%Z); (str "9", 3%Z); (str "10", 0%Z); (str "11", 1%Z)] /\
  gives (result (mpckmeans_run (fun _ _ => 4) (fun _ l => l) (str "MPC") 150%Z (fint 1) (manager [str "0"; str "1"; str "2"; str "3"; str "4"; str "5"; str "6"; str "7"; str "8"; str "9"; str "10"; str "11"] []) [(str "0", [fint 1; fint 0; fint 0; fint 0]); (str "1", [fint 0; dec (43) 100; fint 0; fint 0]); (str "2", [fint 0; fint 0; dec (29) 100; fint 0]); (str "3", [fint 0; fint 0; dec (5) 10; fint 0]); (str "4", [fint 0; fint 0; fint 0; dec (98) 100]); (str "5", [fint 0; fint 0; dec (33) 100; fint 0]); (str "6", [fint 0; fint 0; fint 0; dec (14) 10]); (str "7", [dec (8) 10; fint 0; fint 0; fint 0]); (str "8", [fint 0; dec (54) 100; fint 0; fint 0]); (str "9", [fint 0; fint 0; fint 0; dec (11) 10]); (str "10", [dec (11) 10; fint 0; fint 0; fint 0]); (str "11", [fint 0; dec (49) 100; fint 0; fint 0])] (Some (4%Z)))) [(str "0", 0%Z); (str "1", 1%Z); (str "2", 2%Z); (str "3", 2%Z); (str "4", 3%Z); (str "5", 2%Z); (str "6", 3%Z); (str "7", 0%Z); (str "8", 1%Z); (str "9", 3%Z); (str "10", 0%Z); (str "11", 1%Z)] /\
  gives (result (mpckmeans_run (fun _ _ => 9) (fun _ l => rev l) (str "MPC") 150%Z (fint 1) (manager [str "0"; str "1"; str "2"; str "3"; str "4"; str "5"; str "6"; str "7"; str "8"; str "9"; str "10"; str "11"] []) [(str "0", [fint 1; fint 0; fint 0; fint 0]); (str "1", [fint 0; dec (43) 100; fint 0; fint 0]); (str "2", [fint 0; fint 0; dec (29) 100; fint 0]); (str "3", [fint 0; fint 0; dec (5) 10; fint 0]); (str "4", [fint 0; fint 0; fint 0; dec (98) 100]); (str "5", [fint 0; fint 0; dec (33) 100; fint 0]); (str "6", [fint 0; fint 0; fint 0; dec (14) 10]); (str "7", [dec (8) 10; fint 0; fint 0; fint 0]); (str "8", [fint 0; dec (54) 100; fint 0; fint 0]); (str "9", [fint 0; fint 0; fint 0; dec (11) 10]); (str "10", [dec (11) 10; fint 0; fint 0; fint 0]); (str "11", [fint 0; dec (49) 100; fint 0; fint 0])] (Some (4%Z)))) [(str "0", 0%Z); (str "1", 1%Z); (str "2", 2%Z); (str "3", 2%Z); (str "4", 3%Z); (str "5", 2%Z); (str "6", 3%Z); (str "7", 0%Z); (str "8", 1%Z); (str "9", 3%Z); (str "10", 0%Z); (str "11", 1%Z)].
Proof. vm_compute. repeat split. Qed.

(** clustering/test_mpckmeans.py:228-282 (unseeded: checked for three draws) *)
Example test_MPCKMeansConstrainedClustering_cluster_with_no_constraints_2 :
  predicted (mp_predicted spec_float) (mpckmeans_run (fun _ _ => 0) (fun _ l => l) (str "MPC") 150%Z (fint 1) (manager [str "0"; str "1"; str "2"; str "3"; str "4"; str "5"; str "6"; str "7"; str "8"; str "9"; str "10"; str "11"] []) [(str "0", [fint 2; fint 0; fint 0; fint 0]); (str "1", [fint 0; dec (43) 100; fint 0; fint 0]); (str "2", [fint 0; fint 0; dec (29) 100; fint 0]); (str "3", [fint 0; fint 0; dec (5) 10; fint 0]); (str "4", [fint 0; fint 0; fint 0; dec (98) 100]); (str "5", [fint 0; fint 0; dec (33) 100; fint 0]); (str "6", [fint 0; fint 0; fint 0; dec (14) 10]); (str "7", [dec (8) 10; fint 0; fint 0; fint 0]); (str "8", [fint 0; dec (54) 100; fint 0; fint 0]); (str "9", [fint 0; fint 0; fint 0; dec (11) 10]); (str "10", [dec (11) 10; fint 0; fint 0; fint 0]); (str "11", [fint 0; dec (49) 100; fint 0; fint 0])] (Some (4%Z))) = true /\
  predicted (mp_predicted spec_float) (mpckmeans_run (fun _ _ => 4) (fun _ l => l) (str "MPC") 150%Z (fint 1) (manager [str "0"; str "1"; str "2"; str "3"; str "4"; str "5"; str "6"; str "7"; str "8"; str "9"; str "10"; str "11"] []) [(str "0", [fint 2; fint 0; fint 0; fint 0]); (str "1", [fint 0; dec (43) 100; fint 0; fint 0]); (str "2", [fint 0; fint 0; dec (29) 100; fint 0]); (str "3", [fint 0; fint 0; dec (5) 10; fint 0]); (str "4", [fint 0; fint 0; fint 0; dec (98) 100]); (str "5", [fint 0; fint 0; dec (33) 100; fint 0]); (str "6", [fint 0; fint 0; fint 0; dec (14) 10]); (str "7", [dec (8) 10; fint 0; fint 0; fint 0]); (str "8", [fint 0; dec (54) 100; fint 0; fint 0]); (str "9", [fint 0; fint 0; fint 0; dec (11) 10]); (str "10", [dec (11) 10; fint 0; fint 0; fint 0]); (str "11", [fint 0; dec (49) 100; fint 0; fint 0])] (Some (4%Z))) = true /\
  predicted (mp_predicted spec_float) (mpckmeans_run (fun _ _ => 9) (fun _ l => rev l) (str "MPC") 150%Z (fint 1) (manager [str "0"; str "1"; str "2"; str "3"; str "4"; str "5"; str "6"; str "7"; str "8"; str "9"; str "10"; str "11"] []) [(str "0", [fint 2; fint 0; fint 0; fint 0]); (str "1", [fint 0; dec (43) 100; fint 0; fint 0]); (str "2", [fint 0; fint 0; dec (29) 100; fint 0]); (str "3", [fint 0; fint 0; dec (5) 10; fint 0]); (str "4", [fint 0; fint 0; fint 0; dec (98) 100]); (str "5", [fint 0; fint 0; dec (33) 100; fint 0]); (str "6", [fint 0; fint 0; fint 0; dec (14) 10]); (str "7", [dec (8) 10; fint 0; fint 0; fint 0]); (str "8", [fint 0; dec (54) 100; fint 0; fint 0]); (str "9", [fint 0; fint 0; fint 0; dec (11) 10]); (str "10", [dec (11) 10; fint 0; fint 0; fint 0]); (str "11", [fint 0; dec (49) 100; fint 0; fint 0])] (Some (4%Z))) = true /\
  gives (result (mpckmeans_run (fun _ _ => 0) (fun _ l => l) (str "MPC") 150%Z (fint 1) (manager [str "0"; str "1"; str "2"; str "3"; str "4"; str "5"; str "6"; str "7"; str "8"; str "9"; str "10"; str "11"] []) [(str "0", [fint 2; fint 0; fint 0; fint 0]); (str "1", [fint 0; dec (43) 100; fint 0; fint 0]); (str "2", [fint 0; fint 0; dec (29) 100; fint 0]); (str "3", [fint 0; fint 0; dec (5) 10; fint 0]); (str "4", [fint 0; fint 0; fint 0; dec (98) 100]); (str "5", [fint 0; fint 0; dec (33) 100; fint 0]); (str "6", [fint 0; fint 0; fint 0; dec (14) 10]); (str "7", [dec (8) 10; fint 0; fint 0; fint 0]); (str "8", [fint 0; dec (54) 100; fint 0; fint 0]); (str "9", [fint 0; fint 0; fint 0; dec (11) 10]); (str "10", [dec (11) 10; fint 0; fint 0; fint 0]); (str "11", [fint 0; dec (49) 100; fint 0; fint 0])] (Some (4%Z)))) [(str "0", 0%Z); (str "1", 1%Z); (str "2", 1%Z); (str "3", 1%Z); (str "4", 3%Z); (str "5", 1%Z); (str "6", 3%Z); (str "7", 2%Z); (str "8", 1%Z); (str "9", 3%Z); (str "10", 2%Z); (str "11", 1%Z)] /\
  gives (result (mpckmeans_run (fun _ _ => 4) (fun _ l => l) (str "MPC") 150%Z (fint 1) (manager [str "0"; str "1"; str "2"; str "3"; str "4"; str "5"; str "6"; str "7"; str "8"; str "9"; str "10"; str "11"] []) [(str "0", [fint 2; fint 0; fint 0; fint 0]); (str "1", [fint 0; dec (43) 100; fint 0; fint 0]); (str "2", [fint 0; fint 0; dec (29) 100; fint 0]); (str "3", [fint 0; fint 0; dec (5) 10; fint 0]); (str "4", [fint 0; fint 0; fint 0; dec (98) 100]); (str "5", [fint 0; fint 0; dec (33) 100; fint 0]); (str "6", [fint 0; fint 0; fint 0; dec (14) 10]); (str "7", [dec (8) 10; fint 0; fint 0; fint 0]); (str "8", [fint 0; dec (54) 100; fint 0; fint 0]); (str "9", [fint 0; fint 0; fint 0; dec (11) 10]); (str "10", [dec (11) 10; fint 0; fint 0; fint 0]); (str "11", [fint 0; dec (49) 100; fint 0; fint 0])] (Some (4%Z)))) [(str "0", 0%Z); (str "1", 1%Z); (str "2", 1%Z); (str "3", 1%Z); (str "4", 3%Z); (str "5", 1%Z); (str "6", 3%Z); (str "7", 2%Z); (str "8", 1%Z); (str "9", 3%Z); (str "10", 2%Z); (str "11", 1%Z)] /\
  gives (result (mpckmeans_run (fun _ _ => 9) (fun _ l => rev l) (str "MPC") 150%Z (fint 1) (manager [str "0"; str "1"; str "2"; str "3"; str "4"; str "5"; str "6"; str "7"; str "8"; str "9"; str "10"; str "11"] []) [(str "0", [fint 2; fint 0; fint 0; fint 0]); (str "1", [fint 0; dec (43) 100; fint 0; fint 0]); (str "2", [fint 0; fint 0; dec (29) 100; fint 0]); (str "3", [fint 0; fint 0; dec (5) 10; fint 0]); (str "4", [fint 0; fint 0; fint 0; dec (98) 100]); (str "5", [fint 0; fint 0; dec (33) 100; fint 0]); (str "6", [fint 0; fint 0; fint 0; dec (14) 10]); (str "7", [dec (8) 10; fint 0; fint 0; fint 0]); (str "8", [fint 0; dec (54) 100; fint 0; fint 0]); (str "9", [fint 0; fint 0; fint 0; dec (11) 10]); (str "10", [dec (11) 10; fint 0; fint 0; fint 0]); (str "11", [fint 0; dec (49) 100; fint 0; fint 0])] (Some (4%Z)))) [(str "0", 0%Z); (str "1", 1%Z); (str "2", 1%Z); (str "3", 1%Z); (str "4", 3%Z); (str "5", 1%Z); (str "6", 3%Z); (str "7", 2%Z); (str "8", 1%Z); (str "9", 3%Z); (str "10", 2%Z); (str "11", 1%Z)].
Proof. vm_compute. repeat split. Qed.

(** clustering/test_mpckmeans.py:288-338 (unseeded: checked for three draws) *)
Example test_MPCKMeansConstrainedClustering_cluster_with_some_constraints :
  succeeds (answer (manager [str "0"; str "1"; str "2"; str "3"; str "4"; str "5"; str "6"; str "7"; str "8"; str "9"; str "10"; str "11"] []) (CallAddConstraint (str "0") (str "7") (str "MUST_LINK") 1)) = true /\
  succeeds (answer (manager [str "0"; str "1"; str "2"; str "3"; str "4"; str "5"; str "6"; str "7"; str "8"; str "9"; str "10"; str "11"] [CallAddConstraint (str "0") (str "7") (str "MUST_LINK") 1]) (CallAddConstraint (str "0") (str "10") (str "MUST_LINK") 1)) = true /\
  succeeds (answer (manager [str "0"; str "1"; str "2"; str "3"; str "4"; str "5"; str "6"; str "7"; str "8"; str "9"; str "10"; str "11"] [CallAddConstraint (str "0") (str "7") (str "MUST_LINK") 1; CallAddConstraint (str "0") (str "10") (str "MUST_LINK") 1]) (CallAddConstraint (str "0") (str "4") (str "CANNOT_LINK") 1)) = true /\
  predicted (mp_predicted spec_float) (mpckmeans_run (fun _ _ => 0) (fun _ l => l) (str "MPC") 150%Z (fint 1) (manager [str "0"; str "1"; str "2"; str "3"; str "4"; str "5"; str "6"; str "7"; str "8"; str "9"; str "10"; str "11"] [CallAddConstraint (str "0") (str "7") (str "MUST_LINK") 1; CallAddConstraint (str "0") (str "10") (str "MUST_LINK") 1; CallAddConstraint (str "0") (str "4") (str "CANNOT_LINK") 1]) [(str "0", [fint 2; fint 0; fint 0; fint 0]); (str "1", [fint 0; dec (43) 100; fint 0; fint 0]); (str "2", [fint 0; fint 0; dec (29) 100; fint 0]); (str "3", [fint 0; fint 0; dec (5) 10; fint 0]); (str "4", [fint 0; fint 0; fint 0; dec (98) 100]); (str "5", [fint 0; fint 0; dec (33) 100; fint 0]); (str "6", [fint 0; fint 0; fint 0; dec (14) 10]); (str "7", [dec (8) 10; fint 0; fint 0; fint 0]); (str "8", [fint 0; dec (54) 100; fint 0; fint 0]); (str "9", [fint 0; fint 0; fint 0; dec (11) 10]); (str "10", [dec (11) 10; fint 0; fint 0; fint 0]); (str "11", [fint 0; dec (49) 100; fint 0; fint 0])] (Some (4%Z))) = true /\
  predicted (mp_predicted spec_float) (mpckmeans_run (fun _ _ => 4) (fun _ l => l) (str "MPC") 150%Z (fint 1) (manager [str "0"; str "1"; str "2"; str "3"; str "4"; str "5"; str "6"; str "7"; str "8"; str "9"; str "10"; str "11"] [CallAddConstraint (str "0") (str "7") (str "MUST_LINK") 1; CallAddConstraint (str "0") (str "10") (str "MUST_LINK") 1; CallAddConstraint (str "0") (str "4") (str "CANNOT_LINK") 1]) [(str "0", [fint 2; fint 0; fint 0; fint 0]); (str "1", [fint 0; dec (43) 100; fint 0; fint 0]); (str "2", [fint 0; fint 0; dec (29) 100; fint 0]); (str "3", [fint 0; fint 0; dec (5) 10; fint 0]); (str "4", [fint 0; fint 0; fint 0; dec (98) 100]); (str "5", [fint 0; fint 0; dec (33) 100; fint 0]); (str "6", [fint 0; fint 0; fint 0; dec (14) 10]); (str "7", [dec (8) 10; fint 0; fint 0; fint 0]); (str "8", [fint 0; dec (54) 100; fint 0; fint 0]); (str "9", [fint 0; fint 0; fint 0; dec (11) 10]); (str "10", [dec (11) 10; fint 0; fint 0; fint 0]); (str "11", [fint 0; dec (49) 100; fint 0; fint 0])] (Some (4%Z))) = true /\
  predicted (mp_predicted spec_float) (mpckmeans_run (fun _ _ => 9) (fun _ l => rev l) (str "MPC") 150%Z (fint 1) (manager [str "0"; str "1"; str "2"; str "3"; str "4"; str "5"; str "6"; str "7"; str "8"; str "9"; str "10"; str "11"] [CallAddConstraint (str "0") (str "7") (str "MUST_LINK") 1; CallAddConstraint (str "0") (str "10") (str "MUST_LINK") 1; CallAddConstraint (str "0") (str "4") (str "CANNOT_LINK") 1]) [(str "0", [fint 2; fint 0; fint 0; fint 0]); (str "1", [fint 0; dec (43) 100; fint 0; fint 0]); (str "2", [fint 0; fint 0; dec (29) 100; fint 0]); (str "3", [fint 0; fint 0; dec (5) 10; fint 0]); (str "4", [fint 0; fint 0; fint 0; dec (98) 100]); (str "5", [fint 0; fint 0; dec (33) 100; fint 0]); (str "6", [fint 0; fint 0; fint 0; dec (14) 10]); (str "7", [dec (8) 10; fint 0; fint 0; fint 0]); (str "8", [fint 0; dec (54) 100; fint 0; fint 0]); (str "9", [fint 0; fint 0; fint 0; dec (11) 10]); (str "10", [dec (11) 10; fint 0; fint 0; fint 0]); (str "11", [fint 0; dec (49) 100; fint 0; fint 0])] (Some (4%Z))) = true /\
  gives (result (mpckmeans_run (fun _ _ => 0) (fun _ l => l) (str "MPC") 150%Z (fint 1) (manager [str "0"; str "1"; str "2"; str "3"; str "4"; str "5"; str "6"; str "7"; str "8"; str "9"; str "10"; str "11"] [CallAddConstraint (str "0") (str "7") (str "MUST_LINK") 1; CallAddConstraint (str "0") (str "10") (str "MUST_LINK") 1; CallAddConstraint (str "0") (str "4") (str "CANNOT_LINK") 1]) [(str "0", [fint 2; fint 0; fint 0; fint 0]); (str "1", [fint 0; dec (43) 100; fint 0; fint 0]); (str "2", [fint 0; fint 0; dec (29) 100; fint 0]); (str "3", [fint 0; fint 0; dec (5) 10; fint 0]); (str "4", [fint 0; fint 0; fint 0; dec (98) 100]); (str "5", [fint 0; fint 0; dec (33) 100; fint 0]); (str "6", [fint 0; fint 0; fint 0; dec (14) 10]); (str "7", [dec (8) 10; fint 0; fint 0; fint 0]); (str "8", [fint 0; dec (54) 100; fint 0; fint 0]); (str "9", [fint 0; fint 0; fint 0; dec (11) 10]); (str "10", [dec (11) 10; fint 0; fint 0; fint 0]); (str "11", [fint 0; dec (49) 100; fint 0; fint 0])] (Some (4%Z)))) [(str "0", 0%Z); (str "1", 1%Z); (str "2", 2%Z); (str "3", 2%Z); (str "4", 3%Z); (str "5", 2%Z); (str "6", 3%Z); (str "7", 0%Z); (str "8", 1%Z); (str "9", 3%Z); (str "10", 0%Z); (str "11", 1%Z)] /\
  gives (result (mpckmeans_run (fun _ _ => 4) (fun _ l => l) (str "MPC") 150%Z (fint 1) (manager [str "0"; str "1"; str "2"; str "3"; str "4"; str "5"; str "6"; str "7"; str "8"; str "9"; str "10"; str "11"] [CallAddConstraint (str "0") (str "7") (str "MUST_LINK") 1; CallAddConstraint (str "0") (str "10") (str "MUST_LINK") 1; CallAddConstraint (str "0") (str "4") (str "CANNOT_LINK") 1]) [(str "0", [fint 2; fint 0; fint 0; fint 0]); (str "1", [fint 0; dec (43) 100; fint 0; fint 0]); (str "2", [fint 0; fint 0; dec (29) 100; fint 0]); (str "3", [fint 0; fint 0; dec (5) 10; fint 0]); (str "4", [fint 0; fint 0; fint 0; dec (98) 100]); (str "5", [fint 0; fint 0; dec (33) 100; fint 0]); (str "6", [fint 0; fint 0; fint 0; dec (14) 10]); (str "7", [dec (8) 10; fint 0; fint 0; fint 0]); (str "8", [fint 0; dec (54) 100; fint 0; fint 0]); (str "9", [fint 0; fint 0; fint 0; dec (11) 10]); (str "10", [dec (11) 10; fint 0; fint 0; fint 0]); (str "11", [fint 0; dec (49) 100; fint 0; fint 0])] (Some (4%Z)))) [(str "0", 0%Z); (str "1", 1%Z); (str "2", 2%Z); (str "3", 2%Z); (str "4", 3%Z); (str "5", 2%Z); (str "6", 3%Z); (str "7", 0%Z); (str "8", 1%Z); (str "9", 3%Z); (str "10", 0%Z); (str "11", 1%Z)] /\
  gives (result (mpckmeans_run (fun _ _ => 9) (fun _ l => rev l) (str "MPC") 150%Z (fint 1) (manager [str "0"; str "1"; str "2"; str "3"; str "4"; str "5"; str "6"; str "7"; str "8"; str "9"; str "10"; str "11"] [CallAddConstraint (str "0") (str "7") (str "MUST_LINK") 1; CallAddConstraint (str "0") (str "10") (str "MUST_LINK") 1; CallAddConstraint (str "0") (str "4") (str "CANNOT_LINK") 1]) [(str "0", [fint 2; fint 0; fint 0; fint 0]); (str "1", [fint 0; dec (43) 100; fint 0; fint 0]); (str "2", [fint 0; fint 0; dec (29) 100; fint 0]); (str "3", [fint 0; fint 0; dec (5) 10; fint 0]); (str "4", [fint 0; fint 0; fint 0; dec (98) 100]); (str "5", [fint 0; fint 0; dec (33) 100; fint 0]); (str "6", [fint 0; fint 0; fint 0; dec (14) 10]); (str "7", [dec (8) 10; fint 0; fint 0; fint 0]); (str "8", [fint 0; dec (54) 100; fint 0; fint 0]); (str "9", [fint 0; fint 0; fint 0; dec (11) 10]); (str "10", [dec (11) 10; fint 0; fint 0; fint 0]); (str "11", [fint 0; dec (49) 100; fint 0; fint 0])] (Some (4%Z)))) [(str "0", 0%Z); (str "1", 1%Z); (str "2", 2%Z); (str "3", 2%Z); (str "4", 3%Z); (str "5", 2%Z); (str "6", 3%Z); (str "7", 0%Z); (str "8", 1%Z); (str "9", 3%Z); (str "10", 0%Z); (str "11", 1%Z)].
Proof. vm_compute. repeat split. Qed.

(** clustering/test_spectral.py:26-35 *)
Example test_SpectralConstrainedClustering_for_inconsistent_model :
  raises (make_spectral (str "as_you_want") None) ValueError.
Proof. vm_compute. repeat split. Qed.

(** clustering/test_spectral.py:41-50 *)
Example test_SpectralConstrainedClustering_for_inconsistent_nb_components :
  raises (make_spectral (str "SPEC") (Some ((-1)%Z))) ValueError.
Proof. vm_compute. repeat split. Qed.

(** clustering/test_spectral.py:56-70 *)
Example test_SpectralConstrainedClustering_for_correct_settings :
  succeeds (make_spectral (str "SPEC") (Some (100%Z))) = true.
Proof. vm_compute. repeat split. Qed.

(** clustering/test_spectral.py:116-130 *)
Example test_SpectralConstrainedClustering_cluster_for_inconsistent_nb_clusters_1 :
  raises (result (spectral_run (manager [str "first"; str "second"; str "third"] []) [(str "first", [fint 1; fint 2; fint 3]); (str "second", [fint 4; fint 5; fint 6]); (str "third", [fint 7; fint 8; fint 9])] None)) ValueError.
Proof. vm_compute. repeat split. Qed.

(** clustering/test_spectral.py:136-150 *)
Example test_SpectralConstrainedClustering_cluster_for_inconsistent_nb_clusters_2 :
  raises (result (spectral_run (manager [str "first"; str "second"; str "third"] []) [(str "first", [fint 1; fint 2; fint 3]); (str "second", [fint 4; fint 5; fint 6]); (str "third", [fint 7; fint 8; fint 9])] (Some ((-1)%Z)))) ValueError.
Proof. vm_compute. repeat split. Qed.

(** Not expressed:
    - clustering/test_affinity_propagation.py:75-89 test_AffinityPropagationConstrainedClustering_cluster_for_inconsistent_constraints_manager: a manager that is not a manager;
    - clustering/test_affinity_propagation.py:95-109 test_AffinityPropagationConstrainedClustering_cluster_for_inconsistent_vectors: vectors that are not a dictionary;
    - clustering/test_mpckmeans.py:95-109 test_MPCKMeansConstrainedClustering_cluster_for_inconsistent_constraints_manager: a manager that is not a manager;
    - clustering/test_mpckmeans.py:115-129 test_MPCKMeansConstrainedClustering_cluster_for_inconsistent_vectors: vectors that are not a dictionary;
    - clustering/test_spectral.py:76-90 test_SpectralConstrainedClustering_cluster_for_inconsistent_constraints_manager: a manager that is not a manager;
    - clustering/test_spectral.py:96-110 test_SpectralConstrainedClustering_cluster_for_inconsistent_vectors: vectors that are not a dictionary;
    - clustering/test_spectral.py:156-199 test_SpectralConstrainedClustering_cluster_model_SPEC_with_no_constraints: needs eigenvectors and the KMeans of scikit-learn;
    - clustering/test_spectral.py:205-255 test_SpectralConstrainedClustering_cluster_model_SPEC_with_some_constraints: needs eigenvectors and the KMeans of scikit-learn;
    - clustering/test_spectral.py:261-315 test_SpectralConstrainedClustering_cluster_model_SPEC_with_full_constraints: needs eigenvectors and the KMeans of scikit-learn. *)
