(** * The project's tests, run on the model

    Written by tools/gen_tests.py from /repo/tests: sampling/test_cluster_based.py, sampling/test_factory.py, sampling/test_factory_random.py, sampling/test_factory_random_in_same_cluster.py, sampling/test_factory_farthest_in_same_cluster.py, sampling/test_factory_closest_in_different_clusters.py.
    36 tests; see TestLib.v for the numbers and the random draws. *)

From Coq Require Import String List Bool Arith NArith ZArith QArith SpecFloat.
From Verif Require Import Base Manager MinMax Json Rename KMeans Hierarchical Dbscan Affinity Mpckmeans Spectral Sampling Objects Frequency Factories TestLib.
Import ListNotations.
Open Scope nat_scope.

(** [random.seed(1); random.sample(l, k)] for lists of length 0 to 11. *)
Definition sample_seed_1 : list (nat * nat * list nat) :=
  [(0, 0, []);
   (1, 0, []);
   (1, 1, [0]);
   (2, 0, []);
   (2, 1, [0]);
   (2, 2, [0; 1]);
   (3, 0, []);
   (3, 1, [0]);
   (3, 2, [0; 2]);
   (3, 3, [0; 2; 1]);
   (4, 0, []);
   (4, 1, [1]);
   (4, 2, [1; 2]);
   (4, 3, [1; 2; 0]);
   (4, 4, [1; 2; 0; 3]);
   (5, 0, []);
   (5, 1, [1]);
   (5, 2, [1; 0]);
   (5, 3, [1; 0; 4]);
   (5, 4, [1; 0; 4; 3]);
   (6, 0, []);
   (6, 1, [1]);
   (6, 2, [1; 4]);
   (6, 3, [1; 4; 0]);
   (6, 4, [1; 4; 0; 5]);
   (7, 0, []);
   (7, 1, [1]);
   (7, 2, [1; 4]);
   (7, 3, [1; 4; 0]);
   (7, 4, [1; 4; 0; 2]);
   (8, 0, []);
   (8, 1, [2]);
   (8, 2, [2; 4]);
   (8, 3, [2; 4; 0]);
   (8, 4, [2; 4; 0; 7]);
   (9, 0, []);
   (9, 1, [2]);
   (9, 2, [2; 1]);
   (9, 3, [2; 1; 8]);
   (9, 4, [2; 1; 8; 0]);
   (10, 0, []);
   (10, 1, [2]);
   (10, 2, [2; 1]);
   (10, 3, [2; 1; 4]);
   (10, 4, [2; 1; 4; 0]);
   (11, 0, []);
   (11, 1, [2]);
   (11, 2, [2; 9]);
   (11, 3, [2; 9; 1]);
   (11, 4, [2; 9; 1; 4])].

(** sampling/test_cluster_based.py:23-32 *)
Example test_cluster_based_for_incorrect_clusters_restriction_parameter :
  raises (make_options (Some (str "unknown")) None true true) ValueError.
Proof. vm_compute. repeat split. Qed.

(** sampling/test_cluster_based.py:38-47 *)
Example test_cluster_based_for_incorrect_distance_restriction_parameter :
  raises (make_options None (Some (str "unknown")) true true) ValueError.
Proof. vm_compute. repeat split. Qed.

(** sampling/test_factory.py:24-33 *)
Example test_sampling_factory_for_not_implemented_clustering :
  raises (sampling_factory (str "unknown") no_sampling_kargs) ValueError.
Proof. vm_compute. repeat split. Qed.

(** sampling/test_factory.py:39-50 *)
Example test_sampling_factory_for_random_sampling :
  succeeds (sampling_factory (str "random") no_sampling_kargs) = true /\
  fail_or (sampling_factory (str "random") no_sampling_kargs) (fun o => Ok (o_clusters o)) = Ok None /\
  fail_or (sampling_factory (str "random") no_sampling_kargs) (fun o => Ok (o_distance o)) = Ok None.
Proof. vm_compute. repeat split. Qed.

(** sampling/test_factory.py:56-67 *)
Example test_sampling_factory_for_random_in_same_cluster_sampling :
  succeeds (sampling_factory (str "random_in_same_cluster") no_sampling_kargs) = true /\
  fail_or (sampling_factory (str "random_in_same_cluster") no_sampling_kargs) (fun o => Ok (o_clusters o)) = Ok (Some (str "same_cluster")) /\
  fail_or (sampling_factory (str "random_in_same_cluster") no_sampling_kargs) (fun o => Ok (o_distance o)) = Ok None.
Proof. vm_compute. repeat split. Qed.

(** sampling/test_factory.py:73-84 *)
Example test_sampling_factory_for_farthest_in_same_cluster_sampling :
  succeeds (sampling_factory (str "farthest_in_same_cluster") no_sampling_kargs) = true /\
  fail_or (sampling_factory (str "farthest_in_same_cluster") no_sampling_kargs) (fun o => Ok (o_clusters o)) = Ok (Some (str "same_cluster")) /\
  fail_or (sampling_factory (str "farthest_in_same_cluster") no_sampling_kargs) (fun o => Ok (o_distance o)) = Ok (Some (str "farthest_neighbors")).
Proof. vm_compute. repeat split. Qed.

(** sampling/test_factory.py:90-101 *)
Example test_sampling_factory_for_closest_in_different_clusters_sampling :
  succeeds (sampling_factory (str "closest_in_different_clusters") no_sampling_kargs) = true /\
  fail_or (sampling_factory (str "closest_in_different_clusters") no_sampling_kargs) (fun o => Ok (o_clusters o)) = Ok (Some (str "different_clusters")) /\
  fail_or (sampling_factory (str "closest_in_different_clusters") no_sampling_kargs) (fun o => Ok (o_distance o)) = Ok (Some (str "closest_neighbors")).
Proof. vm_compute. repeat split. Qed.

(** sampling/test_factory_random.py:24-33 *)
Example test_factory_random_sampler_for_correct_settings :
  succeeds (make_options None None true true) = true.
Proof. vm_compute. repeat split. Qed.

(** sampling/test_factory_random.py:58-94 (left out: a number to select that is not an integer) *)
Example test_factory_random_sampler_sample_for_incorrect_nb_to_select :
  raises (result (sample_run (sampled sample_seed_1) None None true true (manager [str "bonjour"; str "salut"; str "coucou"; str "au revoir"; [97%N; 32%N; 98%N; 105%N; 101%N; 110%N; 116%N; 244%N; 116%N]] []) (-99)%Z None None)) ValueError.
Proof. vm_compute. repeat split. Qed.

(** sampling/test_factory_random.py:100-120 *)
Example test_factory_random_sampler_sample_for_zero_nb_to_select :
  result (sample_run (sampled sample_seed_1) None None true true (manager [str "bonjour"; str "salut"; str "coucou"; str "au revoir"; [97%N; 32%N; 98%N; 105%N; 101%N; 110%N; 116%N; 244%N; 116%N]] []) 0%Z None None) = Ok [].
Proof. vm_compute. repeat split. Qed.

(** sampling/test_factory_random.py:126-146 *)
Example test_factory_random_sampler_sample_for_empty_constraints_manager :
  result (sample_run (sampled sample_seed_1) None None true true (manager [str "bonjour"; str "salut"; str "coucou"; str "au revoir"; [97%N; 32%N; 98%N; 105%N; 101%N; 110%N; 116%N; 244%N; 116%N]] []) 3%Z None None) = Ok [(str "coucou", str "salut"); (str "bonjour", str "coucou"); (str "au revoir", str "salut")].
Proof. vm_compute. repeat split. Qed.

(** sampling/test_factory_random.py:152-177 *)
Example test_factory_random_sampler_sample_for_correct_constraints_manager :
  succeeds (answer (manager [str "bonjour"; str "salut"; str "coucou"; str "au revoir"; [97%N; 32%N; 98%N; 105%N; 101%N; 110%N; 116%N; 244%N; 116%N]] []) (CallAddConstraint (str "bonjour") (str "salut") (str "MUST_LINK") 1)) = true /\
  succeeds (answer (manager [str "bonjour"; str "salut"; str "coucou"; str "au revoir"; [97%N; 32%N; 98%N; 105%N; 101%N; 110%N; 116%N; 244%N; 116%N]] [CallAddConstraint (str "bonjour") (str "salut") (str "MUST_LINK") 1]) (CallAddConstraint (str "au revoir") ([97%N; 32%N; 98%N; 105%N; 101%N; 110%N; 116%N; 244%N; 116%N]) (str "MUST_LINK") 1)) = true /\
  result (sample_run (sampled sample_seed_1) None None true true (manager [str "bonjour"; str "salut"; str "coucou"; str "au revoir"; [97%N; 32%N; 98%N; 105%N; 101%N; 110%N; 116%N; 244%N; 116%N]] [CallAddConstraint (str "bonjour") (str "salut") (str "MUST_LINK") 1; CallAddConstraint (str "au revoir") ([97%N; 32%N; 98%N; 105%N; 101%N; 110%N; 116%N; 244%N; 116%N]) (str "MUST_LINK") 1]) 3%Z None None) = Ok [(str "au revoir", str "bonjour"); (str "au revoir", str "coucou"); (str "bonjour", str "coucou")].
Proof. vm_compute. repeat split. Qed.

(** sampling/test_factory_random.py:183-210 *)
Example test_factory_random_sampler_sample_for_full_annotated_constraints_manager :
  succeeds (answer (manager [str "bonjour"; str "salut"; str "coucou"; str "au revoir"; [97%N; 32%N; 98%N; 105%N; 101%N; 110%N; 116%N; 244%N; 116%N]] []) (CallAddConstraint (str "bonjour") (str "salut") (str "MUST_LINK") 1)) = true /\
  succeeds (answer (manager [str "bonjour"; str "salut"; str "coucou"; str "au revoir"; [97%N; 32%N; 98%N; 105%N; 101%N; 110%N; 116%N; 244%N; 116%N]] [CallAddConstraint (str "bonjour") (str "salut") (str "MUST_LINK") 1]) (CallAddConstraint (str "bonjour") (str "coucou") (str "MUST_LINK") 1)) = true /\
  succeeds (answer (manager [str "bonjour"; str "salut"; str "coucou"; str "au revoir"; [97%N; 32%N; 98%N; 105%N; 101%N; 110%N; 116%N; 244%N; 116%N]] [CallAddConstraint (str "bonjour") (str "salut") (str "MUST_LINK") 1; CallAddConstraint (str "bonjour") (str "coucou") (str "MUST_LINK") 1]) (CallAddConstraint (str "bonjour") (str "au revoir") (str "CANNOT_LINK") 1)) = true /\
  succeeds (answer (manager [str "bonjour"; str "salut"; str "coucou"; str "au revoir"; [97%N; 32%N; 98%N; 105%N; 101%N; 110%N; 116%N; 244%N; 116%N]] [CallAddConstraint (str "bonjour") (str "salut") (str "MUST_LINK") 1; CallAddConstraint (str "bonjour") (str "coucou") (str "MUST_LINK") 1; CallAddConstraint (str "bonjour") (str "au revoir") (str "CANNOT_LINK") 1]) (CallAddConstraint (str "au revoir") ([97%N; 32%N; 98%N; 105%N; 101%N; 110%N; 116%N; 244%N; 116%N]) (str "MUST_LINK") 1)) = true /\
  result (sample_run (sampled sample_seed_1) None None true true (manager [str "bonjour"; str "salut"; str "coucou"; str "au revoir"; [97%N; 32%N; 98%N; 105%N; 101%N; 110%N; 116%N; 244%N; 116%N]] [CallAddConstraint (str "bonjour") (str "salut") (str "MUST_LINK") 1; CallAddConstraint (str "bonjour") (str "coucou") (str "MUST_LINK") 1; CallAddConstraint (str "bonjour") (str "au revoir") (str "CANNOT_LINK") 1; CallAddConstraint (str "au revoir") ([97%N; 32%N; 98%N; 105%N; 101%N; 110%N; 116%N; 244%N; 116%N]) (str "MUST_LINK") 1]) 3%Z None None) = Ok [].
Proof. vm_compute. repeat split. Qed.

(** sampling/test_factory_random_in_same_cluster.py:24-36 *)
Example test_factory_random_in_same_cluster_sampler_for_correct_settings :
  succeeds (make_options (Some (str "same_cluster")) None true true) = true.
Proof. vm_compute. repeat split. Qed.

(** sampling/test_factory_random_in_same_cluster.py:64-103 (left out: a number to select that is not an integer) *)
Example test_factory_random_in_same_cluster_sampler_sample_for_incorrect_nb_to_select :
  raises (result (sample_run (sampled sample_seed_1) (Some (str "same_cluster")) None true true (manager [str "bonjour"; str "salut"; str "coucou"; str "au revoir"; [97%N; 32%N; 98%N; 105%N; 101%N; 110%N; 116%N; 244%N; 116%N]] []) (-99)%Z None None)) ValueError.
Proof. vm_compute. repeat split. Qed.

(** sampling/test_factory_random_in_same_cluster.py:109-132 *)
Example test_factory_random_in_same_cluster_sampler_sample_for_zero_nb_to_select :
  result (sample_run (sampled sample_seed_1) (Some (str "same_cluster")) None true true (manager [str "bonjour"; str "salut"; str "coucou"; str "au revoir"; [97%N; 32%N; 98%N; 105%N; 101%N; 110%N; 116%N; 244%N; 116%N]] []) 0%Z None None) = Ok [].
Proof. vm_compute. repeat split. Qed.

(** sampling/test_factory_random_in_same_cluster.py:138-182 (left out: clustering_result that is not a dictionary) *)
Example test_factory_random_in_same_cluster_sampler_sample_for_incorrect_clustering_result :
  raises (result (sample_run (sampled sample_seed_1) (Some (str "same_cluster")) None true true (manager [str "bonjour"; str "salut"; str "coucou"; str "au revoir"; [97%N; 32%N; 98%N; 105%N; 101%N; 110%N; 116%N; 244%N; 116%N]] []) 3%Z (Some ([(str "first", 1%Z); (str "second", 2%Z)])) None)) KeyError.
Proof. vm_compute. repeat split. Qed.

(** sampling/test_factory_random_in_same_cluster.py:188-218 *)
Example test_factory_random_in_same_cluster_sampler_sample_for_empty_constraints_manager :
  result (sample_run (sampled sample_seed_1) (Some (str "same_cluster")) None true true (manager [str "bonjour"; str "salut"; str "coucou"; str "au revoir"; [97%N; 32%N; 98%N; 105%N; 101%N; 110%N; 116%N; 244%N; 116%N]] []) 3%Z (Some ([(str "bonjour", 0%Z); (str "salut", 0%Z); (str "coucou", 0%Z); (str "au revoir", 1%Z); ([97%N; 32%N; 98%N; 105%N; 101%N; 110%N; 116%N; 244%N; 116%N], 1%Z)])) None) = Ok [(str "bonjour", str "coucou"); (str "coucou", str "salut"); (str "bonjour", str "salut")].
Proof. vm_compute. repeat split. Qed.

(** sampling/test_factory_random_in_same_cluster.py:224-259 *)
Example test_factory_random_in_same_cluster_sampler_sample_for_correct_constraints_manager :
  succeeds (answer (manager [str "bonjour"; str "salut"; str "coucou"; str "au revoir"; [97%N; 32%N; 98%N; 105%N; 101%N; 110%N; 116%N; 244%N; 116%N]] []) (CallAddConstraint (str "bonjour") (str "salut") (str "MUST_LINK") 1)) = true /\
  succeeds (answer (manager [str "bonjour"; str "salut"; str "coucou"; str "au revoir"; [97%N; 32%N; 98%N; 105%N; 101%N; 110%N; 116%N; 244%N; 116%N]] [CallAddConstraint (str "bonjour") (str "salut") (str "MUST_LINK") 1]) (CallAddConstraint (str "au revoir") ([97%N; 32%N; 98%N; 105%N; 101%N; 110%N; 116%N; 244%N; 116%N]) (str "MUST_LINK") 1)) = true /\
  result (sample_run (sampled sample_seed_1) (Some (str "same_cluster")) None true true (manager [str "bonjour"; str "salut"; str "coucou"; str "au revoir"; [97%N; 32%N; 98%N; 105%N; 101%N; 110%N; 116%N; 244%N; 116%N]] [CallAddConstraint (str "bonjour") (str "salut") (str "MUST_LINK") 1; CallAddConstraint (str "au revoir") ([97%N; 32%N; 98%N; 105%N; 101%N; 110%N; 116%N; 244%N; 116%N]) (str "MUST_LINK") 1]) 3%Z (Some ([(str "bonjour", 0%Z); (str "salut", 0%Z); (str "coucou", 0%Z); (str "au revoir", 1%Z); ([97%N; 32%N; 98%N; 105%N; 101%N; 110%N; 116%N; 244%N; 116%N], 1%Z)])) None) = Ok [(str "bonjour", str "coucou"); (str "coucou", str "salut")].
Proof. vm_compute. repeat split. Qed.

(** sampling/test_factory_random_in_same_cluster.py:265-302 *)
Example test_factory_random_in_same_cluster_sampler_sample_for_full_annotated_constraints_manager :
  succeeds (answer (manager [str "bonjour"; str "salut"; str "coucou"; str "au revoir"; [97%N; 32%N; 98%N; 105%N; 101%N; 110%N; 116%N; 244%N; 116%N]] []) (CallAddConstraint (str "bonjour") (str "salut") (str "MUST_LINK") 1)) = true /\
  succeeds (answer (manager [str "bonjour"; str "salut"; str "coucou"; str "au revoir"; [97%N; 32%N; 98%N; 105%N; 101%N; 110%N; 116%N; 244%N; 116%N]] [CallAddConstraint (str "bonjour") (str "salut") (str "MUST_LINK") 1]) (CallAddConstraint (str "bonjour") (str "coucou") (str "MUST_LINK") 1)) = true /\
  succeeds (answer (manager [str "bonjour"; str "salut"; str "coucou"; str "au revoir"; [97%N; 32%N; 98%N; 105%N; 101%N; 110%N; 116%N; 244%N; 116%N]] [CallAddConstraint (str "bonjour") (str "salut") (str "MUST_LINK") 1; CallAddConstraint (str "bonjour") (str "coucou") (str "MUST_LINK") 1]) (CallAddConstraint (str "bonjour") (str "au revoir") (str "CANNOT_LINK") 1)) = true /\
  succeeds (answer (manager [str "bonjour"; str "salut"; str "coucou"; str "au revoir"; [97%N; 32%N; 98%N; 105%N; 101%N; 110%N; 116%N; 244%N; 116%N]] [CallAddConstraint (str "bonjour") (str "salut") (str "MUST_LINK") 1; CallAddConstraint (str "bonjour") (str "coucou") (str "MUST_LINK") 1; CallAddConstraint (str "bonjour") (str "au revoir") (str "CANNOT_LINK") 1]) (CallAddConstraint (str "au revoir") ([97%N; 32%N; 98%N; 105%N; 101%N; 110%N; 116%N; 244%N; 116%N]) (str "MUST_LINK") 1)) = true /\
  result (sample_run (sampled sample_seed_1) (Some (str "same_cluster")) None true true (manager [str "bonjour"; str "salut"; str "coucou"; str "au revoir"; [97%N; 32%N; 98%N; 105%N; 101%N; 110%N; 116%N; 244%N; 116%N]] [CallAddConstraint (str "bonjour") (str "salut") (str "MUST_LINK") 1; CallAddConstraint (str "bonjour") (str "coucou") (str "MUST_LINK") 1; CallAddConstraint (str "bonjour") (str "au revoir") (str "CANNOT_LINK") 1; CallAddConstraint (str "au revoir") ([97%N; 32%N; 98%N; 105%N; 101%N; 110%N; 116%N; 244%N; 116%N]) (str "MUST_LINK") 1]) 3%Z (Some ([(str "bonjour", 0%Z); (str "salut", 0%Z); (str "coucou", 0%Z); (str "au revoir", 1%Z); ([97%N; 32%N; 98%N; 105%N; 101%N; 110%N; 116%N; 244%N; 116%N], 1%Z)])) None) = Ok [].
Proof. vm_compute. repeat split. Qed.

(** sampling/test_factory_farthest_in_same_cluster.py:25-38 *)
Example test_factory_farhest_in_same_cluster_sampler_for_correct_settings :
  succeeds (make_options (Some (str "same_cluster")) (Some (str "farthest_neighbors")) true true) = true.
Proof. vm_compute. repeat split. Qed.

(** sampling/test_factory_farthest_in_same_cluster.py:67-107 (left out: a number to select that is not an integer) *)
Example test_factory_farhest_in_same_cluster_sampler_sample_for_incorrect_nb_to_select :
  raises (result (sample_run (sampled sample_seed_1) (Some (str "same_cluster")) (Some (str "farthest_neighbors")) true true (manager [str "bonjour"; str "salut"; str "coucou"; str "au revoir"; [97%N; 32%N; 98%N; 105%N; 101%N; 110%N; 116%N; 244%N; 116%N]] []) (-99)%Z None None)) ValueError.
Proof. vm_compute. repeat split. Qed.

(** sampling/test_factory_farthest_in_same_cluster.py:113-137 *)
Example test_factory_farhest_in_same_cluster_sampler_sample_for_zero_nb_to_select :
  result (sample_run (sampled sample_seed_1) (Some (str "same_cluster")) (Some (str "farthest_neighbors")) true true (manager [str "bonjour"; str "salut"; str "coucou"; str "au revoir"; [97%N; 32%N; 98%N; 105%N; 101%N; 110%N; 116%N; 244%N; 116%N]] []) 0%Z None None) = Ok [].
Proof. vm_compute. repeat split. Qed.

(** sampling/test_factory_farthest_in_same_cluster.py:143-195 (left out: clustering_result that is not a dictionary) *)
Example test_factory_farhest_in_same_cluster_sampler_sample_for_incorrect_clustering_result :
  raises (result (sample_run (sampled sample_seed_1) (Some (str "same_cluster")) (Some (str "farthest_neighbors")) true true (manager [str "bonjour"; str "salut"; str "coucou"; str "au revoir"; [97%N; 32%N; 98%N; 105%N; 101%N; 110%N; 116%N; 244%N; 116%N]] []) 3%Z (Some ([(str "first", 1%Z); (str "second", 2%Z)])) (Some ([(str "bonjour", [fint 1; fint 0]); (str "salut", [dec (99) 100; fint 0]); (str "coucou", [dec (8) 10; fint 0]); (str "au revoir", [fint 0; fint 1]); ([97%N; 32%N; 98%N; 105%N; 101%N; 110%N; 116%N; 244%N; 116%N], [fint 0; dec (9) 10])])))) KeyError.
Proof. vm_compute. repeat split. Qed.

(** sampling/test_factory_farthest_in_same_cluster.py:201-260 (left out: vectors that is not a dictionary) *)
Example test_factory_farhest_in_same_cluster_sampler_sample_for_incorrect_vectors :
  raises (result (sample_run (sampled sample_seed_1) (Some (str "same_cluster")) (Some (str "farthest_neighbors")) true true (manager [str "bonjour"; str "salut"; str "coucou"; str "au revoir"; [97%N; 32%N; 98%N; 105%N; 101%N; 110%N; 116%N; 244%N; 116%N]] []) 3%Z (Some ([(str "bonjour", 0%Z); (str "salut", 0%Z); (str "coucou", 0%Z); (str "au revoir", 1%Z); ([97%N; 32%N; 98%N; 105%N; 101%N; 110%N; 116%N; 244%N; 116%N], 1%Z)])) (Some ([(str "first", [fint 1]); (str "second", [fint 2])])))) KeyError.
Proof. vm_compute. repeat split. Qed.

(** sampling/test_factory_farthest_in_same_cluster.py:266-308 *)
Example test_factory_farhest_in_same_cluster_sampler_sample_for_empty_constraints_manager :
  result (sample_run (sampled sample_seed_1) (Some (str "same_cluster")) (Some (str "farthest_neighbors")) true true (manager [str "bonjour"; str "salut"; str "coucou"; str "au revoir"; [97%N; 32%N; 98%N; 105%N; 101%N; 110%N; 116%N; 244%N; 116%N]] []) 3%Z (Some ([(str "bonjour", 0%Z); (str "salut", 0%Z); (str "coucou", 0%Z); (str "au revoir", 1%Z); ([97%N; 32%N; 98%N; 105%N; 101%N; 110%N; 116%N; 244%N; 116%N], 1%Z)])) (Some ([(str "bonjour", [fint 1; fint 0]); (str "salut", [dec (99) 100; fint 0]); (str "coucou", [dec (8) 10; fint 0]); (str "au revoir", [fint 0; dec (9) 10]); ([97%N; 32%N; 98%N; 105%N; 101%N; 110%N; 116%N; 244%N; 116%N], [fint 0; dec (8) 10])]))) = Ok [(str "bonjour", str "coucou"); (str "coucou", str "salut"); ([97%N; 32%N; 98%N; 105%N; 101%N; 110%N; 116%N; 244%N; 116%N], str "au revoir")].
Proof. vm_compute. repeat split. Qed.

(** sampling/test_factory_farthest_in_same_cluster.py:314-360 *)
Example test_factory_farhest_in_same_cluster_sampler_sample_for_correct_constraints_manager :
  succeeds (answer (manager [str "bonjour"; str "salut"; str "coucou"; str "au revoir"; [97%N; 32%N; 98%N; 105%N; 101%N; 110%N; 116%N; 244%N; 116%N]] []) (CallAddConstraint (str "bonjour") (str "salut") (str "MUST_LINK") 1)) = true /\
  succeeds (answer (manager [str "bonjour"; str "salut"; str "coucou"; str "au revoir"; [97%N; 32%N; 98%N; 105%N; 101%N; 110%N; 116%N; 244%N; 116%N]] [CallAddConstraint (str "bonjour") (str "salut") (str "MUST_LINK") 1]) (CallAddConstraint (str "au revoir") ([97%N; 32%N; 98%N; 105%N; 101%N; 110%N; 116%N; 244%N; 116%N]) (str "MUST_LINK") 1)) = true /\
  result (sample_run (sampled sample_seed_1) (Some (str "same_cluster")) (Some (str "farthest_neighbors")) true true (manager [str "bonjour"; str "salut"; str "coucou"; str "au revoir"; [97%N; 32%N; 98%N; 105%N; 101%N; 110%N; 116%N; 244%N; 116%N]] [CallAddConstraint (str "bonjour") (str "salut") (str "MUST_LINK") 1; CallAddConstraint (str "au revoir") ([97%N; 32%N; 98%N; 105%N; 101%N; 110%N; 116%N; 244%N; 116%N]) (str "MUST_LINK") 1]) 3%Z (Some ([(str "bonjour", 0%Z); (str "salut", 0%Z); (str "coucou", 0%Z); (str "au revoir", 1%Z); ([97%N; 32%N; 98%N; 105%N; 101%N; 110%N; 116%N; 244%N; 116%N], 1%Z)])) (Some ([(str "bonjour", [fint 1; fint 0]); (str "salut", [dec (99) 100; fint 0]); (str "coucou", [dec (8) 10; fint 0]); (str "au revoir", [fint 0; dec (9) 10]); ([97%N; 32%N; 98%N; 105%N; 101%N; 110%N; 116%N; 244%N; 116%N], [fint 0; dec (8) 10])]))) = Ok [(str "bonjour", str "coucou"); (str "coucou", str "salut")].
Proof. vm_compute. repeat split. Qed.

(** sampling/test_factory_farthest_in_same_cluster.py:366-411 *)
Example test_factory_farhest_in_same_cluster_sampler_sample_for_full_annotated_constraints_manager :
  succeeds (answer (manager [str "bonjour"; str "salut"; str "coucou"; str "au revoir"; [97%N; 32%N; 98%N; 105%N; 101%N; 110%N; 116%N; 244%N; 116%N]] []) (CallAddConstraint (str "bonjour") (str "salut") (str "MUST_LINK") 1)) = true /\
  succeeds (answer (manager [str "bonjour"; str "salut"; str "coucou"; str "au revoir"; [97%N; 32%N; 98%N; 105%N; 101%N; 110%N; 116%N; 244%N; 116%N]] [CallAddConstraint (str "bonjour") (str "salut") (str "MUST_LINK") 1]) (CallAddConstraint (str "bonjour") (str "coucou") (str "MUST_LINK") 1)) = true /\
  succeeds (answer (manager [str "bonjour"; str "salut"; str "coucou"; str "au revoir"; [97%N; 32%N; 98%N; 105%N; 101%N; 110%N; 116%N; 244%N; 116%N]] [CallAddConstraint (str "bonjour") (str "salut") (str "MUST_LINK") 1; CallAddConstraint (str "bonjour") (str "coucou") (str "MUST_LINK") 1]) (CallAddConstraint (str "bonjour") (str "au revoir") (str "CANNOT_LINK") 1)) = true /\
  succeeds (answer (manager [str "bonjour"; str "salut"; str "coucou"; str "au revoir"; [97%N; 32%N; 98%N; 105%N; 101%N; 110%N; 116%N; 244%N; 116%N]] [CallAddConstraint (str "bonjour") (str "salut") (str "MUST_LINK") 1; CallAddConstraint (str "bonjour") (str "coucou") (str "MUST_LINK") 1; CallAddConstraint (str "bonjour") (str "au revoir") (str "CANNOT_LINK") 1]) (CallAddConstraint (str "au revoir") ([97%N; 32%N; 98%N; 105%N; 101%N; 110%N; 116%N; 244%N; 116%N]) (str "MUST_LINK") 1)) = true /\
  result (sample_run (sampled sample_seed_1) (Some (str "same_cluster")) (Some (str "farthest_neighbors")) true true (manager [str "bonjour"; str "salut"; str "coucou"; str "au revoir"; [97%N; 32%N; 98%N; 105%N; 101%N; 110%N; 116%N; 244%N; 116%N]] [CallAddConstraint (str "bonjour") (str "salut") (str "MUST_LINK") 1; CallAddConstraint (str "bonjour") (str "coucou") (str "MUST_LINK") 1; CallAddConstraint (str "bonjour") (str "au revoir") (str "CANNOT_LINK") 1; CallAddConstraint (str "au revoir") ([97%N; 32%N; 98%N; 105%N; 101%N; 110%N; 116%N; 244%N; 116%N]) (str "MUST_LINK") 1]) 3%Z (Some ([(str "bonjour", 0%Z); (str "salut", 0%Z); (str "coucou", 0%Z); (str "au revoir", 1%Z); ([97%N; 32%N; 98%N; 105%N; 101%N; 110%N; 116%N; 244%N; 116%N], 1%Z)])) (Some ([(str "bonjour", [fint 1; fint 0]); (str "salut", [dec (99) 100; fint 0]); (str "coucou", [dec (8) 10; fint 0]); (str "au revoir", [fint 0; dec (9) 10]); ([97%N; 32%N; 98%N; 105%N; 101%N; 110%N; 116%N; 244%N; 116%N], [fint 0; dec (8) 10])]))) = Ok [].
Proof. vm_compute. repeat split. Qed.

(** sampling/test_factory_closest_in_different_clusters.py:25-36 *)
Example test_factory_closest_in_different_clusters_sampler_for_correct_settings :
  succeeds (make_options (Some (str "different_clusters")) (Some (str "closest_neighbors")) true true) = true.
Proof. vm_compute. repeat split. Qed.

(** sampling/test_factory_closest_in_different_clusters.py:63-101 (left out: a number to select that is not an integer) *)
Example test_factory_closest_in_different_clusters_sampler_sample_for_incorrect_nb_to_select :
  raises (result (sample_run (sampled sample_seed_1) (Some (str "different_clusters")) (Some (str "closest_neighbors")) true true (manager [str "bonjour"; str "salut"; str "coucou"; str "au revoir"; [97%N; 32%N; 98%N; 105%N; 101%N; 110%N; 116%N; 244%N; 116%N]] []) (-99)%Z None None)) ValueError.
Proof. vm_compute. repeat split. Qed.

(** sampling/test_factory_closest_in_different_clusters.py:107-129 *)
Example test_factory_closest_in_different_clusters_sampler_sample_for_zero_nb_to_select :
  result (sample_run (sampled sample_seed_1) (Some (str "different_clusters")) (Some (str "closest_neighbors")) true true (manager [str "bonjour"; str "salut"; str "coucou"; str "au revoir"; [97%N; 32%N; 98%N; 105%N; 101%N; 110%N; 116%N; 244%N; 116%N]] []) 0%Z None None) = Ok [].
Proof. vm_compute. repeat split. Qed.

(** sampling/test_factory_closest_in_different_clusters.py:135-185 (left out: clustering_result that is not a dictionary) *)
Example test_factory_closest_in_different_clusters_sampler_sample_for_incorrect_clustering_result :
  raises (result (sample_run (sampled sample_seed_1) (Some (str "different_clusters")) (Some (str "closest_neighbors")) true true (manager [str "bonjour"; str "salut"; str "coucou"; str "au revoir"; [97%N; 32%N; 98%N; 105%N; 101%N; 110%N; 116%N; 244%N; 116%N]] []) 3%Z (Some ([(str "first", 1%Z); (str "second", 2%Z)])) (Some ([(str "bonjour", [fint 1; fint 0]); (str "salut", [dec (99) 100; fint 0]); (str "coucou", [dec (8) 10; fint 0]); (str "au revoir", [fint 0; fint 1]); ([97%N; 32%N; 98%N; 105%N; 101%N; 110%N; 116%N; 244%N; 116%N], [fint 0; dec (9) 10])])))) KeyError.
Proof. vm_compute. repeat split. Qed.

(** sampling/test_factory_closest_in_different_clusters.py:191-248 (left out: vectors that is not a dictionary) *)
Example test_factory_closest_in_different_clusters_sampler_sample_for_incorrect_vectors :
  raises (result (sample_run (sampled sample_seed_1) (Some (str "different_clusters")) (Some (str "closest_neighbors")) true true (manager [str "bonjour"; str "salut"; str "coucou"; str "au revoir"; [97%N; 32%N; 98%N; 105%N; 101%N; 110%N; 116%N; 244%N; 116%N]] []) 3%Z (Some ([(str "bonjour", 0%Z); (str "salut", 0%Z); (str "coucou", 0%Z); (str "au revoir", 1%Z); ([97%N; 32%N; 98%N; 105%N; 101%N; 110%N; 116%N; 244%N; 116%N], 1%Z)])) (Some ([(str "first", [fint 1]); (str "second", [fint 2])])))) KeyError.
Proof. vm_compute. repeat split. Qed.

(** sampling/test_factory_closest_in_different_clusters.py:254-294 *)
Example test_factory_closest_in_different_clusters_sampler_sample_for_empty_constraints_manager :
  result (sample_run (sampled sample_seed_1) (Some (str "different_clusters")) (Some (str "closest_neighbors")) true true (manager [str "bonjour"; str "salut"; str "coucou"; str "au revoir"; [97%N; 32%N; 98%N; 105%N; 101%N; 110%N; 116%N; 244%N; 116%N]] []) 3%Z (Some ([(str "bonjour", 0%Z); (str "salut", 0%Z); (str "coucou", 0%Z); (str "au revoir", 1%Z); ([97%N; 32%N; 98%N; 105%N; 101%N; 110%N; 116%N; 244%N; 116%N], 1%Z)])) (Some ([(str "bonjour", [fint 1; fint 0]); (str "salut", [dec (99) 100; fint 0]); (str "coucou", [dec (8) 10; fint 0]); (str "au revoir", [fint 0; dec (9) 10]); ([97%N; 32%N; 98%N; 105%N; 101%N; 110%N; 116%N; 244%N; 116%N], [fint 0; dec (8) 10])]))) = Ok [([97%N; 32%N; 98%N; 105%N; 101%N; 110%N; 116%N; 244%N; 116%N], str "coucou"); (str "au revoir", str "coucou"); ([97%N; 32%N; 98%N; 105%N; 101%N; 110%N; 116%N; 244%N; 116%N], str "salut")].
Proof. vm_compute. repeat split. Qed.

(** sampling/test_factory_closest_in_different_clusters.py:300-345 *)
Example test_factory_closest_in_different_clusters_sampler_sample_for_correct_constraints_manager :
  succeeds (answer (manager [str "bonjour"; str "salut"; str "coucou"; str "au revoir"; [97%N; 32%N; 98%N; 105%N; 101%N; 110%N; 116%N; 244%N; 116%N]] []) (CallAddConstraint (str "bonjour") (str "salut") (str "MUST_LINK") 1)) = true /\
  succeeds (answer (manager [str "bonjour"; str "salut"; str "coucou"; str "au revoir"; [97%N; 32%N; 98%N; 105%N; 101%N; 110%N; 116%N; 244%N; 116%N]] [CallAddConstraint (str "bonjour") (str "salut") (str "MUST_LINK") 1]) (CallAddConstraint (str "au revoir") ([97%N; 32%N; 98%N; 105%N; 101%N; 110%N; 116%N; 244%N; 116%N]) (str "MUST_LINK") 1)) = true /\
  result (sample_run (sampled sample_seed_1) (Some (str "different_clusters")) (Some (str "closest_neighbors")) true true (manager [str "bonjour"; str "salut"; str "coucou"; str "au revoir"; [97%N; 32%N; 98%N; 105%N; 101%N; 110%N; 116%N; 244%N; 116%N]] [CallAddConstraint (str "bonjour") (str "salut") (str "MUST_LINK") 1; CallAddConstraint (str "au revoir") ([97%N; 32%N; 98%N; 105%N; 101%N; 110%N; 116%N; 244%N; 116%N]) (str "MUST_LINK") 1]) 3%Z (Some ([(str "bonjour", 0%Z); (str "salut", 0%Z); (str "coucou", 0%Z); (str "au revoir", 1%Z); ([97%N; 32%N; 98%N; 105%N; 101%N; 110%N; 116%N; 244%N; 116%N], 1%Z)])) (Some ([(str "bonjour", [fint 1; fint 0]); (str "salut", [dec (99) 100; fint 0]); (str "coucou", [dec (8) 10; fint 0]); (str "au revoir", [fint 0; dec (9) 10]); ([97%N; 32%N; 98%N; 105%N; 101%N; 110%N; 116%N; 244%N; 116%N], [fint 0; dec (8) 10])]))) = Ok [([97%N; 32%N; 98%N; 105%N; 101%N; 110%N; 116%N; 244%N; 116%N], str "coucou"); (str "au revoir", str "coucou"); ([97%N; 32%N; 98%N; 105%N; 101%N; 110%N; 116%N; 244%N; 116%N], str "salut")].
Proof. vm_compute. repeat split. Qed.

(** sampling/test_factory_closest_in_different_clusters.py:351-394 *)
Example test_factory_closest_in_different_clusters_sampler_sample_for_full_annotated_constraints_manager :
  succeeds (answer (manager [str "bonjour"; str "salut"; str "coucou"; str "au revoir"; [97%N; 32%N; 98%N; 105%N; 101%N; 110%N; 116%N; 244%N; 116%N]] []) (CallAddConstraint (str "bonjour") (str "salut") (str "MUST_LINK") 1)) = true /\
  succeeds (answer (manager [str "bonjour"; str "salut"; str "coucou"; str "au revoir"; [97%N; 32%N; 98%N; 105%N; 101%N; 110%N; 116%N; 244%N; 116%N]] [CallAddConstraint (str "bonjour") (str "salut") (str "MUST_LINK") 1]) (CallAddConstraint (str "bonjour") (str "coucou") (str "MUST_LINK") 1)) = true /\
  succeeds (answer (manager [str "bonjour"; str "salut"; str "coucou"; str "au revoir"; [97%N; 32%N; 98%N; 105%N; 101%N; 110%N; 116%N; 244%N; 116%N]] [CallAddConstraint (str "bonjour") (str "salut") (str "MUST_LINK") 1; CallAddConstraint (str "bonjour") (str "coucou") (str "MUST_LINK") 1]) (CallAddConstraint (str "bonjour") (str "au revoir") (str "CANNOT_LINK") 1)) = true /\
  succeeds (answer (manager [str "bonjour"; str "salut"; str "coucou"; str "au revoir"; [97%N; 32%N; 98%N; 105%N; 101%N; 110%N; 116%N; 244%N; 116%N]] [CallAddConstraint (str "bonjour") (str "salut") (str "MUST_LINK") 1; CallAddConstraint (str "bonjour") (str "coucou") (str "MUST_LINK") 1; CallAddConstraint (str "bonjour") (str "au revoir") (str "CANNOT_LINK") 1]) (CallAddConstraint (str "au revoir") ([97%N; 32%N; 98%N; 105%N; 101%N; 110%N; 116%N; 244%N; 116%N]) (str "MUST_LINK") 1)) = true /\
  result (sample_run (sampled sample_seed_1) (Some (str "different_clusters")) (Some (str "closest_neighbors")) true true (manager [str "bonjour"; str "salut"; str "coucou"; str "au revoir"; [97%N; 32%N; 98%N; 105%N; 101%N; 110%N; 116%N; 244%N; 116%N]] [CallAddConstraint (str "bonjour") (str "salut") (str "MUST_LINK") 1; CallAddConstraint (str "bonjour") (str "coucou") (str "MUST_LINK") 1; CallAddConstraint (str "bonjour") (str "au revoir") (str "CANNOT_LINK") 1; CallAddConstraint (str "au revoir") ([97%N; 32%N; 98%N; 105%N; 101%N; 110%N; 116%N; 244%N; 116%N]) (str "MUST_LINK") 1]) 3%Z (Some ([(str "bonjour", 0%Z); (str "salut", 0%Z); (str "coucou", 0%Z); (str "au revoir", 1%Z); ([97%N; 32%N; 98%N; 105%N; 101%N; 110%N; 116%N; 244%N; 116%N], 1%Z)])) (Some ([(str "bonjour", [fint 1; fint 0]); (str "salut", [dec (99) 100; fint 0]); (str "coucou", [dec (8) 10; fint 0]); (str "au revoir", [fint 0; dec (9) 10]); ([97%N; 32%N; 98%N; 105%N; 101%N; 110%N; 116%N; 244%N; 116%N], [fint 0; dec (8) 10])]))) = Ok [].
Proof. vm_compute. repeat split. Qed.

(** Not expressed:
    - sampling/test_cluster_based.py:53-62 test_cluster_based_for_incorrect_without_added_constraints_parameter: a flag that is not a boolean;
    - sampling/test_cluster_based.py:68-77 test_cluster_based_for_incorrect_without_inferred_constraints_parameter: a flag that is not a boolean;
    - sampling/test_factory_random.py:39-52 test_factory_random_sampler_sample_for_incorrect_constraints_manager: a manager that is not a manager;
    - sampling/test_factory_random_in_same_cluster.py:42-58 test_factory_random_in_same_cluster_sampler_sample_for_incorrect_constraints_manager: a manager that is not a manager;
    - sampling/test_factory_farthest_in_same_cluster.py:44-61 test_factory_farhest_in_same_cluster_sampler_sample_for_incorrect_constraints_manager: a manager that is not a manager;
    - sampling/test_factory_closest_in_different_clusters.py:42-57 test_factory_closest_in_different_clusters_sampler_sample_for_incorrect_constraints_manager: a manager that is not a manager. *)
