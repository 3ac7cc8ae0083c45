(** * The project's tests, run on the model

    Written by tools/gen_tests.py from /repo/tests: constraints/test_binary.py, constraints/test_factory.py.
    29 tests; see TestLib.v for the numbers and the random draws. *)

From Coq Require Import String List Bool Arith NArith ZArith QArith SpecFloat.
From Verif Require Import Base Manager MinMax Json Rename KMeans Hierarchical Dbscan Affinity Mpckmeans Spectral Sampling Objects Frequency Factories TestLib.
Import ListNotations.
Open Scope nat_scope.

(** constraints/test_binary.py:26-47 *)
Example test_BinaryConstraintsManager_init :
  answer (manager [] []) (CallManagedIDs) = Ok (VIds []) /\
  answer (manager [str "first"; str "second"; str "third"] []) (CallManagedIDs) = Ok (VIds [str "first"; str "second"; str "third"]) /\
  answer (manager [str "first"; str "second"; str "same"; str "same"] []) (CallManagedIDs) = Ok (VIds [str "first"; str "second"; str "same"]).
Proof. vm_compute. repeat split. Qed.

(** constraints/test_binary.py:53-70 *)
Example test_BinaryConstraintsManager_add_data_ID_with_incorrect_data_ID :
  raises (answer (manager [str "first"; str "second"; str "third"] []) (CallAddDataID (str "second"))) ValueError /\
  answer (manager [str "first"; str "second"; str "third"] [CallAddDataID (str "second")]) (CallManagedIDs) = Ok (VIds [str "first"; str "second"; str "third"]).
Proof. vm_compute. repeat split. Qed.

(** constraints/test_binary.py:76-123 *)
Example test_BinaryConstraintsManager_add_data_ID_with_correct_parameters :
  answer (manager [str "first"; str "second"; str "third"] []) (CallAddDataID (str "fourth")) = Ok (VBool true) /\
  answer (manager [str "first"; str "second"; str "third"] [CallAddDataID (str "fourth")]) (CallManagedIDs) = Ok (VIds [str "first"; str "second"; str "third"; str "fourth"]) /\
  answer (manager [str "first"; str "second"; str "third"] [CallAddDataID (str "fourth")]) (CallGetInferred (str "first") (str "fourth")) = Ok (VInferred None) /\
  answer (manager [str "first"; str "second"; str "third"] [CallAddDataID (str "fourth")]) (CallGetInferred (str "second") (str "fourth")) = Ok (VInferred None) /\
  answer (manager [str "first"; str "second"; str "third"] [CallAddDataID (str "fourth")]) (CallGetInferred (str "third") (str "fourth")) = Ok (VInferred None) /\
  answer (manager [str "first"; str "second"; str "third"] [CallAddDataID (str "fourth")]) (CallGetInferred (str "fourth") (str "fourth")) = Ok (VInferred (Some (str "MUST_LINK"))).
Proof. vm_compute. repeat split. Qed.

(** constraints/test_binary.py:129-146 *)
Example test_BinaryConstraintsManager_delete_data_ID_with_incorrect_data_ID :
  raises (answer (manager [str "first"; str "second"; str "third"] []) (CallDeleteDataID (str "unknown"))) ValueError /\
  answer (manager [str "first"; str "second"; str "third"] [CallDeleteDataID (str "unknown")]) (CallManagedIDs) = Ok (VIds [str "first"; str "second"; str "third"]).
Proof. vm_compute. repeat split. Qed.

(** constraints/test_binary.py:152-171 *)
Example test_BinaryConstraintsManager_delete_data_ID_with_correct_parameters :
  answer (manager [str "first"; str "second"; str "third"] []) (CallDeleteDataID (str "second")) = Ok (VBool true) /\
  answer (manager [str "first"; str "second"; str "third"] [CallDeleteDataID (str "second")]) (CallManagedIDs) = Ok (VIds [str "first"; str "third"]).
Proof. vm_compute. repeat split. Qed.

(** constraints/test_binary.py:184-208 *)
Example test_BinaryConstraintsManager_add_constraint_with_incorrect_data_ID :
  raises (answer (manager [str "first"; str "second"; str "third"] []) (CallAddConstraint (str "unknown") (str "second") (str "MUST_LINK") 1)) ValueError /\
  raises (answer (manager [str "first"; str "second"; str "third"] [CallAddConstraint (str "unknown") (str "second") (str "MUST_LINK") 1]) (CallAddConstraint (str "first") (str "unknown") (str "CANNOT_LINK") 1)) ValueError.
Proof. vm_compute. repeat split. Qed.

(** constraints/test_binary.py:214-230 *)
Example test_BinaryConstraintsManager_add_constraint_with_incorrect_constraint_type :
  raises (answer (manager [str "first"; str "second"; str "third"] []) (CallAddConstraint (str "first") (str "second") (str "UNKNOWN_LINK") 1)) ValueError.
Proof. vm_compute. repeat split. Qed.

(** constraints/test_binary.py:236-272 *)
Example test_BinaryConstraintsManager_add_constraint_with_already_linked_data_IDs :
  succeeds (answer (manager [str "first"; str "second"; str "third"] []) (CallAddConstraint (str "first") (str "second") (str "MUST_LINK") 1)) = true /\
  succeeds (answer (manager [str "first"; str "second"; str "third"] [CallAddConstraint (str "first") (str "second") (str "MUST_LINK") 1]) (CallAddConstraint (str "first") (str "third") (str "CANNOT_LINK") 1)) = true /\
  answer (manager [str "first"; str "second"; str "third"] [CallAddConstraint (str "first") (str "second") (str "MUST_LINK") 1; CallAddConstraint (str "first") (str "third") (str "CANNOT_LINK") 1]) (CallAddConstraint (str "first") (str "second") (str "MUST_LINK") 1) = Ok (VBool true) /\
  raises (answer (manager [str "first"; str "second"; str "third"] [CallAddConstraint (str "first") (str "second") (str "MUST_LINK") 1; CallAddConstraint (str "first") (str "third") (str "CANNOT_LINK") 1; CallAddConstraint (str "first") (str "second") (str "MUST_LINK") 1]) (CallAddConstraint (str "first") (str "second") (str "CANNOT_LINK") 1)) ValueError.
Proof. vm_compute. repeat split. Qed.

(** constraints/test_binary.py:278-336 *)
Example test_BinaryConstraintsManager_add_constraint_with_not_already_linked_data_IDs :
  answer (manager [str "first"; str "second"; str "third"] []) (CallAddConstraint (str "first") (str "second") (str "MUST_LINK") 1) = Ok (VBool true) /\
  answer (manager [str "first"; str "second"; str "third"] [CallAddConstraint (str "first") (str "second") (str "MUST_LINK") 1]) (CallGetAdded (str "first") (str "second")) = Ok (VAdded (Some (str "MUST_LINK", 1%Q))) /\
  answer (manager [str "first"; str "second"; str "third"] [CallAddConstraint (str "first") (str "second") (str "MUST_LINK") 1]) (CallAddConstraint (str "first") (str "third") (str "CANNOT_LINK") 1) = Ok (VBool true) /\
  answer (manager [str "first"; str "second"; str "third"] [CallAddConstraint (str "first") (str "second") (str "MUST_LINK") 1; CallAddConstraint (str "first") (str "third") (str "CANNOT_LINK") 1]) (CallGetAdded (str "first") (str "third")) = Ok (VAdded (Some (str "CANNOT_LINK", 1%Q))) /\
  raises (answer (manager [str "first"; str "second"; str "third"] [CallAddConstraint (str "first") (str "second") (str "MUST_LINK") 1; CallAddConstraint (str "first") (str "third") (str "CANNOT_LINK") 1]) (CallAddConstraint (str "second") (str "third") (str "MUST_LINK") 1)) ValueError /\
  answer (manager [str "first"; str "second"; str "third"] [CallAddConstraint (str "first") (str "second") (str "MUST_LINK") 1; CallAddConstraint (str "first") (str "third") (str "CANNOT_LINK") 1; CallAddConstraint (str "second") (str "third") (str "MUST_LINK") 1]) (CallAddConstraint (str "second") (str "third") (str "CANNOT_LINK") 1) = Ok (VBool true) /\
  answer (manager [str "first"; str "second"; str "third"] [CallAddConstraint (str "first") (str "second") (str "MUST_LINK") 1; CallAddConstraint (str "first") (str "third") (str "CANNOT_LINK") 1; CallAddConstraint (str "second") (str "third") (str "MUST_LINK") 1; CallAddConstraint (str "second") (str "third") (str "CANNOT_LINK") 1]) (CallGetAdded (str "second") (str "third")) = Ok (VAdded (Some (str "CANNOT_LINK", 1%Q))).
Proof. vm_compute. repeat split. Qed.

(** constraints/test_binary.py:342-364 *)
Example test_BinaryConstraintsManager_delete_constraint_with_incorrect_data_IDs :
  raises (answer (manager [str "first"; str "second"; str "third"] []) (CallDeleteConstraint (str "unknown") (str "second"))) ValueError /\
  raises (answer (manager [str "first"; str "second"; str "third"] [CallDeleteConstraint (str "unknown") (str "second")]) (CallDeleteConstraint (str "first") (str "unknown"))) ValueError.
Proof. vm_compute. repeat split. Qed.

(** constraints/test_binary.py:370-434 *)
Example test_BinaryConstraintsManager_delete_constraint_with_correct_parameters :
  succeeds (answer (manager [str "first"; str "second"; str "third"] []) (CallAddConstraint (str "first") (str "second") (str "MUST_LINK") 1)) = true /\
  succeeds (answer (manager [str "first"; str "second"; str "third"] [CallAddConstraint (str "first") (str "second") (str "MUST_LINK") 1]) (CallAddConstraint (str "first") (str "third") (str "CANNOT_LINK") 1)) = true /\
  answer (manager [str "first"; str "second"; str "third"] [CallAddConstraint (str "first") (str "second") (str "MUST_LINK") 1; CallAddConstraint (str "first") (str "third") (str "CANNOT_LINK") 1]) (CallDeleteConstraint (str "second") (str "third")) = Ok (VBool true) /\
  answer (manager [str "first"; str "second"; str "third"] [CallAddConstraint (str "first") (str "second") (str "MUST_LINK") 1; CallAddConstraint (str "first") (str "third") (str "CANNOT_LINK") 1; CallDeleteConstraint (str "second") (str "third")]) (CallGetAdded (str "second") (str "third")) = Ok (VAdded None) /\
  answer (manager [str "first"; str "second"; str "third"] [CallAddConstraint (str "first") (str "second") (str "MUST_LINK") 1; CallAddConstraint (str "first") (str "third") (str "CANNOT_LINK") 1; CallDeleteConstraint (str "second") (str "third")]) (CallGetInferred (str "second") (str "third")) = Ok (VInferred (Some (str "CANNOT_LINK"))) /\
  answer (manager [str "first"; str "second"; str "third"] [CallAddConstraint (str "first") (str "second") (str "MUST_LINK") 1; CallAddConstraint (str "first") (str "third") (str "CANNOT_LINK") 1; CallDeleteConstraint (str "second") (str "third")]) (CallDeleteConstraint (str "first") (str "third")) = Ok (VBool true) /\
  answer (manager [str "first"; str "second"; str "third"] [CallAddConstraint (str "first") (str "second") (str "MUST_LINK") 1; CallAddConstraint (str "first") (str "third") (str "CANNOT_LINK") 1; CallDeleteConstraint (str "second") (str "third"); CallDeleteConstraint (str "first") (str "third")]) (CallGetAdded (str "first") (str "third")) = Ok (VAdded None) /\
  answer (manager [str "first"; str "second"; str "third"] [CallAddConstraint (str "first") (str "second") (str "MUST_LINK") 1; CallAddConstraint (str "first") (str "third") (str "CANNOT_LINK") 1; CallDeleteConstraint (str "second") (str "third"); CallDeleteConstraint (str "first") (str "third")]) (CallGetAdded (str "second") (str "third")) = Ok (VAdded None).
Proof. vm_compute. repeat split. Qed.

(** constraints/test_binary.py:440-472 *)
Example test_BinaryConstraintsManager_get_added_constraint_with_incorrect_data_ID :
  succeeds (answer (manager [str "first"; str "second"; str "third"] []) (CallAddConstraint (str "first") (str "second") (str "MUST_LINK") 1)) = true /\
  succeeds (answer (manager [str "first"; str "second"; str "third"] [CallAddConstraint (str "first") (str "second") (str "MUST_LINK") 1]) (CallAddConstraint (str "first") (str "third") (str "CANNOT_LINK") 1)) = true /\
  raises (answer (manager [str "first"; str "second"; str "third"] [CallAddConstraint (str "first") (str "second") (str "MUST_LINK") 1; CallAddConstraint (str "first") (str "third") (str "CANNOT_LINK") 1]) (CallGetAdded (str "unknown") (str "second"))) ValueError /\
  raises (answer (manager [str "first"; str "second"; str "third"] [CallAddConstraint (str "first") (str "second") (str "MUST_LINK") 1; CallAddConstraint (str "first") (str "third") (str "CANNOT_LINK") 1]) (CallGetAdded (str "first") (str "unknown"))) ValueError.
Proof. vm_compute. repeat split. Qed.

(** constraints/test_binary.py:478-508 *)
Example test_BinaryConstraintsManager_get_added_constraint_with_correct_parameters :
  succeeds (answer (manager [str "first"; str "second"; str "third"] []) (CallAddConstraint (str "first") (str "second") (str "MUST_LINK") 1)) = true /\
  succeeds (answer (manager [str "first"; str "second"; str "third"] [CallAddConstraint (str "first") (str "second") (str "MUST_LINK") 1]) (CallAddConstraint (str "first") (str "third") (str "CANNOT_LINK") 1)) = true /\
  answer (manager [str "first"; str "second"; str "third"] [CallAddConstraint (str "first") (str "second") (str "MUST_LINK") 1; CallAddConstraint (str "first") (str "third") (str "CANNOT_LINK") 1]) (CallGetAdded (str "first") (str "second")) = Ok (VAdded (Some (str "MUST_LINK", 1%Q))) /\
  answer (manager [str "first"; str "second"; str "third"] [CallAddConstraint (str "first") (str "second") (str "MUST_LINK") 1; CallAddConstraint (str "first") (str "third") (str "CANNOT_LINK") 1]) (CallGetAdded (str "first") (str "third")) = Ok (VAdded (Some (str "CANNOT_LINK", 1%Q))).
Proof. vm_compute. repeat split. Qed.

(** constraints/test_binary.py:514-536 *)
Example test_BinaryConstraintsManager_get_inferred_constraint_with_incorrect_data_ID :
  raises (answer (manager [str "first"; str "second"; str "third"] []) (CallGetInferred (str "unknown") (str "second"))) ValueError /\
  raises (answer (manager [str "first"; str "second"; str "third"] []) (CallGetInferred (str "first") (str "unknown"))) ValueError.
Proof. vm_compute. repeat split. Qed.

(** constraints/test_binary.py:542-575 *)
Example test_BinaryConstraintsManager_get_inferred_constraint_with_correct_parameter :
  succeeds (answer (manager [str "first"; str "second"; str "third"] []) (CallAddConstraint (str "first") (str "second") (str "MUST_LINK") 1)) = true /\
  answer (manager [str "first"; str "second"; str "third"] [CallAddConstraint (str "first") (str "second") (str "MUST_LINK") 1]) (CallGetInferred (str "first") (str "second")) = Ok (VInferred (Some (str "MUST_LINK"))) /\
  answer (manager [str "first"; str "second"; str "third"] [CallAddConstraint (str "first") (str "second") (str "MUST_LINK") 1]) (CallGetInferred (str "first") (str "third")) = Ok (VInferred None).
Proof. vm_compute. repeat split. Qed.

(** constraints/test_binary.py:581-612 *)
Example test_BinaryConstraintsManager_get_connected_components :
  succeeds (answer (manager [str "first"; str "second"; str "third"; str "fourth"] []) (CallAddConstraint (str "first") (str "second") (str "MUST_LINK") 1)) = true /\
  succeeds (answer (manager [str "first"; str "second"; str "third"; str "fourth"] [CallAddConstraint (str "first") (str "second") (str "MUST_LINK") 1]) (CallAddConstraint (str "second") (str "third") (str "MUST_LINK") 1)) = true /\
  succeeds (answer (manager [str "first"; str "second"; str "third"; str "fourth"] [CallAddConstraint (str "first") (str "second") (str "MUST_LINK") 1; CallAddConstraint (str "second") (str "third") (str "MUST_LINK") 1]) (CallAddConstraint (str "second") (str "fourth") (str "CANNOT_LINK") 1)) = true /\
  answer (manager [str "first"; str "second"; str "third"; str "fourth"] [CallAddConstraint (str "first") (str "second") (str "MUST_LINK") 1; CallAddConstraint (str "second") (str "third") (str "MUST_LINK") 1; CallAddConstraint (str "second") (str "fourth") (str "CANNOT_LINK") 1]) (CallComponents) = Ok (VComponents [[str "first"; str "second"; str "third"]; [str "fourth"]]).
Proof. vm_compute. repeat split. Qed.

(** constraints/test_binary.py:618-651 *)
Example test_BinaryConstraintsManager_check_completude_of_constraints :
  answer (manager [str "first"; str "second"; str "third"; str "fourth"] []) (CallCompletude) = Ok (VBool false) /\
  succeeds (answer (manager [str "first"; str "second"; str "third"; str "fourth"] []) (CallAddConstraint (str "first") (str "second") (str "MUST_LINK") 1)) = true /\
  answer (manager [str "first"; str "second"; str "third"; str "fourth"] [CallAddConstraint (str "first") (str "second") (str "MUST_LINK") 1]) (CallCompletude) = Ok (VBool false) /\
  succeeds (answer (manager [str "first"; str "second"; str "third"; str "fourth"] [CallAddConstraint (str "first") (str "second") (str "MUST_LINK") 1]) (CallAddConstraint (str "second") (str "third") (str "MUST_LINK") 1)) = true /\
  answer (manager [str "first"; str "second"; str "third"; str "fourth"] [CallAddConstraint (str "first") (str "second") (str "MUST_LINK") 1; CallAddConstraint (str "second") (str "third") (str "MUST_LINK") 1]) (CallCompletude) = Ok (VBool false) /\
  succeeds (answer (manager [str "first"; str "second"; str "third"; str "fourth"] [CallAddConstraint (str "first") (str "second") (str "MUST_LINK") 1; CallAddConstraint (str "second") (str "third") (str "MUST_LINK") 1]) (CallAddConstraint (str "second") (str "fourth") (str "CANNOT_LINK") 1)) = true /\
  answer (manager [str "first"; str "second"; str "third"; str "fourth"] [CallAddConstraint (str "first") (str "second") (str "MUST_LINK") 1; CallAddConstraint (str "second") (str "third") (str "MUST_LINK") 1; CallAddConstraint (str "second") (str "fourth") (str "CANNOT_LINK") 1]) (CallCompletude) = Ok (VBool true).
Proof. vm_compute. repeat split. Qed.

(** constraints/test_binary.py:657-729 *)
Example test_BinaryConstraintsManager_get_min_and_max_number_of_clusters :
  ranges (manager [str "first"; str "second"; str "third"; str "fourth"; str "fifth"; str "sixth"] []) = range 2 6 /\
  succeeds (answer (manager [str "first"; str "second"; str "third"; str "fourth"; str "fifth"; str "sixth"] []) (CallAddConstraint (str "first") (str "second") (str "MUST_LINK") 1)) = true /\
  ranges (manager [str "first"; str "second"; str "third"; str "fourth"; str "fifth"; str "sixth"] [CallAddConstraint (str "first") (str "second") (str "MUST_LINK") 1]) = range 2 5 /\
  succeeds (answer (manager [str "first"; str "second"; str "third"; str "fourth"; str "fifth"; str "sixth"] [CallAddConstraint (str "first") (str "second") (str "MUST_LINK") 1]) (CallAddConstraint (str "second") (str "third") (str "CANNOT_LINK") 1)) = true /\
  ranges (manager [str "first"; str "second"; str "third"; str "fourth"; str "fifth"; str "sixth"] [CallAddConstraint (str "first") (str "second") (str "MUST_LINK") 1; CallAddConstraint (str "second") (str "third") (str "CANNOT_LINK") 1]) = range 2 5 /\
  succeeds (answer (manager [str "first"; str "second"; str "third"; str "fourth"; str "fifth"; str "sixth"] [CallAddConstraint (str "first") (str "second") (str "MUST_LINK") 1; CallAddConstraint (str "second") (str "third") (str "CANNOT_LINK") 1]) (CallAddConstraint (str "second") (str "fourth") (str "CANNOT_LINK") 1)) = true /\
  ranges (manager [str "first"; str "second"; str "third"; str "fourth"; str "fifth"; str "sixth"] [CallAddConstraint (str "first") (str "second") (str "MUST_LINK") 1; CallAddConstraint (str "second") (str "third") (str "CANNOT_LINK") 1; CallAddConstraint (str "second") (str "fourth") (str "CANNOT_LINK") 1]) = range 2 5 /\
  succeeds (answer (manager [str "first"; str "second"; str "third"; str "fourth"; str "fifth"; str "sixth"] [CallAddConstraint (str "first") (str "second") (str "MUST_LINK") 1; CallAddConstraint (str "second") (str "third") (str "CANNOT_LINK") 1; CallAddConstraint (str "second") (str "fourth") (str "CANNOT_LINK") 1]) (CallAddConstraint (str "third") (str "fourth") (str "CANNOT_LINK") 1)) = true /\
  ranges (manager [str "first"; str "second"; str "third"; str "fourth"; str "fifth"; str "sixth"] [CallAddConstraint (str "first") (str "second") (str "MUST_LINK") 1; CallAddConstraint (str "second") (str "third") (str "CANNOT_LINK") 1; CallAddConstraint (str "second") (str "fourth") (str "CANNOT_LINK") 1; CallAddConstraint (str "third") (str "fourth") (str "CANNOT_LINK") 1]) = range 3 5 /\
  succeeds (answer (manager [str "first"; str "second"; str "third"; str "fourth"; str "fifth"; str "sixth"] [CallAddConstraint (str "first") (str "second") (str "MUST_LINK") 1; CallAddConstraint (str "second") (str "third") (str "CANNOT_LINK") 1; CallAddConstraint (str "second") (str "fourth") (str "CANNOT_LINK") 1; CallAddConstraint (str "third") (str "fourth") (str "CANNOT_LINK") 1]) (CallAddConstraint (str "fourth") (str "fifth") (str "MUST_LINK") 1)) = true /\
  ranges (manager [str "first"; str "second"; str "third"; str "fourth"; str "fifth"; str "sixth"] [CallAddConstraint (str "first") (str "second") (str "MUST_LINK") 1; CallAddConstraint (str "second") (str "third") (str "CANNOT_LINK") 1; CallAddConstraint (str "second") (str "fourth") (str "CANNOT_LINK") 1; CallAddConstraint (str "third") (str "fourth") (str "CANNOT_LINK") 1; CallAddConstraint (str "fourth") (str "fifth") (str "MUST_LINK") 1]) = range 3 4 /\
  succeeds (answer (manager [str "first"; str "second"; str "third"; str "fourth"; str "fifth"; str "sixth"] [CallAddConstraint (str "first") (str "second") (str "MUST_LINK") 1; CallAddConstraint (str "second") (str "third") (str "CANNOT_LINK") 1; CallAddConstraint (str "second") (str "fourth") (str "CANNOT_LINK") 1; CallAddConstraint (str "third") (str "fourth") (str "CANNOT_LINK") 1; CallAddConstraint (str "fourth") (str "fifth") (str "MUST_LINK") 1]) (CallAddConstraint (str "fourth") (str "sixth") (str "MUST_LINK") 1)) = true /\
  ranges (manager [str "first"; str "second"; str "third"; str "fourth"; str "fifth"; str "sixth"] [CallAddConstraint (str "first") (str "second") (str "MUST_LINK") 1; CallAddConstraint (str "second") (str "third") (str "CANNOT_LINK") 1; CallAddConstraint (str "second") (str "fourth") (str "CANNOT_LINK") 1; CallAddConstraint (str "third") (str "fourth") (str "CANNOT_LINK") 1; CallAddConstraint (str "fourth") (str "fifth") (str "MUST_LINK") 1; CallAddConstraint (str "fourth") (str "sixth") (str "MUST_LINK") 1]) = range 3 3 /\
  answer (manager [str "first"; str "second"; str "third"; str "fourth"; str "fifth"; str "sixth"] [CallAddConstraint (str "first") (str "second") (str "MUST_LINK") 1; CallAddConstraint (str "second") (str "third") (str "CANNOT_LINK") 1; CallAddConstraint (str "second") (str "fourth") (str "CANNOT_LINK") 1; CallAddConstraint (str "third") (str "fourth") (str "CANNOT_LINK") 1; CallAddConstraint (str "fourth") (str "fifth") (str "MUST_LINK") 1; CallAddConstraint (str "fourth") (str "sixth") (str "MUST_LINK") 1]) (CallCompletude) = Ok (VBool true).
Proof. vm_compute. repeat split. Qed.

(** constraints/test_binary.py:735-804 *)
Example test_BinaryConstraintsManager_check_symetry_after_constraint_addition :
  succeeds (answer (manager [str "first"; str "second"; str "third"] []) (CallAddConstraint (str "first") (str "second") (str "MUST_LINK") 1)) = true /\
  succeeds (answer (manager [str "first"; str "second"; str "third"] [CallAddConstraint (str "first") (str "second") (str "MUST_LINK") 1]) (CallAddConstraint (str "first") (str "third") (str "CANNOT_LINK") 1)) = true /\
  answer (manager [str "first"; str "second"; str "third"] [CallAddConstraint (str "first") (str "second") (str "MUST_LINK") 1; CallAddConstraint (str "first") (str "third") (str "CANNOT_LINK") 1]) (CallGetAdded (str "first") (str "second")) = Ok (VAdded (Some (str "MUST_LINK", 1%Q))) /\
  answer (manager [str "first"; str "second"; str "third"] [CallAddConstraint (str "first") (str "second") (str "MUST_LINK") 1; CallAddConstraint (str "first") (str "third") (str "CANNOT_LINK") 1]) (CallGetAdded (str "second") (str "first")) = Ok (VAdded (Some (str "MUST_LINK", 1%Q))) /\
  answer (manager [str "first"; str "second"; str "third"] [CallAddConstraint (str "first") (str "second") (str "MUST_LINK") 1; CallAddConstraint (str "first") (str "third") (str "CANNOT_LINK") 1]) (CallGetInferred (str "first") (str "second")) = Ok (VInferred (Some (str "MUST_LINK"))) /\
  answer (manager [str "first"; str "second"; str "third"] [CallAddConstraint (str "first") (str "second") (str "MUST_LINK") 1; CallAddConstraint (str "first") (str "third") (str "CANNOT_LINK") 1]) (CallGetInferred (str "second") (str "first")) = Ok (VInferred (Some (str "MUST_LINK"))) /\
  answer (manager [str "first"; str "second"; str "third"] [CallAddConstraint (str "first") (str "second") (str "MUST_LINK") 1; CallAddConstraint (str "first") (str "third") (str "CANNOT_LINK") 1]) (CallGetAdded (str "first") (str "third")) = Ok (VAdded (Some (str "CANNOT_LINK", 1%Q))) /\
  answer (manager [str "first"; str "second"; str "third"] [CallAddConstraint (str "first") (str "second") (str "MUST_LINK") 1; CallAddConstraint (str "first") (str "third") (str "CANNOT_LINK") 1]) (CallGetAdded (str "third") (str "first")) = Ok (VAdded (Some (str "CANNOT_LINK", 1%Q))) /\
  answer (manager [str "first"; str "second"; str "third"] [CallAddConstraint (str "first") (str "second") (str "MUST_LINK") 1; CallAddConstraint (str "first") (str "third") (str "CANNOT_LINK") 1]) (CallGetInferred (str "first") (str "third")) = Ok (VInferred (Some (str "CANNOT_LINK"))) /\
  answer (manager [str "first"; str "second"; str "third"] [CallAddConstraint (str "first") (str "second") (str "MUST_LINK") 1; CallAddConstraint (str "first") (str "third") (str "CANNOT_LINK") 1]) (CallGetInferred (str "third") (str "first")) = Ok (VInferred (Some (str "CANNOT_LINK"))).
Proof. vm_compute. repeat split. Qed.

(** constraints/test_binary.py:810-897 *)
Example test_BinaryConstraintsManager_check_transitivity_after_constraint_addition :
  succeeds (answer (manager [str "first"; str "second"; str "third"; str "fourth"] []) (CallAddConstraint (str "first") (str "second") (str "MUST_LINK") 1)) = true /\
  succeeds (answer (manager [str "first"; str "second"; str "third"; str "fourth"] [CallAddConstraint (str "first") (str "second") (str "MUST_LINK") 1]) (CallAddConstraint (str "second") (str "third") (str "MUST_LINK") 1)) = true /\
  succeeds (answer (manager [str "first"; str "second"; str "third"; str "fourth"] [CallAddConstraint (str "first") (str "second") (str "MUST_LINK") 1; CallAddConstraint (str "second") (str "third") (str "MUST_LINK") 1]) (CallAddConstraint (str "second") (str "fourth") (str "CANNOT_LINK") 1)) = true /\
  answer (manager [str "first"; str "second"; str "third"; str "fourth"] [CallAddConstraint (str "first") (str "second") (str "MUST_LINK") 1; CallAddConstraint (str "second") (str "third") (str "MUST_LINK") 1; CallAddConstraint (str "second") (str "fourth") (str "CANNOT_LINK") 1]) (CallGetAdded (str "first") (str "third")) = Ok (VAdded None) /\
  answer (manager [str "first"; str "second"; str "third"; str "fourth"] [CallAddConstraint (str "first") (str "second") (str "MUST_LINK") 1; CallAddConstraint (str "second") (str "third") (str "MUST_LINK") 1; CallAddConstraint (str "second") (str "fourth") (str "CANNOT_LINK") 1]) (CallGetAdded (str "third") (str "first")) = Ok (VAdded None) /\
  answer (manager [str "first"; str "second"; str "third"; str "fourth"] [CallAddConstraint (str "first") (str "second") (str "MUST_LINK") 1; CallAddConstraint (str "second") (str "third") (str "MUST_LINK") 1; CallAddConstraint (str "second") (str "fourth") (str "CANNOT_LINK") 1]) (CallGetInferred (str "first") (str "third")) = Ok (VInferred (Some (str "MUST_LINK"))) /\
  answer (manager [str "first"; str "second"; str "third"; str "fourth"] [CallAddConstraint (str "first") (str "second") (str "MUST_LINK") 1; CallAddConstraint (str "second") (str "third") (str "MUST_LINK") 1; CallAddConstraint (str "second") (str "fourth") (str "CANNOT_LINK") 1]) (CallGetInferred (str "third") (str "first")) = Ok (VInferred (Some (str "MUST_LINK"))) /\
  answer (manager [str "first"; str "second"; str "third"; str "fourth"] [CallAddConstraint (str "first") (str "second") (str "MUST_LINK") 1; CallAddConstraint (str "second") (str "third") (str "MUST_LINK") 1; CallAddConstraint (str "second") (str "fourth") (str "CANNOT_LINK") 1]) (CallGetAdded (str "first") (str "fourth")) = Ok (VAdded None) /\
  answer (manager [str "first"; str "second"; str "third"; str "fourth"] [CallAddConstraint (str "first") (str "second") (str "MUST_LINK") 1; CallAddConstraint (str "second") (str "third") (str "MUST_LINK") 1; CallAddConstraint (str "second") (str "fourth") (str "CANNOT_LINK") 1]) (CallGetAdded (str "fourth") (str "first")) = Ok (VAdded None) /\
  answer (manager [str "first"; str "second"; str "third"; str "fourth"] [CallAddConstraint (str "first") (str "second") (str "MUST_LINK") 1; CallAddConstraint (str "second") (str "third") (str "MUST_LINK") 1; CallAddConstraint (str "second") (str "fourth") (str "CANNOT_LINK") 1]) (CallGetInferred (str "first") (str "fourth")) = Ok (VInferred (Some (str "CANNOT_LINK"))) /\
  answer (manager [str "first"; str "second"; str "third"; str "fourth"] [CallAddConstraint (str "first") (str "second") (str "MUST_LINK") 1; CallAddConstraint (str "second") (str "third") (str "MUST_LINK") 1; CallAddConstraint (str "second") (str "fourth") (str "CANNOT_LINK") 1]) (CallGetInferred (str "fourth") (str "first")) = Ok (VInferred (Some (str "CANNOT_LINK"))).
Proof. vm_compute. repeat split. Qed.

(** constraints/test_binary.py:903-953 *)
Example test_BinaryConstraintsManager_check_symetry_after_constraint_deletion :
  succeeds (answer (manager [str "first"; str "second"; str "third"] []) (CallAddConstraint (str "first") (str "second") (str "MUST_LINK") 1)) = true /\
  succeeds (answer (manager [str "first"; str "second"; str "third"] [CallAddConstraint (str "first") (str "second") (str "MUST_LINK") 1]) (CallDeleteConstraint (str "second") (str "first"))) = true /\
  answer (manager [str "first"; str "second"; str "third"] [CallAddConstraint (str "first") (str "second") (str "MUST_LINK") 1; CallDeleteConstraint (str "second") (str "first")]) (CallGetAdded (str "first") (str "second")) = Ok (VAdded None) /\
  answer (manager [str "first"; str "second"; str "third"] [CallAddConstraint (str "first") (str "second") (str "MUST_LINK") 1; CallDeleteConstraint (str "second") (str "first")]) (CallGetAdded (str "second") (str "first")) = Ok (VAdded None) /\
  answer (manager [str "first"; str "second"; str "third"] [CallAddConstraint (str "first") (str "second") (str "MUST_LINK") 1; CallDeleteConstraint (str "second") (str "first")]) (CallGetInferred (str "first") (str "second")) = Ok (VInferred None) /\
  answer (manager [str "first"; str "second"; str "third"] [CallAddConstraint (str "first") (str "second") (str "MUST_LINK") 1; CallDeleteConstraint (str "second") (str "first")]) (CallGetInferred (str "second") (str "first")) = Ok (VInferred None).
Proof. vm_compute. repeat split. Qed.

(** constraints/test_binary.py:959-1052 *)
Example test_BinaryConstraintsManager_check_transitivity_after_constraint_deletion :
  succeeds (answer (manager [str "first"; str "second"; str "third"; str "fourth"] []) (CallAddConstraint (str "first") (str "second") (str "MUST_LINK") 1)) = true /\
  succeeds (answer (manager [str "first"; str "second"; str "third"; str "fourth"] [CallAddConstraint (str "first") (str "second") (str "MUST_LINK") 1]) (CallAddConstraint (str "second") (str "third") (str "MUST_LINK") 1)) = true /\
  answer (manager [str "first"; str "second"; str "third"; str "fourth"] [CallAddConstraint (str "first") (str "second") (str "MUST_LINK") 1; CallAddConstraint (str "second") (str "third") (str "MUST_LINK") 1]) (CallGetInferred (str "first") (str "third")) = Ok (VInferred (Some (str "MUST_LINK"))) /\
  answer (manager [str "first"; str "second"; str "third"; str "fourth"] [CallAddConstraint (str "first") (str "second") (str "MUST_LINK") 1; CallAddConstraint (str "second") (str "third") (str "MUST_LINK") 1]) (CallGetInferred (str "third") (str "first")) = Ok (VInferred (Some (str "MUST_LINK"))) /\
  succeeds (answer (manager [str "first"; str "second"; str "third"; str "fourth"] [CallAddConstraint (str "first") (str "second") (str "MUST_LINK") 1; CallAddConstraint (str "second") (str "third") (str "MUST_LINK") 1]) (CallAddConstraint (str "second") (str "fourth") (str "CANNOT_LINK") 1)) = true /\
  answer (manager [str "first"; str "second"; str "third"; str "fourth"] [CallAddConstraint (str "first") (str "second") (str "MUST_LINK") 1; CallAddConstraint (str "second") (str "third") (str "MUST_LINK") 1; CallAddConstraint (str "second") (str "fourth") (str "CANNOT_LINK") 1]) (CallGetInferred (str "first") (str "fourth")) = Ok (VInferred (Some (str "CANNOT_LINK"))) /\
  answer (manager [str "first"; str "second"; str "third"; str "fourth"] [CallAddConstraint (str "first") (str "second") (str "MUST_LINK") 1; CallAddConstraint (str "second") (str "third") (str "MUST_LINK") 1; CallAddConstraint (str "second") (str "fourth") (str "CANNOT_LINK") 1]) (CallGetInferred (str "fourth") (str "first")) = Ok (VInferred (Some (str "CANNOT_LINK"))) /\
  succeeds (answer (manager [str "first"; str "second"; str "third"; str "fourth"] [CallAddConstraint (str "first") (str "second") (str "MUST_LINK") 1; CallAddConstraint (str "second") (str "third") (str "MUST_LINK") 1; CallAddConstraint (str "second") (str "fourth") (str "CANNOT_LINK") 1]) (CallDeleteConstraint (str "second") (str "first"))) = true /\
  answer (manager [str "first"; str "second"; str "third"; str "fourth"] [CallAddConstraint (str "first") (str "second") (str "MUST_LINK") 1; CallAddConstraint (str "second") (str "third") (str "MUST_LINK") 1; CallAddConstraint (str "second") (str "fourth") (str "CANNOT_LINK") 1; CallDeleteConstraint (str "second") (str "first")]) (CallGetInferred (str "first") (str "third")) = Ok (VInferred None) /\
  answer (manager [str "first"; str "second"; str "third"; str "fourth"] [CallAddConstraint (str "first") (str "second") (str "MUST_LINK") 1; CallAddConstraint (str "second") (str "third") (str "MUST_LINK") 1; CallAddConstraint (str "second") (str "fourth") (str "CANNOT_LINK") 1; CallDeleteConstraint (str "second") (str "first")]) (CallGetInferred (str "third") (str "first")) = Ok (VInferred None) /\
  answer (manager [str "first"; str "second"; str "third"; str "fourth"] [CallAddConstraint (str "first") (str "second") (str "MUST_LINK") 1; CallAddConstraint (str "second") (str "third") (str "MUST_LINK") 1; CallAddConstraint (str "second") (str "fourth") (str "CANNOT_LINK") 1; CallDeleteConstraint (str "second") (str "first")]) (CallGetInferred (str "first") (str "fourth")) = Ok (VInferred None) /\
  answer (manager [str "first"; str "second"; str "third"; str "fourth"] [CallAddConstraint (str "first") (str "second") (str "MUST_LINK") 1; CallAddConstraint (str "second") (str "third") (str "MUST_LINK") 1; CallAddConstraint (str "second") (str "fourth") (str "CANNOT_LINK") 1; CallDeleteConstraint (str "second") (str "first")]) (CallGetInferred (str "fourth") (str "first")) = Ok (VInferred None).
Proof. vm_compute. repeat split. Qed.

(** constraints/test_binary.py:1058-1149 *)
Example test_BinaryConstraintsManager_check_transitivity_after_data_ID_deletion :
  succeeds (answer (manager [str "first"; str "second"; str "third"; str "fourth"] []) (CallAddConstraint (str "first") (str "second") (str "MUST_LINK") 1)) = true /\
  succeeds (answer (manager [str "first"; str "second"; str "third"; str "fourth"] [CallAddConstraint (str "first") (str "second") (str "MUST_LINK") 1]) (CallAddConstraint (str "second") (str "third") (str "MUST_LINK") 1)) = true /\
  answer (manager [str "first"; str "second"; str "third"; str "fourth"] [CallAddConstraint (str "first") (str "second") (str "MUST_LINK") 1; CallAddConstraint (str "second") (str "third") (str "MUST_LINK") 1]) (CallGetInferred (str "first") (str "third")) = Ok (VInferred (Some (str "MUST_LINK"))) /\
  answer (manager [str "first"; str "second"; str "third"; str "fourth"] [CallAddConstraint (str "first") (str "second") (str "MUST_LINK") 1; CallAddConstraint (str "second") (str "third") (str "MUST_LINK") 1]) (CallGetInferred (str "third") (str "first")) = Ok (VInferred (Some (str "MUST_LINK"))) /\
  succeeds (answer (manager [str "first"; str "second"; str "third"; str "fourth"] [CallAddConstraint (str "first") (str "second") (str "MUST_LINK") 1; CallAddConstraint (str "second") (str "third") (str "MUST_LINK") 1]) (CallAddConstraint (str "second") (str "fourth") (str "CANNOT_LINK") 1)) = true /\
  answer (manager [str "first"; str "second"; str "third"; str "fourth"] [CallAddConstraint (str "first") (str "second") (str "MUST_LINK") 1; CallAddConstraint (str "second") (str "third") (str "MUST_LINK") 1; CallAddConstraint (str "second") (str "fourth") (str "CANNOT_LINK") 1]) (CallGetInferred (str "first") (str "fourth")) = Ok (VInferred (Some (str "CANNOT_LINK"))) /\
  answer (manager [str "first"; str "second"; str "third"; str "fourth"] [CallAddConstraint (str "first") (str "second") (str "MUST_LINK") 1; CallAddConstraint (str "second") (str "third") (str "MUST_LINK") 1; CallAddConstraint (str "second") (str "fourth") (str "CANNOT_LINK") 1]) (CallGetInferred (str "fourth") (str "first")) = Ok (VInferred (Some (str "CANNOT_LINK"))) /\
  succeeds (answer (manager [str "first"; str "second"; str "third"; str "fourth"] [CallAddConstraint (str "first") (str "second") (str "MUST_LINK") 1; CallAddConstraint (str "second") (str "third") (str "MUST_LINK") 1; CallAddConstraint (str "second") (str "fourth") (str "CANNOT_LINK") 1]) (CallDeleteDataID (str "second"))) = true /\
  answer (manager [str "first"; str "second"; str "third"; str "fourth"] [CallAddConstraint (str "first") (str "second") (str "MUST_LINK") 1; CallAddConstraint (str "second") (str "third") (str "MUST_LINK") 1; CallAddConstraint (str "second") (str "fourth") (str "CANNOT_LINK") 1; CallDeleteDataID (str "second")]) (CallGetInferred (str "first") (str "third")) = Ok (VInferred None) /\
  answer (manager [str "first"; str "second"; str "third"; str "fourth"] [CallAddConstraint (str "first") (str "second") (str "MUST_LINK") 1; CallAddConstraint (str "second") (str "third") (str "MUST_LINK") 1; CallAddConstraint (str "second") (str "fourth") (str "CANNOT_LINK") 1; CallDeleteDataID (str "second")]) (CallGetInferred (str "third") (str "first")) = Ok (VInferred None) /\
  answer (manager [str "first"; str "second"; str "third"; str "fourth"] [CallAddConstraint (str "first") (str "second") (str "MUST_LINK") 1; CallAddConstraint (str "second") (str "third") (str "MUST_LINK") 1; CallAddConstraint (str "second") (str "fourth") (str "CANNOT_LINK") 1; CallDeleteDataID (str "second")]) (CallGetInferred (str "first") (str "fourth")) = Ok (VInferred None) /\
  answer (manager [str "first"; str "second"; str "third"; str "fourth"] [CallAddConstraint (str "first") (str "second") (str "MUST_LINK") 1; CallAddConstraint (str "second") (str "third") (str "MUST_LINK") 1; CallAddConstraint (str "second") (str "fourth") (str "CANNOT_LINK") 1; CallDeleteDataID (str "second")]) (CallGetInferred (str "fourth") (str "first")) = Ok (VInferred None).
Proof. vm_compute. repeat split. Qed.

(** constraints/test_binary.py:1155-1179 *)
Example test_BinaryConstraintsManager_get_list_of_involved_data_IDs_in_a_constraint_conflict_with_incorrect_data_ID :
  raises (answer (manager [str "first"; str "second"; str "third"] []) (CallConflict (str "unknown") (str "second") (str "MUST_LINK"))) ValueError /\
  raises (answer (manager [str "first"; str "second"; str "third"] []) (CallConflict (str "first") (str "unknown") (str "CANNOT_LINK"))) ValueError.
Proof. vm_compute. repeat split. Qed.

(** constraints/test_binary.py:1185-1201 *)
Example test_BinaryConstraintsManager_get_list_of_involved_data_IDs_in_a_constraint_conflict_with_incorrect_constraint_type :
  raises (answer (manager [str "first"; str "second"; str "third"] []) (CallConflict (str "first") (str "second") (str "UNKNOWN_LINK"))) ValueError.
Proof. vm_compute. repeat split. Qed.

(** constraints/test_binary.py:1207-1269 *)
Example test_BinaryConstraintsManager_get_list_of_involved_data_IDs_in_a_constraint_conflict :
  succeeds (answer (manager [str "first"; str "second"; str "third"; str "fourth"; str "fifth"] []) (CallAddConstraint (str "first") (str "second") (str "MUST_LINK") 1)) = true /\
  succeeds (answer (manager [str "first"; str "second"; str "third"; str "fourth"; str "fifth"] [CallAddConstraint (str "first") (str "second") (str "MUST_LINK") 1]) (CallAddConstraint (str "second") (str "third") (str "MUST_LINK") 1)) = true /\
  succeeds (answer (manager [str "first"; str "second"; str "third"; str "fourth"; str "fifth"] [CallAddConstraint (str "first") (str "second") (str "MUST_LINK") 1; CallAddConstraint (str "second") (str "third") (str "MUST_LINK") 1]) (CallAddConstraint (str "third") (str "fourth") (str "CANNOT_LINK") 1)) = true /\
  succeeds (answer (manager [str "first"; str "second"; str "third"; str "fourth"; str "fifth"] [CallAddConstraint (str "first") (str "second") (str "MUST_LINK") 1; CallAddConstraint (str "second") (str "third") (str "MUST_LINK") 1; CallAddConstraint (str "third") (str "fourth") (str "CANNOT_LINK") 1]) (CallAddConstraint (str "fourth") (str "fifth") (str "CANNOT_LINK") 1)) = true /\
  answer (manager [str "first"; str "second"; str "third"; str "fourth"; str "fifth"] [CallAddConstraint (str "first") (str "second") (str "MUST_LINK") 1; CallAddConstraint (str "second") (str "third") (str "MUST_LINK") 1; CallAddConstraint (str "third") (str "fourth") (str "CANNOT_LINK") 1; CallAddConstraint (str "fourth") (str "fifth") (str "CANNOT_LINK") 1]) (CallConflict (str "first") (str "fourth") (str "MUST_LINK")) = Ok (VConflict (Some ([str "first"; str "second"; str "third"; str "fourth"]))) /\
  answer (manager [str "first"; str "second"; str "third"; str "fourth"; str "fifth"] [CallAddConstraint (str "first") (str "second") (str "MUST_LINK") 1; CallAddConstraint (str "second") (str "third") (str "MUST_LINK") 1; CallAddConstraint (str "third") (str "fourth") (str "CANNOT_LINK") 1; CallAddConstraint (str "fourth") (str "fifth") (str "CANNOT_LINK") 1]) (CallConflict (str "first") (str "third") (str "CANNOT_LINK")) = Ok (VConflict (Some ([str "first"; str "second"; str "third"]))) /\
  answer (manager [str "first"; str "second"; str "third"; str "fourth"; str "fifth"] [CallAddConstraint (str "first") (str "second") (str "MUST_LINK") 1; CallAddConstraint (str "second") (str "third") (str "MUST_LINK") 1; CallAddConstraint (str "third") (str "fourth") (str "CANNOT_LINK") 1; CallAddConstraint (str "fourth") (str "fifth") (str "CANNOT_LINK") 1]) (CallConflict (str "first") (str "third") (str "MUST_LINK")) = Ok (VConflict None) /\
  answer (manager [str "first"; str "second"; str "third"; str "fourth"; str "fifth"] [CallAddConstraint (str "first") (str "second") (str "MUST_LINK") 1; CallAddConstraint (str "second") (str "third") (str "MUST_LINK") 1; CallAddConstraint (str "third") (str "fourth") (str "CANNOT_LINK") 1; CallAddConstraint (str "fourth") (str "fifth") (str "CANNOT_LINK") 1]) (CallConflict (str "fourth") (str "fifth") (str "CANNOT_LINK")) = Ok (VConflict None).
Proof. vm_compute. repeat split. Qed.

(** constraints/test_binary.py:1275-1323 *)
Example test_BinaryConstraintsManager_serialization :
  succeeds (answer (manager [str "first"; str "second"; str "third"] []) (CallAddConstraint (str "first") (str "second") (str "MUST_LINK") 1)) = true /\
  succeeds (answer (manager [str "first"; str "second"; str "third"] [CallAddConstraint (str "first") (str "second") (str "MUST_LINK") 1]) (CallAddConstraint (str "second") (str "third") (str "CANNOT_LINK") 1)) = true /\
  succeeds (load_text (to_json_text (manager [str "first"; str "second"; str "third"] [CallAddConstraint (str "first") (str "second") (str "MUST_LINK") 1; CallAddConstraint (str "second") (str "third") (str "CANNOT_LINK") 1]))) = true /\
  answer (manager [str "first"; str "second"; str "third"] [CallAddConstraint (str "first") (str "second") (str "MUST_LINK") 1; CallAddConstraint (str "second") (str "third") (str "CANNOT_LINK") 1]) (CallManagedIDs) = answer (reloaded (manager [str "first"; str "second"; str "third"] [CallAddConstraint (str "first") (str "second") (str "MUST_LINK") 1; CallAddConstraint (str "second") (str "third") (str "CANNOT_LINK") 1])) (CallManagedIDs) /\
  succeeds (answer (manager [str "first"; str "second"; str "third"] [CallAddConstraint (str "first") (str "second") (str "MUST_LINK") 1; CallAddConstraint (str "second") (str "third") (str "CANNOT_LINK") 1]) (CallManagedIDs)) = true /\
  answer (manager [str "first"; str "second"; str "third"] [CallAddConstraint (str "first") (str "second") (str "MUST_LINK") 1; CallAddConstraint (str "second") (str "third") (str "CANNOT_LINK") 1]) (CallGetAdded (str "first") (str "second")) = answer (reloaded (manager [str "first"; str "second"; str "third"] [CallAddConstraint (str "first") (str "second") (str "MUST_LINK") 1; CallAddConstraint (str "second") (str "third") (str "CANNOT_LINK") 1])) (CallGetAdded (str "first") (str "second")) /\
  succeeds (answer (manager [str "first"; str "second"; str "third"] [CallAddConstraint (str "first") (str "second") (str "MUST_LINK") 1; CallAddConstraint (str "second") (str "third") (str "CANNOT_LINK") 1]) (CallGetAdded (str "first") (str "second"))) = true /\
  answer (manager [str "first"; str "second"; str "third"] [CallAddConstraint (str "first") (str "second") (str "MUST_LINK") 1; CallAddConstraint (str "second") (str "third") (str "CANNOT_LINK") 1]) (CallGetAdded (str "second") (str "third")) = answer (reloaded (manager [str "first"; str "second"; str "third"] [CallAddConstraint (str "first") (str "second") (str "MUST_LINK") 1; CallAddConstraint (str "second") (str "third") (str "CANNOT_LINK") 1])) (CallGetAdded (str "second") (str "third")) /\
  succeeds (answer (manager [str "first"; str "second"; str "third"] [CallAddConstraint (str "first") (str "second") (str "MUST_LINK") 1; CallAddConstraint (str "second") (str "third") (str "CANNOT_LINK") 1]) (CallGetAdded (str "second") (str "third"))) = true /\
  answer (manager [str "first"; str "second"; str "third"] [CallAddConstraint (str "first") (str "second") (str "MUST_LINK") 1; CallAddConstraint (str "second") (str "third") (str "CANNOT_LINK") 1]) (CallGetInferred (str "first") (str "third")) = answer (reloaded (manager [str "first"; str "second"; str "third"] [CallAddConstraint (str "first") (str "second") (str "MUST_LINK") 1; CallAddConstraint (str "second") (str "third") (str "CANNOT_LINK") 1])) (CallGetInferred (str "first") (str "third")) /\
  succeeds (answer (manager [str "first"; str "second"; str "third"] [CallAddConstraint (str "first") (str "second") (str "MUST_LINK") 1; CallAddConstraint (str "second") (str "third") (str "CANNOT_LINK") 1]) (CallGetInferred (str "first") (str "third"))) = true.
Proof. vm_compute. repeat split. Qed.

(** constraints/test_factory.py:24-31 *)
Example test_managing_factory_for_not_implemented_constraints_manager :
  raises (managing_factory [str "first"; str "second"; str "third"] (Some (str "unknown"))) ValueError.
Proof. vm_compute. repeat split. Qed.

(** constraints/test_factory.py:37-44 *)
Example test_managing_factory_for_binary_constraints_manager :
  succeeds (managing_factory [str "first"; str "second"; str "third"] None) = true.
Proof. vm_compute. repeat split. Qed.

