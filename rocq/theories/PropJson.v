(** Generated from JsonThms.v by tools/gen_props.py: theorem statements,
    each closed by the lemma of the same name proved there. *)

From Coq Require Import String List Bool NArith QArith.
From Verif Require Import Base Manager Spec Json JsonSpec ManagerThms JsonProofs JsonThms.
Import ListNotations.
Open Scope nat_scope.

Definition a : pystr := str "a".
Definition b : pystr := str "b".
(** c is an emoji, d contains a quote, a backslash and a newline. *)
Definition c : pystr := [128512%N].
Definition d : pystr := [34; 92; 10; 233]%N.
Definition ex : mgr :=
  run [CallAddConstraint a b MUST_LINK 1%Q; CallAddConstraint c b CANNOT_LINK 1%Q; CallAddConstraint d c MUST_LINK 1%Q]
      (init [d; a; b; c]).
Lemma ex_reachable : reachable ex.
Proof. apply run_reachable. Qed.


(** C23: reading the JSON text back gives exactly the IDs and records written, for IDs made of any Unicode characters. *)
Theorem C23_text_lossless_partial :
  forall ids l, (forall s, doc_strings ids l s -> python_string s /\ ~ splits_a_character s) ->
    loads (dump 0 (document ids l)) = Ok (document ids l).
Proof. exact C23_text_lossless_partial_proof. Qed.
Print Assumptions C23_text_lossless_partial.

(** C23: Python strings may also hold the two halves of a character as separate code points; the text then reads back as another string.  Full statement (refuted): forall ids l, loads (dump 0 (document ids l)) = Ok (document ids l). *)
Theorem C23_text_lossless_refuted :
  exists ids v, (forall s, In s ids -> python_string s) /\ NoDup ids /\
    loads (dump 0 (document ids [])) = Ok v /\ v <> document ids [] /\
    (exists i, load_value v = Ok i /\ ask get_list_of_managed_data_IDs i <> Ok ids).
Proof. exact C23_text_lossless_refuted_proof. Qed.
Print Assumptions C23_text_lossless_refuted.

Example C23_ex : loads (dump 0 (document [c; d] [(c, d, MUST_LINK)])) = Ok (document [c; d] [(c, d, MUST_LINK)]).
Proof. vm_compute. reflexivity. Qed.

(** C22: loading the file written by to_json succeeds and gives the same managed IDs in the same order, the same answers to all queries about inferred constraints, components, completude and conflicts, the same added constraints between different IDs, and exactly the same added constraints if no trivial constraint of an ID with itself was deleted.  Missing (see C22_round_trip_refuted): a deleted constraint of an ID with itself comes back. *)
Theorem C22_round_trip_partial :
  forall m, reachable m -> (forall x, managed m x -> python_string x /\ ~ splits_a_character x) ->
    exists m', load_text (to_json_text m) = Ok m' /\ reachable m' /\
      ask get_list_of_managed_data_IDs m' = ask get_list_of_managed_data_IDs m /\
      same_answers m' m /\
      (forall x y, x <> y -> ask (get_added_constraint x y) m' = ask (get_added_constraint x y) m) /\
      ((forall x, managed m x -> added m MUST_LINK x x) ->
       forall x y, ask (get_added_constraint x y) m' = ask (get_added_constraint x y) m).
Proof. exact C22_round_trip_partial_proof. Qed.
Print Assumptions C22_round_trip_partial.

(** C22: after the constraint of an ID with itself is deleted, the reloaded manager has it again.  Full statement (refuted): the reloaded manager has the same added constraints. *)
Theorem C22_round_trip_refuted :
  exists m m' x, reachable m /\ (forall y, managed m y -> python_string y /\ ~ splits_a_character y) /\
    load_text (to_json_text m) = Ok m' /\
    managed m x /\ ~ added m MUST_LINK x x /\ added m' MUST_LINK x x.
Proof. exact C22_round_trip_refuted_proof. Qed.
Print Assumptions C22_round_trip_refuted.

Example C22_ex : exists m', load_text (to_json_text ex) = Ok m'
  /\ inferred m' d a (Some CANNOT_LINK) /\ inferred m' a b (Some MUST_LINK).
Proof. eexists. split; [vm_compute; reflexivity|]. split; vm_compute; reflexivity. Qed.
Example C22_ex_ids : forall x, managed ex x -> python_string x /\ ~ splits_a_character x.
Proof.
  intros x (l & E & H). vm_compute in E. injection E. intros <-. apply text_ok_spec.
  destruct H as [<-|[<-|[<-|[<-|[]]]]]; simpl; repeat split; auto; discriminate.
Qed.

(** C24: a file torn at any point is rejected with JSONDecodeError. *)
Theorem C24_torn_file_rejected :
  forall m, reachable m -> (forall x, managed m x -> python_string x) ->
    forall p q, to_json_text m = p ++ q -> q <> [] -> load_text p = Raise JSONDecodeError.
Proof. exact C24_torn_file_rejected_proof. Qed.
Print Assumptions C24_torn_file_rejected.

Example C24_ex : load_text (firstn 90 (to_json_text ex)) = Raise JSONDecodeError /\ (90 < length (to_json_text ex)).
Proof. split; [vm_compute; reflexivity|vm_compute; repeat constructor]. Qed.

(** C25: to_json truncates the existing file first: a crash can lose both the old and the new manager.  Full statement (refuted): after any crash a load gives the old manager or the new one. *)
Theorem C25_crash_safe_refuted :
  exists old m mo mn f, reachable old /\ reachable m /\
    load_text (to_json_text old) = Ok mo /\ load_text (to_json_text m) = Ok mn /\
    after_crash (Some (to_json_text old)) (to_json_text m) f /\ load_file f = Raise JSONDecodeError.
Proof. exact C25_crash_safe_refuted_proof. Qed.
Print Assumptions C25_crash_safe_refuted.

(** C25: what remains true: after a crash a load gives what the old file gave, what the complete new file gives, or raises JSONDecodeError; never a third manager. *)
Theorem C25_crash_detected_partial :
  forall m, reachable m -> (forall x, managed m x -> python_string x) ->
    forall old f, after_crash old (to_json_text m) f ->
      f = old \/ f = Some (to_json_text m) \/ load_file f = Raise JSONDecodeError.
Proof. exact C25_crash_detected_partial_proof. Qed.
Print Assumptions C25_crash_detected_partial.

(** C26: whatever text the file holds, if loading succeeds the manager is one reachable through the API, its added constraints are satisfiable and its inferences exact. *)
Theorem C26_loaded_manager_coherent :
  forall s m, load_text s = Ok m ->
    reachable m /\
    satisfiable (added_must m) (added_cannot m) /\
    (forall a b, managed m a -> managed m b ->
       (inferred m a b (Some MUST_LINK) <-> linked (added_must m) a b) /\
       (inferred m a b (Some CANNOT_LINK) <-> separated (added_must m) (added_cannot m) a b)).
Proof. exact C26_loaded_manager_coherent_proof. Qed.
Print Assumptions C26_loaded_manager_coherent.

(** C26: a document listing IDs and records is accepted exactly when the records are about listed IDs, have a known type and can all be respected together; otherwise loading raises ValueError.  When accepted the added constraints are exactly the listed ones and the trivial ones. *)
Theorem C26_document_accepted_iff_satisfiable :
  forall ids l,
    let good := (forall a b t, In (a, b, t) l -> In a ids /\ In b ids /\ allowed t) /\
                satisfiable (listed l MUST_LINK) (listed l CANNOT_LINK) in
    (good -> exists m, load_value (document ids l) = Ok m /\
       forall t a b, added m t a b <-> listed l t a b \/ (In a ids /\ a = b /\ t = MUST_LINK)) /\
    (~ good -> load_value (document ids l) = Raise ValueError).
Proof. exact C26_document_accepted_iff_satisfiable_proof. Qed.
Print Assumptions C26_document_accepted_iff_satisfiable.

Example C26_ex_contradiction : load_value (document [a; b; c] [(a, b, MUST_LINK); (b, c, MUST_LINK); (c, a, CANNOT_LINK)]) = Raise ValueError.
Proof. vm_compute. reflexivity. Qed.
Example C26_ex_accepted : exists m, load_value (document [a; b; c] [(a, b, MUST_LINK); (b, c, CANNOT_LINK)]) = Ok m
  /\ inferred m a c (Some CANNOT_LINK).
Proof. eexists. split; vm_compute; reflexivity. Qed.
