(** Generated from CanonThms.v by tools/gen_props.py: theorem statements,
    each closed by the lemma of the same name proved there. *)

From Coq Require Import String List Bool Arith ZArith QArith.
From Verif Require Import Base Manager Spec ManagerThms Json JsonSpec JsonThms ResumeSpec CanonSpec CanonThms.
Import ListNotations.
Open Scope nat_scope.

(** Two histories that end with the same content: IDs and constraints come and go in the first one. *)
Definition x : pystr := str "x".
Definition y : pystr := str "y".
Definition z : pystr := str "z".
Definition direct : mgr := run [CallAddConstraint x z MUST_LINK 1%Q; CallAddConstraint y z CANNOT_LINK 1%Q] (init [y; z; x]).
Definition detour : mgr := run
  [CallAddConstraint z y CANNOT_LINK 1%Q; CallAddConstraint x y MUST_LINK 1%Q; CallDeleteDataID x; CallAddDataID x; CallAddDataID (str "w");
   CallAddConstraint z x MUST_LINK 1%Q; CallDeleteConstraint x z; CallAddConstraint x z MUST_LINK 1%Q; CallDeleteDataID (str "w")] (init [y; x; z; y]).
Lemma detour_same : same_content direct detour.
Proof.
  split; [vm_compute; reflexivity|]. intros a b. unfold ask.
  rewrite (ManagerInv.run_added direct a b (ManagerQueries.reachable_inv direct (run_reachable _ _))), (ManagerInv.run_added detour a b (ManagerQueries.reachable_inv detour (run_reachable _ _))).
  change (ManagerInv.both detour a b) with (ManagerInv.both direct a b). destruct (ManagerInv.both direct a b); reflexivity.
Qed.
Lemma direct_strings : forall u, managed direct u -> python_string u /\ ~ splits_a_character u.
Proof.
  intros u (l & E & H). vm_compute in E. injection E. intros <-. apply text_ok_spec.
  destruct H as [<-|[<-|[<-|[]]]]; simpl; repeat split; auto; discriminate.
Qed.

(** C127: the file of a manager is the document with its IDs, in the order in which they are managed, and with one record for every added constraint, sorted by the positions of the two IDs in that order. *)
Theorem C127_contents :
  forall m l, reachable m -> ask get_list_of_managed_data_IDs m = Ok l -> to_json_text m = dump 0 (document l (records m l)).
Proof. exact C127_contents_proof. Qed.
Print Assumptions C127_contents.

Example C127_contents_ex : reachable detour /\ ask get_list_of_managed_data_IDs detour = Ok [y; z; x] /\
  records detour [y; z; x] = [(y, y, MUST_LINK); (y, z, CANNOT_LINK); (z, z, MUST_LINK); (x, z, MUST_LINK); (x, x, MUST_LINK)].
Proof. split; [apply run_reachable|]. split; vm_compute; reflexivity. Qed.

(** C127: managers with the same IDs in the same order and the same added constraints write the same file, whatever their histories. *)
Theorem C127_same_file :
  forall m1 m2, reachable m1 -> reachable m2 -> same_content m1 m2 -> to_json_text m1 = to_json_text m2.
Proof. exact C127_same_file_proof. Qed.
Print Assumptions C127_same_file.

Example C127_same_file_ex : reachable direct /\ reachable detour /\ same_content direct detour /\ direct <> detour.
Proof. split; [apply run_reachable|]. split; [apply run_reachable|]. split; [exact detour_same|]. vm_compute. discriminate. Qed.

(** C127: conversely, managers that write the same file have the same IDs in the same order and the same added constraints. *)
Theorem C127_file_tells :
  forall m1 m2, reachable m1 -> reachable m2 ->
    (forall u, managed m1 u \/ managed m2 u -> python_string u /\ ~ splits_a_character u) ->
    to_json_text m1 = to_json_text m2 -> same_content m1 m2.
Proof. exact C127_file_tells_proof. Qed.
Print Assumptions C127_file_tells.

Example C127_file_tells_ex : (forall u, managed direct u \/ managed detour u -> python_string u /\ ~ splits_a_character u) /\
  to_json_text direct = to_json_text detour /\ to_json_text (init [y; z; x]) <> to_json_text (init [x; y; z]).
Proof.
  split.
  - intros u [H|H]; apply direct_strings; auto.
  - split; [vm_compute; reflexivity|vm_compute; discriminate].
Qed.

(** C127: saving what was loaded writes the same file again, at once if no constraint of an ID with itself was deleted, and otherwise from the second time on. *)
Theorem C127_save_again :
  forall m, reachable m -> (forall u, managed m u -> python_string u /\ ~ splits_a_character u) ->
    exists m1 m2, load_text (to_json_text m) = Ok m1 /\ load_text (to_json_text m1) = Ok m2 /\
      to_json_text m2 = to_json_text m1 /\
      ((forall u, managed m u -> added m MUST_LINK u u) -> to_json_text m1 = to_json_text m).
Proof. exact C127_save_again_proof. Qed.
Print Assumptions C127_save_again.

Example C127_save_again_ex : reachable direct /\ (forall u, managed direct u -> python_string u /\ ~ splits_a_character u) /\
  (forall u, managed direct u -> added direct MUST_LINK u u).
Proof.
  split; [apply run_reachable|]. split; [exact direct_strings|].
  intros u (l & E & H). vm_compute in E. injection E. intros <-. exists 1%Q. destruct H as [<-|[<-|[<-|[]]]]; vm_compute; reflexivity.
Qed.
