(** Generated from InterruptThms.v by tools/gen_props.py: theorem statements,
    each closed by the lemma of the same name proved there. *)

From Coq Require Import String List Bool Arith ZArith QArith.
From Verif Require Import Base Manager Spec ManagerThms Json ResumeSpec UndoSpec Interrupt InterruptSpec InterruptThms.
Import ListNotations.
Open Scope nat_scope.

Definition A : pystr := str "a".
Definition B : pystr := str "b".
Definition C : pystr := str "c".
Definition E : pystr := str "d".
Definition ex : mgr := run [CallAddConstraint A B MUST_LINK 1%Q; CallAddConstraint C E MUST_LINK 1%Q; CallAddConstraint A A MUST_LINK 1%Q] (init [C; B; A; E]).
Definition link : call := CallAddConstraint C B CANNOT_LINK 1%Q.
Definition half (c : call) (n : nat) : mgr := nth n (fst (w_exec c ex)) ex.
Lemma ex_reachable : reachable ex. Proof. apply run_reachable. Qed.
Lemma half_interrupted c n : interrupted c ex (half c n).
Proof.
  unfold interrupted, half. destruct (nth_in_or_default n (fst (w_exec c ex)) ex) as [H|H]; [right|left]; auto.
Qed.

(** C135: the methods that list the managers they pass through end with the manager and the result of the methods of the other theorems. *)
Theorem C135_same_calls : forall c m, snd (w_exec c m) = exec c m.
Proof. exact C135_same_calls_proof. Qed.
Print Assumptions C135_same_calls.

(** The addition of a CANNOT_LINK between two components of two makes five writes; deleting an ID makes more. *)
Example C135_same_calls_ex : length (fst (w_exec link ex)) = 5 /\ length (fst (w_exec (CallDeleteDataID B) ex)) = 17 /\
  half link 4 = fst (exec link ex) /\ half link 3 <> half link 4 /\ half link 2 <> half link 3 /\ half link 1 <> half link 2 /\ half link 0 <> ex.
Proof. repeat split; try (vm_compute; reflexivity); vm_compute; discriminate. Qed.

(** C135: a call that adds or deletes a constraint and is interrupted at any point leaves a manager that is saved as before the call or as after it. *)
Theorem C135_saved :
  forall m m' c a b, of_pair c a b -> interrupted c m m' ->
    to_json_text m' = to_json_text m \/ to_json_text m' = to_json_text (fst (exec c m)).
Proof. exact C135_saved_proof. Qed.
Print Assumptions C135_saved.

Example C135_saved_ex : of_pair link C B /\ interrupted link ex (half link 1) /\
  half link 1 <> fst (exec link ex) /\ to_json_text (half link 1) = to_json_text (fst (exec link ex)) /\ to_json_text (half link 1) <> to_json_text ex.
Proof.
  split; [right; exists CANNOT_LINK, 1%Q; reflexivity|]. split; [apply half_interrupted|].
  split; [vm_compute; discriminate|]. split; [vm_compute; reflexivity|vm_compute; discriminate].
Qed.

(** C135 (partial): after any interrupted call that adds or deletes a constraint, deleting the constraint of this pair gives the manager it would have given without that call. *)
Theorem C135_pair_repaired_partial :
  forall m m' c a b, of_pair c a b -> interrupted c m m' ->
    exec (CallDeleteConstraint a b) m' = exec (CallDeleteConstraint a b) m.
Proof. exact C135_pair_repaired_partial_proof. Qed.
Print Assumptions C135_pair_repaired_partial.

(** An interrupted deletion too. *)
Example C135_pair_repaired_ex : half link 1 <> ex /\ half (CallDeleteConstraint A B) 1 <> fst (exec (CallDeleteConstraint A B) ex) /\
  fst (exec (CallDeleteConstraint C B) (half link 1)) = fst (exec (CallDeleteConstraint C B) ex) /\
  exec (CallDeleteConstraint A B) (half (CallDeleteConstraint A B) 1) = exec (CallDeleteConstraint A B) ex.
Proof. split; [vm_compute; discriminate|]. split; [vm_compute; discriminate|]. split; vm_compute; reflexivity. Qed.

(** C135 (partial): after any interrupted deletion of a data ID, adding this ID, which is refused when it is still managed, and deleting it again ends the deletion. *)
Theorem C135_deletion_repaired_partial :
  forall m m' x, reachable m -> managed m x -> interrupted (CallDeleteDataID x) m m' ->
    run [CallAddDataID x; CallDeleteDataID x] m' = run [CallDeleteDataID x] m.
Proof. exact C135_deletion_repaired_partial_proof. Qed.
Print Assumptions C135_deletion_repaired_partial.

Example C135_deletion_repaired_ex : reachable ex /\ managed ex B /\ interrupted (CallDeleteDataID B) ex (half (CallDeleteDataID B) 1) /\
  snd (exec (CallDeleteDataID B) (half (CallDeleteDataID B) 1)) = Raise ValueError /\
  run [CallAddDataID B; CallDeleteDataID B] (half (CallDeleteDataID B) 1) = fst (exec (CallDeleteDataID B) ex).
Proof.
  split; [apply ex_reachable|]. split; [eexists; split; [vm_compute; reflexivity|simpl; auto]|]. split; [apply half_interrupted|].
  split; vm_compute; reflexivity.
Qed.

(** C135 (partial): after any interrupted addition of a data ID, deleting this ID, which is refused when it is not managed yet, gives a manager with the content from before the addition. *)
Theorem C135_addition_repaired_partial :
  forall m m' x, reachable m -> ~ managed m x -> interrupted (CallAddDataID x) m m' ->
    reachable (run [CallDeleteDataID x] m') /\ same_content (run [CallDeleteDataID x] m') m.
Proof. exact C135_addition_repaired_partial_proof. Qed.
Print Assumptions C135_addition_repaired_partial.

Example C135_addition_repaired_ex : ~ managed ex (str "bb") /\ interrupted (CallAddDataID (str "bb")) ex (half (CallAddDataID (str "bb")) 2) /\
  snd (exec (CallAddDataID (str "bb")) (half (CallAddDataID (str "bb")) 2)) = Raise ValueError /\
  snd (exec (CallGetInferred A (str "bb")) (half (CallAddDataID (str "bb")) 2)) = Raise ValueError /\
  snd (exec (CallDeleteDataID (str "bb")) (half (CallAddDataID (str "bb")) 2)) = Ok (VBool true).
Proof.
  split; [intros (l & H & I); vm_compute in H; injection H as <-; vm_compute in I; intuition discriminate|]. split; [apply half_interrupted|].
  repeat split; vm_compute; reflexivity.
Qed.

(** C135: a manager left by an interrupted addition of a constraint keeps every answer that get_inferred_constraint gave before, and gives none that it does not give after the whole addition. *)
Theorem C135_addition_answers :
  forall m m' a b t v p q r, reachable m -> interrupted (CallAddConstraint a b t v) m m' ->
    (inferred m p q (Some r) -> inferred m' p q (Some r)) /\
    (inferred m' p q (Some r) -> inferred (fst (exec (CallAddConstraint a b t v) m)) p q (Some r)).
Proof. exact C135_addition_answers_proof. Qed.
Print Assumptions C135_addition_answers.

(** Half way the answer for B and C depends on the order in which one asks. *)
Example C135_addition_answers_ex : interrupted link ex (half link 1) /\ inferred ex A B (Some MUST_LINK) /\
  inferred (half link 1) B C (Some CANNOT_LINK) /\ inferred (half link 1) C B None /\
  inferred (half link 1) A B (Some MUST_LINK) /\ inferred (fst (exec link ex)) C B (Some CANNOT_LINK).
Proof. split; [apply half_interrupted|]. repeat split; vm_compute; reflexivity. Qed.

(** C135 is false: an interrupted addition stays half done.  The same call again returns True and changes nothing, and constraints that contradict each other are then accepted. *)
Theorem C135_half_done_refuted :
  exists m m' c l, reachable m /\ interrupted c m m' /\ (exists v, snd (exec c m) = Ok v /\ exec c m' = (m', Ok v)) /\
    Forall succeeds (outputs l m') /\ ~ satisfiable (added_must (run l m')) (added_cannot (run l m')).
Proof. exact C135_half_done_refuted_proof. Qed.
Print Assumptions C135_half_done_refuted.

(** C135 is false: an interrupted deletion of an ID can leave a manager that refuses to delete the ID, cannot delete a constraint between other IDs (KeyError) and is saved as a file that cannot be loaded. *)
Theorem C135_deletion_refuted :
  exists m m' x a b, reachable m /\ managed m x /\ interrupted (CallDeleteDataID x) m m' /\
    snd (exec (CallDeleteDataID x) m') = Raise ValueError /\
    snd (exec (CallDeleteConstraint a b) m) = Ok (VBool true) /\ snd (exec (CallDeleteConstraint a b) m') = Raise KeyError /\
    load_text (to_json_text m') = Raise ValueError.
Proof. exact C135_deletion_refuted_proof. Qed.
Print Assumptions C135_deletion_refuted.
