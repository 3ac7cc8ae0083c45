(** Generated from RangeThms.v by tools/gen_props.py: theorem statements,
    each closed by the lemma of the same name proved there. *)

(** * Properties of the range of cluster numbers during a session (C113) *)

From Coq Require Import String List Bool Arith QArith Lia.
From Verif Require Import Base Manager Spec MinMax ManagerThms RangeSpec RangeThms.
Import ListNotations.
Open Scope nat_scope.

Definition a := str "a". Definition b := str "b". Definition c := str "c". Definition d := str "d".
Definition node_order (i : nat) (g : graph) : list node := g_nodes g.
Definition ex : mgr := run [CallAddConstraint a b MUST_LINK 1%Q; CallAddConstraint b c CANNOT_LINK 1%Q] (init [a; b; c; d]).

(** C113: an accepted annotation lowers the largest number of clusters by one when it is a MUST_LINK that was not already known, and leaves it as it is otherwise; it never makes another number of clusters possible. *)
Theorem C113_annotation :
  forall order m a b t v, valid_orders order -> reachable m ->
    let m' := fst (exec (CallAddConstraint a b t v) m) in
    snd (exec (CallAddConstraint a b t v) m) = Ok (VBool true) ->
    forall hi hi', maximum order m hi -> maximum order m' hi' ->
      (t = MUST_LINK -> inferred m a b None -> hi = S hi') /\
      (t = CANNOT_LINK \/ inferred m a b (Some t) -> hi' = hi) /\
      (forall k, feasible m' k -> feasible m k).
Proof. exact C113_annotation_proof. Qed.
Print Assumptions C113_annotation.

(** A MUST_LINK that is new, one that is known, and a CANNOT_LINK. *)
Example C113_annotation_ex :
  maximum node_order ex 3 /\ maximum node_order (fst (exec (CallAddConstraint c d MUST_LINK 1%Q) ex)) 2 /\
  maximum node_order (fst (exec (CallAddConstraint b a MUST_LINK 1%Q) ex)) 3 /\ maximum node_order (fst (exec (CallAddConstraint c d CANNOT_LINK 1%Q) ex)) 3.
Proof. repeat split; eexists; vm_compute; reflexivity. Qed.

(** C113: deleting a constraint raises the largest number of clusters by at most one and never lowers it; what was possible remains so. *)
Theorem C113_retraction :
  forall order m a b, valid_orders order -> reachable m -> managed m a -> managed m b ->
    let m' := fst (exec (CallDeleteConstraint a b) m) in
    forall hi hi', maximum order m hi -> maximum order m' hi' ->
      hi <= hi' <= S hi /\ (~ added_must m a b -> hi' = hi) /\ (forall k, feasible m k -> feasible m' k).
Proof. exact C113_retraction_proof. Qed.
Print Assumptions C113_retraction.

Example C113_retraction_ex :
  maximum node_order (fst (exec (CallDeleteConstraint b a) ex)) 4 /\ maximum node_order (fst (exec (CallDeleteConstraint b c) ex)) 3.
Proof. repeat split; eexists; vm_compute; reflexivity. Qed.

(** C113: a data ID that is added comes as a component of its own: it joins a cluster or makes another one. *)
Theorem C113_new_data :
  forall m x, reachable m -> ~ managed m x ->
    let m' := fst (exec (CallAddDataID x) m) in
    (forall n n', nb_components m n -> nb_components m' n' -> n' = S n) /\
    (forall k, feasible m' k <-> (has_ids m /\ feasible m k) \/ (exists j, k = S j /\ feasible m j)).
Proof. exact C113_new_data_proof. Qed.
Print Assumptions C113_new_data.

Example C113_new_data_ex : nb_components ex 3 /\ nb_components (fst (exec (CallAddDataID (str "e")) ex)) 4.
Proof. split; eexists; split; try (vm_compute; reflexivity); reflexivity. Qed.

(** C113: deleting a data ID loses at most one component and at most one cluster (and a component that it held together can fall into several). *)
Theorem C113_deleted_data :
  forall m x, reachable m -> managed m x ->
    let m' := fst (exec (CallDeleteDataID x) m) in
    (forall n n', nb_components m n -> nb_components m' n' -> n <= S n') /\
    (forall k, feasible m k -> feasible m' k \/ exists j, k = S j /\ feasible m' j).
Proof. exact C113_deleted_data_proof. Qed.
Print Assumptions C113_deleted_data.

(** The middle of a chain of MUST_LINK constraints is deleted. *)
Definition chain : mgr := run [CallAddConstraint a b MUST_LINK 1%Q; CallAddConstraint b c MUST_LINK 1%Q] (init [a; b; c]).
Example C113_deleted_data_ex : nb_components ex 3 /\ nb_components (fst (exec (CallDeleteDataID c) ex)) 2 /\
  nb_components chain 1 /\ nb_components (fst (exec (CallDeleteDataID b) chain)) 2.
Proof. repeat split; eexists; split; try (vm_compute; reflexivity); reflexivity. Qed.
