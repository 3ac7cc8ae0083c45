(** Generated from TeachThms.v by tools/gen_props.py: theorem statements,
    each closed by the lemma of the same name proved there. *)

From Coq Require Import String List Bool Arith ZArith QArith Lia.
From Verif Require Import Base Manager Spec ManagerThms ManagerInv ManagerQueries WrongSpec TeachSpec TeachThms.
Import ListNotations.
Open Scope nat_scope.

(** **C146.** Answer CANNOT_LINK about two data that nothing is known about yet, whatever the manager. Among the pairs that were not decided, the ones decided by this answer are
    exactly those that take one data known to be with the one and one data known to be with the other; and they become CANNOT_LINK, never MUST_LINK. *)
Theorem C146_which_cannot :
  forall m a b v, reachable m -> managed m a -> managed m b -> inferred m a b None ->
  let m' := fst (exec (CallAddConstraint a b CANNOT_LINK v) m) in
  forall x y, managed m x -> managed m y -> inferred m x y None ->
    (inferred m' x y (Some CANNOT_LINK) <->
       (inferred m x a (Some MUST_LINK) /\ inferred m y b (Some MUST_LINK)) \/ (inferred m x b (Some MUST_LINK) /\ inferred m y a (Some MUST_LINK))) /\
    ~ inferred m' x y (Some MUST_LINK).
Proof. exact C146_which_cannot_proof. Qed.
Print Assumptions C146_which_cannot.

(** Six data: a and b together, d and e together, c apart from d; nothing is known about a and d, nor about f. *)
Definition da := str "a". Definition db := str "b". Definition dc := str "c". Definition dd := str "d". Definition de := str "e". Definition df := str "f".
Definition all6 := [da; db; dc; dd; de; df].
Definition told : mgr := run [CallAddConstraint da db MUST_LINK 1%Q; CallAddConstraint dd de MUST_LINK 1%Q; CallAddConstraint dc dd CANNOT_LINK 1%Q] (init all6).
Lemma told_managed x : managed told x <-> In x all6.
Proof. rewrite managed_ids. reflexivity. Qed.
Lemma told_ok : reachable told /\ managed told da /\ managed told dd /\ inferred told da dd None.
Proof. split; [apply run_reachable|]. rewrite !told_managed. vm_compute. intuition. Qed.
Example C146_which_cannot_ex : let m' := fst (exec (CallAddConstraint da dd CANNOT_LINK 1%Q) told) in
  reachable told /\ managed told da /\ managed told dd /\ inferred told da dd None /\
  inferred told db de None /\ inferred m' db de (Some CANNOT_LINK) /\ inferred told da dc None /\ inferred m' da dc None.
Proof. intro m'. destruct told_ok as (A & B & C & D). repeat (split; [assumption|]). vm_compute. repeat split. Qed.

(** **C146.** Answer MUST_LINK instead. The same pairs become MUST_LINK; and the pairs that become CANNOT_LINK are exactly those that take one data known to be with the one and
    one data known to be apart from the other. *)
Theorem C146_which_must :
  forall m a b v, reachable m -> managed m a -> managed m b -> inferred m a b None ->
  let m' := fst (exec (CallAddConstraint a b MUST_LINK v) m) in
  forall x y, managed m x -> managed m y -> inferred m x y None ->
    (inferred m' x y (Some MUST_LINK) <->
       (inferred m x a (Some MUST_LINK) /\ inferred m y b (Some MUST_LINK)) \/ (inferred m x b (Some MUST_LINK) /\ inferred m y a (Some MUST_LINK))) /\
    (inferred m' x y (Some CANNOT_LINK) <->
       (inferred m x a (Some MUST_LINK) /\ inferred m y b (Some CANNOT_LINK)) \/ (inferred m x b (Some MUST_LINK) /\ inferred m y a (Some CANNOT_LINK)) \/
       (inferred m y a (Some MUST_LINK) /\ inferred m x b (Some CANNOT_LINK)) \/ (inferred m y b (Some MUST_LINK) /\ inferred m x a (Some CANNOT_LINK))).
Proof. exact C146_which_must_proof. Qed.
Print Assumptions C146_which_must.

Example C146_which_must_ex : let m' := fst (exec (CallAddConstraint da dd MUST_LINK 1%Q) told) in
  inferred told db de None /\ inferred m' db de (Some MUST_LINK) /\ inferred told da dc None /\ inferred m' da dc (Some CANNOT_LINK) /\ inferred m' da df None.
Proof. vm_compute. repeat split. Qed.

(** **C146.** How many. Answering CANNOT_LINK about two data that nothing is known about decides exactly [n * k] pairs of data, where [n] data are known to be with the first
    and [k] with the second (each counting itself). *)
Theorem C146_cannot :
  forall m a b v l, reachable m -> ask get_list_of_managed_data_IDs m = Ok l -> In a l -> In b l -> inferred m a b None ->
  nb_undecided m l = nb_undecided (fst (exec (CallAddConstraint a b CANNOT_LINK v) m)) l + nb_with m l a * nb_with m l b.
Proof. exact C146_cannot_proof. Qed.
Print Assumptions C146_cannot.

Example C146_cannot_ex : ask get_list_of_managed_data_IDs told = Ok all6 /\ nb_undecided told all6 = 11 /\ nb_with told all6 da = 2 /\ nb_with told all6 dd = 2 /\
  nb_undecided (fst (exec (CallAddConstraint da dd CANNOT_LINK 1%Q) told)) all6 = 7.
Proof. vm_compute. repeat split. Qed.

(** **C146.** Answering MUST_LINK instead decides as many pairs, and moreover, for each data known to be with the one, each data known to be apart from the other only. *)
Theorem C146_must :
  forall m a b v l, reachable m -> ask get_list_of_managed_data_IDs m = Ok l -> In a l -> In b l -> inferred m a b None ->
  nb_undecided m l = nb_undecided (fst (exec (CallAddConstraint a b MUST_LINK v) m)) l +
    (nb_with m l a * nb_with m l b + nb_with m l a * nb_only_against m l b a + nb_with m l b * nb_only_against m l a b).
Proof. exact C146_must_proof. Qed.
Print Assumptions C146_must.

Example C146_must_ex : nb_undecided told all6 = 11 /\ nb_only_against told all6 dd da = 1 /\ nb_only_against told all6 da dd = 0 /\
  nb_undecided (fst (exec (CallAddConstraint da dd MUST_LINK 1%Q) told)) all6 = 5.
Proof. vm_compute. repeat split. Qed.

(** **C146.** So each answer about two data that nothing is known about decides at least one pair of data, and answering MUST_LINK never decides less than answering CANNOT_LINK. *)
Theorem C146_more :
  forall m a b v w l, reachable m -> ask get_list_of_managed_data_IDs m = Ok l -> In a l -> In b l -> inferred m a b None ->
  nb_undecided (fst (exec (CallAddConstraint a b MUST_LINK v) m)) l <= nb_undecided (fst (exec (CallAddConstraint a b CANNOT_LINK w) m)) l < nb_undecided m l.
Proof. exact C146_more_proof. Qed.
Print Assumptions C146_more.

Example C146_more_ex : reachable told /\ inferred told da dd None /\ In da all6 /\ In dd all6 /\
  nb_undecided (fst (exec (CallAddConstraint da dd MUST_LINK 1%Q) told)) all6 = 5 /\
  nb_undecided (fst (exec (CallAddConstraint da df MUST_LINK 1%Q) told)) all6 = nb_undecided (fst (exec (CallAddConstraint da df CANNOT_LINK 1%Q) told)) all6.
Proof. split; [apply run_reachable|]. vm_compute. intuition. Qed.
