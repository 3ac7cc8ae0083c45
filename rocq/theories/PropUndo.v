(** Generated from UndoThms.v by tools/gen_props.py: theorem statements,
    each closed by the lemma of the same name proved there. *)

From Coq Require Import String List Bool Arith ZArith QArith.
From Verif Require Import Base Manager Spec ManagerThms Json ResumeSpec UndoSpec UndoThms.
Import ListNotations.
Open Scope nat_scope.

Definition a : pystr := str "a".
Definition b : pystr := str "b".
Definition c : pystr := str "c".
Definition d : pystr := str "d".
Definition ex : mgr := run [CallAddConstraint a b MUST_LINK 1%Q; CallAddConstraint c b CANNOT_LINK 1%Q] (init [d; c; b; a]).
(** Accepted, refused and useless calls, and constraints deleted. *)
Definition session : list call :=
  [CallDeleteConstraint b a; CallAddDataID (str "e"); CallAddConstraint a c MUST_LINK 1%Q; CallAddConstraint a b MUST_LINK 1%Q;
   CallAddConstraint c b CANNOT_LINK 1%Q; CallAddConstraint (str "e") d MUST_LINK 1%Q; CallDeleteConstraint a a; CallAddDataID a; CallComponents].

(** C128: after any history without deleted ID, refused and useless calls included, taking its effective calls back, the last one first, is never refused and restores the IDs, their order and all added constraints. *)
Theorem C128_undo :
  forall m l, reachable m -> keeps_IDs l ->
    Forall succeeds (outputs (undo l m) (run l m)) /\ same_content (run (undo l m) (run l m)) m.
Proof. exact C128_undo_proof. Qed.
Print Assumptions C128_undo.

Example C128_undo_ex : reachable ex /\ keeps_IDs session /\
  undo session ex = [CallAddConstraint a a MUST_LINK 1%Q; CallDeleteConstraint (str "e") d; CallDeleteConstraint a c; CallDeleteDataID (str "e"); CallAddConstraint b a MUST_LINK 1%Q].
Proof.
  split; [apply run_reachable|]. split; [|vm_compute; reflexivity].
  intros x X. unfold session in X. simpl in X. repeat (destruct X as [X|X]; [discriminate|]). exact X.
Qed.

(** C128: an ID that was deleted by mistake can be put back: managing it again and adding its constraints again, in any order, is never refused, and gives the constraints and answers of before; only the position of the ID changes, and a deleted constraint of the ID with itself comes back. *)
Theorem C128_put_back :
  forall m x l, reachable m -> managed m x -> lists_constraints_of m x l ->
    exists m', add_all l (run [CallDeleteDataID x; CallAddDataID x] m) = (m', Ok tt) /\ reachable m' /\
      (forall ids0, ask get_list_of_managed_data_IDs m = Ok ids0 ->
         ask get_list_of_managed_data_IDs m' = Ok (filter (fun y => negb (eqb x y)) ids0 ++ [x])) /\
      (forall a b, ~ (a = x /\ b = x) -> ask (get_added_constraint a b) m' = ask (get_added_constraint a b) m) /\
      added m' MUST_LINK x x /\ same_answers m' m.
Proof. exact C128_put_back_proof. Qed.
Print Assumptions C128_put_back.

Example C128_put_back_ex : managed ex b /\ lists_constraints_of ex b [(b, c, CANNOT_LINK); (a, b, MUST_LINK)].
Proof.
  assert (I := ManagerQueries.reachable_inv ex (run_reachable _ _)). split; [apply ManagerInv.managed_ids; vm_compute; auto|]. split.
  - intros u v t [E|[E|[]]]; injection E as <- <- <-; (split; [exists 1%Q; vm_compute; reflexivity|auto]).
  - intros u t N H. assert (Iu := H). apply addf_added in Iu; auto. destruct Iu as (_ & Iu & E). vm_compute in Iu.
    destruct Iu as [<-|[<-|[<-|[<-|[]]]]]; vm_compute in E; try discriminate; injection E as <-; simpl; auto; exfalso; apply N; reflexivity.
Qed.
