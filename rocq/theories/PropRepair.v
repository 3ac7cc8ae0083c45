(** Generated from RepairThms.v by tools/gen_props.py: theorem statements,
    each closed by the lemma of the same name proved there. *)

(** * Properties of the list of IDs involved in a conflict (C99) *)

From Coq Require Import String List Bool Arith QArith.
From Verif Require Import Base Manager Spec RepairSpec ManagerThms RepairThms.
Import ListNotations.
Open Scope nat_scope.

Definition a := str "a". Definition b := str "b". Definition c := str "c". Definition d := str "d".
Definition ex : mgr := run [CallAddConstraint a b MUST_LINK 1%Q; CallAddConstraint b c CANNOT_LINK 1%Q] (init [a; b; c; d]).

(** C99: whatever is done without taking away a listed ID or a constraint between two listed IDs, the constraint stays refused. *)
Theorem C99_conflict_stays :
  forall m, reachable m -> forall a b t l v,
    ask (get_list_of_involved_data_IDs_in_a_constraint_conflict a b t) m = Ok (Some l) ->
    forall history, Forall (outside l) history ->
      ask (add_constraint a b t v) (run history m) = Raise ValueError.
Proof. exact C99_conflict_stays_proof. Qed.
Print Assumptions C99_conflict_stays.

(** C99: and when constraints have been taken away until none is left between two different listed IDs, the constraint is accepted. *)
Theorem C99_conflict_resolved :
  forall m, reachable m -> forall a b t l v, a <> b ->
    ask (get_list_of_involved_data_IDs_in_a_constraint_conflict a b t) m = Ok (Some l) ->
    forall history, Forall (retracts a b) history ->
      (forall u x y, In x l -> In y l -> x <> y -> ~ added (run history m) u x y) ->
      ask (add_constraint a b t v) (run history m) = Ok true.
Proof. exact C99_conflict_resolved_proof. Qed.
Print Assumptions C99_conflict_resolved.

(** [a - b] are linked, [c] is separated from [b]; [d] is not involved. *)
Example C99_ex : ask (get_list_of_involved_data_IDs_in_a_constraint_conflict a c MUST_LINK) ex = Ok (Some [a; b; c]) /\
  Forall (outside [a; b; c]) [CallDeleteDataID d; CallDeleteConstraint a d; CallAddDataID (str "e")] /\
  Forall (retracts a c) [CallDeleteConstraint a b; CallDeleteConstraint b c] /\
  (forall u x y, In x [a; b; c] -> In y [a; b; c] -> x <> y -> ~ added (run [CallDeleteConstraint a b; CallDeleteConstraint b c] ex) u x y) /\
  ask (add_constraint a c MUST_LINK 1%Q) (run [CallDeleteDataID d; CallDeleteConstraint a d; CallAddDataID (str "e")] ex) = Raise ValueError /\
  ask (add_constraint a c MUST_LINK 1%Q) (run [CallDeleteConstraint a b; CallDeleteConstraint b c] ex) = Ok true.
Proof.
  split; [vm_compute; reflexivity|].
  split; [repeat constructor; try (right; right); intros H; vm_compute in H; intuition discriminate|].
  split; [repeat constructor|]. split; [|split; vm_compute; reflexivity].
  intros u x y Ix Iy N (v & A). simpl in Ix, Iy.
  destruct Ix as [<-|[<-|[<-|[]]]]; destruct Iy as [<-|[<-|[<-|[]]]]; try congruence; vm_compute in A; discriminate.
Qed.
