(** * Resolving a conflict *)

From Coq Require Import List Bool.
From Verif Require Import Base Manager Spec.
Import ListNotations.

(** The call takes away neither a listed ID nor a constraint between two listed IDs. *)
Definition outside (l : list pystr) (c : call) : Prop :=
  match c with
  | CallDeleteDataID x => ~ In x l
  | CallDeleteConstraint x y => x = y \/ ~ In x l \/ ~ In y l
  | _ => True
  end.

(** The call only takes something away, but not the IDs [a] and [b]. *)
Definition retracts (a b : pystr) (c : call) : Prop :=
  match c with
  | CallDeleteDataID x => x <> a /\ x <> b
  | CallDeleteConstraint _ _ => True
  | _ => False
  end.
