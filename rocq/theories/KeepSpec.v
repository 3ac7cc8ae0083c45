(** * Added constraints while the manager is changed: what the theorems are about. *)

From Coq Require Import List.
From Verif Require Import Base Manager Spec Threads Readers.

(** A change that deletes neither the constraint between [a] and [b] nor one of the two data. *)
Definition leaves (a b : pystr) (w : wcall) : Prop :=
  match w with
  | WAddID _ | WAdd _ _ _ _ => True
  | WDeleteID x => x <> a /\ x <> b
  | WDelete x y => ~ (x = a /\ y = b) /\ ~ (x = b /\ y = a)
  end.
(** A change that does not add a constraint between [a] and [b]. *)
Definition adds_other (a b : pystr) (w : wcall) : Prop :=
  match w with
  | WAdd x y _ _ => ~ (x = a /\ y = b) /\ ~ (x = b /\ y = a)
  | _ => True
  end.
(** A question, not an addition. *)
Definition asks (q : tcall) : Prop := match q with TGetAdded _ _ | TGetInferred _ _ => True | TAdd _ _ _ _ => False end.
(** The added constraint between [a] and [b], asked for in one order or the other. *)
Definition asks_for (a b : pystr) (q : tcall) : Prop := q = TGetAdded a b \/ q = TGetAdded b a.
(** Its type and value. *)
Definition added_as (m : mgr) (a b : pystr) (c : constr) : Prop := ask (get_added_constraint a b) m = Ok (Some c).
