(** * Calls about the constraint of one pair *)

From Verif Require Import Base Manager.

(** [c] adds or deletes a constraint between [a] and [b]. *)
Definition of_pair (c : call) (a b : pystr) : Prop := c = CallDeleteConstraint a b \/ exists t v, c = CallAddConstraint a b t v.
