(** * One ranking of the pairs behind all the samples (C126). *)

From Coq Require Import String List Bool Arith ZArith.
From Verif Require Import Base Manager Spec Sampling SamplingSpec.
Import ListNotations.

(** The same managed IDs, in the same order, whatever is known about them. *)
Definition same_ids (m m' : mgr) : Prop := ask get_list_of_managed_data_IDs m = ask get_list_of_managed_data_IDs m'.

(** The restrictions of [o], except those about known constraints. *)
Definition knowing_nothing (o : options) : options := mkOptions (o_clusters o) (o_distance o) false false.

(** A number of pairs that cannot be exceeded. *)
Definition enough (m : mgr) (nb : Z) : Prop :=
  (0 < nb)%Z /\ forall ids, ask get_list_of_managed_data_IDs m = Ok ids -> (Z.of_nat (length ids * length ids) <= nb)%Z.

Definition by_distance (o : options) : Prop := o_distance o = Some CLOSEST \/ o_distance o = Some FARTHEST.

(** [l'] lists, in the order of [l], the elements of [l] that meet [P]. *)
Inductive those {A} (P : A -> Prop) : list A -> list A -> Prop :=
| those_nil : those P [] []
| those_yes : forall x l l', P x -> those P l l' -> those P (x :: l) (x :: l')
| those_no : forall x l l', ~ P x -> those P l l' -> those P (x :: l) l'.
