(** * When two clustering problems are the same *)

From Coq Require Import String List Bool Arith ZArith Permutation.
From Verif Require Import Base Manager Spec.
Import ListNotations.

(** The same IDs in the same order, and the same inferred constraints.  The added constraints
    from which they were inferred, and the order of the calls, may differ. *)
Definition same_knowledge (m1 m2 : mgr) : Prop :=
  ask get_list_of_managed_data_IDs m1 = ask get_list_of_managed_data_IDs m2 /\
  forall a b, ask (get_inferred_constraint a b) m1 = ask (get_inferred_constraint a b) m2.

(** The managed IDs have the same vectors; the dictionaries may have another order and
    vectors of other data. *)
Definition same_vectors {vec} (m : mgr) (vectors1 vectors2 : dict pystr vec) : Prop :=
  forall x, managed m x -> dget x vectors1 = dget x vectors2.

(** Functions of a list whose order does not matter, as sums in exact arithmetic. *)
Definition order_free {A B} (f : list A -> B) : Prop := forall l l', Permutation l l' -> f l = f l'.
