(** * When a clustering of points cannot be improved by moving one data to another cluster's centre. *)

From Coq Require Import String List Bool Arith ZArith QArith.
From Verif Require Import Base Manager LloydSpec.
Import ListNotations.
Open Scope nat_scope.

(** Centre of the cluster of [x]. *)
Definition own_centre (n : nat) (ids : list pystr) (vectors : dict pystr (list Q)) (d : dict pystr Z) (x : pystr) : list Q :=
  centre n (map (point vectors) (fellows ids d x)).

(** No cluster has a centre closer to a data than the centre of its own cluster. *)
Definition settled (n : nat) (ids : list pystr) (vectors : dict pystr (list Q)) (d : dict pystr Z) : Prop :=
  forall x y, In x ids -> In y ids ->
    (sqdist n (point vectors x) (own_centre n ids vectors d x) <= sqdist n (point vectors x) (own_centre n ids vectors d y))%Q.
