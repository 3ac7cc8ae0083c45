(** * How many data are known to be with, or apart from, a data *)

From Coq Require Import List Bool ZArith.
From Verif Require Import Base Manager Spec.
Import ListNotations.

(** [x] and [a] are known to be constrained by [t]. *)
Definition known_as (m : mgr) (t a x : pystr) : bool :=
  match ask (get_inferred_constraint x a) m with Ok (Some u) => eqb u t | _ => false end.

(** How many data of [l] must be with [a]; how many cannot be with [a], but are not known to be apart from [b]. *)
Definition nb_with (m : mgr) (l : list pystr) (a : pystr) : nat := length (filter (known_as m MUST_LINK a) l).
Definition nb_only_against (m : mgr) (l : list pystr) (a b : pystr) : nat :=
  length (filter (fun x => known_as m CANNOT_LINK a x && negb (known_as m CANNOT_LINK b x)) l).
