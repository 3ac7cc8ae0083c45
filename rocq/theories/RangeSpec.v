(** * The maximum that the code computes for the number of clusters *)

From Coq Require Import List.
From Verif Require Import Base Manager Spec MinMax.

(** [get_min_and_max_number_of_clusters] answers with this maximum. *)
Definition maximum (order : nat -> graph -> list node) (m : mgr) (hi : nat) : Prop :=
  exists lo, ask (get_min_and_max_number_of_clusters order) m = Ok (lo, hi).
