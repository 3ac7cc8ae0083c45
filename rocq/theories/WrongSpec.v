(** * Being wrong about pairs of data. *)

From Coq Require Import List Bool ZArith.
From Verif Require Import Base Manager Spec HierSpec.
Import ListNotations.

(** Two clusterings disagree about a pair: together in one, apart in the other. *)
Definition disagree (d e : dict pystr Z) (a b : pystr) : Prop := ~ (dget a d = dget b d <-> dget a e = dget b e).

(** How many pairs of two positions of [l] they disagree about, and how many the manager has not decided. *)
Definition together_in (d : dict pystr Z) (p : pystr * pystr) : bool :=
  match dget (fst p) d, dget (snd p) d with Some x, Some y => Z.eqb x y | None, None => true | _, _ => false end.
Definition nb_wrong (l : list pystr) (d e : dict pystr Z) : nat :=
  length (filter (fun p => negb (Bool.eqb (together_in d p) (together_in e p))) (position_pairs l)).
Definition nb_undecided (m : mgr) (l : list pystr) : nat :=
  length (filter (fun p => match ask (get_inferred_constraint (fst p) (snd p)) m with Ok None => true | _ => false end) (position_pairs l)).
