(** * How many annotations are needed *)

From Coq Require Import List Bool Arith QArith.
From Verif Require Import Base Manager Spec.
Import ListNotations.

(** Each pair of elements at different positions, once. *)
Fixpoint pairs {A} (l : list A) : list (A * A) :=
  match l with
  | [] => []
  | x :: l' => map (pair x) l' ++ pairs l'
  end.

Definition is_added (m : mgr) (t : pystr) (p : pystr * pystr) : bool :=
  match ask (get_added_constraint (fst p) (snd p)) m with
  | Ok (Some (u, _)) => eqb u t
  | _ => false
  end.
Definition is_inferred (m : mgr) (t : pystr) (p : pystr * pystr) : bool :=
  match ask (get_inferred_constraint (fst p) (snd p)) m with
  | Ok (Some u) => eqb u t
  | _ => false
  end.

(** Number of added constraints of type [t] between different IDs. *)
Definition effort (m : mgr) (t : pystr) : nat :=
  match ask get_list_of_managed_data_IDs m with
  | Ok l => length (filter (is_added m t) (pairs l))
  | Raise _ => 0
  end.

(** Two components that are known to be different. *)
Definition known_different (m : mgr) (cc : list pystr * list pystr) : bool :=
  existsb (fun x => existsb (fun y => is_inferred m CANNOT_LINK (x, y)) (snd cc)) (fst cc).

(** Each annotation was made when nothing was known about its pair. *)
Fixpoint frugal (l : list (pystr * pystr * pystr)) (m : mgr) : Prop :=
  match l with
  | [] => True
  | (a, b, t) :: l' => inferred m a b None /\ allowed t /\ frugal l' (fst (exec (CallAddConstraint a b t 1%Q) m))
  end.
Definition annotations (l : list (pystr * pystr * pystr)) : list call :=
  map (fun c => CallAddConstraint (fst (fst c)) (snd (fst c)) (snd c) 1%Q) l.
