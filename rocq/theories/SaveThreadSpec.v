(** * Vocabulary about saving a manager while another thread changes its constraints *)

From Coq Require Import List.
From Verif Require Import Base Manager Spec Readers.
Import ListNotations.

(** A thread that only adds and deletes constraints. *)
Definition only_constraints (c : wcall) : Prop := match c with WAdd _ _ _ _ | WDelete _ _ => True | _ => False end.

(** The pairs of the file, in its order: for every ID in turn, the IDs that follow it in alphabetical order (itself included). *)
Definition pairs_of (l : list pystr) : list (pystr * pystr) := flat_map (fun a => map (pair a) (filter (str_leb a) l)) l.

(** The records of the pairs, each copied after some number of the changes [cs], which never goes back. *)
Inductive copied (cs : list call) (m : mgr) : nat -> list (pystr * pystr) -> list (pystr * pystr * pystr) -> Prop :=
| copied_all : forall lo, copied cs m lo [] []
| copied_none : forall lo n a b ps rs, lo <= n <= length cs -> ask (get_added_constraint a b) (run (firstn n cs) m) = Ok None ->
    copied cs m n ps rs -> copied cs m lo ((a, b) :: ps) rs
| copied_some : forall lo n a b t v ps rs, lo <= n <= length cs -> ask (get_added_constraint a b) (run (firstn n cs) m) = Ok (Some (t, v)) ->
    copied cs m n ps rs -> copied cs m lo ((a, b) :: ps) ((a, b, t) :: rs).
