(** * What a call costs *)

From Coq Require Import List Bool Arith.
From Verif Require Import Base Manager Threads Readers.
Import ListNotations.

(** How many tests, reads and assignments of entries of the two dictionaries of the manager a program makes when it runs alone. *)
Fixpoint steps {T} (p : prog T) (m : mgr) : nat :=
  match p with
  | Done _ => 0
  | Step f k => S (steps (k m) (f m))
  end.
Definition change_cost (c : wcall) (m : mgr) : nat := steps (p_wexec c) m.
Definition question_cost (q : tcall) (m : mgr) : nat := steps (p_exec q) m.
