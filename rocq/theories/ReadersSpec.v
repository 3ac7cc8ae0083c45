(** * Vocabulary about threads that ask while one thread changes the manager *)
From Coq Require Import List Bool Arith.
From Verif Require Import Base Manager Spec Threads Readers.
Import ListNotations.

(** What the other threads may ask: inferred constraints of any data, added constraints of data that are managed from the start. *)
Definition only_asks (m : mgr) (q : tcall) : Prop :=
  match q with
  | TGetInferred _ _ => True
  | TGetAdded a b => managed m a /\ managed m b
  | TAdd _ _ _ _ => False
  end.
(** A thread that only adds data and constraints. *)
Definition only_adds (c : wcall) : Prop :=
  match c with WAddID _ | WAdd _ _ _ _ => True | WDeleteID _ | WDelete _ _ => False end.

(** What a question returns or raises when it is asked alone, after the first [n] of the changes [cs]. *)
Definition answer_after (cs : list call) (m : mgr) (n : nat) (q : tcall) : res value := snd (exec (as_call q) (run (firstn n cs) m)).

(** Every question got the answer after some number of the changes, not smaller than [lo], and from one question to the next this number goes back
    by one at most. *)
Inductive right_at_times (cs : list call) (m : mgr) : nat -> list tcall -> list (res value) -> Prop :=
| no_question : forall lo, right_at_times cs m lo [] []
| question : forall lo n q qs r rs, lo <= n <= length cs -> r = answer_after cs m n q -> right_at_times cs m (pred n) qs rs -> right_at_times cs m lo (q :: qs) (r :: rs).
