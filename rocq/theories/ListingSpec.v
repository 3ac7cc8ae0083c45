(** * Vocabulary about threads that list components or check completeness while one thread adds constraints *)
From Coq Require Import List Bool Arith.
From Verif Require Import Base Manager Spec Readers Listing.
Import ListNotations.

(** A thread that only adds constraints. *)
Definition only_adds_constraints (c : wcall) : Prop := match c with WAdd _ _ _ _ => True | _ => False end.

(** The list [c] has the data of the component of [x], each once. *)
Definition component_of (m : mgr) (x : pystr) (c : list pystr) : Prop :=
  managed m x /\ NoDup c /\ forall y, In y c <-> managed m y /\ inferred m x y (Some MUST_LINK).

(** One list is in the other, or they have no common data. *)
Definition nested_or_apart (c d : list pystr) : Prop := incl c d \/ incl d c \/ forall y, ~ (In y c /\ In y d).

(** A list of components that were collected while the changes number [n1] to [n2] were made. *)
Definition collected (cs : list call) (m : mgr) (n1 n2 : nat) (l : list (list pystr)) : Prop :=
  let after n := run (firstn n cs) m in
  NoDup l /\
  (forall c, In c l -> exists n x, n1 <= n <= n2 /\ component_of (after n) x c) /\
  (forall x, managed m x -> exists n c, n1 <= n <= n2 /\ component_of (after n) x c /\ In c l) /\
  (forall c d, In c l -> In d l -> nested_or_apart c d).

(** What a thread got: for the completeness, what it is after some number of the changes; for the components, what can be collected during some of the
    changes.  From one call to the next the number of changes goes back by one at most. *)
Inductive got_at_times (cs : list call) (m : mgr) : nat -> list lcall -> list (res value) -> Prop :=
| no_call : forall lo, got_at_times cs m lo [] []
| got_completude : forall lo n qs r rs, lo <= n <= length cs -> r = snd (exec CallCompletude (run (firstn n cs) m)) ->
    got_at_times cs m (pred n) qs rs -> got_at_times cs m lo (LCompletude :: qs) (r :: rs)
| got_components : forall lo n1 n2 l qs rs, lo <= n1 <= n2 -> n2 <= length cs -> collected cs m n1 n2 l ->
    got_at_times cs m (pred n2) qs rs -> got_at_times cs m lo (LComponents :: qs) (Ok (VComponents l) :: rs).
