(** * Asking for the data involved in a conflict while another thread adds constraints: what the theorems are about. *)

From Coq Require Import List.
Import ListNotations.
From Verif Require Import Base Manager Spec.

(** A constraint of another type is inferred between the two. *)
Definition in_conflict (m : mgr) (a b t : pystr) : Prop := exists s, inferred m a b (Some s) /\ s <> t.

(** The arguments are accepted: managed data, a known type of constraint. *)
Definition valid_question (m : mgr) (a b t : pystr) : Prop := managed m a /\ managed m b /\ allowed t.

(** The list has the data that are linked with [a] or with [b] in the first manager, [a] and [b] included, and only data that are so in the second. *)
Definition involved_between (m m' : mgr) (a b : pystr) (l : list pystr) : Prop :=
  (forall y, inferred m a y (Some MUST_LINK) \/ inferred m b y (Some MUST_LINK) -> In y l) /\
  (forall y, In y l -> inferred m' a y (Some MUST_LINK) \/ inferred m' b y (Some MUST_LINK)).

(** The answer to a question that is asked while the changes [cs] are made: whether there is a conflict after some number of the changes and, if so, at least the data that are involved
    one change before, and no other than those at the end. *)
Definition answered_meanwhile (cs : list call) (m : mgr) (q : pystr * pystr * pystr) (x : res (option (list pystr))) : Prop :=
  let after n := run (firstn n cs) m in
  let '(a, b, t) := q in
  (valid_question m a b t -> exists n, n <= length cs /\
     match x with
     | Ok None => ~ in_conflict (after n) a b t
     | Ok (Some l) => in_conflict (after n) a b t /\ involved_between (after (pred n)) (run cs m) a b l
     | Raise _ => False
     end) /\
  (~ valid_question m a b t -> x = Raise ValueError).
