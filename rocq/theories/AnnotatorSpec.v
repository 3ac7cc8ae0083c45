(** * What a session with any annotator means *)

From Coq Require Import List Bool.
From Verif Require Import Base Manager Spec Annotator.
Import ListNotations.

Definition opposite (t : pystr) : pystr := if eqb t MUST_LINK then CANNOT_LINK else MUST_LINK.

(** An annotator who gives one of the two answers for each pair, in order. *)
Definition answers_everything (annotator : nat -> list (pystr * pystr) -> list annotation) : Prop :=
  forall i selection, map fst (annotator i selection) = selection /\ forall c, In c (annotator i selection) -> allowed (snd c).

(** The annotations of the log (accepted or not). *)
Definition said (log : list (annotation * bool)) (t : pystr) (p q : pystr) : Prop :=
  exists a b accepted, In ((a, b, t), accepted) log /\ same_unordered a b p q.
Definition refusals (log : list (annotation * bool)) : nat := length (filter (fun e => negb (snd e)) log).
