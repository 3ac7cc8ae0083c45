(** * Data that are annotated by separate teams (C131) *)

From Coq Require Import List Bool.
From Verif Require Import Base Manager MonoSpec.
Import ListNotations.

(** The call is about data of one side only.  Calls that name no data are allowed. *)
Definition on_one_side (side : pystr -> bool) (c : call) : Prop :=
  exists s, forall x, In x (call_names c) -> side x = s.

(** The call names data, and those of [side]. *)
Definition belongs (side : pystr -> bool) (c : call) : bool :=
  match call_names c with [] => false | x :: _ => side x end.

Definition other_side (side : pystr -> bool) (x : pystr) : bool := negb (side x).

(** The answers to the calls of [side]. *)
Definition answers_of {A} (side : pystr -> bool) (history : list call) (answers : list A) : list A :=
  map snd (filter (fun e => belongs side (fst e)) (combine history answers)).
