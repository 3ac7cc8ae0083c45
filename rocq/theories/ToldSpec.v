(** * What the threads were told, all together. *)

From Coq Require Import List.
Import ListNotations.
From Verif Require Import Base Manager AskAgain.

(** Some thread asked for the inferred constraint between [a] and [b], and was told [t]. *)
Definition told (qss : list (list qcall)) (rss : list (res (list (res value)))) (a b t : pystr) : Prop :=
  exists thread qs answers i,
    nth_error qss thread = Some qs /\ nth_error rss thread = Some (Ok answers) /\
    nth_error qs i = Some (QInferred a b) /\ nth_error answers i = Some (Ok (VInferred (Some t))).
