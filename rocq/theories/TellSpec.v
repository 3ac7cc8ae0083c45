(** * When vectors tell texts apart. *)

From Coq Require Import String List Bool Arith NArith.
From Verif Require Import Base TextSpec.
Import ListNotations.

(** Each phrase common to two texts occurs as often in both. *)
Definition same_shared_counts (words : pystr -> list pystr) (texts : dict pystr pystr) (s t : pystr) : Prop :=
  forall f occ occ', common_phrase words texts f -> occurrences (words s) f occ -> occurrences (words t) f occ' -> length occ = length occ'.

(** The same phrases, among those common to two texts. *)
Definition same_shared_phrases (words : pystr -> list pystr) (texts : dict pystr pystr) (s t : pystr) : Prop :=
  forall f, common_phrase words texts f -> (phrase words s f <-> phrase words t f).

(** A weight is zero for the phrases that do not occur, and only for them; normalizing keeps the dimension and the zeros, and adds none. *)
Definition weight_of_presence {D} (zero : D) (weight : nat -> nat -> nat -> D) : Prop :=
  forall c df n, weight c df n = zero <-> c = 0.
Definition keeps_zeros {D} (zero : D) (normalize : list D -> list D) : Prop :=
  forall r, length (normalize r) = length r /\ forall i, nth_error (normalize r) i = Some zero <-> nth_error r i = Some zero.
