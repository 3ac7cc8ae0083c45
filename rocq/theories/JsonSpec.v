(** * Vocabulary for the serialization properties. *)

From Coq Require Import List NArith QArith.
From Verif Require Import Base Manager Json.
Import ListNotations.

(** A Python string: code points below 0x110000, surrogates included. *)
Definition python_string (s : pystr) : Prop := forall c, In c s -> (c < 1114112)%N.

(** The string contains, as two separate code points, a high surrogate immediately
    followed by a low surrogate.  No Unicode text does. *)
Definition splits_a_character (s : pystr) : Prop :=
  exists p hi lo q, s = p ++ hi :: lo :: q /\ (55296 <= hi < 56320)%N /\ (56320 <= lo < 57344)%N.

(** A document as written by [to_json]: IDs and constraint records. *)
Definition doc_strings (ids : list pystr) (l : list (pystr * pystr * pystr)) (s : pystr) : Prop :=
  In s ids \/ exists a b t, In (a, b, t) l /\ (s = a \/ s = b \/ s = t).

(** Two constraints are about the same unordered pair. *)
Definition listed (l : list (pystr * pystr * pystr)) (t p q : pystr) : Prop :=
  In (p, q, t) l \/ In (q, p, t) l.
