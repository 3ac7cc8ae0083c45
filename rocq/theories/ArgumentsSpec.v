(** * Types of arguments, independent of the checks. *)

From Coq Require Import String List Bool ZArith.
From Verif Require Import Base Manager Arguments.
Import ListNotations.

Section Spec.
  Context {vec D : Type}.
  Notation value := (value vec D).

  (** [v] is the integer [z] ([True] is 1, [False] is 0). *)
  Definition integer (v : value) (z : Z) : Prop :=
    v = VInt _ _ z \/ (v = VBool _ _ true /\ z = 1%Z) \/ (v = VBool _ _ false /\ z = 0%Z).
  Definition number (v : value) : Prop := (exists z, integer v z) \/ exists d, v = VFloat _ _ d.
  Definition dictionary (v : value) : Prop := (exists d, v = VVectors _ _ d) \/ exists d, v = VClusters _ _ d.
  (** Values that cannot be the key of a dictionary or be looked up in a set. *)
  Definition no_key (v : value) : Prop := dictionary v \/ v = VList _ _.
  Definition string (v : value) : Prop := exists s, v = VStr _ _ s.
  Definition manager (v : value) : Prop := exists m, v = VManager _ _ m.
  Definition boolean (v : value) : Prop := exists b, v = VBool _ _ b.

  (** The checks of a class that needs the number of clusters: with arguments of the documented
      types the call is the documented one; without, the exception depends on the argument.
      [same] relates the states before and after a refused call. *)
  Definition checks_number {S} (flt : D -> Z -> bool) (same : S -> S -> Prop)
      (any : value -> value -> value -> S -> option (S * res (dict pystr Z)))
      (call : mgr -> dict pystr vec -> option Z -> S -> S * res (dict pystr Z)) : Prop :=
    (forall m d nb z s, integer nb z -> any (VManager _ _ m) (VVectors _ _ d) nb s = Some (call m d (Some z) s)) /\
    (forall m d s, any (VManager _ _ m) (VVectors _ _ d) (VNone _ _) s = Some (call m d None s)) /\
    (forall cm d nb s, ~ manager cm -> any cm d nb s = Some (s, Raise ValueError)) /\
    (forall cm d nb s, manager cm -> ~ dictionary d -> exists s', same s s' /\ any cm d nb s = Some (s', Raise ValueError)) /\
    (forall cm d nb s, manager cm -> dictionary d -> nb <> VNone _ _ -> ~ number nb -> exists s', same s s' /\ any cm d nb s = Some (s', Raise TypeError)) /\
    (forall cm d x s, manager cm -> dictionary d ->
       if flt x 2%Z then exists s', same s s' /\ any cm d (VFloat _ _ x) s = Some (s', Raise ValueError)
       else any cm d (VFloat _ _ x) s = None).

  (** The checks of a class that must not be given a number of clusters. *)
  Definition checks_none {S} (same : S -> S -> Prop)
      (any : value -> value -> value -> S -> option (S * res (dict pystr Z)))
      (call : mgr -> dict pystr vec -> option Z -> S -> S * res (dict pystr Z)) : Prop :=
    (forall m d s, any (VManager _ _ m) (VVectors _ _ d) (VNone _ _) s = Some (call m d None s)) /\
    (forall cm d nb s, ~ manager cm -> any cm d nb s = Some (s, Raise ValueError)) /\
    (forall cm d nb s, manager cm -> ~ dictionary d \/ nb <> VNone _ _ -> exists s', same s s' /\ any cm d nb s = Some (s', Raise ValueError)).
End Spec.
