(** * Clusters that are clearly separated. *)

From Coq Require Import List ZArith.
From Verif Require Import Base Manager Spec.

(** Two data of one cluster are always nearer than two data of different clusters. [between] is the distance of a pair. *)
Definition separated {D} (ltb : D -> D -> bool) (between : pystr * pystr -> D -> Prop) (m : mgr) (clusters : dict pystr Z) : Prop :=
  forall a b x y l l', managed m a -> managed m b -> managed m x -> managed m y ->
    dget a clusters = dget b clusters -> dget x clusters <> dget y clusters ->
    between (a, b) l -> between (x, y) l' -> ltb l l' = true.

(** The same for the pairs that the constraints do not decide. *)
Definition separated_where_undecided {D} (ltb : D -> D -> bool) (between : pystr * pystr -> D -> Prop) (m : mgr) (clusters : dict pystr Z) : Prop :=
  forall a b x y l l', managed m a -> managed m b -> managed m x -> managed m y ->
    dget a clusters = dget b clusters -> ~ inferred m a b (Some MUST_LINK) -> dget x clusters <> dget y clusters -> ~ inferred m x y (Some CANNOT_LINK) ->
    between (a, b) l -> between (x, y) l' -> ltb l l' = true.
