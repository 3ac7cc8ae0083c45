(** * Distances that are computed with errors. *)

From Coq Require Import List Bool ZArith QArith Qabs.
From Verif Require Import Base Manager Spec SamplingSpec.
Import ListNotations.
Open Scope Q_scope.

(** [value] tells the number a computed distance stands for, and [ltb] compares these numbers. *)
Definition compares {D} (ltb : D -> D -> bool) (value : D -> Q) : Prop := forall x y, ltb x y = true <-> value x < value y.

(** Every computed distance is at most [delta] from the exact one. *)
Definition approximates {vec D} (value : D -> Q) (delta : Q) (computed : list vec -> nat -> nat -> D) (exact : list vec -> nat -> nat -> Q) : Prop :=
  forall rows i j, Qabs (value (computed rows i j) - exact rows i j) <= delta.

(** Two data of one cluster are nearer than two data of different clusters by more than [gap], for the pairs that the constraints do not decide. *)
Definition separated_by (gap : Q) (between : pystr * pystr -> Q -> Prop) (m : mgr) (clusters : dict pystr Z) : Prop :=
  forall a b x y l l', managed m a -> managed m b -> managed m x -> managed m y ->
    dget a clusters = dget b clusters -> ~ inferred m a b (Some MUST_LINK) -> dget x clusters <> dget y clusters -> ~ inferred m x y (Some CANNOT_LINK) ->
    between (a, b) l -> between (x, y) l' -> l + gap < l'.
