(** * Density: what DBSCAN is about. *)

From Coq Require Import String List Bool Arith ZArith Relations.
From Verif Require Import Base Manager Spec SamplingSpec DbscanSpec.
Import ListNotations.
Open Scope nat_scope.

Section Density.
  Context {vec D : Type}.
  Variable pairwise : list vec -> nat -> nat -> D.
  Variable leb : D -> D -> bool.
  Variable eps : D.
  Variable m : mgr.
  Variable vectors : dict pystr vec.

  (** Steps of at most [eps] and MUST_LINKs lead from one to the other. *)
  Definition hangs_together : pystr -> pystr -> Prop :=
    clos_refl_sym_trans pystr (fun a b => within pairwise leb eps m vectors a b \/ inferred m a b (Some MUST_LINK)).

  (** A core point: at least [n] data within [eps]. *)
  Definition dense (n : nat) (x : pystr) : Prop :=
    exists neighbours, NoDup neighbours /\ n <= length neighbours /\ forall y, In y neighbours -> within pairwise leb eps m vectors x y.
End Density.
