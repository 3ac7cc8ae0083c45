(** * MPCKMeans while another thread adds constraints: what the theorems are about. *)

From Coq Require Import List ZArith.
Import ListNotations.
From Verif Require Import Base Manager Spec SamplingSpec MpckSpec.

(** What the clustering takes for constraints, on the positions of the data, and the groups it starts from: [m] is the manager when
    the threads start and [e] when they end.  What is known at the start is used, what is used is known at the end, and what is
    used makes sense: the groups are a partition, two positions must be linked when they are in the same group, and what holds for
    two positions holds for their groups. *)
Record knowledge (m e : mgr) (l : list pystr) (must cannot : nat -> nat -> Prop) (groups : list (list nat)) : Prop := {
  kn_must_used : forall i j, constrained m l MUST_LINK i j -> must i j;
  kn_must_sound : forall i j, must i j -> constrained e l MUST_LINK i j;
  kn_cannot_used : forall i j, constrained m l CANNOT_LINK i j -> cannot i j;
  kn_cannot_sound : forall i j, cannot i j -> constrained e l CANNOT_LINK i j;
  kn_nodup : NoDup (concat groups);
  kn_all : forall i, In i (concat groups) <-> i < length l;
  kn_groups : forall i j, must i j <-> exists c, In c groups /\ In i c /\ In j c;
  kn_cannot_sym : forall i j, cannot i j -> cannot j i;
  kn_cannot_groups : forall i j i' j', cannot i j -> must i i' -> must j j' -> cannot i' j';
  kn_excl : forall i j, must i j -> ~ cannot i j;
  (* the groups are sorted by their smallest position *)
  kn_order : forall a c b, groups = a ++ c :: b -> exists i, In i c /\ forall j, j < i -> In j (concat a) }.

(** A graph with the edges [P] below [n]. *)
Definition graph_has (n : nat) (P : nat -> nat -> Prop) (g : dict nat (list nat)) : Prop :=
  keys g = seq 0 n /\ forall i, i < n -> exists s, dget i g = Some s /\ NoDup s /\ forall j, In j s <-> P i j.

(** One call of the clustering, with the vectors in the order of the manager. *)
Definition mpck_call (vec : Type) : Type := dict pystr vec * Z.
Definition valid_mpck_call {vec} (l : list pystr) (q : mpck_call vec) : Prop := keys (fst q) = l /\ l <> [] /\ (2 <= snd q)%Z.
