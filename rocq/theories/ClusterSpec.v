(** * What a clustering result should be, independent of the algorithms. *)

From Coq Require Import String List Bool Arith ZArith Permutation Sorted.
From Verif Require Import Base Manager Spec.
Import ListNotations.

(** Numbers 0, 1, 2, ... in order of first appearance: each number is at most one more than
    the numbers seen so far ([next] is the first unused number). *)
Fixpoint first_appearance (next : Z) (l : list Z) : Prop :=
  match l with
  | [] => True
  | v :: l' => (0 <= v <= next)%Z /\ first_appearance (if Z.eqb v next then next + 1 else next)%Z l'
  end.

(** A dictionary whose keys are sorted and whose clusters are numbered canonically. *)
Definition canonical (d : dict pystr Z) : Prop :=
  StronglySorted (fun x y => str_ltb x y = true) (keys d) /\ first_appearance 0 (vals d).

(** Two dictionaries group the same IDs in the same way. *)
Definition same_partition (d1 d2 : dict pystr Z) : Prop :=
  (forall x, In x (keys d1) <-> In x (keys d2)) /\
  (forall x y, In x (keys d1) -> In y (keys d1) -> (dget x d1 = dget y d1 <-> dget x d2 = dget y d2)).

(** The clustering is about exactly the managed IDs. *)
Definition covers_exactly (m : mgr) (d : dict pystr Z) : Prop := forall x, In x (keys d) <-> managed m x.

(** Known constraints are respected. *)
Definition respects_must_links (m : mgr) (d : dict pystr Z) : Prop :=
  forall a b, managed m a -> managed m b -> inferred m a b (Some MUST_LINK) -> dget a d = dget b d.
Definition respects_cannot_links (m : mgr) (d : dict pystr Z) : Prop :=
  forall a b, managed m a -> managed m b -> inferred m a b (Some CANNOT_LINK) -> dget a d <> dget b d.
Definition respects (m : mgr) (d : dict pystr Z) : Prop := respects_must_links m d /\ respects_cannot_links m d.

(** Number of clusters. *)
Definition nb_clusters_of (d : dict pystr Z) : nat := length (nodup Z.eq_dec (vals d)).
