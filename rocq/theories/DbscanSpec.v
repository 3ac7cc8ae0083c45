(** * What the constrained DBScan should and does compute, independent of the model. *)

From Coq Require Import String List Bool Arith ZArith Permutation Sorted.
From Verif Require Import Base Manager Spec SamplingSpec ClusterSpec.
Import ListNotations.
Open Scope nat_scope.

(** [list(set(l))]: the same elements, once each, in any order. *)
Definition valid_setlist (setlist : list pystr -> list pystr) : Prop :=
  forall l, NoDup (setlist l) /\ forall x, In x (setlist l) <-> In x l.

(** Two managed IDs at distance at most [eps]. *)
Definition within {vec D} (pairwise : list vec -> nat -> nat -> D) (leb : D -> D -> bool) (eps : D) (m : mgr) (vectors : dict pystr vec)
    (x y : pystr) : Prop :=
  exists d, distance_is pairwise m vectors (x, y) d /\ leb d eps = true.

(** -1, -2, ..., -n *)
Definition negatives (n : nat) : list Z := map (fun i => (-1 - Z.of_nat i)%Z) (seq 0 n).

(** The whole algorithm as a relation, over abstract data: the list of the data, who is near
    whom, the known constraints, and which sizes are enough for a core point ([enough]) and
    for a cluster of its own ([big]). *)
Section Result.
  Variable l : list pystr.
  Variables near must cannot : pystr -> pystr -> Prop.
  Variables enough big : nat -> Prop.

  Section Locals.
    (** [N x]: the neighbourhood found at the turn of [x].
        [sg x y]: at the turn of [x], [y] has been singled out. *)
    Variable N : pystr -> list pystr.
    Variable sg : pystr -> pystr -> Prop.

    Definition clashing (c : list pystr) : Prop := exists a b, In a c /\ In b c /\ cannot a b.
    (** The turn of [z] singles out its whole neighbourhood. *)
    Definition singles (z : pystr) : Prop := ~ sg z z /\ enough (length (N z)) /\ clashing (N z).

    (** Turns are taken in order; the singled out data are invisible. *)
    Definition turns : Prop :=
      (forall x, In x l -> NoDup (N x)) /\
      (forall x y, In x l -> (In y (N x) <-> In y l /\ near x y /\ ~ sg x y)) /\
      (forall x y, In x l -> (sg x y <-> exists z, before l z x /\ singles z /\ In y (N z))).

    Definition ever (y : pystr) : Prop := exists z, In z l /\ singles z /\ In y (N z).
    Definition noise (x : pystr) : Prop := ~ ever x /\ ~ enough (length (N x)).
    (** The local cluster of [x]: alone when singled out, its neighbourhood when a core point. *)
    Definition local (x y : pystr) : Prop :=
      (ever x /\ y = x) \/ (~ ever x /\ enough (length (N x)) /\ In y (N x)).

    (** The turn of [z] creates (or replaces) the local cluster of [x]. *)
    Definition creates (z x : pystr) : Prop :=
      In z l /\ ~ sg z z /\ enough (length (N z)) /\ ((clashing (N z) /\ In x (N z)) \/ (~ clashing (N z) /\ x = z)).
    Definition first_created (x z : pystr) : Prop := creates z x /\ forall w, before l w z -> ~ creates w x.
    (** Order in which the local clusters were first created. *)
    Definition older (x y : pystr) : Prop :=
      exists z z', first_created x z /\ first_created y z' /\ (before l z z' \/ (z = z' /\ before l x y)).

    (** Must-links: [x] reaches its local cluster and the data linked to it, noise excepted;
        a point belongs to the first who reaches it. *)
    Definition reach (x y : pystr) : Prop := x = y \/ local x y \/ (must x y /\ ~ noise y).
    Definition owns (x y : pystr) : Prop := In y l /\ reach x y /\ forall z, before l z x -> ~ reach z y.
    Definition core (x y : pystr) : Prop := (In y l /\ must x y) \/ owns x y.
    Definition leads (x : pystr) : Prop := owns x x /\ exists y, y <> x /\ core x y.

    (** A core cluster takes the local clusters in the order of their names until one is too
        far or incompatible. *)
    Definition joinable (C : pystr -> Prop) (k : pystr) : Prop :=
      (exists a b, C a /\ local k b /\ near a b) /\ ~ (exists a b, C a /\ local k b /\ cannot a b).
    Inductive absorbs : (pystr -> Prop) -> list pystr -> (pystr -> Prop) -> list pystr -> Prop :=
    | absorbs_end C C' : (forall x, C x <-> C' x) -> absorbs C [] C' []
    | absorbs_stop C C' k ks : (forall x, C x <-> C' x) -> ~ joinable C k -> absorbs C (k :: ks) C' (k :: ks)
    | absorbs_join C C' k ks ks' : joinable C k -> absorbs (fun x => C x \/ local k x) ks C' ks' -> absorbs C (k :: ks) C' ks'.
    Inductive grow : list pystr -> list pystr -> list (pystr -> Prop) -> list pystr -> Prop :=
    | grow_nil ks : grow [] ks [] ks
    | grow_cons x xs ks C ks' Cs ks'' : absorbs (core x) ks C ks' -> grow xs ks' Cs ks'' -> grow (x :: xs) ks (C :: Cs) ks''.
  End Locals.

  Definition in_core (Cs : list (pystr -> Prop)) (t : nat) (x : pystr) : Prop := exists C, nth_error Cs t = Some C /\ C x.

  (** [T r]: what is left for the remaining local cluster [r] when its turn comes. *)
  Definition takes (N : pystr -> list pystr) (sg : pystr -> pystr -> Prop) (Cs : list (pystr -> Prop)) (R : list pystr) (T : pystr -> list pystr) : Prop :=
    forall r, In r R -> NoDup (T r) /\
      forall y, In y (T r) <-> local N sg r y /\ (forall t, ~ in_core Cs t y) /\ (forall r', before R r' r -> big (length (T r')) -> ~ In y (T r')).

  (** Labels: the last core cluster that has the point, else the remaining local cluster that
      takes it and is big enough, else a negative number of its own. *)
  Definition dbscan_result (d : dict pystr Z) : Prop :=
    exists N sg L K Cs ks R T,
      turns N sg /\
      (NoDup L /\ (forall x, In x L <-> In x l /\ leads N sg x) /\ (forall x y, before L x y -> before l x y)) /\
      (StronglySorted (fun x y => str_ltb x y = true) K /\ forall x, In x K <-> In x l /\ ~ noise N sg x) /\
      grow N sg L K Cs ks /\
      (NoDup R /\ (forall x, In x R <-> In x ks) /\ (forall x y, before R x y -> older N sg x y)) /\
      takes N sg Cs R T /\
      exists g : pystr -> option (nat + pystr),
        (forall x t, g x = Some (inl t) <-> in_core Cs t x /\ forall t', in_core Cs t' x -> t' <= t) /\
        (forall x r, g x = Some (inr r) <-> In r R /\ big (length (T r)) /\ In x (T r)) /\
        (forall x, In x l -> g x = None -> exists v, dget x d = Some v /\ (v < 0)%Z) /\
        (forall x, In x l -> g x <> None -> exists v, dget x d = Some v /\ (0 <= v)%Z) /\
        (forall x y, In x l -> In y l -> g x <> None -> (dget x d = dget y d <-> g x = g y)).
End Result.
