(** * Vocabulary about threads that sample pairs while one thread adds constraints *)
From Coq Require Import List Bool Arith ZArith.
From Verif Require Import Base Manager Spec Sampling SamplingSpec SampleThread.
Import ListNotations.

(** A sample of the pairs that were eligible at the start of a period, which misses the pairs that are eligible at its end only for lack of room:
    - the pairs are distinct, were eligible at the start, and are [nb] at most;
    - there are as many of them as of the pairs eligible at the end, or [nb];
    - with a restriction on the distances they are in order, and no pair eligible at the end is left out for one that comes after it. *)
Definition sampled_between {vec D} (pairwise : list vec -> nat -> nat -> D) (ltb : D -> D -> bool) (start finish : mgr)
    (o : options) (nb : Z) (clustering : option (dict pystr Z)) (vectors : option (dict pystr vec)) (l : list (pystr * pystr)) : Prop :=
  NoDup l /\
  (forall p, In p l -> eligible o start clustering p) /\
  length l <= Z.to_nat nb /\
  (forall all, NoDup all -> (forall p, In p all -> eligible o finish clustering p) -> Nat.min (Z.to_nat nb) (length all) <= length l) /\
  (forall v, vectors = Some v -> strict_weak_order ltb -> o_distance o = Some CLOSEST \/ o_distance o = Some FARTHEST ->
     (forall p q dp dq, distance_is pairwise start v p dp -> distance_is pairwise start v q dq -> before l p q -> ~ taken_first ltb o dq dp) /\
     (forall p q dp dq, distance_is pairwise start v p dp -> distance_is pairwise start v q dq ->
        In p l -> eligible o finish clustering q -> ~ In q l -> ~ taken_first ltb o dq dp)).

(** What a thread got from one sampling after the other: each is a sample between two numbers of the changes, not smaller than [lo], and from one
    sampling to the next the number of changes goes back by one at most. *)
Inductive sampled_at_times {vec D} (pairwise : list vec -> nat -> nat -> D) (ltb : D -> D -> bool) (cs : list call) (m : mgr) :
    nat -> list (request vec) -> list (list (pystr * pystr)) -> Prop :=
| no_sampling : forall lo, sampled_at_times pairwise ltb cs m lo [] []
| one_sampling : forall lo n1 n2 q qs l ls, lo <= n1 <= n2 -> n2 <= length cs ->
    sampled_between pairwise ltb (run (firstn n1 cs) m) (run (firstn n2 cs) m) (r_options q) (r_nb q) (r_clustering q) (r_vectors q) l ->
    sampled_at_times pairwise ltb cs m (pred n2) qs ls -> sampled_at_times pairwise ltb cs m lo (q :: qs) (l :: ls).
