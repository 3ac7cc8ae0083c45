(** * What a sampling may return, stated through the manager's public getters. *)

From Coq Require Import String List Bool Arith ZArith Permutation.
From Verif Require Import Base Manager Spec Sampling.
Import ListNotations.

(** The value or exception of a call, its effect dropped. *)
Definition result {S A} (q : M S A) (s : S) : res A := snd (q s).

Definition label_of (clustering : option (dict pystr Z)) (x : pystr) : option Z :=
  match clustering with Some c => dget x c | None => None end.

(** A pair of distinct managed IDs, in order, that meets the restrictions. *)
Definition eligible (o : options) (m : mgr) (clustering : option (dict pystr Z)) (p : pystr * pystr) : Prop :=
  let (a, b) := p in
  managed m a /\ managed m b /\ str_ltb a b = true /\
  (o_clusters o = Some SAME_CLUSTER -> label_of clustering a = label_of clustering b) /\
  (o_clusters o = Some DIFFERENT_CLUSTERS -> label_of clustering a <> label_of clustering b) /\
  (o_without_added o = true -> ~ exists t, added m t a b) /\
  (o_without_inferred o = true -> inferred m a b None).

(** The arguments the documentation asks for. *)
Definition covers {V} (d : option (dict pystr V)) (m : mgr) : Prop :=
  exists d', d = Some d' /\ forall x, managed m x -> In x (keys d').
Definition valid_arguments {vec} (o : options) (m : mgr) (nb : Z) (clustering : option (dict pystr Z))
    (vectors : option (dict pystr vec)) : Prop :=
  (0 <= nb)%Z /\
  (o_clusters o <> None -> covers clustering m) /\
  (o_distance o <> None -> covers vectors m /\ has_ids m).

(** Options that the constructor accepts. *)
Definition accepted (o : options) : Prop :=
  make_options (o_clusters o) (o_distance o) (o_without_added o) (o_without_inferred o) = Ok o.

(** random.sample(l, k): k positions of l, without repetition. *)
Definition valid_draw (draw : list (pystr * pystr) -> nat -> list (pystr * pystr)) : Prop :=
  forall l k, k <= length l -> length (draw l k) = k /\ exists rest, Permutation l (draw l k ++ rest).

(** Distances are compared by a strict weak order (Python's [<] on floats without NaN). *)
Definition strict_weak_order {D} (ltb : D -> D -> bool) : Prop :=
  (forall x, ltb x x = false) /\
  (forall x y z, ltb x y = true -> ltb y z = true -> ltb x z = true) /\
  (forall x y z, ltb x z = true -> ltb x y = true \/ ltb y z = true).

(** [x] occurs before [y]. *)
Definition before {A} (l : list A) (x y : A) : Prop := exists l1 l2, l = l1 ++ x :: l2 /\ In y l2.

(** Order of the double loop over the managed IDs. *)
Definition enumerated_before (m : mgr) (p q : pystr * pystr) : Prop :=
  exists ids, ask get_list_of_managed_data_IDs m = Ok ids /\
    (before ids (fst p) (fst q) \/ (fst p = fst q /\ before ids (snd p) (snd q))).

(** The distance matrix entry of two managed IDs. *)
Definition distance_is {vec D} (pairwise : list vec -> nat -> nat -> D) (m : mgr) (vectors : dict pystr vec)
    (p : pystr * pystr) (d : D) : Prop :=
  exists ids rows i j, ask get_list_of_managed_data_IDs m = Ok ids /\
    map (fun x => dget x vectors) ids = map Some rows /\
    nth_error ids i = Some (fst p) /\ nth_error ids j = Some (snd p) /\ d = pairwise rows i j.

(** A history of calls to [sample] on one sampler object. *)
Record sample_call vec D := mkSampleCall {
  sc_manager : mgr; sc_nb : Z; sc_clustering : option (dict pystr Z); sc_vectors : option (dict pystr vec);
  sc_pairwise : list vec -> nat -> nat -> D; sc_draw : list (pystr * pystr) -> nat -> list (pystr * pystr) }.
Arguments mkSampleCall {vec D}. Arguments sc_manager {vec D}. Arguments sc_nb {vec D}. Arguments sc_clustering {vec D}.
Arguments sc_vectors {vec D}. Arguments sc_pairwise {vec D}. Arguments sc_draw {vec D}.

Definition do_sample {vec D} (ltb : D -> D -> bool) (o : options) (c : sample_call vec D) (s : sampler vec D) :
    (sampler vec D * mgr) * res (list (pystr * pystr)) :=
  sample vec D (sc_pairwise c) ltb (sc_draw c) o (sc_nb c) (sc_clustering c) (sc_vectors c) (s, sc_manager c).

Definition after_samples {vec D} (ltb : D -> D -> bool) (o : options) (history : list (sample_call vec D)) : sampler vec D :=
  fold_left (fun s c => fst (fst (do_sample ltb o c s))) history (fresh_sampler vec D).

(** Which of two distances is taken first. *)
Definition taken_first {D} (ltb : D -> D -> bool) (o : options) (d1 d2 : D) : Prop :=
  (o_distance o = Some CLOSEST /\ ltb d1 d2 = true) \/ (o_distance o = Some FARTHEST /\ ltb d2 d1 = true).
