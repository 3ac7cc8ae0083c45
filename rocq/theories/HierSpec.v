(** * What constrained agglomerative clustering is, independent of how it is computed. *)

From Coq Require Import String List Bool Arith ZArith Permutation.
From Verif Require Import Base Manager Spec SamplingSpec ClusterSpec KMeansSpec Hierarchical.
Import ListNotations.
Open Scope nat_scope.

(** Distances are compared by a strict total order (Python's [<] on floats without NaN). *)
Definition strict_total_order {D} (ltb : D -> D -> bool) : Prop :=
  strict_weak_order ltb /\ forall x y, ltb x y = false -> ltb y x = false -> x = y.

(** All pairs of two positions of a list. *)
Fixpoint position_pairs {A} (l : list A) : list (A * A) :=
  match l with [] => [] | x :: l' => map (pair x) l' ++ position_pairs l' end.

Section Trees.
  Context {vec : Type}.
  Notation tree := (tree vec).
  Notation members := (t_members vec).
  Notation children := (t_children vec).

  (** [u] is [t] or a descendant of [t]. *)
  Inductive subtree (u : tree) : tree -> Prop :=
  | subtree_self : subtree u u
  | subtree_child : forall t c, In c (children t) -> subtree u c -> subtree u t.

  (** All nodes, and those without children. *)
  Fixpoint nodes (t : tree) : list tree := match t with Node _ _ _ c _ _ _ => t :: flat_map nodes c end.
  Definition leaves (t : tree) : list tree := filter (fun u => match children u with [] => true | _ => false end) (nodes t).

  (** A cut: the root, or a cut in which one inner node is replaced by its children. *)
  Inductive cut (root : tree) : list tree -> Prop :=
  | cut_root : cut root [root]
  | cut_split : forall l1 t l2, cut root (l1 ++ t :: l2) -> children t <> [] -> cut root (l1 ++ l2 ++ children t).

  (** The first of the clusters with the most members, or of those merged last. *)
  Definition key_of (by_ : pystr) (t : tree) : nat := if eqb by_ (str "size") then length (members t) else t_iteration vec t.
  Definition first_biggest (by_ : pystr) (l1 : list tree) (t : tree) (l2 : list tree) : Prop :=
    (forall u, In u l1 -> key_of by_ u < key_of by_ t) /\ (forall u, In u l2 -> key_of by_ u <= key_of by_ t).

  (** Splits the biggest cluster until there are [k] clusters or it is a leaf. *)
  Inductive split_run (by_ : pystr) (k : Z) : list tree -> list tree -> Prop :=
  | split_enough : forall l, (k <= Z.of_nat (length l))%Z -> split_run by_ k l l
  | split_leaf : forall l1 t l2, first_biggest by_ l1 t l2 -> children t = [] -> split_run by_ k (l1 ++ t :: l2) (l1 ++ t :: l2)
  | split_step : forall l1 t l2 final, (Z.of_nat (length (l1 ++ t :: l2)) < k)%Z ->
      first_biggest by_ l1 t l2 -> children t <> [] ->
      split_run by_ k (l1 ++ l2 ++ children t) final -> split_run by_ k (l1 ++ t :: l2) final.

  (** The clustering groups two IDs exactly when some cluster of the list holds both. *)
  Definition groups_as (l : list tree) (d : dict pystr Z) : Prop :=
    (forall x, In x (keys d) <-> exists t, In t l /\ In x (members t)) /\
    forall x y, In x (keys d) -> In y (keys d) ->
      (dget x d = dget y d <-> exists t, In t l /\ In x (members t) /\ In y (members t)).
End Trees.

Section Run.
  Context {vec D : Type}.
  Variable pairwise : list vec -> nat -> nat -> D.
  Variable cdistance : vec -> vec -> D.
  Variable ltb : D -> D -> bool.
  Variable dsum : list D -> D.
  Variable ddiv : D -> nat -> D.
  Variable inf : D.
  Variable mean : list vec -> vec.
  Variable linkage : pystr.
  Variable m : mgr.
  Variable vectors : dict pystr vec.
  Notation tree := (tree vec).
  Notation members := (t_members vec).
  Notation children := (t_children vec).

  Definition incompatible (t1 t2 : tree) : Prop :=
    exists a b, In a (members t1) /\ In b (members t2) /\ inferred m a b (Some CANNOT_LINK).

  (** Distance between two clusters: infinite for incompatible ones, else given by the linkage. *)
  Definition linkage_distance (t1 t2 : tree) (d : D) : Prop :=
    (incompatible t1 t2 /\ d = inf) \/
    (~ incompatible t1 t2 /\
     ((linkage = str "complete" /\
       (exists a b, In a (members t1) /\ In b (members t2) /\ distance_is pairwise m vectors (a, b) d) /\
       (forall a b d', In a (members t1) -> In b (members t2) -> distance_is pairwise m vectors (a, b) d' -> ltb d d' = false)) \/
      (linkage = str "single" /\
       (exists a b, In a (members t1) /\ In b (members t2) /\ distance_is pairwise m vectors (a, b) d) /\
       (forall a b d', In a (members t1) -> In b (members t2) -> distance_is pairwise m vectors (a, b) d' -> ltb d' d = false)) \/
      (linkage = str "average" /\ d = cdistance (t_centroid vec t1) (t_centroid vec t2)) \/
      (linkage = str "ward" /\ exists ds,
         Forall2 (distance_is pairwise m vectors) (position_pairs (members t1 ++ members t2)) ds /\
         d = ddiv (dsum ds) (length (members t1) * length (members t2))))).

  (** The centroid is the mean of the members. *)
  Definition centroid_ok (t : tree) : Prop := exists rows, vectors_are vectors (members t) rows /\ t_centroid vec t = mean rows.

  (** A new node over some trees of a forest, made in iteration [it]. *)
  Definition node_over (it : nat) (forest trees : list tree) (t : tree) : Prop :=
    children t = trees /\ t_iteration vec t = it /\ members t = flat_map members trees /\
    t_depth vec t = S (list_max (map (t_depth vec) trees)) /\ centroid_ok t /\
    (exists u, In u forest /\ t_id vec t = (t_id vec u + 1)%Z) /\
    forall u, In u forest -> (t_id vec u < t_id vec t)%Z.

  (** Starting clusters: the connected components. *)
  Definition leaf_over (component : list pystr) (t : tree) : Prop :=
    children t = [] /\ t_iteration vec t = 0 /\ members t = component /\ t_depth vec t = 0 /\ centroid_ok t.
  Definition start (forest : list tree) : Prop :=
    exists components, ask get_connected_components m = Ok components /\ Forall2 leaf_over components forest /\
      map (t_id vec) forest = map Z.of_nat (seq 0 (length forest)).

  (** Merges pairs until one tree is left or none can be merged; the trees left are then put
      under a common root. *)
  Section Merging.
    Variable mergeable : list tree -> tree -> tree -> Prop.
    Variable finished : list tree -> Prop.
    Inductive agglomerates : nat -> list tree -> tree -> Prop :=
    | ag_single : forall it t, agglomerates it [t] t
    | ag_merge : forall it l1 t1 l2 t2 l3 t root,
        mergeable (l1 ++ t1 :: l2 ++ t2 :: l3) t1 t2 ->
        node_over it (l1 ++ t1 :: l2 ++ t2 :: l3) [t1; t2] t ->
        agglomerates (S it) (l1 ++ l2 ++ l3 ++ [t]) root ->
        agglomerates it (l1 ++ t1 :: l2 ++ t2 :: l3) root
    | ag_finished : forall it forest root,
        2 <= length forest -> finished forest -> node_over it forest forest root -> agglomerates it forest root.
  End Merging.

  (** The closest pair, the smallest one among equally close pairs, the first one among equally
      close pairs of the same size; not an infinite distance. *)
  Definition closest (forest : list tree) (t1 t2 : tree) : Prop :=
    exists d, linkage_distance t1 t2 d /\ d <> inf /\
      forall u1 u2 d', before forest u1 u2 -> linkage_distance u1 u2 d' ->
        ltb d' d = false /\
        (d' = d -> length (members t1) + length (members t2) <= length (members u1) + length (members u2)) /\
        (before forest u1 t1 \/ (u1 = t1 /\ before forest u2 t2) ->
         d' = d -> length (members t1) + length (members t2) < length (members u1) + length (members u2)).
  Definition none_left (forest : list tree) : Prop :=
    forall t1 t2 d, before forest t1 t2 -> linkage_distance t1 t2 d -> ltb d inf = false.

  Definition stopped (forest : list tree) : Prop :=
    none_left forest /\ exists t1 t2, before forest t1 t2 /\ linkage_distance t1 t2 inf.

  (** The tree that a run should build. *)
  Definition agglomerative (root : tree) : Prop :=
    exists forest, start forest /\ agglomerates closest stopped 1 forest root.

  (** A well-formed dendrogram. *)
  Record dendrogram (root : tree) : Prop := {
    dg_ids : NoDup (map (t_id vec) (nodes root));
    dg_leaves : exists components, ask get_connected_components m = Ok components /\
      Permutation components (map members (leaves root));
    dg_members : forall t, subtree t root -> children t <> [] -> members t = flat_map members (children t);
    dg_depth : forall t, subtree t root ->
      t_depth vec t = match children t with [] => 0 | c => S (list_max (map (t_depth vec) c)) end;
    dg_centroid : forall t, subtree t root -> centroid_ok t;
    dg_order : forall t c, subtree t root -> In c (children t) -> t_iteration vec c < t_iteration vec t;
    dg_leaf_iteration : forall t, subtree t root -> children t = [] -> t_iteration vec t = 0;
    dg_root : NoDup (members root) /\ forall x, In x (members root) <-> managed m x;
    dg_root_children : children root = [] \/ 2 <= length (children root);
    dg_binary : forall t, subtree t root -> t <> root -> children t = [] \/ length (children t) = 2;
    dg_compatible : forall t, subtree t root -> t <> root ->
      forall a b, In a (members t) -> In b (members t) -> ~ inferred m a b (Some CANNOT_LINK) }.
End Run.

(** Same IDs, and each cluster of the first lies within a cluster of the second. *)
Definition refines (d1 d2 : dict pystr Z) : Prop :=
  (forall x, In x (keys d1) <-> In x (keys d2)) /\
  forall x y, In x (keys d1) -> In y (keys d1) -> dget x d1 = dget y d1 -> dget x d2 = dget y d2.

(** States of a clustering object after any calls, successful or not. *)
Inductive history {vec D} `{EqB D} pairwise cdistance ltb dsum ddiv inf mean (linkage : pystr) : hier vec -> Prop :=
| history_fresh : history pairwise cdistance ltb dsum ddiv inf mean linkage (fresh_hier vec)
| history_cluster : forall s m vectors nb, history pairwise cdistance ltb dsum ddiv inf mean linkage s -> reachable m ->
    history pairwise cdistance ltb dsum ddiv inf mean linkage
      (fst (cluster vec D pairwise cdistance ltb dsum ddiv inf mean linkage m vectors nb s))
| history_cut : forall s nb by_, history pairwise cdistance ltb dsum ddiv inf mean linkage s ->
    history pairwise cdistance ltb dsum ddiv inf mean linkage (fst (compute_predicted_clusters vec nb by_ s)).
