(** * Model of the whole session of the usage guide (/repo/docs/usage.md:43-149).

    Iteration 0 creates the manager and clusters into two clusters.  Every following
    iteration stops when the constraints are complete, else samples pairs, adds their
    annotations, chooses [int((min_n + max_n) / 2)] clusters and clusters again.  New
    sampler and KMeans objects are created in every iteration.

    The guide uses the KMeans of the clustering factory; [session_with] is the same session
    with any clustering, [session] the one of the guide.

    Simplifications: as in Loop.v the annotator is a fixed labelling; the last clustering
    and the vectors are always given to the sampler (the guide has them as comments, the
    samplers without restriction do not read them); [int(x / 2)] is the integer quotient
    (exact below 2^53); random draws and set orders may differ in every iteration. *)

From Coq Require Import String List Bool Arith ZArith QArith.
From Verif Require Import Base Manager Sampling MinMax KMeans Loop.
From Verif Require Hierarchical.
Import ListNotations.
Open Scope nat_scope.
Open Scope py_scope.

(** [nb_clusters = int((min_n + max_n) / 2)] (126-133). *)
Definition suggested_number (order : nat -> graph -> list node) : M mgr Z :=
  range <- get_min_and_max_number_of_clusters order ;;
  ret (Z.of_nat ((fst range + snd range) / 2)).

Section WithOracles.
  Variables vec D : Type.
  Variable sampling_distances : list vec -> nat -> nat -> D.
  Variable ltb : D -> D -> bool.
  (** Oracles of iteration [i]. *)
  Variable draws : nat -> list (pystr * pystr) -> nat -> list (pystr * pystr).
  Variable node_orders : nat -> nat -> graph -> list node.
  Variable truth : pystr -> nat.
  Variable o : options.
  Variable nb_to_select : Z.
  Variable vectors : dict pystr vec.
  (** [clustering_factory(...).cluster(...)] of iteration [i], for a number of clusters (52-66, 136-149). *)
  Variable clustering : nat -> Z -> M mgr (dict pystr Z).

  (** [sampling_factory(...).sample(...)] of iteration [i] (83-97). *)
  Definition sampling_step (i : nat) (clustering_result : dict pystr Z) : M mgr (list (pystr * pystr)) :=
    fun m => let (w, r) := sample vec D sampling_distances ltb (draws i) o nb_to_select (Some clustering_result) (Some vectors)
                             (fresh_sampler vec D, m) in (snd w, r).

  (** Iterations from [i] (68-149); returns the number of the last one, the last clustering
      and all refused annotations. *)
  Fixpoint iterations (fuel i : nat) (clustering_result : dict pystr Z) : M mgr (nat * dict pystr Z * list (pystr * pystr * pystr)) :=
    match fuel with
    | 0 => raise OutOfFuel
    | S fuel' =>
        is_finish <- check_completude_of_constraints ;;                                      (* 73 *)
        if is_finish : bool then ret (i, clustering_result, [])
        else
          selection <- sampling_step i clustering_result ;;
          refused <- add_annotations (annotate truth selection) ;;                           (* 99-123 *)
          nb_clusters <- suggested_number (node_orders i) ;;
          clustering_result <- clustering (S i) nb_clusters ;;
          r <- iterations fuel' (S i) clustering_result ;;
          ret (fst r, refused ++ snd r)
    end.

  (** The session after the creation of the manager (43-50). *)
  Definition session_with (fuel : nat) : M mgr (nat * dict pystr Z * list (pystr * pystr * pystr)) :=
    clustering_result <- clustering 0 2%Z ;;                                                 (* 52-66 *)
    iterations fuel 0 clustering_result.
End WithOracles.

(** KMeans with its own draws in iteration [i]. *)
Definition clustering_step (vec D : Type) `{EqB D} (pairwise : list vec -> list vec -> nat -> nat -> D) (ltb : D -> D -> bool)
    (dsum : list D -> D) (mean : list vec -> vec) (shuffles : nat -> list pystr -> list pystr) (set_orders : nat -> list Z -> list Z)
    (p : kparams D) (vectors : dict pystr vec) (i : nat) (nb_clusters : Z) : M mgr (dict pystr Z) :=
  fun m => (m, snd (cluster vec D pairwise ltb dsum mean (shuffles i) (set_orders i) p m vectors (Some nb_clusters) (fresh_kmeans vec))).

Definition session (vec D : Type) `{EqB D} (sampling_distances : list vec -> nat -> nat -> D) (pairwise : list vec -> list vec -> nat -> nat -> D)
    (ltb : D -> D -> bool) (dsum : list D -> D) (mean : list vec -> vec)
    (draws : nat -> list (pystr * pystr) -> nat -> list (pystr * pystr)) (shuffles : nat -> list pystr -> list pystr)
    (set_orders : nat -> list Z -> list Z) (node_orders : nat -> nat -> graph -> list node) (truth : pystr -> nat)
    (o : options) (p : kparams D) (nb_to_select : Z) (vectors : dict pystr vec) (fuel : nat)
    : M mgr (nat * dict pystr Z * list (pystr * pystr * pystr)) :=
  session_with vec D sampling_distances ltb draws node_orders truth o nb_to_select vectors
    (clustering_step vec D pairwise ltb dsum mean shuffles set_orders p vectors) fuel.

(** Hierarchical clustering, the other algorithm of the factory that takes a number of clusters
    and keeps all the constraints. *)
Definition hierarchical_step (vec D : Type) `{EqB D} (pairwise : list vec -> nat -> nat -> D) (cdistance : vec -> vec -> D)
    (ltb : D -> D -> bool) (dsum : list D -> D) (ddiv : D -> nat -> D) (inf : D) (mean : list vec -> vec) (linkage : pystr)
    (vectors : dict pystr vec) (i : nat) (nb_clusters : Z) : M mgr (dict pystr Z) :=
  fun m => (m, snd (Hierarchical.cluster vec D pairwise cdistance ltb dsum ddiv inf mean linkage m vectors (Some nb_clusters)
                      (Hierarchical.fresh_hier vec))).
