(** * A thread that clusters with MPCKMeans while another thread changes the manager
    (/repo/src/cognitivefactory/interactive_clustering/clustering/mpckmeans.py).

    [cluster] as a program that gives way to the other threads before each read of the manager, as in [Threads.v].  The
    lists of constraints, their graphs and all that follows belong to the thread and are computed at once, as in [Mpckmeans.v].

    Line numbers refer to mpckmeans.py.  Simplifications: those of [Mpckmeans.v] and [Threads.v];
    [get_list_of_managed_data_IDs] copies the keys of a dictionary at once. *)

From Coq Require Import String List Bool Arith ZArith.
From Verif Require Import Base Manager Rename Sampling KMeans Spectral Mpckmeans Threads Readers SampleThread KMeansThread.
Import ListNotations.
Open Scope nat_scope.
Open Scope t_scope.
Open Scope py_scope.

(** [self.ml] (216-227) and [self.cl] (230-241). *)
Definition p_index_pairs (ids : list pystr) (t : pystr) : prog (list (nat * nat)) :=
  pairs <~ pfilter (fun e => p_inferred_is (snd (snd e)) (snd (fst e)) t) (list_prod (enum ids) (enum ids)) ;;
  Done (Ok (map (fun e => (fst (fst e), fst (snd e))) pairs)).

Section WithOracles.
  Variables vec D : Type.
  Variable o : ops D.
  Variable flatten : vec -> list D.
  Variable limit : nat.
  Variable order : list nat -> list nat.
  Variable first : nat -> list D -> nat.
  Variable sample : nat -> nat -> list nat.
  Variable shuffle : nat -> list nat -> list nat.

  (** What follows the preprocessing (246-287), without the manager. *)
  Definition cluster_with (p : mp_params D) (ids : list pystr) (vectors : dict pystr vec) (k : nat) (graphs : graph * graph * list (list nat)) : res (dict pystr Z) :=
    let X := map flatten (vals vectors) in
    let '(ml_graph, cl_graph, neighborhoods) := graphs in
    centers <-- initialize_cluster_centers D o first sample X k neighborhoods ;;;                         (* 247 *)
    r <-- iterate D o order shuffle X k (mp_w D p) ml_graph cl_graph (mp_max_iteration D p) 0 centers (repeat (o_of_nat D o 1) (width D X)) None ;;;
    match snd r with
    | None => Raise UnboundLocalError
    | Some labels =>
        d <-- rename_clusters_by_order (fold_left (fun d e => dset (fst e) (snd e) d) (combine (map np_str (keys vectors)) (map Z.of_nat labels)) []) ;;;   (* 279-281 *)
        Ok (fold_left (fun d x => if mem x (keys d) then d else dset x (-1)%Z d) ids d)                   (* 283-285 *)
    end.

  (** The lists, then [preprocess_constraints] (216-244). *)
  Definition p_constraint_graphs (ids : list pystr) : prog (graph * graph * list (list nat)) :=
    ml <~ p_index_pairs ids MUST_LINK ;;                                          (* 216 *)
    cl <~ p_index_pairs ids CANNOT_LINK ;;                                        (* 230 *)
    Done (preprocess_constraints limit order (length ids) ml cl).                 (* 244 *)

  (** [cluster] (159-287). *)
  Definition p_mpckmeans (p : mp_params D) (vectors : dict pystr vec) (nb_clusters : option Z) : prog (dict pystr Z) :=
    ids <~ p_ids ;;                                                               (* 194 *)
    match nb_clusters with                                                        (* 202 *)
    | None => Done (Raise ValueError)
    | Some nb =>
        if (nb <? 2)%Z then Done (Raise ValueError)
        else
          graphs <~ p_constraint_graphs ids ;;
          Done (cluster_with p ids vectors (Nat.min (Z.to_nat nb) (length ids)) graphs)
    end.
End WithOracles.
