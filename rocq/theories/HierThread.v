(** * A thread that clusters with the hierarchical method while another thread changes the manager
    (/repo/src/cognitivefactory/interactive_clustering/clustering/hierarchical.py).

    [cluster] as a program that gives way to the other threads before each read of the manager, as in [Threads.v].  The
    clustering object belongs to the thread: what is computed from its attributes alone is done at once, as in [Hierarchical.v].

    Line numbers refer to hierarchical.py.  Simplifications: those of [Hierarchical.v], [Threads.v] and [Listing.v];
    [get_list_of_managed_data_IDs] copies the keys of a dictionary at once.  The code reads this list several times for the
    distances between the data (167-180); the program reads it once for all of them, which is the same when no other thread adds or
    deletes data. *)

From Coq Require Import String List Bool Arith ZArith.
From Verif Require Import Base Manager Rename Sampling KMeans Hierarchical Threads Readers Listing SampleThread KMeansThread.
Import ListNotations.
Open Scope nat_scope.
Open Scope t_scope.
Open Scope py_scope.

(** [any(f(x) for x in l)]: asks until the first [True] *)
Fixpoint p_exists {A} (f : A -> prog bool) (l : list A) : prog bool :=
  match l with
  | [] => Done (Ok false)
  | x :: l' => b <~ f x ;; if b then Done (Ok true) else p_exists f l'
  end.

Section WithOracles.
  Variables vec D : Type.
  Context `{EqB D}.
  Variable pairwise : list vec -> nat -> nat -> D.
  Variable cdistance : vec -> vec -> D.
  Variable ltb : D -> D -> bool.
  Variable dsum : list D -> D.
  Variable ddiv : D -> nat -> D.
  Variable inf : D.
  Variable mean : list vec -> vec.

  (** The distance of two clusters that may be merged (473-513), without the manager. *)
  Definition distance_by_linkage (linkage : pystr) (table : dict pystr (dict pystr D)) (ti tj : tree vec) : res D :=
    let pairs := list_prod (t_members vec ti) (t_members vec tj) in
    if eqb linkage (str "complete") then                                          (* 473-480 *)
      ds <-- rmap (table_get D table) pairs ;;; py_max ltb ds
    else if eqb linkage (str "average") then                                      (* 483-488 *)
      Ok (cdistance (t_centroid vec ti) (t_centroid vec tj))
    else if eqb linkage (str "single") then                                       (* 491-498 *)
      ds <-- rmap (table_get D table) pairs ;;; py_min ltb ds
    else                                                                          (* 503-513 *)
      ds <-- rmap (table_get D table) (pairs_below (t_members vec ti ++ t_members vec tj)) ;;;
      let n := length (t_members vec ti) * length (t_members vec tj) in
      if Nat.eqb n 0 then Raise ZeroDivisionError else Ok (ddiv (dsum ds) n).

  (** [_compute_distance] (448-513), first on the clusters, then on their IDs. *)
  Definition p_tree_distance (linkage : pystr) (table : dict pystr (dict pystr D)) (ti tj : tree vec) : prog D :=
    blocked <~ p_exists (fun p => p_inferred_is (fst p) (snd p) CANNOT_LINK) (list_prod (t_members vec ti) (t_members vec tj)) ;;   (* 461-470 *)
    Done (if blocked then Ok inf else distance_by_linkage linkage table ti tj).
  Definition p_compute_distance (linkage : pystr) (table : dict pystr (dict pystr D)) (storage : dict Z (tree vec)) (i j : Z) : prog D :=
    ti <~ Done (dlookup i storage) ;;
    tj <~ Done (dlookup j storage) ;;
    p_tree_distance linkage table ti tj.

  (** Computes and stores one distance (226-228, 274-276). *)
  Definition p_update_distance (linkage : pystr) (table : dict pystr (dict pystr D)) (f : forest vec D) (p : Z * Z) : prog (forest vec D) :=
    d <~ p_compute_distance linkage table (f_storage vec D f) (fst p) (snd p) ;;
    Done (Ok (mkForest vec D (f_current vec D f) (f_storage vec D f) (set_distance D (f_distance vec D f) (fst p) (snd p) d))).

  (** The loop 238-279. *)
  Fixpoint p_merge_loop (fuel : nat) (linkage : pystr) (table : dict pystr (dict pystr D)) (vectors : dict pystr vec)
      (iteration : nat) (f : forest vec D) : prog (forest vec D * nat) :=
    if Nat.leb (length (f_current vec D f)) 1 then Done (Ok (f, iteration))
    else
      match fuel with
      | O => Done (Raise OutOfFuel)
      | S fuel =>
          o <~ Done (two_closest vec D ltb inf f) ;;
          match o with
          | None => Done (Ok (f, iteration))                                      (* 257-258 *)
          | Some (c1, c2) =>
              r <~ Done (add_by_merging vec D mean vectors iteration f [c1; c2]) ;;   (* 263-268 *)
              g <~ pfold (p_update_distance linkage table)                        (* 271-276 *)
                     (map (fun c => (c, snd r)) (filter (fun c => negb (Z.eqb c (snd r))) (f_current vec D (fst r)))) (fst r) ;;
              p_merge_loop fuel linkage table vectors (S iteration) g
          end
      end.

  (** The last node and the root (309-317). *)
  Definition take_root (vectors : dict pystr vec) (f : forest vec D) (iteration : nat) : res (tree vec) :=
    f <-- (if Nat.ltb 1 (length (f_current vec D f)) then                         (* 309-313 *)
             r <-- add_by_merging vec D mean vectors iteration f (f_current vec D f) ;;; Ok (fst r)
           else Ok f) ;;;
    match f_current vec D f with                                                  (* 316-317 *)
    | [] => Raise IndexError
    | root :: _ => dlookup root (f_storage vec D f)
    end.

  (** The tree of one run (200-317). *)
  Definition p_build_tree (linkage : pystr) (vectors : dict pystr vec) (table : dict pystr (dict pystr D)) : prog (tree vec) :=
    components <~ p_get_connected_components ;;                                   (* 208 *)
    f <~ Done (rfold (add_by_members vec D mean vectors 0) components (mkForest vec D [] [] [])) ;;   (* 214-218 *)
    f <~ pfold (p_update_distance linkage table)                                  (* 222-228 *)
           (filter (fun p => Z.ltb (fst p) (snd p)) (list_prod (f_current vec D f) (f_current vec D f))) f ;;
    r <~ p_merge_loop (length (f_current vec D f)) linkage table vectors 1 f ;;
    Done (take_root vectors (fst r) (snd r)).

  (** [cluster] (122-328) with [compute_predicted_clusters] (609-678) for the size. *)
  Definition p_hierarchical (linkage : pystr) (vectors : dict pystr vec) (nb_clusters : option Z) : prog (dict pystr Z) :=
    ids <~ p_ids ;;                                                               (* 155 *)
    match nb_clusters with                                                        (* 163 *)
    | None => Done (Raise ValueError)
    | Some nb =>
        if (nb <? 2)%Z then Done (Raise ValueError)
        else
          table <~ pread (fun m => pairwise_table vec D pairwise m vectors) ;;    (* 168-180 *)
          root <~ p_build_tree linkage vectors table ;;                           (* 200-317 *)
          Done (l <-- explore vec (tree_size vec root) (str "size") (Z.min nb (Z.of_nat (length ids))) [root] ;;;   (* 633-658 *)
                rename_clusters_by_order (labels_of vec ids l))                   (* 665-675 *)
    end.
End WithOracles.
