(** * Model of [HierarchicalConstrainedClustering] and of its class [Cluster]
    (/repo/src/cognitivefactory/interactive_clustering/clustering/hierarchical.py).

    Simplifications:
    - the manager is only queried through getters, which leave it unchanged
      ([getters_change_nothing] in ManagerQueries.v); a query is its answer [ask q m];
    - [vectors] is a dictionary, the manager is a manager (the two isinstance tests pass);
    - a vector is a value of an abstract type.  [pairwise X i j] is the entry of
      [sklearn.metrics.pairwise_distances], [cdistance] is the same function on two single
      vectors, [dsum] is [sum], [ddiv d n] is [d / n], [mean] is
      [sum(members) / len(members)], [inf] is [float("Inf")], [ltb] is [<].  All are
      arbitrary; a theorem states what it assumes about them.  Distances are floats up to
      [==], without NaN.  Vectors of different sizes are not modelled;
    - a [Cluster] object is a tree; it is never changed after its creation
      ([add_new_children] is not called), and two objects are the same when they have the
      same [cluster_ID];
    - [self.current_clusters], [self.clusters_storage], [self.clusters_distance] and
      [self.clustering_iteration] are reset by every call before they are read and are
      threaded through the functions; the attributes read after a call are kept;
    - verbose output is dropped. *)

From Coq Require Import String List Bool Arith ZArith.
From Verif Require Import Base Manager Sampling Rename KMeans.
Import ListNotations.
Open Scope nat_scope.
Open Scope py_scope.

(** [max(l, key=...)], first maximum. *)
Definition py_max {A} (lt : A -> A -> bool) (l : list A) : res A :=
  match l with [] => Raise ValueError | x :: l' => Ok (fold_left (fun best y => if lt best y then y else best) l' x) end.

(** [any(f(x) for x in l)], stops at the first [True]. *)
Fixpoint rexists {A} (f : A -> res bool) (l : list A) : res bool :=
  match l with [] => Ok false | x :: l' => b <-- f x ;;; if b : bool then Ok true else rexists f l' end.

Section WithOracles.
  Variables vec D : Type.
  Context `{EqB D}.
  Variable pairwise : list vec -> nat -> nat -> D.
  Variable cdistance : vec -> vec -> D.
  Variable ltb : D -> D -> bool.
  Variable dsum : list D -> D.
  Variable ddiv : D -> nat -> D.
  Variable inf : D.
  Variable mean : list vec -> vec.

  (** [class Cluster] (684-741). *)
  Inductive tree := Node {
    t_id : Z; t_iteration : nat; t_children : list tree; t_depth : nat; t_members : list pystr; t_centroid : vec }.

  (** [Cluster.__init__] (692-741), [update_centroid] (777-783). *)
  Definition new_cluster (vectors : dict pystr vec) (cluster_ID : Z) (iteration : nat)
      (children : option (list tree)) (members : option (list pystr)) : res tree :=
    match children, members with
    | Some _, Some _ | None, None => Raise ValueError                             (* 722 *)
    | _, _ =>
        let children := match children with Some c => c | None => [] end in       (* 728 *)
        let depth := match children with [] => 0 | _ => list_max (map t_depth children) + 1 end in   (* 731 *)
        let members := match members with Some l => l | None => flat_map t_members children end in   (* 736 *)
        rows <-- rmap (fun x => dlookup x vectors) members ;;;
        match rows with
        | [] => Raise ZeroDivisionError
        | _ => Ok (Node cluster_ID iteration children depth members (mean rows))
        end
    end.

  (** [self.current_clusters], [self.clusters_storage], [self.clusters_distance]. *)
  Record forest := mkForest {
    f_current : list Z; f_storage : dict Z tree; f_distance : dict Z (dict Z D) }.

  (** [_add_new_cluster_by_setting_members] (333-361). *)
  Definition add_by_members (vectors : dict pystr vec) (iteration : nat) (f : forest) (members : list pystr) : res forest :=
    new_ID <-- (match f_storage f with
                | [] => Ok 0%Z
                | _ => mx <-- py_max_Z (keys (f_storage f)) ;;; Ok (mx + 1)%Z
                end) ;;;
    t <-- new_cluster vectors new_ID iteration None (Some members) ;;;
    Ok (mkForest (f_current f ++ [new_ID]) (dset new_ID t (f_storage f)) (f_distance f)).

  (** [l.remove(x)]: ValueError when absent. *)
  Definition remove_strict (l : list Z) (x : Z) : res (list Z) :=
    if mem x l then Ok (list_remove x l) else Raise ValueError.

  (** [_add_new_cluster_by_merging_clusters] (366-443). *)
  Definition add_by_merging (vectors : dict pystr vec) (iteration : nat) (f : forest) (children : list Z) : res (forest * Z) :=
    current <-- rfold remove_strict children (f_current f) ;;;                    (* 381-382 *)
    mx <-- py_max_Z (keys (f_storage f)) ;;;                                      (* 428 *)
    let new_ID := (mx + 1)%Z in
    trees <-- rmap (fun c => dlookup c (f_storage f)) children ;;;                (* 435 *)
    t <-- new_cluster vectors new_ID iteration (Some trees) None ;;;
    Ok (mkForest (current ++ [new_ID]) (dset new_ID t (f_storage f)) (f_distance f), new_ID).

  (** [self.dict_of_pairwise_distances] (167-180). *)
  Definition pairwise_table (m : mgr) (vectors : dict pystr vec) : res (dict pystr (dict pystr D)) :=
    managed <-- ask get_list_of_managed_data_IDs m ;;;
    rows <-- rmap (fun x => dlookup x vectors) managed ;;;
    match rows with
    | [] => Raise ValueError                                                      (* vstack of nothing *)
    | _ => Ok (fold_left (fun t e => dset (snd e)
                 (fold_left (fun r e' => dset (snd e') (pairwise rows (fst e) (fst e')) r) (enum managed) []) t)
               (enum managed) [])
    end.

  Definition table_get (table : dict pystr (dict pystr D)) (p : pystr * pystr) : res D :=
    row <-- dlookup (fst p) table ;;; dlookup (snd p) row.

  (** Pairs at positions [i < j] (507-511). *)
  Definition pairs_below (l : list pystr) : list (pystr * pystr) :=
    map (fun p => (snd (fst p), snd (snd p)))
        (filter (fun p => Nat.ltb (fst (fst p)) (fst (snd p))) (list_prod (enum l) (enum l))).

  (** [_compute_distance] (448-513), first on the clusters, then on their IDs. *)
  Definition tree_distance (m : mgr) (linkage : pystr) (table : dict pystr (dict pystr D)) (ti tj : tree) : res D :=
    let pairs := list_prod (t_members ti) (t_members tj) in
    blocked <-- rexists (fun p => inferred_is m (fst p) (snd p) CANNOT_LINK) pairs ;;;     (* 461-470 *)
    if blocked : bool then Ok inf
    else if eqb linkage (str "complete") then                                     (* 473-480 *)
      ds <-- rmap (table_get table) pairs ;;; py_max ltb ds
    else if eqb linkage (str "average") then                                      (* 483-488 *)
      Ok (cdistance (t_centroid ti) (t_centroid tj))
    else if eqb linkage (str "single") then                                       (* 491-498 *)
      ds <-- rmap (table_get table) pairs ;;; py_min ltb ds
    else                                                                          (* 503-513 *)
      ds <-- rmap (table_get table) (pairs_below (t_members ti ++ t_members tj)) ;;;
      let n := length (t_members ti) * length (t_members tj) in
      if Nat.eqb n 0 then Raise ZeroDivisionError else Ok (ddiv (dsum ds) n).

  Definition compute_distance (m : mgr) (linkage : pystr) (table : dict pystr (dict pystr D)) (storage : dict Z tree)
      (i j : Z) : res D :=
    ti <-- dlookup i storage ;;;
    tj <-- dlookup j storage ;;;
    tree_distance m linkage table ti tj.

  (** [_get_distance] (518-535), [_set_distance] (540-562). *)
  Definition get_distance (dist : dict Z (dict Z D)) (i j : Z) : res D :=
    row <-- dlookup (Z.min i j) dist ;;; dlookup (Z.max i j) row.
  Definition set_distance (dist : dict Z (dict Z D)) (i j : Z) (d : D) : dict Z (dict Z D) :=
    let row := match dget (Z.min i j) dist with Some row => row | None => [] end in
    dset (Z.min i j) (dset (Z.max i j) d row) dist.

  (** [dst["distance"], dst["merged_size"]] compared as tuples (591). *)
  Definition closer (a b : Z * Z * D * nat) : bool :=
    let d := snd (fst a) in let d' := snd (fst b) in
    if eqb d d' then Nat.ltb (snd a) (snd b) else ltb d d'.

  (** [_get_the_two_clostest_clusters] (567-604). *)
  Definition two_closest (f : forest) : res (option (Z * Z)) :=
    candidates <-- rmap (fun p =>
                     d <-- get_distance (f_distance f) (fst p) (snd p) ;;;
                     t1 <-- dlookup (fst p) (f_storage f) ;;;
                     t2 <-- dlookup (snd p) (f_storage f) ;;;
                     Ok (fst p, snd p, d, length (t_members t1) + length (t_members t2)))
                   (filter (fun p => Z.ltb (fst p) (snd p)) (list_prod (f_current f) (f_current f))) ;;;
    best <-- py_min closer candidates ;;;
    if eqb (snd (fst best)) inf then Ok None else Ok (Some (fst (fst best))).     (* 600-604 *)

  (** Computes and stores one distance (226-228, 274-276). *)
  Definition update_distance (m : mgr) (linkage : pystr) (table : dict pystr (dict pystr D)) (f : forest) (p : Z * Z) : res forest :=
    d <-- compute_distance m linkage table (f_storage f) (fst p) (snd p) ;;;
    Ok (mkForest (f_current f) (f_storage f) (set_distance (f_distance f) (fst p) (snd p) d)).

  (** The loop 238-279.  One cluster less in each round: [fuel] bounds their number. *)
  Fixpoint merge_loop (fuel : nat) (m : mgr) (linkage : pystr) (table : dict pystr (dict pystr D))
      (vectors : dict pystr vec) (iteration : nat) (f : forest) : res (forest * nat) :=
    if Nat.leb (length (f_current f)) 1 then Ok (f, iteration)
    else
      match fuel with
      | O => Raise OutOfFuel
      | S fuel =>
          o <-- two_closest f ;;;
          match o with
          | None => Ok (f, iteration)                                             (* 257-258 *)
          | Some (c1, c2) =>
              r <-- add_by_merging vectors iteration f [c1; c2] ;;;               (* 263-268 *)
              let (f, merged) := r : forest * Z in
              f <-- rfold (update_distance m linkage table)                       (* 271-276 *)
                      (map (fun c => (c, merged)) (filter (fun c => negb (Z.eqb c merged)) (f_current f))) f ;;;
              merge_loop fuel m linkage table vectors (S iteration) f
          end
      end.

  (** The tree of one run (200-317). *)
  Definition build_tree (m : mgr) (linkage : pystr) (vectors : dict pystr vec) (table : dict pystr (dict pystr D)) : res tree :=
    components <-- ask get_connected_components m ;;;                             (* 208 *)
    f <-- rfold (add_by_members vectors 0) components (mkForest [] [] []) ;;;     (* 214-218 *)
    f <-- rfold (update_distance m linkage table)                                 (* 222-228 *)
            (filter (fun p => Z.ltb (fst p) (snd p)) (list_prod (f_current f) (f_current f))) f ;;;
    r <-- merge_loop (length (f_current f)) m linkage table vectors 1 f ;;;
    let (f, iteration) := r : forest * nat in
    f <-- (if Nat.ltb 1 (length (f_current f)) then                               (* 309-313 *)
             r <-- add_by_merging vectors iteration f (f_current f) ;;; Ok (fst r)
           else Ok f) ;;;
    match f_current f with                                                        (* 316-317 *)
    | [] => Raise IndexError
    | root :: _ => dlookup root (f_storage f)
    end.

  (** [max(list_of_clusters, key=...)] (640, 645). *)
  Definition to_split (by_ : pystr) (l : list tree) : res tree :=
    if eqb by_ (str "size") then py_max (fun a b => Nat.ltb (length (t_members a)) (length (t_members b))) l
    else py_max (fun a b => Nat.ltb (t_iteration a) (t_iteration b)) l.

  (** [list_of_clusters.remove(cluster)] (654). *)
  Fixpoint remove_tree (t : tree) (l : list tree) : list tree :=
    match l with [] => [] | u :: l' => if Z.eqb (t_id t) (t_id u) then l' else u :: remove_tree t l' end.

  (** The loop 636-658.  Each round splits a node: [fuel] bounds the number of nodes. *)
  Fixpoint explore (fuel : nat) (by_ : pystr) (nb_clusters : Z) (l : list tree) : res (list tree) :=
    if (Z.of_nat (length l) <? nb_clusters)%Z then
      t <-- to_split by_ l ;;;
      match t_children t with
      | [] => Ok l                                                                (* 648-649 *)
      | children =>
          match fuel with
          | O => Raise OutOfFuel
          | S fuel => explore fuel by_ nb_clusters (remove_tree t l ++ children)
          end
      end
    else Ok l.

  Fixpoint tree_size (t : tree) : nat := match t with Node _ _ c _ _ _ => S (list_sum (map tree_size c)) end.

  (** Labels of the explored clusters (665-672). *)
  Definition labels_of (ids : list pystr) (l : list tree) : dict pystr Z :=
    fold_left (fun d t => fold_left (fun d x => dset x (t_id t) d) (t_members t) d) l (dcomp (fun _ => (-1)%Z) ids).

  (** Attributes that survive a call: [self.list_of_data_IDs], [self.clustering_root],
      [self.dict_of_predicted_clusters]; [None] for the first before any call. *)
  Record hier := mkHier { h_ids : option (list pystr); h_root : option tree; h_predicted : option (dict pystr Z) }.
  Definition fresh_hier : hier := mkHier None None None.

  (** [compute_predicted_clusters] (609-678). *)
  Definition compute_predicted_clusters (nb_clusters : Z) (by_ : pystr) : M hier (dict pystr Z) :=
    root <- gets h_root ;;
    match root with
    | None => raise ValueError                                                    (* 626 *)
    | Some root =>
        l <- lift (explore (tree_size root) by_ nb_clusters [root]) ;;            (* 633-658 *)
        ids <- gets h_ids ;;
        match ids with
        | None => raise AttributeError
        | Some ids => lift (rename_clusters_by_order (labels_of ids l))           (* 665-675 *)
        end
    end.

  (** [__init__] (86-117). *)
  Definition make_hierarchical (linkage : pystr) : res pystr :=
    if mem linkage [str "ward"; str "average"; str "complete"; str "single"] then Ok linkage else Raise ValueError.

  (** [cluster] (122-328). *)
  Definition cluster (linkage : pystr) (m : mgr) (vectors : dict pystr vec) (nb_clusters : option Z) : M hier (dict pystr Z) :=
    ids <- lift (ask get_list_of_managed_data_IDs m) ;;
    modify (fun s => mkHier (Some ids) (h_root s) (h_predicted s)) ;;             (* 155 *)
    match nb_clusters with                                                        (* 163 *)
    | None => raise ValueError
    | Some nb =>
        if (nb <? 2)%Z then raise ValueError
        else
          table <- lift (pairwise_table m vectors) ;;                             (* 168-180 *)
          modify (fun s => mkHier (h_ids s) None None) ;;                         (* 197-198 *)
          root <- lift (build_tree m linkage vectors table) ;;                    (* 200-317 *)
          modify (fun s => mkHier (h_ids s) (Some root) (h_predicted s)) ;;
          d <- compute_predicted_clusters (Z.min nb (Z.of_nat (length ids))) (str "size") ;;   (* 165, 324 *)
          modify (fun s => mkHier (h_ids s) (h_root s) (Some d)) ;;
          ret d
    end.
End WithOracles.
