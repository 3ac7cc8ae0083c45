(** * Model of [KMeansConstrainedClustering]
    (/repo/src/cognitivefactory/interactive_clustering/clustering/kmeans.py).

    Simplifications:
    - the manager is only queried through getters, which leave it unchanged
      ([getters_change_nothing] in ManagerQueries.v); a query is its answer [ask q m];
    - [vectors] is a dictionary, the manager is a manager (the two isinstance tests pass);
    - a vector is a value of an abstract type.  [pairwise X Y i j] is the entry of
      [sklearn.metrics.pairwise_distances], [dsum] is [sum], [mean] is
      [sum(members) / len(members)], [ltb] is [<], [shuffle] is [random.shuffle] after
      [random.seed], [set_order l] is the order in which Python iterates over [set(l)].
      All are arbitrary; a theorem states what it assumes about them.  Distances are
      floats up to equality as dictionary keys.  Vectors of different sizes are not
      modelled;
    - [self.list_of_data_IDs], [self.vectors], [self.nb_clusters] are set by every call
      before they are read and are passed as arguments; the attributes that matter after a
      call are kept;
    - verbose output is dropped. *)

From Coq Require Import String List Bool Arith ZArith.
From Verif Require Import Base Manager Sampling Rename.
Import ListNotations.
Open Scope nat_scope.
Open Scope py_scope.

(** [self.constraints_manager.get_inferred_constraint(a, b) == t] *)
Definition inferred_is (m : mgr) (a b t : pystr) : res bool :=
  r <-- ask (get_inferred_constraint a b) m ;;; Ok (opt_is r t).

(** [l.pop()]: the shortened list and the last element. *)
Definition pop_last {A} (l : list A) : option (list A * A) :=
  match rev l with [] => None | x :: r => Some (rev r, x) end.

(** [l.remove(x)] for [x in l] *)
Fixpoint list_remove {K} `{EqB K} (x : K) (l : list K) : list K :=
  match l with [] => [] | y :: l' => if eqb x y then l' else y :: list_remove x l' end.

(** [min(l)], first minimum; [max(l)] on integers; both raise ValueError on nothing. *)
Definition py_min {A} (lt : A -> A -> bool) (l : list A) : res A :=
  match l with [] => Raise ValueError | x :: l' => Ok (fold_left (fun best y => if lt y best then y else best) l' x) end.
Definition py_max_Z (l : list Z) : res Z :=
  match l with [] => Raise ValueError | x :: l' => Ok (fold_left Z.max l' x) end.

(** [set(a) == set(b)] *)
Definition set_eqb (a b : list Z) : bool := forallb (fun x => mem x b) a && forallb (fun x => mem x a) b.

Section WithOracles.
  Variables vec D : Type.
  Context `{EqB D}.
  Variable pairwise : list vec -> list vec -> nat -> nat -> D.
  Variable ltb : D -> D -> bool.
  Variable dzero : D.
  Variable dsum : list D -> D.
  Variable mean : list vec -> vec.
  Variable shuffle : list pystr -> list pystr.
  Variable set_order : list Z -> list Z.

  Record kparams := mkKParams { kp_max_iteration : nat; kp_tolerance : D }.

  (** [__init__] (92-136). *)
  Definition make_kmeans (model : pystr) (max_iteration : Z) (tolerance : D) : res kparams :=
    if negb (eqb model (str "COP")) then Raise ValueError                       (* 115 *)
    else if (max_iteration <? 1)%Z then Raise ValueError                        (* 120 *)
    else if ltb tolerance dzero then Raise ValueError                           (* 125 *)
    else Ok (mkKParams (Z.to_nat max_iteration) tolerance).

  (** Attributes left by a call: [self.dict_of_predicted_clusters], [self.clusters],
      [self.centroids]. *)
  Record kmeans := mkKMeans {
    k_predicted : option (dict pystr Z);
    k_clusters : dict pystr Z;
    k_centroids : dict Z vec }.
  Definition fresh_kmeans : kmeans := mkKMeans None [] [].
  Definition set_predicted (p : option (dict pystr Z)) (s : kmeans) := mkKMeans p (k_clusters s) (k_centroids s).
  Definition set_clusters (c : dict pystr Z) (s : kmeans) := mkKMeans (k_predicted s) c (k_centroids s).
  Definition set_centroids (c : dict Z vec) (s : kmeans) := mkKMeans (k_predicted s) (k_clusters s) c.

  Section Call.
    Variable p : kparams.
    Variable m : mgr.
    Variable ids : list pystr.           (* self.list_of_data_IDs *)
    Variable vectors : dict pystr vec.
    Variable nb_clusters : nat.          (* self.nb_clusters *)

    (** [initialize_centroids] (400-427). *)
    Definition initialize_centroids : res (dict Z vec) :=
      let indices := firstn nb_clusters (shuffle ids) in                        (* 413-420 *)
      rfold (fun d i =>                                                         (* 423-425 *)
               x <-- (match nth_error indices i with Some x => Ok x | None => Raise IndexError end) ;;;
               v <-- dlookup x vectors ;;;
               Ok (dset (Z.of_nat i) v d)) (seq 0 nb_clusters) [].

    (** [compute_centroids] (432-465). *)
    Definition compute_centroids (clusters : dict pystr Z) : res (dict Z vec) :=
      rfold (fun centroids cluster_ID =>                                        (* 450 *)
               managed <-- ask get_list_of_managed_data_IDs m ;;;
               members <-- rfilter (fun x => c <-- dlookup x clusters ;;; Ok (Z.eqb c cluster_ID)) managed ;;;
               members <-- rmap (fun x => dlookup x vectors) members ;;;        (* 452-456 *)
               match members with
               | [] => Raise ZeroDivisionError
               | _ => Ok (dset cluster_ID (mean members) centroids)             (* 459-462 *)
               end) (set_order (vals clusters)) [].

    (** Distances between data and centroids (255-272). *)
    Definition distance_table (centroids : dict Z vec) : res (dict pystr (dict Z D)) :=
      managed <-- ask get_list_of_managed_data_IDs m ;;;
      rows <-- rmap (fun x => dlookup x vectors) managed ;;;
      match rows, vals centroids with
      | [], _ | _, [] => Raise ValueError                                       (* vstack of nothing *)
      | _, _ =>
          Ok (fold_left (fun t e => dset (snd e)
                (fold_left (fun r e' => dset (snd e') (pairwise rows (vals centroids) (fst e) (fst e')) r)
                           (enum (keys centroids)) []) t)
              (enum managed) [])
      end.

    (** [not_compatible_cluster_IDs] (280-291). *)
    Definition not_compatible (new_clusters : dict pystr Z) (x : pystr) : res (list Z) :=
      l <-- rfilter (fun y =>
               c <-- dlookup y new_clusters ;;;
               if Z.eqb c (-1) then Ok false else inferred_is m x y CANNOT_LINK) ids ;;;
      rmap (fun y => dlookup y new_clusters) l.

    (** The cluster for one data ID (294-315). *)
    Definition choose_cluster (centroids : dict Z vec) (table : dict pystr (dict Z D))
        (new_clusters : dict pystr Z) (x : pystr) : res Z :=
      nc <-- not_compatible new_clusters x ;;;
      let possible := filter (fun c => negb (mem c nc)) (keys centroids) in     (* 294-296 *)
      match possible with
      | [] =>                                                                   (* 299-303 *)
          mx <-- py_max_Z (vals new_clusters) ;;;
          Ok (Z.max (mx + 1) (Z.of_nat nb_clusters))
      | _ =>                                                                    (* 306-315 *)
          distances <-- rfold (fun d c =>
                           row <-- dlookup x table ;;;
                           dist <-- dlookup c row ;;;
                           Ok (dset dist c d)) possible [] ;;;
          min_distance <-- py_min ltb (keys distances) ;;;
          dlookup min_distance distances
      end.

    (** The loop 318-328 over the data IDs. *)
    Definition propagate (x : pystr) (todo : list pystr) (new_clusters : dict pystr Z) : res (list pystr * dict pystr Z) :=
      rfold (fun st y =>
               b <-- inferred_is m x y MUST_LINK ;;;
               if b then
                 c <-- dlookup x (snd st) ;;;
                 Ok (if mem y (fst st) then list_remove y (fst st) else fst st, dset y c (snd st))
               else Ok st) ids (todo, new_clusters).

    (** The loop 275-328.  The list shrinks at each step: [fuel] bounds its length. *)
    Fixpoint assign_loop (fuel : nat) (centroids : dict Z vec) (table : dict pystr (dict Z D))
        (todo : list pystr) (new_clusters : dict pystr Z) : res (dict pystr Z) :=
      match pop_last todo with                                                  (* 275-277 *)
      | None => Ok new_clusters
      | Some (todo, x) =>
          match fuel with
          | O => Raise OutOfFuel
          | S fuel =>
              c <-- choose_cluster centroids table new_clusters x ;;;
              st <-- propagate x todo (dset x c new_clusters) ;;;
              assign_loop fuel centroids table (fst st) (snd st)
          end
      end.

    (** Assignment of one round (249-328). *)
    Definition assign (centroids : dict Z vec) : res (dict pystr Z) :=
      table <-- distance_table centroids ;;;
      assign_loop (length ids) centroids table ids (dcomp (fun _ => (-1)%Z) ids).

    (** Convergence test (342-370). *)
    Definition has_converged (clusters new_clusters : dict pystr Z) (centroids new_centroids : dict Z vec) : res bool :=
      if set_eqb (vals clusters) (vals new_clusters) then
        new_vecs <-- rmap (fun c => dlookup c new_centroids) (keys centroids) ;;;
        match vals centroids with
        | [] => Raise ValueError                                                (* vstack of nothing *)
        | _ => Ok (ltb (dsum (map (fun i => pairwise (vals centroids) new_vecs i i)
                                  (seq 0 (length (keys centroids))))) (kp_tolerance p))
        end
      else Ok false.

    (** The while loop (240-384): [rounds] is what [max_iteration] leaves.  Returns the
        variable [new_clusters], unbound before the first round. *)
    Fixpoint iterate (rounds : nat) (new_clusters : option (dict pystr Z)) (converged : bool) : M kmeans (option (dict pystr Z)) :=
      if converged then ret new_clusters
      else
        match rounds with
        | O => ret new_clusters
        | S rounds =>
            centroids <- gets k_centroids ;;
            clusters <- gets k_clusters ;;
            new_clusters <- lift (assign centroids) ;;
            new_centroids <- lift (compute_centroids new_clusters) ;;           (* 335 *)
            converged <- lift (has_converged clusters new_clusters centroids new_centroids) ;;
            modify (set_clusters new_clusters) ;;                               (* 376 *)
            modify (set_centroids new_centroids) ;;                             (* 379 *)
            iterate rounds (Some new_clusters) converged
        end.

    (** [_clustering_kmeans_model_COP] (206-395). *)
    Definition clustering_COP : M kmeans (dict pystr Z) :=
      centroids <- lift initialize_centroids ;;                                 (* 225 *)
      modify (set_centroids centroids) ;;
      modify (set_clusters (dcomp (fun _ => (-1)%Z) ids)) ;;                    (* 228 *)
      new_clusters <- iterate (kp_max_iteration p) None false ;;
      clusters <- gets k_clusters ;;
      clusters <- lift (rename_clusters_by_order clusters) ;;                   (* 392 *)
      modify (set_clusters clusters) ;;
      new_clusters <- (match new_clusters with Some c => ret c | None => raise UnboundLocalError end) ;;
      centroids <- lift (compute_centroids new_clusters) ;;                     (* 393 *)
      modify (set_centroids centroids) ;;
      ret clusters.
  End Call.

  (** [cluster] (141-201). *)
  Definition cluster (p : kparams) (m : mgr) (vectors : dict pystr vec) (nb_clusters : option Z) : M kmeans (dict pystr Z) :=
    ids <- lift (ask get_list_of_managed_data_IDs m) ;;                         (* 174 *)
    match nb_clusters with                                                      (* 182 *)
    | None => raise ValueError
    | Some nb =>
        if (nb <? 2)%Z then raise ValueError
        else
          modify (set_predicted None) ;;                                        (* 191 *)
          d <- clustering_COP p m ids vectors (Nat.min (Z.to_nat nb) (length ids)) ;;   (* 184, 195 *)
          modify (set_predicted (Some d)) ;;
          ret d
    end.
End WithOracles.
