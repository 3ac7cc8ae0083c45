(** * A thread that clusters with KMeans while another thread changes the manager
    (/repo/src/cognitivefactory/interactive_clustering/clustering/kmeans.py).

    [cluster] as a program that gives way to the other threads before each read of the manager, as in [Threads.v].  The
    clustering object belongs to the thread: what is computed from its attributes alone is done at once, as in [KMeans.v].

    Line numbers refer to kmeans.py.  Simplifications: those of [KMeans.v] and [Threads.v]; [get_list_of_managed_data_IDs]
    copies the keys of a dictionary at once.  The code reads this list several times for the distances (255-272) and for the
    centroids (450-456); the program reads it once for the distances of a round and once for the centroids of a round, which is the
    same when no other thread adds or deletes data. *)

From Coq Require Import List Bool Arith ZArith.
From Verif Require Import Base Manager Rename Sampling KMeans Threads Readers SampleThread.
Import ListNotations.
Open Scope nat_scope.
Open Scope t_scope.
Open Scope py_scope.

(** [self.constraints_manager.get_inferred_constraint(a, b) == t] *)
Definition p_inferred_is (a b t : pystr) : prog bool :=
  r <~ p_get_inferred_constraint a b ;; Done (Ok (opt_is r t)).

(** [for x in l], with variables that the loop assigns *)
Fixpoint pfold {A S} (f : S -> A -> prog S) (l : list A) (s : S) : prog S :=
  match l with
  | [] => Done (Ok s)
  | x :: l' => s' <~ f s x ;; pfold f l' s'
  end.

(** [not_compatible_cluster_IDs] (280-291). *)
Definition p_not_compatible (ids : list pystr) (new_clusters : dict pystr Z) (x : pystr) : prog (list Z) :=
  l <~ pfilter (fun y =>
         c <~ Done (dlookup y new_clusters) ;;
         if Z.eqb c (-1) then Done (Ok false) else p_inferred_is x y CANNOT_LINK) ids ;;
  Done (rmap (fun y => dlookup y new_clusters) l).

(** The loop 318-328 over the data IDs. *)
Definition p_propagate (ids : list pystr) (x : pystr) (todo : list pystr) (new_clusters : dict pystr Z) : prog (list pystr * dict pystr Z) :=
  pfold (fun st y =>
           b <~ p_inferred_is x y MUST_LINK ;;
           if b then
             Done (c <-- dlookup x (snd st) ;;;
                   Ok (if mem y (fst st) then list_remove y (fst st) else fst st, dset y c (snd st)))
           else Done (Ok st)) ids (todo, new_clusters).

Section WithOracles.
  Variables vec D : Type.
  Context `{EqB D}.
  Variable pairwise : list vec -> list vec -> nat -> nat -> D.
  Variable ltb : D -> D -> bool.
  Variable dsum : list D -> D.
  Variable mean : list vec -> vec.
  Variable shuffle : list pystr -> list pystr.
  Variable set_order : list Z -> list Z.

  (** The cluster for one data ID, when some clusters are not compatible (294-315), without the manager. *)
  Definition choose_among (nb_clusters : nat) (centroids : dict Z vec) (table : dict pystr (dict Z D))
      (new_clusters : dict pystr Z) (x : pystr) (nc : list Z) : res Z :=
    let possible := filter (fun c => negb (mem c nc)) (keys centroids) in     (* 294-296 *)
    match possible with
    | [] =>                                                                   (* 299-303 *)
        mx <-- py_max_Z (vals new_clusters) ;;;
        Ok (Z.max (mx + 1) (Z.of_nat nb_clusters))
    | _ =>                                                                    (* 306-315 *)
        distances <-- rfold (fun d c =>
                         row <-- dlookup x table ;;;
                         dist <-- dlookup c row ;;;
                         Ok (dset dist c d)) possible [] ;;;
        min_distance <-- py_min ltb (keys distances) ;;;
        dlookup min_distance distances
    end.

  (** The loop 275-328.  The list shrinks at each step: [fuel] bounds its length. *)
  Fixpoint p_assign_loop (ids : list pystr) (nb_clusters fuel : nat) (centroids : dict Z vec) (table : dict pystr (dict Z D))
      (todo : list pystr) (new_clusters : dict pystr Z) : prog (dict pystr Z) :=
    match pop_last todo with                                                  (* 275-277 *)
    | None => Done (Ok new_clusters)
    | Some (todo, x) =>
        match fuel with
        | O => Done (Raise OutOfFuel)
        | S fuel =>
            nc <~ p_not_compatible ids new_clusters x ;;
            c <~ Done (choose_among nb_clusters centroids table new_clusters x nc) ;;
            st <~ p_propagate ids x todo (dset x c new_clusters) ;;
            p_assign_loop ids nb_clusters fuel centroids table (fst st) (snd st)
        end
    end.

  (** Assignment of one round (249-328). *)
  Definition p_assign (ids : list pystr) (vectors : dict pystr vec) (nb_clusters : nat) (centroids : dict Z vec) : prog (dict pystr Z) :=
    table <~ pread (fun m => distance_table vec D pairwise m vectors centroids) ;;
    p_assign_loop ids nb_clusters (length ids) centroids table ids (dcomp (fun _ => (-1)%Z) ids).

  (** The while loop (240-384), with [self.clusters] and [self.centroids] as arguments. Returns the variables [new_clusters] and
      [self.clusters]. *)
  Fixpoint p_iterate (p : kparams D) (ids : list pystr) (vectors : dict pystr vec) (nb_clusters rounds : nat)
      (clusters : dict pystr Z) (centroids : dict Z vec) (new_clusters : option (dict pystr Z)) (converged : bool)
      : prog (option (dict pystr Z) * dict pystr Z) :=
    if converged then Done (Ok (new_clusters, clusters))
    else
      match rounds with
      | O => Done (Ok (new_clusters, clusters))
      | S rounds =>
          new_clusters <~ p_assign ids vectors nb_clusters centroids ;;
          new_centroids <~ pread (fun m => compute_centroids vec mean set_order m vectors new_clusters) ;;   (* 335 *)
          converged <~ Done (has_converged vec D pairwise ltb dsum p clusters new_clusters centroids new_centroids) ;;
          p_iterate p ids vectors nb_clusters rounds new_clusters new_centroids (Some new_clusters) converged
      end.

  (** [cluster] (141-201) with [_clustering_kmeans_model_COP] (206-395). *)
  Definition p_kmeans (p : kparams D) (vectors : dict pystr vec) (nb_clusters : option Z) : prog (dict pystr Z) :=
    ids <~ p_ids ;;                                                           (* 174 *)
    match nb_clusters with                                                    (* 182 *)
    | None => Done (Raise ValueError)
    | Some nb =>
        if (nb <? 2)%Z then Done (Raise ValueError)
        else
          let nb_clusters := Nat.min (Z.to_nat nb) (length ids) in            (* 184 *)
          centroids <~ Done (initialize_centroids vec shuffle ids vectors nb_clusters) ;;   (* 225 *)
          r <~ p_iterate p ids vectors nb_clusters (kp_max_iteration D p) (dcomp (fun _ => (-1)%Z) ids) centroids None false ;;
          clusters <~ Done (rename_clusters_by_order (snd r)) ;;              (* 392 *)
          new_clusters <~ Done (match fst r with Some c => Ok c | None => Raise UnboundLocalError end) ;;
          centroids <~ pread (fun m => compute_centroids vec mean set_order m vectors new_clusters) ;;   (* 393 *)
          Done (Ok clusters)
    end.
End WithOracles.
