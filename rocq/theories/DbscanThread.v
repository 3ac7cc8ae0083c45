(** * A thread that clusters with DBScan while another thread changes the manager
    (/repo/src/cognitivefactory/interactive_clustering/clustering/dbscan.py).

    [cluster] as a program that gives way to the other threads before each read of the manager, as in [Threads.v].  The
    clustering object belongs to the thread: what is computed from its attributes alone is done at once, as in [Dbscan.v].

    Line numbers refer to dbscan.py.  Simplifications: those of [Dbscan.v] and [Threads.v]; [get_list_of_managed_data_IDs]
    copies the keys of a dictionary at once.  The code reads this list several times for the distances between the data
    (205-217); the program reads it once for all of them, which is the same when no other thread adds or deletes data. *)

From Coq Require Import String List Bool Arith ZArith.
From Verif Require Import Base Manager Rename Sampling KMeans Hierarchical Dbscan Threads Readers SampleThread KMeansThread.
Import ListNotations.
Open Scope nat_scope.
Open Scope t_scope.
Open Scope py_scope.

(** [[f(x) for x in l]] *)
Fixpoint pmap {A B} (f : A -> prog B) (l : list A) : prog (list B) :=
  match l with
  | [] => Done (Ok [])
  | x :: l' => y <~ f x ;; ys <~ pmap f l' ;; Done (Ok (y :: ys))
  end.

(** The lists of data that are not compatible, then the loop that looks for a list that is not empty (262-282, 467-487). *)
Definition p_conflict (xs ys : list pystr) : prog bool :=
  rows <~ pmap (fun j => pfilter (fun i => p_inferred_is j i CANNOT_LINK) ys) xs ;;
  Done (Ok (existsb (fun r => negb (Nat.eqb (length r) 0)) rows)).

(** [compatible_cluster_IDs] (304-316). *)
Definition p_compatible (l : list pystr) : prog (dict pystr (list pystr)) :=
  pmap (fun j => c <~ pfilter (fun i => p_inferred_is j i MUST_LINK) l ;; Done (Ok (j, c))) l.

Section WithOracles.
  Variables vec D : Type.
  Variable pairwise : list vec -> nat -> nat -> D.
  Variables leb ltb : D -> D -> bool.
  Variable of_nat : nat -> D.
  Variable setlist : list pystr -> list pystr.

  (** What the body of the loop 239-297 does with the neighbors, once it is known whether they are in conflict. *)
  Definition label_local (p : db_params D) (s : locals) (x : pystr) (neighbors : list pystr) (conflict : bool) : locals :=
    if length neighbors <? db_min_samples D p then (dset x NOISE (fst s), snd s)                          (* 284 *)
    else if conflict then                                                                                 (* 287 *)
      (fold_left (fun d y => dset y SINGLE_CORE d) neighbors (fst s), fold_left (fun d y => dset y [y] d) neighbors (snd s))
    else (dset x CORE (fst s), dset x neighbors (snd s)).                                                 (* 295 *)
  Definition p_local_step (p : db_params D) (table : dict pystr (dict pystr D)) (l : list pystr) (s : locals) (x : pystr) : prog locals :=
    lab <~ Done (dlookup x (fst s)) ;;
    if is_single lab then Done (Ok s)                                                                     (* 240 *)
    else
      neighbors <~ Done (possible <-- rfilter (fun y => lab <-- dlookup y (fst s) ;;; Ok (negb (is_single lab))) l ;;;             (* 242 *)
                         rfilter (fun y => d <-- table_get D table (x, y) ;;; Ok (leb d (db_eps D p))) possible) ;;                (* 249-259 *)
      conflict <~ p_conflict neighbors neighbors ;;
      Done (Ok (label_local p s x neighbors conflict)).

  (** The loop over the data with MUST_LINKs (304-414), without the manager. *)
  Definition merge_compatible (l : list pystr) (s : locals) (compatible : dict pystr (list pystr)) : res merging :=
    let clusters_of := map (fun j => (j, filter (fun c => match dget c (snd s) with Some pts => mem j pts | None => false end) (keys (snd s)))) l in
    r <-- rfold (merge_point setlist (fst s) (snd s) compatible clusters_of) l ([], (dcomp (fun _ => NONE) l, dcomp (fun _ => []) l)) ;;;
    Ok (snd r).

  (** The [while] loop (441-501) for one core cluster. *)
  Fixpoint p_absorb (p : db_params D) (table : dict pystr (dict pystr D)) (fuel : nat) (core : list pystr) (local : dict pystr (list pystr)) :
      prog (list pystr * dict pystr (list pystr)) :=
    match fuel with
    | O => Done (Raise OutOfFuel)
    | S fuel' =>
        match local with
        | [] => Done (Ok (core, local))
        | _ =>
            ds <~ Done (rmap (fun e => d <-- cluster_distance D ltb table core (snd e) ;;; Ok (fst e, d)) local) ;;
            closest <~ Done (py_min str_ltb (keys ds)) ;;                         (* 458 *)
            d <~ Done (dlookup closest ds) ;;
            if ltb (db_eps D p) d then Done (Ok (core, local))                    (* 462 *)
            else
              pts <~ Done (dlookup closest local) ;;
              conflict <~ p_conflict core pts ;;
              if conflict : bool then Done (Ok (core, local))                     (* 501 *)
              else p_absorb p table fuel' (setlist (core ++ pts)) (dpop closest local)   (* 491-498 *)
        end
    end.

  (** The loop 438-501 over the core clusters. *)
  Fixpoint p_merge_cannot_links (p : db_params D) (table : dict pystr (dict pystr D)) (core local : dict pystr (list pystr)) :
      prog (dict pystr (list pystr) * dict pystr (list pystr)) :=
    match core with
    | [] => Done (Ok ([], local))
    | (k, pts) :: core' =>
        r <~ p_absorb p table (S (length local)) pts local ;;
        r' <~ p_merge_cannot_links p table core' (snd r) ;;
        Done (Ok ((k, fst r) :: fst r', snd r'))
    end.

  (** The numbering (504-543), without the manager. *)
  Definition number_clusters (p : db_params D) (ids : list pystr) (core local : dict pystr (list pystr)) : res (dict pystr Z) :=
    d <-- rename_clusters_by_order (fst (final_local D leb of_nat p (vals local) (final_core (vals core) ([], 0%Z)))) ;;;
    Ok (fst (final_ignored ids d)).

  (** [cluster] (155-551). *)
  Definition p_dbscan (p : db_params D) (vectors : dict pystr vec) (nb_clusters : option Z) : prog (dict pystr Z) :=
    ids <~ p_ids ;;                                                               (* 188 *)
    match nb_clusters with
    | Some _ => Done (Raise ValueError)                                           (* 196 *)
    | None =>
        table <~ pread (fun m => pairwise_table vec D pairwise m vectors) ;;      (* 205-217 *)
        s <~ pfold (p_local_step p table ids) ids (dcomp (fun _ => UNLABELED) ids, []) ;;   (* 239-297 *)
        compatible <~ p_compatible ids ;;
        merged <~ Done (merge_compatible ids s compatible) ;;
        core <~ Done (clean ids merged) ;;
        r <~ p_merge_cannot_links p table core (snd s) ;;
        Done (number_clusters p ids (fst r) (snd r))
    end.
End WithOracles.
