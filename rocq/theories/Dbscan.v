(** * Model of [DBScanConstrainedClustering]
    (/repo/src/cognitivefactory/interactive_clustering/clustering/dbscan.py).

    Simplifications:
    - the manager is only queried through getters; a query is its answer [ask q m];
    - [vectors] is a dictionary, the manager is a manager (the two isinstance tests pass);
    - [pairwise rows i j] is the entry of [sklearn.metrics.pairwise_distances], arbitrary;
      [leb], [ltb] are Python's [<=], [<] on floats, [of_nat] an integer among them;
    - [setlist l] is [list(set(l))]: the elements of [l], once each, in the unknown order
      of the hash table.  The theorems assume only that;
    - [self.constraints_manager], [self.vectors], [self.list_of_data_IDs],
      [self.dict_of_pairwise_distances], the two dictionaries of local clusters and
      [self.dict_of_data_IDs_labels] are set by every call before they are read and are
      passed as arguments;
    - the value ["NONE"] of [dict_of_assigned_local_cluster] is the string of the code: an ID
      may have this name;
    - the number of turns of the [while] loop is bounded by [fuel]; [OutOfFuel] is proved
      unreachable;
    - verbose output, warnings, [random_seed] (never read) are dropped. *)

From Coq Require Import String List Bool Arith ZArith.
From Verif Require Import Base Manager Sampling Rename KMeans Hierarchical Spectral.
Import ListNotations.
Open Scope nat_scope.
Open Scope py_scope.

(** Values of [self.dict_of_data_IDs_labels]. *)
Inductive label := UNLABELED | NOISE | CORE | SINGLE_CORE.
Definition is_single (l : label) : bool := match l with SINGLE_CORE => true | _ => false end.
Definition is_noise (l : label) : bool := match l with NOISE => true | _ => false end.

Definition NONE : pystr := str "NONE".

Section WithOracles.
  Variables vec D : Type.
  Variable pairwise : list vec -> nat -> nat -> D.
  Variables leb ltb : D -> D -> bool.
  Variable of_nat : nat -> D.
  Variable setlist : list pystr -> list pystr.

  (** Constructor parameters. *)
  Record db_params := mkDBParams { db_eps : D; db_min_samples : nat }.

  (** [__init__] (98-150). *)
  Definition make_dbscan (eps : D) (min_samples : Z) : res db_params :=
    if leb eps (of_nat 0) then Raise ValueError                                   (* 129 *)
    else if (min_samples <=? 0)%Z then Raise ValueError                           (* 134 *)
    else Ok (mkDBParams eps (Z.to_nat min_samples)).

  (** Attributes left by a call. *)
  Record dbscan := mkDbscan {
    db_predicted : option (dict pystr Z);
    db_nb_noise : Z;           (* number_of_single_noise_point_clusters *)
    db_nb_regular : Z;         (* number_of_regular_clusters *)
    db_nb_clusters : Z }.      (* number_of_clusters *)
  Definition fresh_dbscan : dbscan := mkDbscan None 0 0 0.                        (* 145-150 *)

  Section Run.
    Variable p : db_params.
    Variable m : mgr.
    Variable table : dict pystr (dict pystr D).
    Variable l : list pystr.

    (** [[[i for i in right if inferred(j, i) == "CANNOT_LINK"] for j in left]], then the loop
        that looks for a non-empty list (262-282, 467-487). *)
    Definition conflict (xs ys : list pystr) : res bool :=
      rows <-- rmap (fun j => rfilter (fun i => inferred_is m j i CANNOT_LINK) ys) xs ;;;
      Ok (existsb (fun r => negb (Nat.eqb (length r) 0)) rows).

    (** Labels and local clusters. *)
    Definition locals := (dict pystr label * dict pystr (list pystr))%type.

    (** Body of the loop 239-297. *)
    Definition local_step (s : locals) (x : pystr) : res locals :=
      let '(labels, local) := s in
      lab <-- dlookup x labels ;;;
      if is_single lab then Ok s                                                  (* 240 *)
      else
        possible <-- rfilter (fun y => lab <-- dlookup y labels ;;; Ok (negb (is_single lab))) l ;;;    (* 242 *)
        neighbors <-- rfilter (fun y => d <-- table_get D table (x, y) ;;; Ok (leb d (db_eps p))) possible ;;;  (* 249-259 *)
        conflict <-- conflict neighbors neighbors ;;;
        if length neighbors <? db_min_samples p then Ok (dset x NOISE labels, local)                     (* 284 *)
        else if conflict : bool then                                                                     (* 287 *)
          Ok (fold_left (fun d y => dset y SINGLE_CORE d) neighbors labels,
              fold_left (fun d y => dset y [y] d) neighbors local)
        else Ok (dset x CORE labels, dset x neighbors local).                                            (* 295 *)

    Definition local_clusters : res locals :=
      rfold local_step l (dcomp (fun _ => UNLABELED) l, []).

    (** Assignments and core local clusters. *)
    Definition merging := (dict pystr pystr * dict pystr (list pystr))%type.

    Section Merge.
      Variable labels : dict pystr label.
      Variable local : dict pystr (list pystr).
      Variable compatible : dict pystr (list pystr).
      Variable clusters_of : dict pystr (list pystr).

      (** The loop over [clusters_of_data_IDs[x]] (355-359, 390-394): the test is about [x]. *)
      Fixpoint pick (assigned : dict pystr pystr) (x current : pystr) (cs : list pystr) : res pystr :=
        match cs with
        | [] => Ok current
        | c :: cs' => a <-- dlookup x assigned ;;; if eqb a NONE then Ok c else pick assigned x current cs'
        end.

      Definition local_cluster_of (assigned : dict pystr pystr) (x : pystr) : res pystr :=
        cs <-- dlookup x clusters_of ;;;
        c0 <-- py_nth cs 0 ;;;
        pick assigned x c0 cs.

      (** Claim the points that are still free (366-370, 399-403). *)
      Definition claim (c : pystr) (assigned : dict pystr pystr) (pts : list pystr) : res (dict pystr pystr * list pystr) :=
        rfold (fun s k => let '(assigned, taken) := s in
                 a <-- dlookup k assigned ;;;
                 Ok (if eqb a NONE then (dset k c assigned, taken ++ [k]) else s)) pts (assigned, []).

      (** Body of the loop over [data_ID_j] (362-411). *)
      Definition merge_step (i c : pystr) (pts : list pystr) (s : merging) (j : pystr) : res merging :=
        let '(assigned, core) := s in
        lab <-- dlookup j labels ;;;
        more <-- (if is_noise lab then Ok pts                                     (* 363 *)
                  else
                    ptsj <-- (if mem j (keys local) then Ok [j]                   (* 383 *)
                              else cj <-- local_cluster_of assigned j ;;; dlookup cj local) ;;;
                    Ok (setlist (pts ++ ptsj))) ;;;                               (* 400 *)
        st <-- claim c assigned more ;;;
        let '(assigned, taken) := st in
        old <-- dlookup c core ;;;
        Ok (assigned, dset c (setlist (old ++ taken ++ [i; j])) core).

      (** Body of the loop over [data_ID_i] (335-414). *)
      Definition merge_point (s : list pystr * merging) (i : pystr) : res (list pystr * merging) :=
        let '(analyzed, (assigned, core)) := s in
        if mem i analyzed then Ok s                                               (* 336 *)
        else
          comp <-- dlookup i compatible ;;;
          st <-- (match comp with
                  | [] => Ok (assigned, core)                                     (* 337 *)
                  | _ =>
                      lab <-- dlookup i labels ;;;
                      cp <-- (if is_noise lab then Ok (i, [i])                    (* 343 *)
                              else if mem i (keys local) then pts <-- dlookup i local ;;; Ok (i, pts)    (* 347 *)
                              else c <-- local_cluster_of assigned i ;;; pts <-- dlookup c local ;;; Ok (c, pts)) ;;;
                      rfold (merge_step i (fst cp) (snd cp)) comp (assigned, core)
                  end) ;;;
          Ok (analyzed ++ [i], st).
    End Merge.

    (** The three dictionaries and the loop (304-414). *)
    Definition merge_must_links (s : locals) : res merging :=
      let '(labels, local) := s in
      compatible <-- rmap (fun j => c <-- rfilter (fun i => inferred_is m j i MUST_LINK) l ;;; Ok (j, c)) l ;;;
      let clusters_of := map (fun j => (j, filter (fun c => match dget c local with Some pts => mem j pts | None => false end) (keys local))) l in
      r <-- rfold (merge_point labels local compatible clusters_of) l
              ([], (dcomp (fun _ => NONE) l, dcomp (fun _ => []) l)) ;;;
      Ok (snd r).

    (** [d.pop(k)]: KeyError when absent. *)
    Definition dpop_strict {V} (k : pystr) (d : dict pystr V) : res (dict pystr V) :=
      if mem k (keys d) then Ok (dpop k d) else Raise KeyError.

    (** The two cleaning loops (417-432). *)
    Definition clean (s : merging) : res (dict pystr (list pystr)) :=
      let '(assigned, core) := s in
      core <-- rfold (fun core x =>
                 c <-- dlookup x core ;;;
                 match c with
                 | [] => dpop_strict x core                                       (* 418 *)
                 | _ =>
                     a <-- dlookup x assigned ;;;
                     if eqb a x then Ok core else dpop_strict x core              (* 421 *)
                 end) l core ;;;
      rfold (fun core x =>                                                        (* 427-432 *)
               if mem x (keys core) then
                 c <-- dlookup x core ;;; if length c <? 2 then dpop_strict x core else Ok core
               else Ok core) l core.

    (** The smallest distance between two clusters (449-455). *)
    Definition cluster_distance (xs ys : list pystr) : res D :=
      ds <-- rmap (table_get D table) (list_prod xs ys) ;;; py_min ltb ds.

    (** The [while] loop (441-501) for one core cluster: its final points and the local clusters left. *)
    Fixpoint absorb (fuel : nat) (core : list pystr) (local : dict pystr (list pystr)) : res (list pystr * dict pystr (list pystr)) :=
      match fuel with
      | O => Raise OutOfFuel
      | S fuel' =>
          match local with
          | [] => Ok (core, local)
          | _ =>
              ds <-- rmap (fun e => d <-- cluster_distance core (snd e) ;;; Ok (fst e, d)) local ;;;
              closest <-- py_min str_ltb (keys ds) ;;;                            (* 458: min over the keys *)
              d <-- dlookup closest ds ;;;
              if ltb (db_eps p) d then Ok (core, local)                           (* 462 *)
              else
                pts <-- dlookup closest local ;;;
                conflict <-- conflict core pts ;;;
                if conflict : bool then Ok (core, local)                          (* 501 *)
                else absorb fuel' (setlist (core ++ pts)) (dpop closest local)    (* 491-498 *)
          end
      end.

    (** The loop 438-501 over the core clusters. *)
    Fixpoint merge_cannot_links (core : dict pystr (list pystr)) (local : dict pystr (list pystr)) :
        res (dict pystr (list pystr) * dict pystr (list pystr)) :=
      match core with
      | [] => Ok ([], local)
      | (k, pts) :: core' =>
          r <-- absorb (S (length local)) pts local ;;;
          r' <-- merge_cannot_links core' (snd r) ;;;
          Ok ((k, fst r) :: fst r', snd r')
      end.

    (** [for x in pts: d[x] = n] *)
    Definition assign_all (d : dict pystr Z) (pts : list pystr) (n : Z) : dict pystr Z :=
      fold_left (fun d x => dset x n d) pts d.

    (** The loop 509-512. *)
    Fixpoint final_core (cs : list (list pystr)) (s : dict pystr Z * Z) : dict pystr Z * Z :=
      match cs with
      | [] => s
      | pts :: cs' => final_core cs' (assign_all (fst s) pts (snd s), (snd s + 1)%Z)
      end.

    (** The loop 515-528; removing from the list the points already in the dictionary. *)
    Fixpoint final_local (cs : list (list pystr)) (s : dict pystr Z * Z) : dict pystr Z * Z :=
      match cs with
      | [] => s
      | pts :: cs' =>
          let pts := filter (fun x => negb (mem x (keys (fst s)))) pts in
          final_local cs' (if leb (db_eps p) (of_nat (length pts)) then (assign_all (fst s) pts (snd s), (snd s + 1)%Z) else s)  (* 525 *)
      end.

    (** The loop 540-543. *)
    Definition final_ignored (d : dict pystr Z) : dict pystr Z * Z :=
      fold_left (fun s x => if mem x (keys (fst s)) then s else (dset x (snd s) (fst s), (snd s - 1)%Z)) l (d, (-1)%Z).
  End Run.

  (** [cluster] (155-551). *)
  Definition cluster (p : db_params) (m : mgr) (vectors : dict pystr vec) (nb_clusters : option Z) : M dbscan (dict pystr Z) :=
    ids <- lift (ask get_list_of_managed_data_IDs m) ;;                           (* 188 *)
    match nb_clusters with
    | Some _ => raise ValueError                                                  (* 196 *)
    | None =>
        table <- lift (pairwise_table vec D pairwise m vectors) ;;                (* 205-217 *)
        modify (fun s => mkDbscan (Some []) (db_nb_noise s) (db_nb_regular s) (db_nb_clusters s)) ;;   (* 224 *)
        s <- lift (local_clusters p m table ids) ;;
        merged <- lift (merge_must_links m ids s) ;;
        core <- lift (clean ids merged) ;;
        r <- lift (merge_cannot_links p m table core (snd s)) ;;
        let d := fst (final_local p (vals (snd r)) (final_core (vals (fst r)) ([], 0%Z))) in
        d <- lift (rename_clusters_by_order d) ;;                                 (* 531 *)
        let regular := Z.of_nat (length (dedup (vals d))) in                      (* 536 *)
        let r := final_ignored ids d in
        let noise := (- (snd r + 1))%Z in                                         (* 546 *)
        modify (fun _ => mkDbscan (Some (fst r)) noise regular (regular + noise)%Z) ;;
        ret (fst r)
    end.
End WithOracles.
