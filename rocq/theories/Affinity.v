(** * Model of [AffinityPropagationConstrainedClustering] and of
    [_affinity_propagation_constrained]
    (/repo/src/cognitivefactory/interactive_clustering/clustering/affinity_propagation.py).

    Simplifications:
    - the manager is only queried through getters; a query is its answer [ask q m];
    - [vectors] is a dictionary, the manager is a manager (the two isinstance tests pass);
    - numbers are values of an abstract type [D] with arbitrary operations (record [ops]),
      so that nothing is assumed about floats unless a theorem says so; [similarity rows i j]
      is the entry of [-pairwise_distances(vstack(rows))];
    - numpy arrays are lists of rows.  Indices computed by [argmax] are taken below the
      length of a non-empty array, as numpy does ([valid_argmax] in the theorems);
      [nth] with a default is only used at such indices;
    - arrays updated in place are rebuilt; no two names share an array that is modified
      ([Sp = S], line 349, happens after the last modification of [S]);
    - [self.list_of_data_IDs], [self.vectors] are set by every call before they are read and
      are passed as arguments; the FutureWarning, verbose output and
      [cluster_centers_indices] (never read after line 457) are dropped. *)

From Coq Require Import String List Bool Arith ZArith.
From Verif Require Import Base Manager Sampling Rename KMeans Spectral.
Import ListNotations.
Open Scope nat_scope.
Open Scope py_scope.

(** What numpy and Python do with numbers. *)
Record ops (D : Type) := mkOps {
  o_zero : D;
  o_ninf : D;                          (* -np.inf *)
  o_add : D -> D -> D;
  o_sub : D -> D -> D;
  o_neg : D -> D;
  o_max2 : D -> D -> D;                (* np.maximum *)
  o_pymax : list D -> D;               (* max(...) on a non-empty generator *)
  o_max : list D -> D;                 (* np.max along an axis *)
  o_min : list D -> D;                 (* np.min *)
  o_argmax : list D -> nat;            (* np.argmax along an axis *)
  o_sum : list D -> D;                 (* np.sum along an axis *)
  o_pos : D -> bool;                   (* x > 0 *)
  o_ge : D -> D -> bool;               (* x >= y *)
  o_eq : D -> D -> bool;               (* x == y *)
  o_median : list D -> D;              (* np.median *)
  o_double : D -> D;                   (* 2 * x *)
  o_keep : D -> D;                     (* x * damping *)
  o_new : D -> D;                      (* x * (1 - damping) *)
  o_noise : nat -> nat -> D -> D }.    (* S[i, j] after line 316 *)

Section AP.
  Context {D : Type}.
  Variable o : ops D.
  Notation zero := (o_zero D o).
  Notation add := (o_add D o).
  Notation sub := (o_sub D o).
  Notation max2 := (o_max2 D o).

  (** [M[i, j]] *)
  Definition mget (M : matrix D) (i j : nat) : D := nth j (nth i M []) zero.
  (** [M.flat] *)
  Definition flat (M : matrix D) : list D := concat M.
  (** [M.shape[0]] *)
  Definition nrows (M : matrix D) : nat := length M.

  (** [_equal_similarities_and_preferences] (249-260); there are at least two rows. *)
  Definition equal_similarities_and_preferences (W : matrix D) (preference : D) : bool :=
    let off := flat_map (fun i => map (mget W i) (filter (fun j => negb (Nat.eqb i j)) (seq 0 (nrows W)))) (seq 0 (nrows W)) in
    o_eq D o preference preference &&
    match off with [] => true | x :: _ => forallb (fun y => o_eq D o y x) off end.

  (** Similarities between meta-points (320-325). *)
  Definition meta_similarities (W : matrix D) (must_links : list (list nat)) : res (matrix D) :=
    rmap (fun m1 => rmap (fun m2 =>
            match list_prod m1 m2 with
            | [] => Raise ValueError
            | l => Ok (o_pymax D o (map (fun kl => mget W (fst kl) (snd kl)) l))
            end) must_links) must_links.

  (** Similarities between data and meta-points (335-340), one row per data. *)
  Definition mixed_similarities (W : matrix D) (must_links : list (list nat)) : res (matrix D) :=
    rmap (fun i => rmap (fun Pm =>
            if existsb (Nat.eqb i) Pm then Ok zero
            else match Pm with [] => Raise ValueError | _ => Ok (o_pymax D o (map (mget W i) Pm)) end) must_links)
         (seq 0 (nrows W)).

  (** [np.block] (343). *)
  Definition block (W MPS : matrix D) (n_must_links : nat) : matrix D :=
    let low := o_double D o (o_min D o (flat W)) in
    mtab (nrows W + n_must_links) (nrows W + n_must_links) (fun i j =>
      if i <? nrows W then if j <? nrows W then mget W i j else mget MPS i (j - nrows W)
      else if j <? nrows W then mget MPS j (i - nrows W) else low).

  (** [S.flat[:: n + 1] = preference] (346) *)
  Definition with_preference (W : matrix D) (preference : D) : matrix D :=
    mtab (nrows W) (nrows W) (fun i j => if Nat.eqb i j then preference else mget W i j).

  Section Passing.
    Variable absolute_must_links : bool.
    Variables n_samples n max_iteration convergence_iteration : nat.   (* n is n_similarities *)
    Variable cannot_links : list (nat * nat).
    Variable W : matrix D.                                              (* S *)

    (** The variables of the loop; [p_e] has one column per iteration of the window. *)
    Record passing := mkPassing {
      p_A : matrix D; p_R : matrix D; p_Sp : matrix D;
      p_Q1 : list (matrix D); p_Q2 : list (matrix D);
      p_E : list bool; p_e : list (list bool) }.

    (** Before the loop (348-363). *)
    Definition start_passing : passing :=
      let zeros := mtab n n (fun _ _ => zero) in
      mkPassing zeros zeros (if absolute_must_links then W else zeros)
        (map (fun _ => zeros) cannot_links) (map (fun _ => zeros) cannot_links)
        [] (repeat (repeat false n) convergence_iteration).

    (** Similarities corrected by CANNOT_LINK messages (374-376). *)
    Definition corrected (Q2 : list (matrix D)) : matrix D :=
      mtab n n (fun i j =>
        if i <? n_samples then mget W i j
        else add (mget W i j)
               (fold_left add (map (fun e => mget (snd e) i j)
                  (filter (fun e => Nat.eqb i (fst (fst e)) || Nat.eqb i (snd (fst e))) (combine cannot_links Q2))) zero)).

    (** Responsibilities (386-399). *)
    Definition responsibilities (Sp A R : matrix D) : matrix D :=
      let tmp := mtab n n (fun i j => add (mget A i j) (mget Sp i j)) in               (* 386 *)
      let I := map (o_argmax D o) tmp in                                               (* 387 *)
      let Y := map (fun e => nth (snd e) (fst e) zero) (combine tmp I) in              (* 388 *)
      let tmp := map (fun e => list_set (fst e) (snd e) (o_ninf D o)) (combine tmp I) in (* 389 *)
      let Y2 := map (o_max D o) tmp in                                                 (* 390 *)
      let tmp := mtab n n (fun i j =>
                   if Nat.eqb j (nth i I 0) then sub (mget Sp i j) (nth i Y2 zero)     (* 394 *)
                   else sub (mget Sp i j) (nth i Y zero)) in                           (* 393 *)
      mtab n n (fun i j => add (o_keep D o (mget R i j)) (o_new D o (mget tmp i j))).  (* 397-399 *)

    (** Availabilities (402-414). *)
    Definition availabilities (R A : matrix D) : matrix D :=
      let tmp := mtab n n (fun i j => if Nat.eqb i j then mget R i j else max2 (mget R i j) zero) in  (* 402-403 *)
      let sums := map (fun j => o_sum D o (map (fun i => mget tmp i j) (seq 0 n))) (seq 0 n) in
      let tmp := mtab n n (fun i j => sub (mget tmp i j) (nth j sums zero)) in         (* 406 *)
      let tmp := mtab n n (fun i j => if Nat.eqb i j then mget tmp i j else max2 (mget tmp i j) zero) in  (* 407-409 *)
      mtab n n (fun i j => sub (o_keep D o (mget A i j)) (o_new D o (mget tmp i j))).  (* 412-414 *)

    (** One iteration (367-418). *)
    Definition pass (it : nat) (p : passing) : passing :=
      let Sp := if absolute_must_links then p_Sp p else corrected (p_Q2 p) in
      let Q1 := if absolute_must_links then p_Q1 p
                else map (fun q => mtab n n (fun i j => sub (add (mget (p_A p) i j) (mget (p_R p) i j)) (mget q i j))) (p_Q2 p) in  (* 379 *)
      let Q2 := if absolute_must_links then p_Q2 p
                else map (fun q => mtab n n (fun i j => o_neg D o (max2 zero (mget q i j)))) (p_Q1 p) in   (* 382 *)
      let R := responsibilities Sp (p_A p) (p_R p) in
      let A := availabilities R (p_A p) in
      let E := map (fun i => o_pos D o (add (mget A i i) (mget R i i))) (seq 0 n) in   (* 417 *)
      mkPassing A R Sp Q1 Q2 E (list_set (p_e p) (it mod convergence_iteration) E).    (* 418 *)

    Definition count_true (l : list bool) : nat := length (filter (fun b => b) l).

    (** The end of an iteration (419-424): whether to break. *)
    Definition stops (it : nat) (p : passing) : bool :=
      if convergence_iteration <=? it then
        let se := map (fun i => count_true (map (fun col => nth i col false) (p_e p))) (seq 0 n) in     (* 422 *)
        let unconverged := negb (Nat.eqb (count_true (map (fun x => Nat.eqb x convergence_iteration || Nat.eqb x 0) se)) n) in
        (negb unconverged && (0 <? count_true (p_E p))) || Nat.eqb it max_iteration    (* 424 *)
      else false.

    (** The loop (367-428): [remaining] iterations are left.  The first component is
        [never_converged]. *)
    Fixpoint iterations (remaining it : nat) (p : passing) : bool * passing :=
      match remaining with
      | O => (true, p)
      | S remaining =>
          let p := pass it p in
          if stops it p then (false, p) else iterations remaining (S it) p
      end.

    (** [np.flatnonzero(E)] (430) *)
    Definition flatnonzero (E : list bool) : list nat := map fst (filter (fun e => snd e) (enum E)).

    (** [c = np.argmax(Sp[:, I], axis=1); c[I] = np.arange(K)] (434-435, 442-443) *)
    Definition assign_exemplars (Sp : matrix D) (I : list nat) : list nat :=
      fold_left (fun c e => list_set c (snd e) (fst e)) (enum I)
        (map (fun i => o_argmax D o (map (mget Sp i) I)) (seq 0 n)).

    (** The better exemplars (437-440). *)
    Definition refine (I c : list nat) : res (list nat) :=
      rmap (fun k =>
              let ii := filter (fun i => Nat.eqb (nth i c 0) k) (seq 0 n) in
              match ii with
              | [] => Raise ValueError                                                 (* argmax of nothing *)
              | _ => py_nth ii (o_argmax D o (map (fun b => o_sum D o (map (fun a => mget W a b) ii)) ii))
              end) (seq 0 (length I)).

    (** Labels of the rows of the similarity matrix (430-444), [None] without convergence. *)
    Definition exemplar_labels : res (option (list nat)) :=
      let (never_converged, p) := iterations max_iteration 0 start_passing in
      let I := flatnonzero (p_E p) in
      if (0 <? length I) && negb never_converged then
        I' <-- refine I (assign_exemplars (p_Sp p) I) ;;;
        labels <-- rmap (py_nth I') (assign_exemplars (p_Sp p) I') ;;;
        Ok (Some labels)
      else Ok None.
  End Passing.

  (** Labels of the meta-points given to their members (447-451). *)
  Definition member_labels (n_samples : nat) (labels : list nat) (must_links : list (list nat)) : list Z :=
    fold_left (fun real e => fold_left (fun real i => list_set real i (Z.of_nat (fst e))) (snd e) real)
      (combine labels must_links) (repeat (-1)%Z n_samples).

  (** [np.searchsorted(np.unique(labels), labels)] (456-457) *)
  Definition gapless (labels : list Z) : list Z :=
    map (fun x => Z.of_nat (length (filter (fun y => (y <? x)%Z) (dedup labels)))) labels.

  (** [_affinity_propagation_constrained] (263-464); [damping] and [remove_degeneracies] have
      their default values. *)
  Definition affinity_propagation_constrained (W : matrix D) (must_links : list (list nat)) (cannot_links : list (nat * nat))
      (absolute_must_links : bool) (max_iteration convergence_iteration : nat) : res (list Z) :=
    let n_samples := nrows W in
    let preference := o_median D o (flat W) in                                         (* 302 *)
    if Nat.eqb n_samples 1 || equal_similarities_and_preferences W preference then     (* 304 *)
      if o_ge D o preference (nth (n_samples - 1) (flat W) zero) then Ok (map Z.of_nat (seq 0 n_samples))  (* 307-308 *)
      else Ok (repeat 0%Z n_samples)                                                   (* 309 *)
    else
      let W := mtab n_samples n_samples (fun i j => o_noise D o i j (mget W i j)) in   (* 316 *)
      if absolute_must_links then
        Saml <-- meta_similarities W must_links ;;;                                    (* 320-325 *)
        let W := with_preference Saml (o_median D o (flat Saml)) in                    (* 331, 346 *)
        labels <-- exemplar_labels true n_samples (nrows W) max_iteration convergence_iteration cannot_links W ;;;
        Ok (match labels with
            | Some labels => gapless (member_labels n_samples labels must_links)
            | None => repeat (-1)%Z n_samples                                          (* 461 *)
            end)
      else
        MPS <-- mixed_similarities W must_links ;;;                                    (* 335 *)
        let W := with_preference (block W MPS (length must_links)) preference in       (* 343, 346 *)
        labels <-- exemplar_labels false n_samples (nrows W) max_iteration convergence_iteration cannot_links W ;;;
        Ok (match labels with
            | Some labels => gapless (map Z.of_nat (firstn n_samples labels))          (* 454 *)
            | None => repeat (-1)%Z n_samples
            end).
End AP.

(** The object: parameters checked by [__init__] (94-146) and
    [self.dict_of_predicted_clusters]. *)
Record ap_params := mkAPParams { ap_max_iteration : nat; ap_convergence_iteration : nat; ap_absolute : bool }.
Definition make_affinity (max_iteration convergence_iteration : Z) (absolute_must_links : bool) : res ap_params :=
  if (max_iteration <? 1)%Z then Raise ValueError                                      (* 127 *)
  else if (convergence_iteration <? 1)%Z then Raise ValueError                         (* 132 *)
  else Ok (mkAPParams (Z.to_nat max_iteration) (Z.to_nat convergence_iteration) absolute_must_links).

Section Cluster.
  Variables vec D : Type.
  Variable o : ops D.
  Variable similarity : list vec -> nat -> nat -> D.

  (** [combinations(range(n), 2)] *)
  Definition index_pairs (n : nat) : list (nat * nat) :=
    flat_map (fun i => map (fun j => (i, j)) (seq (S i) (n - S i))) (seq 0 n).

  (** [cannot_links] (216-222). *)
  Definition cannot_link_pairs (m : mgr) (ids : list pystr) : res (list (nat * nat)) :=
    rfilter (fun ij =>
               a <-- py_nth ids (fst ij) ;;;
               b <-- py_nth ids (snd ij) ;;;
               c <-- ask (get_added_constraint a b) m ;;;
               Ok (match c with Some c => eqb (fst c) CANNOT_LINK | None => false end)) (index_pairs (length ids)).

  (** [must_links] (205, 212-213). *)
  Definition must_link_indices (m : mgr) (ids : list pystr) : res (list (list nat)) :=
    let data_ID_to_idx := fold_left (fun d e => dset (snd e) (fst e) d) (enum ids) [] in
    closures <-- ask get_connected_components m ;;;
    rmap (fun closure => rmap (fun x => dlookup x data_ID_to_idx) closure) closures.

  (** [{self.list_of_data_IDs[i]: l for i, l in enumerate(cluster_labels)}] (238) *)
  Definition labelled (ids : list pystr) (labels : list Z) : res (dict pystr Z) :=
    rfold (fun d e => x <-- py_nth ids (fst e) ;;; Ok (dset x (snd e) d)) (enum labels) [].

  (** [cluster] (152-241); the state is [self.dict_of_predicted_clusters]. *)
  Definition cluster (p : ap_params) (m : mgr) (vectors : dict pystr vec) (nb_clusters : option Z) : M (option (dict pystr Z)) (dict pystr Z) :=
    ids <- lift (ask get_list_of_managed_data_IDs m) ;;                                (* 185 *)
    match nb_clusters with
    | Some _ => raise ValueError                                                       (* 193 *)
    | None =>
        modify (fun _ => None) ;;                                                      (* 202 *)
        rows <- lift (rmap (fun x => dlookup x vectors) ids) ;;                        (* 209 *)
        W <- (match rows with
              | [] => raise ValueError                                                 (* vstack of nothing *)
              | _ => ret (mtab (length rows) (length rows) (similarity rows))
              end) ;;
        must_links <- lift (must_link_indices m ids) ;;
        cannot_links <- lift (cannot_link_pairs m ids) ;;
        labels <- lift (affinity_propagation_constrained o W must_links cannot_links (ap_absolute p)
                          (ap_max_iteration p) (ap_convergence_iteration p)) ;;        (* 225 *)
        d <- lift (labelled ids labels) ;;
        d <- lift (rename_clusters_by_order d) ;;                                      (* 237 *)
        modify (fun _ => Some d) ;;
        ret d
    end.
End Cluster.
