(** * Model of [SpectralConstrainedClustering]
    (/repo/src/cognitivefactory/interactive_clustering/clustering/spectral.py).

    Simplifications:
    - the manager is only queried through getters; a query is its answer [ask q m];
    - [vectors] is a dictionary, the manager is a manager (the two isinstance tests pass);
    - [kernel rows i j] is the entry of [sklearn.metrics.pairwise_kernels]; [solver n M] is
      [SpectralClustering(n_clusters=n, affinity="precomputed", ...).fit_predict(M)] followed by
      [labels_.tolist()], for the random seed and the other arguments of the object.  Both
      are arbitrary, the solver may raise;
    - [self.current_nb_components] (179-183) is never read (its only use, line 277, is
      commented out) and is left out; the CCSR model (303-ff) is commented out;
    - [self.list_of_data_IDs], [self.vectors], [self.nb_clusters] are set by every call
      before they are read and are passed as arguments;
    - verbose output is dropped. *)

From Coq Require Import String List Bool Arith ZArith.
From Verif Require Import Base Manager Sampling Rename KMeans.
Import ListNotations.
Open Scope nat_scope.
Open Scope py_scope.

(** [l[i]] for [i >= 0] *)
Definition py_nth {A} (l : list A) (i : nat) : res A :=
  match nth_error l i with Some x => Ok x | None => Raise IndexError end.

(** [{data_ID: labels[ID] for ID, data_ID in enumerate(ids)}] *)
Definition label_dict (ids : list pystr) (labels : list Z) : res (dict pystr Z) :=
  rfold (fun d e => c <-- py_nth labels (fst e) ;;; Ok (dset (snd e) c d)) (enum ids) [].

(** A matrix is the list of its rows. *)
Definition matrix (D : Type) := list (list D).

(** [l[i] = v] and [M[i, j] = v] *)
Fixpoint list_set {A} (l : list A) (i : nat) (v : A) : list A :=
  match l, i with
  | [], _ => []
  | _ :: l', O => v :: l'
  | x :: l', S i => x :: list_set l' i v
  end.
Definition mset {D} (M : matrix D) (i j : nat) (v : D) : matrix D :=
  match nth_error M i with Some row => list_set M i (list_set row j v) | None => M end.

(** The matrix of a function of two indices. *)
Definition mtab {D} (n p : nat) (f : nat -> nat -> D) : matrix D := map (fun i => map (f i) (seq 0 p)) (seq 0 n).

Section WithOracles.
  Variables vec D : Type.
  Variable kernel : list vec -> nat -> nat -> D.
  Variables zero one : D.
  Variable solver : nat -> matrix D -> res (list Z).

  (** [__init__] (93-129). *)
  Definition make_spectral (model : pystr) (nb_components : option Z) : res unit :=
    if negb (eqb model (str "SPEC")) then Raise ValueError                      (* 110 *)
    else
      match nb_components with                                                  (* 115 *)
      | Some n => if (n <? 2)%Z then Raise ValueError else Ok tt
      | None => Ok tt
      end.

  (** Attributes left by a call: [self.pairwise_similarity_matrix] and
      [self.dict_of_predicted_clusters]. *)
  Record spectral := mkSpectral { sp_matrix : option (matrix D); sp_predicted : option (dict pystr Z) }.
  Definition fresh_spectral : spectral := mkSpectral None None.
  Definition set_matrix (M : matrix D) (s : spectral) := mkSpectral (Some M) (sp_predicted s).
  Definition set_sp_predicted (p : option (dict pystr Z)) (s : spectral) := mkSpectral (sp_matrix s) p.

  (** [self.pairwise_similarity_matrix] (186-189). *)
  Definition similarity_matrix (m : mgr) (vectors : dict pystr vec) : res (matrix D) :=
    managed <-- ask get_list_of_managed_data_IDs m ;;;
    rows <-- rmap (fun x => dlookup x vectors) managed ;;;
    match rows with
    | [] => Raise ValueError                                                    (* vstack of nothing *)
    | _ => Ok (mtab (length rows) (length rows) (kernel rows))
    end.

  (** The two loops 238-264. *)
  Definition constrain_matrix (m : mgr) (ids : list pystr) (M0 : matrix D) : res (matrix D) :=
    rfold (fun M e1 =>
      rfold (fun M e2 =>
        if fst e2 <? fst e1 then Ok M                                           (* 241 *)
        else
          b <-- inferred_is m (snd e1) (snd e2) MUST_LINK ;;;                   (* 245 *)
          if b then Ok (mset (mset M (fst e1) (fst e2) one) (fst e2) (fst e1) one)
          else
            b <-- inferred_is m (snd e1) (snd e2) CANNOT_LINK ;;;               (* 256 *)
            if b then Ok (mset (mset M (fst e1) (fst e2) zero) (fst e2) (fst e1) zero)
            else Ok M) (enum ids) M) (enum ids) M0.

  (** [clustering_spectral_model_SPEC] (216-298). *)
  Definition clustering_SPEC (m : mgr) (ids : list pystr) (nb_clusters : nat) (W : matrix D) : M spectral (dict pystr Z) :=
    W <- lift (constrain_matrix m ids W) ;;
    modify (set_matrix W) ;;
    labels <- lift (solver nb_clusters W) ;;                                    (* 275-287 *)
    d <- lift (label_dict ids labels) ;;                                        (* 290-292 *)
    lift (rename_clusters_by_order d).                                          (* 295 *)

  (** [cluster] (133-211). *)
  Definition cluster (m : mgr) (vectors : dict pystr vec) (nb_clusters : option Z) : M spectral (dict pystr Z) :=
    ids <- lift (ask get_list_of_managed_data_IDs m) ;;                         (* 166 *)
    match nb_clusters with                                                      (* 174 *)
    | None => raise ValueError
    | Some nb =>
        if (nb <? 2)%Z then raise ValueError
        else
          W <- lift (similarity_matrix m vectors) ;;                            (* 186 *)
          modify (set_matrix W) ;;
          modify (set_sp_predicted None) ;;                                     (* 196 *)
          d <- clustering_SPEC m ids (Nat.min (Z.to_nat nb) (length ids)) W ;;  (* 176, 205 *)
          modify (set_sp_predicted (Some d)) ;;
          ret d
    end.
End WithOracles.
