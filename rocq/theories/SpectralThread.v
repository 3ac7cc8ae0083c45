(** * A thread that clusters with the spectral method while another thread changes the manager
    (/repo/src/cognitivefactory/interactive_clustering/clustering/spectral.py).

    [cluster] as a program that gives way to the other threads before each read of the manager, as in [Threads.v].  The
    matrix belongs to the thread: its changes are done at once, as in [Spectral.v].

    Line numbers refer to spectral.py.  Simplifications: those of [Spectral.v] and [Threads.v];
    [get_list_of_managed_data_IDs] copies the keys of a dictionary at once. *)

From Coq Require Import String List Bool Arith ZArith.
From Verif Require Import Base Manager Rename Sampling KMeans Spectral Threads Readers SampleThread KMeansThread.
Import ListNotations.
Open Scope nat_scope.
Open Scope t_scope.
Open Scope py_scope.

Section WithOracles.
  Variables vec D : Type.
  Variable kernel : list vec -> nat -> nat -> D.
  Variables zero one : D.
  Variable solver : nat -> matrix D -> res (list Z).

  (** The body of the two loops 238-264. *)
  Definition p_constrain_step (e1 : nat * pystr) (M : matrix D) (e2 : nat * pystr) : prog (matrix D) :=
    if fst e2 <? fst e1 then Done (Ok M)                                        (* 241 *)
    else
      b <~ p_inferred_is (snd e1) (snd e2) MUST_LINK ;;                         (* 245 *)
      if b : bool then Done (Ok (mset (mset M (fst e1) (fst e2) one) (fst e2) (fst e1) one))
      else
        b <~ p_inferred_is (snd e1) (snd e2) CANNOT_LINK ;;                     (* 256 *)
        Done (Ok (if b : bool then mset (mset M (fst e1) (fst e2) zero) (fst e2) (fst e1) zero else M)).
  Definition p_constrain_matrix (ids : list pystr) (M0 : matrix D) : prog (matrix D) :=
    pfold (fun M e1 => pfold (p_constrain_step e1) (enum ids) M) (enum ids) M0.

  (** [cluster] (133-211) with [clustering_spectral_model_SPEC] (216-298). *)
  Definition p_spectral (vectors : dict pystr vec) (nb_clusters : option Z) : prog (dict pystr Z) :=
    ids <~ p_ids ;;                                                             (* 166 *)
    match nb_clusters with                                                      (* 174 *)
    | None => Done (Raise ValueError)
    | Some nb =>
        if (nb <? 2)%Z then Done (Raise ValueError)
        else
          W <~ pread (fun m => similarity_matrix vec D kernel m vectors) ;;     (* 186 *)
          W <~ p_constrain_matrix ids W ;;
          Done (labels <-- solver (Nat.min (Z.to_nat nb) (length ids)) W ;;;    (* 275-287 *)
                d <-- label_dict ids labels ;;;                                 (* 290-292 *)
                rename_clusters_by_order d)                                     (* 295 *)
    end.
End WithOracles.
