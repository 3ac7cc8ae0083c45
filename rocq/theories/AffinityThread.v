(** * A thread that clusters with affinity propagation while another thread changes the manager
    (/repo/src/cognitivefactory/interactive_clustering/clustering/affinity_propagation.py).

    [cluster] as a program that gives way to the other threads before each read of the manager, as in [Threads.v].  What is
    computed from the answers alone is done at once, as in [Affinity.v].

    Line numbers refer to affinity_propagation.py.  Simplifications: those of [Affinity.v], [Threads.v] and [Listing.v];
    [get_list_of_managed_data_IDs] copies the keys of a dictionary at once. *)

From Coq Require Import String List Bool Arith ZArith.
From Verif Require Import Base Manager Rename Sampling KMeans Spectral Affinity Threads Readers Listing SampleThread KMeansThread.
Import ListNotations.
Open Scope nat_scope.
Open Scope t_scope.
Open Scope py_scope.

(** The indices of the members of the lists (205, 213). *)
Definition link_indices (ids : list pystr) (closures : list (list pystr)) : res (list (list nat)) :=
  let data_ID_to_idx := fold_left (fun d e => dset (snd e) (fst e) d) (enum ids) [] in
  rmap (fun closure => rmap (fun x => dlookup x data_ID_to_idx) closure) closures.

(** [cannot_links] (216-222). *)
Definition p_cannot_link_pairs (ids : list pystr) : prog (list (nat * nat)) :=
  pfilter (fun ij =>
             a <~ Done (py_nth ids (fst ij)) ;;
             b <~ Done (py_nth ids (snd ij)) ;;
             c <~ p_get_added_constraint a b ;;
             Done (Ok (match c with Some c => eqb (fst c) CANNOT_LINK | None => false end))) (index_pairs (length ids)).

Section WithOracles.
  Variables vec D : Type.
  Variable o : ops D.
  Variable similarity : list vec -> nat -> nat -> D.

  (** [cluster] (152-241). *)
  Definition p_affinity (p : ap_params) (vectors : dict pystr vec) (nb_clusters : option Z) : prog (dict pystr Z) :=
    ids <~ p_ids ;;                                                               (* 185 *)
    match nb_clusters with
    | Some _ => Done (Raise ValueError)                                           (* 193 *)
    | None =>
        rows <~ Done (rmap (fun x => dlookup x vectors) ids) ;;                   (* 209 *)
        match rows with
        | [] => Done (Raise ValueError)
        | _ =>
            closures <~ p_get_connected_components ;;                             (* 212 *)
            must_links <~ Done (link_indices ids closures) ;;                     (* 213 *)
            cannot_links <~ p_cannot_link_pairs ids ;;
            Done (labels <-- affinity_propagation_constrained o (mtab (length rows) (length rows) (similarity rows)) must_links cannot_links (ap_absolute p)
                               (ap_max_iteration p) (ap_convergence_iteration p) ;;;   (* 225 *)
                  d <-- labelled ids labels ;;;
                  rename_clusters_by_order d)                                     (* 237 *)
        end
    end.
End WithOracles.
