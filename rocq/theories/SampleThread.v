(** * A thread that samples pairs while another thread changes the manager
    (/repo/src/cognitivefactory/interactive_clustering/sampling/clusters_based.py).

    [sample] as a program that gives way to the other threads before each read of the manager, as in [Threads.v].  The
    sampler object belongs to the thread: what is computed from its attributes alone is done at once, as in
    [Sampling.v].

    Line numbers refer to clusters_based.py.  Simplifications: those of [Sampling.v] and [Threads.v];
    [get_list_of_managed_data_IDs] copies the keys of a dictionary at once.  The code reads this list again for every
    [data_ID1] (176) and for the distances (211-224); the program reads it once, which is the same when no other thread adds or
    deletes data. *)

From Coq Require Import List Bool Arith ZArith.
From Verif Require Import Base Manager Threads Readers Sampling.
Import ListNotations.
Open Scope nat_scope.
Open Scope t_scope.

(** [a and b], [a or b] *)
Definition pand (a : bool) (b : prog bool) : prog bool := if a then b else Done (Ok false).
Definition por (a b : prog bool) : prog bool := x <~ a ;; if x then Done (Ok true) else b.

(** [for ...: if not keep(x): continue; append(x)] *)
Fixpoint pfilter {A} (f : A -> prog bool) (l : list A) : prog (list A) :=
  match l with
  | [] => Done (Ok [])
  | x :: l' => k <~ f x ;; r <~ pfilter f l' ;; Done (Ok (if k then x :: r else r))
  end.

Definition known_constraint {A} (c : option A) : bool := match c with Some _ => true | None => false end.

(** [self.clustering_result[data_ID]] *)
Definition p_cluster_of (clustering : option (dict pystr Z)) (x : pystr) : prog Z :=
  Done (match clustering with Some c => dlookup x c | None => Raise AttributeError end).

(** Whether the pair is kept by the loop body (177-203). *)
Definition p_keep (o : options) (clustering : option (dict pystr Z)) (p : pystr * pystr) : prog bool :=
  let (data_ID1, data_ID2) := p in
  if str_leb data_ID2 data_ID1 then Done (Ok false)                        (* 178 *)
  else
    skip <~ por (pand (opt_is (o_clusters o) SAME_CLUSTER)                 (* 182-189 *)
                      (c1 <~ p_cluster_of clustering data_ID1 ;; c2 <~ p_cluster_of clustering data_ID2 ;; Done (Ok (negb (Z.eqb c1 c2)))))
                (pand (opt_is (o_clusters o) DIFFERENT_CLUSTERS)
                      (c1 <~ p_cluster_of clustering data_ID1 ;; c2 <~ p_cluster_of clustering data_ID2 ;; Done (Ok (Z.eqb c1 c2)))) ;;
    if skip then Done (Ok false)
    else
      skip <~ por (pand (o_without_added o)                                (* 192-200 *)
                        (c <~ p_get_added_constraint data_ID1 data_ID2 ;; Done (Ok (known_constraint c))))
                  (pand (o_without_inferred o)
                        (c <~ p_get_inferred_constraint data_ID1 data_ID2 ;; Done (Ok (known_constraint c)))) ;;
      Done (Ok (negb skip)).

Section WithOracles.
  Variables vec D : Type.
  Variable pairwise : list vec -> nat -> nat -> D.
  Variable ltb : D -> D -> bool.
  Variable draw : list (pystr * pystr) -> nat -> list (pystr * pystr).

  (** What is done with the pairs that were kept (210-247), without the manager. *)
  Definition choose (o : options) (nb_to_select : Z) (ids : list pystr) (pairs : list (pystr * pystr)) : M (world vec D) (list (pystr * pystr)) :=
    (bind (match o_distance o with                                         (* 210-224 *)
       | None => ret tt
       | Some _ => compute_distances vec D pairwise ids
       end) (fun _ =>
    if opt_is (o_distance o) CLOSEST then                                  (* 230-234 *)
      bind (with_keys vec D pairs) (fun keyed =>
      ret (firstn (Z.to_nat nb_to_select) (map snd (sorted_by (fun p q => ltb (fst p) (fst q)) keyed))))
    else if opt_is (o_distance o) FARTHEST then                            (* 237-242 *)
      bind (with_keys vec D pairs) (fun keyed =>
      ret (firstn (Z.to_nat nb_to_select) (map snd (sorted_by (fun p q => ltb (fst q) (fst p)) keyed))))
    else                                                                   (* 245-247 *)
      ret (draw pairs (Nat.min (Z.to_nat nb_to_select) (length pairs))))).

  (** [sample] (115-247). *)
  Definition p_sample (o : options) (nb_to_select : Z) (clustering_result : option (dict pystr Z))
      (vectors : option (dict pystr vec)) : prog (list (pystr * pystr)) :=
    if (nb_to_select <? 0)%Z then Done (Raise ValueError)                  (* 150 *)
    else if (nb_to_select =? 0)%Z then Done (Ok [])                        (* 152 *)
    else
      (match o_clusters o, clustering_result with                          (* 156-159 *)
       | Some _, None => Done (Raise ValueError)
       | _, _ => Done (Ok tt)
       end) ;;
      (match o_distance o, vectors with                                    (* 162-165 *)
       | Some _, None => Done (Raise ValueError)
       | _, _ => Done (Ok tt)
       end) ;;
      ids <~ p_ids ;;
      pairs <~ pfilter (p_keep o clustering_result) (list_prod ids ids) ;; (* 175-203 *)
      Done (snd (choose o nb_to_select ids pairs (mkSampler vec D clustering_result vectors None, init []))).

  (** The calls that a thread makes, one after the other. *)
  Record request := mkRequest {
    r_options : options; r_nb : Z; r_clustering : option (dict pystr Z); r_vectors : option (dict pystr vec) }.
  Fixpoint p_samples (qs : list request) : prog (list (res (list (pystr * pystr)))) :=
    match qs with
    | [] => Done (Ok [])
    | q :: qs' =>
      r <~ pcatch (p_sample (r_options q) (r_nb q) (r_clustering q) (r_vectors q)) ;; rs <~ p_samples qs' ;; Done (Ok (r :: rs))
    end.
End WithOracles.
Arguments mkRequest {vec}. Arguments r_options {vec}. Arguments r_nb {vec}. Arguments r_clustering {vec}. Arguments r_vectors {vec}.

(** A thread that changes the manager, and threads that sample, with results of one type. *)
Definition p_left {A B} (p : prog A) : prog (A + B) := r <~ p ;; Done (Ok (inl r)).
Definition p_right {A B} (p : prog B) : prog (A + B) := r <~ p ;; Done (Ok (inr r)).
