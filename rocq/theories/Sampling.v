(** * Model of [ClustersBasedConstraintsSampling]
    (/repo/src/cognitivefactory/interactive_clustering/sampling/clusters_based.py).

    Simplifications:
    - the two optional dictionaries are [option]s ([None] is the only value that is not
      a dictionary); [nb_to_select] is an integer; [without_*] are booleans;
    - a vector is a value of an abstract type; the matrix of
      [sklearn.metrics.pairwise_distances] is an oracle: any function from the list of
      stacked vectors and two positions to an abstract type of distances with a
      comparison [ltb] (Python's [<] on floats).  [vstack] raises ValueError on no
      vector; failures for vectors of different sizes are not modelled;
    - [random.sample] is an oracle [draw]; the theorems assume only that it returns [k]
      distinct positions of its list. *)

From Coq Require Import String List Bool Arith NArith ZArith Permutation.
From Verif Require Import Base Manager.
Import ListNotations.
Open Scope nat_scope.
Open Scope py_scope.

(** [for ...: if not keep(x): continue; append(x)] *)
Fixpoint mfilter {S A} (f : A -> M S bool) (l : list A) : M S (list A) :=
  match l with
  | [] => ret []
  | x :: l' =>
      k <- f x ;;
      r <- mfilter f l' ;;
      ret (if k then x :: r else r)
  end.

(** Python's [sorted]: stable; [lt y x] is [key(y) < key(x)]. *)
Fixpoint insert_before {A} (lt : A -> A -> bool) (x : A) (l : list A) : list A :=
  match l with
  | [] => [x]
  | y :: l' => if lt y x then y :: insert_before lt x l' else x :: l
  end.
Definition sorted_by {A} (lt : A -> A -> bool) (l : list A) : list A :=
  fold_right (insert_before lt) [] l.

(** Constructor options (94-110), restrictions kept as the given optional strings. *)
Record options := mkOptions {
  o_clusters : option pystr;
  o_distance : option pystr;
  o_without_added : bool;
  o_without_inferred : bool }.

Definition SAME_CLUSTER := str "same_cluster".
Definition DIFFERENT_CLUSTERS := str "different_clusters".
Definition CLOSEST := str "closest_neighbors".
Definition FARTHEST := str "farthest_neighbors".

Definition opt_is (o : option pystr) (s : pystr) : bool := match o with Some t => eqb t s | None => false end.
Definition opt_in (o : option pystr) (l : list pystr) : bool := match o with Some t => mem t l | None => true end.

(** [__init__] (67-110). *)
Definition make_options (clusters_restriction distance_restriction : option pystr)
    (without_added_constraints without_inferred_constraints : bool) : res options :=
  if negb (opt_in clusters_restriction [SAME_CLUSTER; DIFFERENT_CLUSTERS]) then Raise ValueError      (* 95 *)
  else if negb (opt_in distance_restriction [CLOSEST; FARTHEST]) then Raise ValueError               (* 100 *)
  else Ok (mkOptions clusters_restriction distance_restriction without_added_constraints without_inferred_constraints).

Section WithOracles.
  Variables vec D : Type.
  Variable pairwise : list vec -> nat -> nat -> D.
  Variable ltb : D -> D -> bool.
  Variable draw : list (pystr * pystr) -> nat -> list (pystr * pystr).

  (** Attributes of the sampler object that survive a call (159, 165, 218). *)
  Record sampler := mkSampler {
    s_clustering : option (dict pystr Z);
    s_vectors : option (dict pystr vec);
    s_distances : option (dict pystr (dict pystr D)) }.

  Definition fresh_sampler : sampler := mkSampler None None None.

  (** The sampler object and the manager it is given. *)
  Definition world := (sampler * mgr)%type.

  Definition on_mgr {A} (q : M mgr A) : M world A :=
    fun w => let (m', r) := q (snd w) in ((fst w, m'), r).

  (** [self.attribute]: AttributeError when it was never set. *)
  Definition attr {A} (f : sampler -> option A) : M world A :=
    o <- gets (fun w : world => f (fst w)) ;;
    match o with Some a => ret a | None => raise AttributeError end.

  (** [self.clustering_result[data_ID]] *)
  Definition cluster_of (x : pystr) : M world Z :=
    c <- attr s_clustering ;; lift (dlookup x c).

  (** [a and b], [a or b] on effectful operands. *)
  Definition mand (a : bool) (b : M world bool) : M world bool := if a then b else ret false.
  Definition mor (a b : M world bool) : M world bool := x <- a ;; if x then ret true else b.

  (** Whether the pair is kept by the loop body (177-203). *)
  Definition keep (o : options) (p : pystr * pystr) : M world bool :=
    let (data_ID1, data_ID2) := p in
    if str_leb data_ID2 data_ID1 then ret false                           (* 178: data_ID1 >= data_ID2 *)
    else
      skip <- mor (mand (opt_is (o_clusters o) SAME_CLUSTER)              (* 182-189 *)
                        (c1 <- cluster_of data_ID1 ;; c2 <- cluster_of data_ID2 ;; ret (negb (Z.eqb c1 c2))))
                  (mand (opt_is (o_clusters o) DIFFERENT_CLUSTERS)
                        (c1 <- cluster_of data_ID1 ;; c2 <- cluster_of data_ID2 ;; ret (Z.eqb c1 c2))) ;;
      if skip then ret false
      else
        skip <- mor (mand (o_without_added o)                             (* 192-200 *)
                          (c <- on_mgr (get_added_constraint data_ID1 data_ID2) ;;
                           ret (match c with Some _ => true | None => false end)))
                    (mand (o_without_inferred o)
                          (c <- on_mgr (get_inferred_constraint data_ID1 data_ID2) ;;
                           ret (match c with Some _ => true | None => false end))) ;;
        ret (negb skip).

  Definition enum {A} (l : list A) : list (nat * A) := combine (seq 0 (length l)) l.

  (** [self.dict_of_pairwise_distances] (210-224). *)
  Definition compute_distances (ids : list pystr) : M world unit :=
    vecs <- attr s_vectors ;;
    rows <- lift (rmap (fun x => dlookup x vecs) ids) ;;
    (match rows with [] => raise ValueError | _ => ret tt end) ;;         (* vstack of nothing *)
    let table := fold_left (fun d e => dset (snd e)
                              (fold_left (fun d' e' => dset (snd e') (pairwise rows (fst e) (fst e')) d') (enum ids) []) d)
                           (enum ids) [] in
    modify (fun w : world => (mkSampler (s_clustering (fst w)) (s_vectors (fst w)) (Some table), snd w)).

  (** [self.dict_of_pairwise_distances[a][b]] *)
  Definition distance_of (p : pystr * pystr) : M world D :=
    d <- attr s_distances ;;
    row <- lift (dlookup (fst p) d) ;;
    lift (dlookup (snd p) row).

  (** The list with the computed sort keys. *)
  Fixpoint with_keys (l : list (pystr * pystr)) : M world (list (D * (pystr * pystr))) :=
    match l with
    | [] => ret []
    | p :: l' => k <- distance_of p ;; r <- with_keys l' ;; ret ((k, p) :: r)
    end.

  (** [sample] (115-247). *)
  Definition sample (o : options) (nb_to_select : Z) (clustering_result : option (dict pystr Z))
      (vectors : option (dict pystr vec)) : M world (list (pystr * pystr)) :=
    if (nb_to_select <? 0)%Z then raise ValueError                        (* 150 *)
    else if (nb_to_select =? 0)%Z then ret []                             (* 152 *)
    else
      (match o_clusters o with                                            (* 156-159 *)
       | None => ret tt
       | Some _ =>
           match clustering_result with
           | None => raise ValueError
           | Some c => modify (fun w : world => (mkSampler (Some c) (s_vectors (fst w)) (s_distances (fst w)), snd w))
           end
       end) ;;
      (match o_distance o with                                            (* 162-165 *)
       | None => ret tt
       | Some _ =>
           match vectors with
           | None => raise ValueError
           | Some v => modify (fun w : world => (mkSampler (s_clustering (fst w)) (Some v) (s_distances (fst w)), snd w))
           end
       end) ;;
      ids <- on_mgr get_list_of_managed_data_IDs ;;
      pairs <- mfilter (keep o) (list_prod ids ids) ;;                    (* 175-203 *)
      (match o_distance o with                                            (* 210-224 *)
       | None => ret tt
       | Some _ => compute_distances ids
       end) ;;
      if opt_is (o_distance o) CLOSEST then                               (* 230-234 *)
        keyed <- with_keys pairs ;;
        ret (firstn (Z.to_nat nb_to_select) (map snd (sorted_by (fun p q => ltb (fst p) (fst q)) keyed)))
      else if opt_is (o_distance o) FARTHEST then                         (* 237-242 *)
        keyed <- with_keys pairs ;;
        ret (firstn (Z.to_nat nb_to_select) (map snd (sorted_by (fun p q => ltb (fst q) (fst p)) keyed)))
      else                                                                (* 245-247 *)
        ret (draw pairs (Nat.min (Z.to_nat nb_to_select) (length pairs))).
End WithOracles.
