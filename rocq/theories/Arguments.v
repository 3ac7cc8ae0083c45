(** * The checks of arguments, on arguments of any type.

    The other models give each argument the type of its signature.  Here an argument is any
    Python value, and the checks at the start of the public functions are modelled as they
    are written: [isinstance], [<] against a number, [!=] and [in] on strings.  A call whose
    arguments pass the checks is the call of the typed model when the arguments have the
    right types; [None] stands for a call that goes on with an argument of another type,
    which is not described.

    Simplifications:
    - a dictionary either maps strings to vectors or strings to integers, the others are
      left out, and so are vectors and matrices given in place of a number or a name;
    - a float is a value of an abstract type with its comparisons against integers;
    - [VList] stands for all the other values that cannot be hashed, [VObject] for all the
      other values that can; neither can be compared with a number;
    - error messages are left out.  [str] of an argument in a message does not raise. *)

From Coq Require Import String List Bool Arith ZArith QArith.
From Verif Require Import Base Manager Sampling Affinity Dbscan Hierarchical KMeans Spectral Mpckmeans Factories.
Import ListNotations.
Open Scope nat_scope.
Open Scope py_scope.

Section Values.
  Variables vec D : Type.

  Inductive value :=
  | VNone
  | VBool (b : bool)
  | VInt (z : Z)
  | VFloat (d : D)
  | VStr (s : pystr)
  | VVectors (d : dict pystr vec)
  | VClusters (d : dict pystr Z)
  | VManager (m : mgr)
  | VList
  | VObject.

  Variables flt fle : D -> Z -> bool.   (* float < int, float <= int *)
  Variable of_Z : Z -> D.               (* an integer where a float is expected *)

  (** [bool] is a subclass of [int]. *)
  Definition as_int (v : value) : option Z :=
    match v with VInt z => Some z | VBool b => Some (Z.b2z b) | _ => None end.
  Definition as_float (v : value) : option D :=
    match v with VFloat d => Some d | _ => option_map of_Z (as_int v) end.
  Definition is_dict (v : value) : bool := match v with VVectors _ | VClusters _ => true | _ => false end.
  Definition hashable (v : value) : bool := match v with VVectors _ | VClusters _ | VList => false | _ => true end.

  (** [v < n], [v <= n]: TypeError when [v] is not a number. *)
  Definition lt_int (v : value) (n : Z) : res bool :=
    match v with VFloat d => Ok (flt d n) | _ => match as_int v with Some z => Ok (z <? n)%Z | None => Raise TypeError end end.
  Definition le_int (v : value) (n : Z) : res bool :=
    match v with VFloat d => Ok (fle d n) | _ => match as_int v with Some z => Ok (z <=? n)%Z | None => Raise TypeError end end.
  (** [if b: raise ValueError] *)
  Definition refuse (b : bool) : res unit := if b then Raise ValueError else Ok tt.
  (** [v == s] *)
  Definition equals (v : value) (s : pystr) : bool := match v with VStr t => eqb t s | _ => false end.
  (** [v in {...}] for a set of strings: TypeError when [v] cannot be hashed. *)
  Definition in_set (v : value) (l : list pystr) : res bool :=
    if hashable v then Ok (match v with VStr s => mem s l | _ => false end) else Raise TypeError.

  (** ** Constructors *)

  (** kmeans.py:92-136 *)
  Definition any_kmeans (model max_iteration tolerance : value) : res (option (kparams D)) :=
    _ <-- refuse (negb (equals model (str "COP"))) ;;;                                  (* 115 *)
    b <-- lt_int max_iteration 1 ;;; _ <-- refuse b ;;;                                  (* 120 *)
    b <-- lt_int tolerance 0 ;;; _ <-- refuse b ;;;                                      (* 125 *)
    Ok (match as_int max_iteration, as_float tolerance with
        | Some i, Some t => Some (mkKParams D (Z.to_nat i) t)
        | _, _ => None
        end).

  (** mpckmeans.py:95-153 *)
  Definition any_mpckmeans (model max_iteration w : value) : res (option (mp_params D)) :=
    _ <-- refuse (negb (equals model (str "MPC"))) ;;;                                  (* 128 *)
    b <-- lt_int max_iteration 1 ;;; _ <-- refuse b ;;;                                  (* 133 *)
    b <-- lt_int w 0 ;;; _ <-- refuse b ;;;                                              (* 138 *)
    Ok (match as_int max_iteration, as_float w with
        | Some i, Some w => Some (mkMPParams D (Z.to_nat i) w)
        | _, _ => None
        end).

  (** affinity_propagation.py:94-147; [absolute_must_links] is not checked. *)
  Definition any_affinity (max_iteration convergence_iteration absolute_must_links : value) : res (option ap_params) :=
    b <-- lt_int max_iteration 1 ;;; _ <-- refuse b ;;;                                  (* 127 *)
    b <-- lt_int convergence_iteration 1 ;;; _ <-- refuse b ;;;                          (* 132 *)
    Ok (match as_int max_iteration, as_int convergence_iteration, absolute_must_links with
        | Some i, Some c, VBool b => Some (mkAPParams (Z.to_nat i) (Z.to_nat c) b)
        | _, _, _ => None
        end).

  (** dbscan.py:98-151 *)
  Definition any_dbscan (eps min_samples : value) : res (option (db_params D)) :=
    b <-- le_int eps 0 ;;; _ <-- refuse b ;;;                                            (* 129 *)
    b <-- le_int min_samples 0 ;;; _ <-- refuse b ;;;                                    (* 134 *)
    Ok (match as_float eps, as_int min_samples with
        | Some e, Some n => Some (mkDBParams D e (Z.to_nat n))
        | _, _ => None
        end).

  (** hierarchical.py:86-117 *)
  Definition any_hierarchical (linkage : value) : res (option pystr) :=
    b <-- in_set linkage [str "ward"; str "average"; str "complete"; str "single"] ;;;   (* 105 *)
    _ <-- refuse (negb b) ;;;
    Ok (match linkage with VStr s => Some s | _ => None end).

  (** spectral.py:93-129 *)
  Definition any_spectral (model nb_components : value) : res (option (option Z)) :=
    _ <-- refuse (negb (equals model (str "SPEC"))) ;;;                                 (* 110 *)
    match nb_components with                                                            (* 115 *)
    | VNone => Ok (Some None)
    | _ => b <-- lt_int nb_components 2 ;;; _ <-- refuse b ;;; Ok (option_map Some (as_int nb_components))
    end.

  (** clusters_based.py:67-110 *)
  Definition restriction (v : value) (l : list pystr) : res (option pystr) :=
    match v with
    | VNone => Ok None
    | _ => b <-- in_set v l ;;; _ <-- refuse (negb b) ;;; Ok (match v with VStr s => Some s | _ => None end)
    end.
  Definition boolean (v : value) : res bool := match v with VBool b => Ok b | _ => Raise ValueError end.
  Definition any_sampler (clusters_restriction distance_restriction without_added without_inferred : value) : res options :=
    c <-- restriction clusters_restriction [SAME_CLUSTER; DIFFERENT_CLUSTERS] ;;;        (* 95 *)
    d <-- restriction distance_restriction [CLOSEST; FARTHEST] ;;;                       (* 100 *)
    a <-- boolean without_added ;;;                                                      (* 105 *)
    i <-- boolean without_inferred ;;;                                                   (* 108 *)
    Ok (mkOptions c d a i).

  (** ** [cluster] *)
  Section Cluster.
    Context {S : Type}.
    Variable enter : mgr -> M S unit.   (* what is kept of the manager before the next checks *)
    Variable call : mgr -> dict pystr vec -> option Z -> M S (dict pystr Z).
    Definition outcome := option (S * res (dict pystr Z)).
    Definition raised (s : S) (e : exn) : outcome := Some (s, Raise e).

    (** The common start: hierarchical.py:152-160, kmeans.py:171-179, mpckmeans.py:191-199,
        spectral.py:163-171, affinity_propagation.py:182-190, dbscan.py:185-193. *)
    Definition checked (constraints_manager vectors : value) (go : mgr -> S -> outcome) (s : S) : outcome :=
      match constraints_manager with
      | VManager m =>
          match enter m s with
          | (s, Ok _) => if is_dict vectors then go m s else raised s ValueError
          | (s, Raise e) => raised s e
          end
      | _ => raised s ValueError
      end.

    (** hierarchical.py:163, kmeans.py:182, mpckmeans.py:202, spectral.py:174 *)
    Definition with_number (constraints_manager vectors nb_clusters : value) : S -> outcome :=
      checked constraints_manager vectors (fun m s =>
        match nb_clusters with
        | VNone => raised s ValueError
        | _ =>
            match lt_int nb_clusters 2 with
            | Raise e => raised s e
            | Ok true => raised s ValueError
            | Ok false =>
                match vectors, as_int nb_clusters with
                | VVectors d, Some nb => Some (call m d (Some nb) s)
                | _, _ => None
                end
            end
        end).

    (** affinity_propagation.py:193, dbscan.py:196 *)
    Definition without_number (constraints_manager vectors nb_clusters : value) : S -> outcome :=
      checked constraints_manager vectors (fun m s =>
        match nb_clusters with
        | VNone => match vectors with VVectors d => Some (call m d None s) | _ => None end
        | _ => raised s ValueError
        end).
  End Cluster.

  Definition nothing {S} (m : mgr) : M S unit := ret tt.
  (** [self.list_of_data_IDs] (hierarchical.py:155) *)
  Definition keep_ids (m : mgr) : M (hier vec) unit :=
    ids <- lift (ask get_list_of_managed_data_IDs m) ;; modify (fun s => mkHier vec (Some ids) (h_root vec s) (h_predicted vec s)).

  (** ** [sample] (clusters_based.py:115-247) *)
  Section Sample.
    Variable pairwise : list vec -> nat -> nat -> D.
    Variable ltb : D -> D -> bool.
    Variable draw : list (pystr * pystr) -> nat -> list (pystr * pystr).
    Definition as_vectors (v : value) : option (dict pystr vec) := match v with VVectors d => Some d | _ => None end.
    Definition as_clusters (v : value) : option (dict pystr Z) := match v with VClusters d => Some d | _ => None end.
    Definition is_set {A} (o : option A) : bool := match o with Some _ => true | None => false end.
    Definition any_sample (o : options) (constraints_manager nb_to_select clustering_result vectors : value)
        (s : sampler vec D) : option (sampler vec D * res (list (pystr * pystr))) :=
      match constraints_manager with
      | VManager m =>
          match as_int nb_to_select with                                                 (* 150 *)
          | None => Some (s, Raise ValueError)
          | Some nb =>
              if ((0 <? nb)%Z && ((is_set (o_clusters o) && match clustering_result with VVectors _ => true | _ => false end) ||
                                  (is_set (o_distance o) && match vectors with VClusters _ => true | _ => false end)))
              then None
              else
                let (w, r) := sample vec D pairwise ltb draw o nb (as_clusters clustering_result) (as_vectors vectors) (s, m) in
                Some (fst w, r)
          end
      | _ => Some (s, Raise ValueError)                                                  (* 145 *)
      end.
  End Sample.

  (** ** The manager *)

  (** [data_ID not in self._constraints_dictionary.keys()] *)
  Definition known_ID (v : value) : M mgr pystr :=
    if hashable v then
      match v with
      | VStr s => known <- in_dict s ;; require known ;; ret s
      | _ => raise ValueError
      end
    else raise TypeError.
  (** [constraint_type not in self._allowed_constraint_types] *)
  Definition known_type (v : value) : M mgr pystr :=
    b <- lift (in_set v allowed_types) ;;
    match v with VStr s => require b ;; ret s | _ => raise ValueError end.

  (** [add_data_ID] (binary.py:121-163).  A value that can be hashed and is no string becomes a
      key of the dictionary (143); then it is compared with the other keys (146-152), which
      raises when one of them is a string; the key stays.  The second component is the key left behind. *)
  Definition any_add_data_ID (v : value) (m : mgr) : option (mgr * option value * res bool) :=
    if hashable v then
      match v with
      | VStr s => let (m, r) := add_data_ID s m in Some (m, None, r)
      | _ => match keys (cdict m) with [] => None | _ => Some (m, Some v, Raise TypeError) end
      end
    else Some (m, None, Raise TypeError).
  (** [get_list_of_managed_data_IDs] (204-215) on such a manager *)
  Definition any_managed_IDs (m : mgr) (left_behind : option value) : list value :=
    map VStr (keys (cdict m)) ++ match left_behind with Some v => [v] | None => [] end.
  (** [delete_data_ID] (167-199) *)
  Definition any_delete_data_ID (v : value) : M mgr bool := x <- known_ID v ;; delete_data_ID x.
  (** [add_constraint] (220-306), [delete_constraint] (311-348), [get_added_constraint] (353-386),
      [get_inferred_constraint] (391-430), and
      [get_list_of_involved_data_IDs_in_a_constraint_conflict] (698-749) *)
  Definition any_add_constraint (v1 v2 t : value) : M mgr bool :=
    x <- known_ID v1 ;; y <- known_ID v2 ;; t <- known_type t ;; add_constraint x y t 1%Q.
  Definition any_delete_constraint (v1 v2 : value) : M mgr bool :=
    x <- known_ID v1 ;; y <- known_ID v2 ;; delete_constraint x y.
  Definition any_get_added (v1 v2 : value) : M mgr (option constr) :=
    x <- known_ID v1 ;; y <- known_ID v2 ;; get_added_constraint x y.
  Definition any_get_inferred (v1 v2 : value) : M mgr (option pystr) :=
    x <- known_ID v1 ;; y <- known_ID v2 ;; get_inferred_constraint x y.
  Definition any_conflict (v1 v2 t : value) : M mgr (option (list pystr)) :=
    x <- known_ID v1 ;; y <- known_ID v2 ;; t <- known_type t ;; get_list_of_involved_data_IDs_in_a_constraint_conflict x y t.

  (** ** Names given to the factories (constraints/factory.py:53, sampling/factory.py:49,
      clustering/factory.py:61) *)
  Definition any_managing_factory (l : list pystr) (manager : value) : res mgr :=
    _ <-- refuse (negb (equals manager (str "binary"))) ;;; Ok (init l).
  Definition any_name (names : list pystr) (v : value) : res pystr :=
    b <-- in_set v names ;;; _ <-- refuse (negb b) ;;; match v with VStr s => Ok s | _ => Raise ValueError end.
  Definition any_sampling_factory (algorithm : value) (k : sampling_kargs) : res options :=
    a <-- any_name [str "random"; str "random_in_same_cluster"; str "farthest_in_same_cluster"; str "closest_in_different_clusters"] algorithm ;;;
    sampling_factory a k.
  Definition any_clustering_factory leb ltb zero half tolerance one o (algorithm : value) (k : clustering_kargs D) : res (clustering_model D) :=
    a <-- any_name [str "affinity_propagation"; str "dbscan"; str "hierarchical"; str "kmeans"; str "mpckmeans"; str "spectral"] algorithm ;;;
    clustering_factory D leb ltb zero half tolerance one o (Some a) k.
End Values.
