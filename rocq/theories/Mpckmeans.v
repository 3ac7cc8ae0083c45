(** * Model of [MPCKMeansConstrainedClustering]
    (/repo/src/cognitivefactory/interactive_clustering/clustering/mpckmeans.py).

    Simplifications:
    - the manager is only queried through getters; a query is its answer [ask q m];
    - [vectors] is a dictionary, the manager is a manager (the two isinstance tests pass);
    - numbers are values of an abstract type [D] with arbitrary operations (record [ops]),
      so that nothing is assumed about floats unless a theorem says so;
    - [X] is the list of its rows, all of the same length (other vectors are not modelled);
      the matrix [A] is always diagonal (250, 590-610) and is the list of its diagonal;
    - a [set] of integers is the list of its elements without repetition; [order s] is the
      order in which Python iterates over it;
    - the label -1 of a point that is not assigned yet is [None];
    - the random draws are oracles: [first n weights] is [np.random.choice(n, size=1,
      p=weights)[0]], [sample n k] is [np.random.choice(n, k, replace=False)] for [k <= n],
      [shuffle t l] is the list [l] after [np.random.shuffle] in iteration [t];
    - [limit] is the number of nested calls of [_dfs] that the interpreter allows when
      [preprocess_constraints] is running;
    - the parameter [y], [self.random_seed], [self.ml_graph], [self.cl_graph] are never read;
      [self.list_of_data_IDs], [self.vectors], [self.nb_clusters], [self.ml], [self.cl] are
      set by every call before they are read and are passed as arguments; the FutureWarning
      is dropped. *)

From Coq Require Import String List Bool Arith ZArith.
From Verif Require Import Base Manager Sampling Rename KMeans Spectral.
From Verif Require Hierarchical.
Import ListNotations.
Open Scope nat_scope.
Open Scope py_scope.

(** ** Constraints as graphs on the positions of the managed IDs *)

(** Adjacency lists; [s.add(x)]. *)
Definition graph := dict nat (list nat).
Definition set_add (x : nat) (s : list nat) : list nat := if mem x s then s else s ++ [x].
(** [g[i].add(j)] *)
Definition add_one (g : graph) (i j : nat) : res graph :=
  s <-- dlookup i g ;;; Ok (dset i (set_add j s) g).
(** [_add_both] (392-394) *)
Definition add_both (g : graph) (i j : nat) : res graph :=
  g <-- add_one g i j ;;; add_one g j i.

(** [self.ml] and [self.cl] (216-241). *)
Definition index_pairs (m : mgr) (l : list pystr) (t : pystr) : res (list (nat * nat)) :=
  pairs <-- rfilter (fun e => inferred_is m (snd (snd e)) (snd (fst e)) t) (list_prod (enum l) (enum l)) ;;;
  Ok (map (fun e => (fst (fst e), fst (snd e))) pairs).

Section Constraints.
  Variable limit : nat.
  Variable order : list nat -> list nat.

  (** [_dfs] (396-401), on the visited marks and the component. *)
  Fixpoint dfs (depth : nat) (g : graph) (i : nat) (s : list bool * list nat) : res (list bool * list nat) :=
    match depth with
    | O => Raise RecursionError
    | S depth =>
        neighbors <-- dlookup i g ;;;
        s' <-- rfold (fun s j => seen <-- py_nth (fst s) j ;;; if seen : bool then Ok s else dfs depth g j s)
                 (order neighbors) (list_set (fst s) i true, snd s) ;;;
        Ok (fst s', snd s' ++ [i])
    end.

  (** Body of the loop 441-449. *)
  Definition neighborhood_step (s : list bool * graph * list (list nat)) (index : nat) : res (list bool * graph * list (list nat)) :=
    let '(visited, ml_graph, neighborhoods) := s in
    seen <-- py_nth visited index ;;;
    if seen : bool then Ok s
    else
      neighbors <-- dlookup index ml_graph ;;;
      match neighbors with
      | [] => Ok s
      | _ =>
          r <-- dfs limit ml_graph index (visited, []) ;;;
          let component := snd r in
          ml_graph <-- rfold (fun g e => if Nat.eqb (fst e) (snd e) then Ok g else add_one g (fst e) (snd e))
                         (list_prod component component) ml_graph ;;;
          Ok (fst r, ml_graph, neighborhoods ++ [component])
      end.

  (** Body of the loop 451-460. *)
  Definition cannot_step (ml_graph : graph) (cl_graph : graph) (e : nat * nat) : res graph :=
    let (i, j) := e in
    ni <-- dlookup i ml_graph ;;;
    nj <-- dlookup j ml_graph ;;;
    cl_graph <-- rfold (fun g x => add_both g x j) (order ni) cl_graph ;;;
    cl_graph <-- rfold (fun g y => add_both g i y) (order nj) cl_graph ;;;
    rfold (fun g e => add_both g (fst e) (snd e)) (list_prod (order ni) (order nj)) cl_graph.

  (** Body of the loops 462-465. *)
  Definition check_step (cl_graph : graph) (e : nat * nat) : res unit :=
    if Nat.eqb (snd e) (fst e) then Ok tt
    else
      s <-- dlookup (fst e) cl_graph ;;;
      if mem (snd e) s then Raise ValueError else Ok tt.

  (** [preprocess_constraints] (403-467); [n] is the number of managed IDs. *)
  Definition preprocess_constraints (n : nat) (ml cl : list (nat * nat)) : res (graph * graph * list (list nat)) :=
    let empty : graph := map (fun k => (k, [])) (seq 0 n) in
    ml_graph <-- rfold (fun g e => add_both g (fst e) (snd e)) ml empty ;;;                (* 431-433 *)
    cl_graph <-- rfold (fun g e => add_both g (fst e) (snd e)) cl empty ;;;                (* 435-437 *)
    s <-- rfold neighborhood_step (seq 0 n) (repeat false n, ml_graph, []) ;;;
    let '(_, ml_graph, neighborhoods) := s in
    cl_graph <-- rfold (cannot_step ml_graph) cl cl_graph ;;;
    _ <-- rfold (fun _ e => check_step cl_graph e)
            (flat_map (fun e => map (fun j => (fst e, j)) (order (snd e))) ml_graph) tt ;;;
    Ok (ml_graph, cl_graph, neighborhoods).

  (** Lines 216-244 of [cluster]. *)
  Definition constraint_graphs (m : mgr) (l : list pystr) : res (graph * graph * list (list nat)) :=
    ml <-- index_pairs m l MUST_LINK ;;;
    cl <-- index_pairs m l CANNOT_LINK ;;;
    preprocess_constraints (length l) ml cl.
End Constraints.

(** ** Numbers *)
Record ops (D : Type) := mkOps {
  o_of_nat : nat -> D;
  o_half : D;                          (* 1 / 2 *)
  o_tiny : D;                          (* 1e-9 *)
  o_add : D -> D -> D;
  o_sub : D -> D -> D;
  o_mul : D -> D -> D;
  o_div : D -> D -> D;
  o_sq : D -> D;                       (* x ** 2 *)
  o_sqrt : D -> D;                     (* np.sqrt *)
  o_ltb : D -> D -> bool;              (* x < y *)
  o_small : D -> bool;                 (* abs(x) <= 1e-6, in np.allclose *)
  o_sum : list D -> D;                 (* np.sum *)
  o_min : list D -> D;                 (* np.min of a non-empty array *)
  o_mean : list D -> D;                (* np.mean along an axis *)
  o_argmin : list D -> nat;            (* np.argmin of a non-empty list *)
  o_mahalanobis : list D -> list D -> list D -> D;   (* mahalanobis(x, y, diag(A)) ** 2 *)
  o_logdet : list D -> D }.            (* log_det_a (518-522) for diag(A) *)

(** An element of an array of strings of numpy (207): the NUL characters at the end are lost. *)
Fixpoint np_str (x : pystr) : pystr :=
  match x with
  | [] => []
  | c :: x' => match np_str x' with [] => if N.eqb c 0 then [] else [c] | r => c :: r end
  end.

Section WithOracles.
  Variables vec D : Type.
  Variable o : ops D.
  Variable flatten : vec -> list D.                (* 210 *)
  Variable limit : nat.
  Variable order : list nat -> list nat.
  Variable first : nat -> list D -> nat.
  Variable sample : nat -> nat -> list nat.
  Variable shuffle : nat -> list nat -> list nat.

  Notation zero := (o_of_nat D o 0).
  Notation add := (o_add D o).
  Notation sub := (o_sub D o).
  Notation mul := (o_mul D o).
  Notation ltb := (o_ltb D o).
  Notation dist := (o_mahalanobis D o).            (* [_dist] (309-323), [_f_m] (509-510) *)

  (** Constructor parameters. *)
  Record mp_params := mkMPParams { mp_max_iteration : nat; mp_w : D }.

  (** [__init__] (95-153). *)
  Definition make_mpckmeans (model : pystr) (max_iteration : Z) (w : D) : res mp_params :=
    if negb (eqb model (str "MPC")) then Raise ValueError                         (* 128 *)
    else if (max_iteration <? 1)%Z then Raise ValueError                          (* 133 *)
    else if ltb w zero then Raise ValueError                                      (* 138 *)
    else Ok (mkMPParams (Z.to_nat max_iteration) w).

  (** Attributes left by a call. *)
  Record mpckmeans := mkMpckmeans {
    mp_predicted : option (dict pystr Z);
    mp_centers : option (matrix D);
    mp_labels : option (list nat) }.
  Definition fresh_mpckmeans : mpckmeans := mkMpckmeans None None None.           (* 149 *)

  (** [M[i, d]] within bounds. *)
  Definition row (M : matrix D) (i : nat) : list D := nth i M [].
  Definition entry (M : matrix D) (i d : nat) : D := nth d (row M i) zero.
  (** [M.shape[1]] of an array with at least one row *)
  Definition width (M : matrix D) : nat := length (row M 0).
  (** [M[indices]] *)
  Definition rows_at (M : matrix D) (indices : list nat) : res (matrix D) := rmap (py_nth M) indices.
  (** [M.mean(axis=0)] for a matrix with [width] columns *)
  Definition col_means (w : nat) (M : matrix D) : list D :=
    map (fun d => o_mean D o (map (fun r => nth d r zero) M)) (seq 0 w).

  Section Run.
    Variable X : matrix D.
    Variable k : nat.                              (* self.nb_clusters *)
    Variable w : D.
    Variables ml_graph cl_graph : graph.
    Notation N := (length X).

    (** [_find_farthest_pairs_of_points] (325-351). *)
    Definition farthest_pair (A : list D) : res (nat * nat * D) :=
      let pairs := flat_map (fun i => map (pair i) (seq 0 i)) (seq 0 N) in
      match fold_left (fun best e =>
              let d := dist (row X (fst e)) (row X (snd e)) A in
              if ltb (match best with Some b => snd b | None => zero end) d then Some (e, d) else best) pairs None with
      | Some b => Ok b
      | None => Raise AssertionError                                              (* 349 *)
      end.

    (** One distance of [dist] (306): [points[None]] is the whole array. *)
    Definition euclid (points : matrix D) (j : nat) (t : option nat) : D :=
      let others := match t with Some t => [row points t] | None => points end in
      o_sqrt D o (o_sum D o (flat_map (fun r => map (fun e => o_sq D o (sub (fst e) (snd e))) (combine (row points j) r)) others)).

    (** [weighted_farthest_first_traversal] (353-387). *)
    Definition next_point (points : matrix D) (weights : list D) (traversed : list (option nat)) : option nat :=
      snd (fold_left (fun best j =>
        if existsb (fun t => match t with Some t => Nat.eqb t j | None => false end) traversed then best
        else
          let weighted := mul (nth j weights zero) (o_min D o (map (euclid points j) traversed)) in
          if ltb (fst best) weighted then (weighted, Some j) else best)
        (seq 0 (length points)) (zero, None)).
    Definition traversal (points : matrix D) (weights : list D) : list (option nat) :=
      fold_left (fun traversed _ => traversed ++ [next_point points weights traversed]) (seq 0 (k - 1))
        [Some (first (length points) weights)].

    (** [_initialize_cluster_centers] (469-503). *)
    Definition initialize_cluster_centers (neighborhoods : list (list nat)) : res (matrix D) :=
      centers <-- rmap (fun c => rows <-- rows_at X c ;;; Ok (col_means (width X) rows)) neighborhoods ;;;
      let sizes := map (@length nat) neighborhoods in
      let weights := map (fun s => o_div D o (o_of_nat D o s) (o_of_nat D o (list_sum sizes))) sizes in
      if k <? length neighborhoods then                                           (* 487 *)
        rmap (fun t => match t with Some t => py_nth centers t | None => Raise IndexError end) (traversal centers weights)
      else
        match neighborhoods, X with
        | [], [] => Raise IndexError                                              (* X.shape[1], 495 *)
        | _, _ =>
            if length neighborhoods <? k then                                     (* 497 *)
              if N <? k - length neighborhoods then Raise ValueError
              else
                remaining <-- rows_at X (sample N (k - length neighborhoods)) ;;;
                Ok (centers ++ remaining)
            else Ok centers
        end.

    (** [_objective_fn] (515-537). *)
    Definition objective (A : list D) (farthest : D) (centers : matrix D) (labels : list (option nat)) (i cluster_id : nat) : res D :=
      let term_d := sub (dist (row X i) (row centers cluster_id) A) (o_logdet D o A) in
      mi <-- dlookup i ml_graph ;;;
      term_m <-- rfold (fun t j =>
                   lj <-- py_nth labels j ;;;
                   Ok (match lj with
                       | Some c => if Nat.eqb c cluster_id then t
                                   else add t (mul (mul (o_of_nat D o 2) w) (dist (row X i) (row X j) A))
                       | None => t
                       end)) (order mi) zero ;;;
      ci <-- dlookup i cl_graph ;;;
      term_c <-- rfold (fun t j =>
                   lj <-- py_nth labels j ;;;
                   Ok (match lj with
                       | Some c => if Nat.eqb c cluster_id
                                   then add t (mul (mul (o_of_nat D o 2) w) (sub farthest (dist (row X i) (row X j) A)))
                                   else t
                       | None => t
                       end)) (order ci) zero ;;;
      Ok (add (add term_d term_m) term_c).

    (** Body of the loop 544-550. *)
    Definition assign_point (A : list D) (farthest : D) (centers : matrix D) (labels : list (option nat)) (i : nat) : res (list (option nat)) :=
      costs <-- rmap (objective A farthest centers labels i) (seq 0 (length centers)) ;;;
      match costs with
      | [] => Raise ValueError
      | _ => Ok (list_set labels i (Some (o_argmin D o costs)))
      end.

    (** [np.bincount(labels, minlength)] *)
    Definition bincount (labels : list nat) (minlength : nat) : list nat :=
      map (fun c => count_occ Nat.eq_dec labels c) (seq 0 (Nat.max minlength (list_max (map S labels)))).
    (** [np.where(f(l))[0]] *)
    Definition where_ {A} (f : A -> bool) (l : list A) : list nat := map fst (filter (fun e => f (snd e)) (combine (seq 0 (length l)) l)).

    (** Body of the loop 556-572, on the labels and the sizes of the clusters. *)
    Definition fill_cluster (A : list D) (centers : matrix D) (s : list nat * list nat) (empty : nat) : res (list nat * list nat) :=
      let '(labels, sizes) := s in
      let filled := where_ (Nat.ltb 1) sizes in
      distances <-- rfold (fun d e =>
                      center <-- py_nth centers (fst e) ;;;
                      Ok (dset (snd e) (dist (row X (snd e)) center A) d))
                      (flat_map (fun c => map (pair c) (where_ (Nat.eqb c) labels)) filled) ([] : dict nat D) ;;;
      point <-- Hierarchical.py_max (fun a b => ltb (snd a) (snd b)) distances ;;;
      let labels := list_set labels (fst point) empty in
      Ok (labels, bincount labels 10).                                            (* 572 *)

    (** [_assign_clusters] (539-579): the label of each point (540-550), then the empty
        clusters (552-579). *)
    Definition assign_points (t : nat) (A : list D) (farthest : D) (centers : matrix D) : res (list (option nat)) :=
      rfold (assign_point A farthest centers) (shuffle t (seq 0 N)) (repeat None N).
    Definition handle_empty_clusters (A : list D) (centers : matrix D) (labels : list (option nat)) : res (list nat) :=
      labels <-- rmap (fun c => match c with Some c => Ok c | None => Raise ValueError end) labels ;;;   (* 553 *)
      let sizes := bincount labels k in
      s <-- rfold (fill_cluster A centers) (where_ (Nat.eqb 0) sizes) (labels, sizes) ;;;
      let '(labels, sizes) := s in
      if existsb (Nat.eqb 0) sizes then Raise ValueError else Ok labels.          (* 576-578 *)
    Definition assign_clusters (t : nat) (A : list D) (farthest : D) (centers : matrix D) : res (list nat) :=
      labels <-- assign_points t A farthest centers ;;; handle_empty_clusters A centers labels.

    (** [_get_cluster_centers] (581-582). *)
    Definition cluster_centers (labels : list nat) : matrix D :=
      map (fun c => col_means (width X) (map snd (filter (fun e => Nat.eqb (fst e) c) (combine labels X)))) (seq 0 k).

    (** [max(x, y)] of two numbers *)
    Definition max2 (x y : D) : D := if ltb x y then y else x.

    (** [_update_metrics] (588-612). *)
    Definition metric_term (labels : list nat) (g : graph) (different : bool) (f : nat -> nat -> D) : res D :=
      rfold (fun t i =>
        ni <-- dlookup i g ;;;
        rfold (fun t j =>
          li <-- py_nth labels i ;;;
          lj <-- py_nth labels j ;;;
          Ok (if Bool.eqb (Nat.eqb li lj) different then t else add t (f i j))) (order ni) t) (seq 0 N) zero.
    Definition update_metrics (labels : list nat) (centers : matrix D) (farthest : nat * nat) : res (list D) :=
      rmap (fun d =>
        let term_x := o_sum D o (map (fun e => o_sq D o (sub (nth d (snd e) zero) (entry centers (fst e) d))) (combine labels X)) in
        term_m <-- metric_term labels ml_graph true
                     (fun i j => mul (mul (o_half D o) w) (o_sq D o (sub (entry X i d) (entry X j d)))) ;;;
        term_c <-- metric_term labels cl_graph false
                     (fun i j => mul w (max2 (sub (o_sq D o (sub (entry X (fst farthest) d) (entry X (snd farthest) d)))
                                                  (o_sq D o (sub (entry X i d) (entry X j d)))) zero)) ;;;
        Ok (o_div D o (o_of_nat D o N) (max2 (add (add term_x term_m) term_c) (o_tiny D o)))) (seq 0 (width X)).

    (** [np.allclose] (273) *)
    Definition all_close (M1 M2 : matrix D) : bool :=
      forallb (fun e => forallb (fun e => o_small D o (sub (fst e) (snd e))) (combine (fst e) (snd e))) (combine M1 M2).

    (** The loop 256-274. *)
    Fixpoint iterate (remaining t : nat) (centers : matrix D) (A : list D) (labels : option (list nat)) : res (matrix D * option (list nat)) :=
      match remaining with
      | O => Ok (centers, labels)
      | S remaining =>
          far <-- farthest_pair A ;;;
          labels <-- assign_clusters t A (snd far) centers ;;;
          let centers' := cluster_centers labels in
          A <-- update_metrics labels centers' (fst far) ;;;
          if all_close centers centers' then Ok (centers', Some labels)
          else iterate remaining (S t) centers' A (Some labels)
      end.
  End Run.

  (** [cluster] (159-287). *)
  Definition cluster (p : mp_params) (m : mgr) (vectors : dict pystr vec) (nb_clusters : option Z) : M mpckmeans (dict pystr Z) :=
    l <- lift (ask get_list_of_managed_data_IDs m) ;;
    match nb_clusters with
    | None => raise ValueError
    | Some nb =>
        if (nb <? 2)%Z then raise ValueError                                      (* 202 *)
        else
          let k := Nat.min (Z.to_nat nb) (length l) in
          let X := map flatten (vals vectors) in
          g <- lift (constraint_graphs limit order m l) ;;
          let '(ml_graph, cl_graph, neighborhoods) := g in
          centers <- lift (initialize_cluster_centers X k neighborhoods) ;;
          r <- lift (iterate X k (mp_w p) ml_graph cl_graph (mp_max_iteration p) 0 centers (repeat (o_of_nat D o 1) (width X)) None) ;;
          match snd r with
          | None => raise UnboundLocalError
          | Some labels =>
              let raw := fold_left (fun d e => dset (fst e) (snd e) d)
                           (combine (map np_str (keys vectors)) (map Z.of_nat labels)) [] in   (* 279 *)
              modify (fun _ => mkMpckmeans (Some raw) (Some (fst r)) (Some labels)) ;;
              d <- lift (rename_clusters_by_order raw) ;;
              let d := fold_left (fun d x => if mem x (keys d) then d else dset x (-1)%Z d) l d in
              modify (fun s => mkMpckmeans (Some d) (mp_centers s) (mp_labels s)) ;;
              ret d
          end
    end.
End WithOracles.
