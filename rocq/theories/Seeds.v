(** * Model of random seeds: what the calls read from, and do to, the generators of the process.

    A process has the two global generators of Python ([random]) and numpy ([np.random]), the
    seed that the operating system would give next, and the order in which it enumerates sets
    of strings (strings are hashed with a secret of the process).  The models of the
    algorithms take their random draws as oracles; here the oracles are given by the process
    as the code does:
    - sampling/clusters_based.py:226-247 and clustering/kmeans.py:414-416 call [random.seed]
      with the seed of the object, then draw from [random];
    - clustering/affinity_propagation.py:312 draws from [check_random_state(random_seed)],
      clustering/spectral.py:279 gives the seed to sklearn, which does the same;
    - clustering/mpckmeans.py:368, 499, 543 draw from [np.random]; its seed (143) is not read;
    - clustering/dbscan.py enumerates sets of strings (373, 400, 406, 492), hierarchical.py
      reads nothing from the process and needs no definition here.

    Simplifications: a generator is a value of an abstract type with arbitrary functions for
    the draws.  [random.seed(None)] takes the seed of the operating system.  For affinity
    propagation and spectral clustering only the result of the call is modelled, not the
    state in which it leaves [np.random] when there is no seed. *)

From Coq Require Import String List Bool Arith ZArith.
From Verif Require Import Base Manager Sampling Rename KMeans Spectral.
From Verif Require Dbscan Mpckmeans Affinity.
Import ListNotations.
Open Scope nat_scope.
Open Scope py_scope.

(** [constraints_manager.get_list_of_managed_data_IDs()] *)
Definition id_list (m : mgr) : list pystr := match ask get_list_of_managed_data_IDs m with Ok l => l | Raise _ => [] end.

Section Process.
  (** States of [random] and of [np.random]. *)
  Variables G N : Type.

  Record process := mkProcess {
    pr_random : G;
    pr_numpy : N;
    pr_system : G;
    pr_sets : list pystr -> list pystr }.
  Definition with_random (g : G) (w : process) : process := mkProcess g (pr_numpy w) (pr_system w) (pr_sets w).
  Definition with_numpy (n : N) (w : process) : process := mkProcess (pr_random w) n (pr_system w) (pr_sets w).

  (** [random.seed(n)], [random.shuffle], [random.sample]. *)
  Variable seeded : Z -> G.
  Variable shuffle_from : G -> list pystr -> list pystr * G.
  Variable sample_from : G -> list (pystr * pystr) -> nat -> list (pystr * pystr) * G.
  (** [np.random.RandomState(n)] *)
  Variable numpy_seeded : Z -> N.

  (** The state of [random] after [random.seed(seed)]. *)
  Definition reseeded (seed : option Z) (w : process) : G :=
    match seed with Some z => seeded z | None => pr_system w end.
  (** [check_random_state(seed)] *)
  Definition random_state (seed : option Z) (w : process) : N :=
    match seed with Some z => numpy_seeded z | None => pr_numpy w end.

  Section KMeansCall.
    Variables vec D : Type.
    Context `{EqB D}.
    Variable pairwise : list vec -> list vec -> nat -> nat -> D.
    Variable ltb : D -> D -> bool.
    Variable dsum : list D -> D.
    Variable mean : list vec -> vec.
    Variable set_order : list Z -> list Z.

    (** [KMeansConstrainedClustering.cluster] (kmeans.py:141-201, 400-427): the seed is set
        just before the only draw, once the number of clusters is accepted. *)
    Definition kmeans_call (seed : option Z) (p : kparams D) (m : mgr) (vectors : dict pystr vec) (nb_clusters : option Z)
        (s : kmeans vec) (w : process) : process * (kmeans vec * res (dict pystr Z)) :=
      let g := reseeded seed w in
      (match nb_clusters with
       | Some nb => if (nb <? 2)%Z then w else with_random (snd (shuffle_from g (id_list m))) w
       | None => w
       end,
       KMeans.cluster vec D pairwise ltb dsum mean (fun l => fst (shuffle_from g l)) set_order p m vectors nb_clusters s).
  End KMeansCall.

  Section SampleCall.
    Variables vec D : Type.
    Variable pairwise : list vec -> nat -> nat -> D.
    Variable ltb : D -> D -> bool.

    (** [ClustersBasedConstraintsSampling.sample] (clusters_based.py:115-247): the seed is set
        once the pairs and distances are computed (227), and used by the random choice (245).
        The pairs are what the call would return if the draw returned its whole list. *)
    Definition sample_call (seed : option Z) (o : options) (nb_to_select : Z) (clustering_result : option (dict pystr Z))
        (vectors : option (dict pystr vec)) (s : world vec D) (w : process) : process * (world vec D * res (list (pystr * pystr))) :=
      let g := reseeded seed w in
      (if (nb_to_select <=? 0)%Z then w
       else
         match snd (sample vec D pairwise ltb (fun l _ => l) o nb_to_select clustering_result vectors s) with
         | Raise _ => w
         | Ok pairs =>
             if opt_is (o_distance o) CLOSEST || opt_is (o_distance o) FARTHEST then with_random g w
             else with_random (snd (sample_from g pairs (Nat.min (Z.to_nat nb_to_select) (length pairs)))) w
         end,
       sample vec D pairwise ltb (fun l k => fst (sample_from g l k)) o nb_to_select clustering_result vectors s).
  End SampleCall.

  (** [SpectralConstrainedClustering.cluster]; [solver] also takes the random state (spectral.py:279). *)
  Definition spectral_call (vec D : Type) (kernel : list vec -> nat -> nat -> D) (zero one : D)
      (solver : N -> nat -> matrix D -> res (list Z)) (seed : option Z) (m : mgr) (vectors : dict pystr vec) (nb_clusters : option Z)
      (s : spectral D) (w : process) : spectral D * res (dict pystr Z) :=
    Spectral.cluster vec D kernel zero one (solver (random_state seed w)) m vectors nb_clusters s.

  (** [AffinityPropagationConstrainedClustering.cluster]; [noise n] is the noise added to a
      similarity with the draws of [n] (affinity_propagation.py:312-316). *)
  Definition with_noise {D} (o : Affinity.ops D) (f : nat -> nat -> D -> D) : Affinity.ops D :=
    Affinity.mkOps D (Affinity.o_zero D o) (Affinity.o_ninf D o) (Affinity.o_add D o) (Affinity.o_sub D o) (Affinity.o_neg D o)
      (Affinity.o_max2 D o) (Affinity.o_pymax D o) (Affinity.o_max D o) (Affinity.o_min D o) (Affinity.o_argmax D o)
      (Affinity.o_sum D o) (Affinity.o_pos D o) (Affinity.o_ge D o) (Affinity.o_eq D o) (Affinity.o_median D o)
      (Affinity.o_double D o) (Affinity.o_keep D o) (Affinity.o_new D o) f.
  Definition affinity_call (vec D : Type) (o : Affinity.ops D) (similarity : list vec -> nat -> nat -> D)
      (noise : N -> nat -> nat -> nat -> D -> D) (seed : option Z) (p : Affinity.ap_params) (m : mgr) (vectors : dict pystr vec)
      (nb_clusters : option Z) (s : option (dict pystr Z)) (w : process) : option (dict pystr Z) * res (dict pystr Z) :=
    Affinity.cluster vec D (with_noise o (noise (random_state seed w) (length (id_list m)))) similarity p m vectors nb_clusters s.

  (** [DBScanConstrainedClustering.cluster] (dbscan.py); the seed is stored and not read. *)
  Definition dbscan_call (vec D : Type) (pairwise : list vec -> nat -> nat -> D) (leb ltb : D -> D -> bool) (of_nat : nat -> D)
      (seed : option Z) (p : Dbscan.db_params D) (m : mgr) (vectors : dict pystr vec) (nb_clusters : option Z)
      (s : Dbscan.dbscan) (w : process) : Dbscan.dbscan * res (dict pystr Z) :=
    Dbscan.cluster vec D pairwise leb ltb of_nat (pr_sets w) p m vectors nb_clusters s.

  Section MpckmeansCall.
    Variables vec D : Type.
    Variable o : Mpckmeans.ops D.
    Variable flatten : vec -> list D.
    Variable limit : nat.
    Variable order : list nat -> list nat.
    (** [np.random.choice(n, size=1, p=weights)[0]], [np.random.choice(n, k, replace=False)],
        [np.random.shuffle]. *)
    Variable choice : N -> nat -> list D -> nat * N.
    Variable choices : N -> nat -> nat -> list nat * N.
    Variable numpy_shuffle : N -> list nat -> list nat * N.

    (** [np.random] when the centers are initialized (mpckmeans.py:469-503): one draw of an
        index, one draw of several or none. *)
    Definition after_centers (m : mgr) (n k : nat) (g : N) : N :=
      match Mpckmeans.constraint_graphs limit order m (id_list m) with
      | Raise _ => g
      | Ok (_, _, neighborhoods) =>
          let sizes := map (@length nat) neighborhoods in
          let weights := map (fun s => Mpckmeans.o_div D o (Mpckmeans.o_of_nat D o s) (Mpckmeans.o_of_nat D o (list_sum sizes))) sizes in
          if k <? length neighborhoods then snd (choice g (length neighborhoods) weights)
          else if length neighborhoods <? k then snd (choices g n (k - length neighborhoods))
          else g
      end.
    (** One shuffle per iteration (543). *)
    Fixpoint after_shuffles (t : nat) (l : list nat) (g : N) : N :=
      match t with O => g | S t => after_shuffles t l (snd (numpy_shuffle g l)) end.

    (** [MPCKMeansConstrainedClustering.cluster] (159-287). *)
    Definition mpckmeans_call (seed : option Z) (p : Mpckmeans.mp_params D) (m : mgr) (vectors : dict pystr vec) (nb_clusters : option Z)
        (s : Mpckmeans.mpckmeans D) (w : process) : Mpckmeans.mpckmeans D * res (dict pystr Z) :=
      let k := Nat.min (match nb_clusters with Some nb => Z.to_nat nb | None => 0 end) (length (id_list m)) in
      let g := after_centers m (length vectors) k (pr_numpy w) in
      Mpckmeans.cluster vec D o flatten limit order (fun n weights => fst (choice (pr_numpy w) n weights))
        (fun n k => fst (choices (pr_numpy w) n k)) (fun t l => fst (numpy_shuffle (after_shuffles t l g) l))
        p m vectors nb_clusters s.
  End MpckmeansCall.
End Process.
Arguments pr_random {G N}. Arguments pr_numpy {G N}. Arguments pr_system {G N}. Arguments pr_sets {G N}. Arguments mkProcess {G N}.
