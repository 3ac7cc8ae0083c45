(** * Numbers, random draws and calls used by the tests of the model

    The files Tests*.v run the model on the project's own tests (/repo/tests), written out by
    tools/gen_tests.py.  They check the model on some inputs and prove nothing about the others.

    Numbers are the binary64 numbers of Coq's standard library.  Distances are computed as in
    scikit-learn ([euclidean_distances]: the square root of [max(-2 x.y + x.x + y.y, 0)], and 0 on
    the diagonal when both matrices are the same).  A draw made after [random.seed(n)] is written
    as the positions that Python's [random] module gives. *)

From Coq Require Import String List Bool Arith NArith ZArith QArith SpecFloat.
From Verif Require Import Base Manager MinMax ColoringSpec Json KMeans Hierarchical Dbscan Affinity Mpckmeans Spectral Sampling Objects Frequency Factories.
Import ListNotations.
Open Scope nat_scope.
Open Scope py_scope.

(** ** Binary64 numbers *)
Definition fadd := SFadd 53 1024.
Definition fsub := SFsub 53 1024.
Definition fmul := SFmul 53 1024.
Definition fdiv := SFdiv 53 1024.
Definition fsqrt := SFsqrt 53 1024.
Definition fint (z : Z) : spec_float := binary_normalize 53 1024 z 0 false.
Definition fnat (n : nat) : spec_float := fint (Z.of_nat n).
Definition fzero := fint 0.
(** The number nearest to [a / b]. *)
Definition dec (a b : Z) : spec_float := fdiv (fint a) (fint b).
Definition fsum (l : list spec_float) : spec_float := fold_left fadd l fzero.
Definition fmax (x y : spec_float) : spec_float := if SFltb x y then y else x.

Definition float_eqb (x y : spec_float) : bool :=
  match x, y with
  | S754_zero a, S754_zero b | S754_infinity a, S754_infinity b => Bool.eqb a b
  | S754_nan, S754_nan => true
  | S754_finite a m e, S754_finite b n f => Bool.eqb a b && Pos.eqb m n && Z.eqb e f
  | _, _ => false
  end.
Lemma float_eqb_eq x y : float_eqb x y = true <-> x = y.
Proof.
  destruct x as [a|a| |a m e], y as [b|b| |b n f]; simpl; split; intro E; try discriminate; try reflexivity;
    try (apply eqb_prop in E; congruence); try (injection E as ->; apply eqb_reflx).
  - apply andb_true_iff in E. destruct E as [E E3]. apply andb_true_iff in E. destruct E as [E1 E2].
    apply eqb_prop in E1. apply Pos.eqb_eq in E2. apply Z.eqb_eq in E3. congruence.
  - injection E as -> -> ->. rewrite eqb_reflx, Pos.eqb_refl, Z.eqb_refl. reflexivity.
Qed.
#[global] Instance EqB_float : EqB spec_float := { eqb := float_eqb; eqb_eq := float_eqb_eq }.

(** ** Vectors *)
Definition fvec := list spec_float.
Definition zip_with (f : spec_float -> spec_float -> spec_float) (x y : fvec) : fvec := map (fun e => f (fst e) (snd e)) (combine x y).
Definition dot (x y : fvec) : spec_float := fsum (zip_with fmul x y).
Definition euclidean (x y : fvec) : spec_float :=
  fsqrt (fmax (fadd (fadd (fmul (fint (-2)) (dot x y)) (dot x x)) (dot y y)) fzero).
(** [pairwise_distances(X)], [pairwise_distances(X, Y)] *)
Definition distances_within (X : list fvec) (i j : nat) : spec_float :=
  if Nat.eqb i j then fzero else euclidean (nth i X []) (nth j X []).
Definition distances_between (X Y : list fvec) (i j : nat) : spec_float := euclidean (nth i X []) (nth j Y []).
(** [sum(vectors) / len(vectors)] *)
Definition fmean (l : list fvec) : fvec :=
  match l with
  | [] => []
  | v :: l' => map (fun x => fdiv x (fnat (length l))) (fold_left (zip_with fadd) l' v)
  end.

(** ** Draws *)
(** The elements of [l] at the given positions. *)
Definition at_positions {A} (l : list A) (positions : list nat) : list A := flat_map (fun i => firstn 1 (skipn i l)) positions.
Definition positions_in (table : list (nat * nat * list nat)) (n k : nat) : list nat :=
  match find (fun e => Nat.eqb (fst (fst e)) n && Nat.eqb (snd (fst e)) k) table with Some e => snd e | None => [] end.
(** [random.shuffle(l)], [random.sample(l, k)] with the draws of a table *)
Definition shuffled {A} (table : list (nat * nat * list nat)) (l : list A) : list A := at_positions l (positions_in table (length l) (length l)).
Definition sampled {A} (table : list (nat * nat * list nat)) (l : list A) (k : nat) : list A := at_positions l (positions_in table (length l) k).
(** A set of small integers is enumerated in increasing order, without repetition. *)
Definition ascending (l : list Z) : list Z := sorted_by Z.ltb (dedup l).

(** ** Constraints manager *)
Definition calls (l : list call) (m : mgr) : mgr := fold_left (fun m c => fst (exec c m)) l m.
Definition manager (ids : list pystr) (l : list call) : mgr := calls l (init ids).
Definition answer (m : mgr) (c : call) : res value := snd (exec c m).
Definition succeeds {A} (r : res A) : bool := match r with Ok _ => true | Raise _ => false end.
Definition raises {A} (r : res A) (e : exn) : Prop := r = Raise e.
(** The answers of [get_min_and_max_number_of_clusters] for three orders of the nodes. *)
Definition ranges (m : mgr) : list (res (nat * nat)) :=
  map (fun f => snd (get_min_and_max_number_of_clusters (fun _ g => f g) m)) [largest_first; g_nodes; fun g => rev (g_nodes g)].
Definition range (lo hi : nat) : list (res (nat * nat)) := repeat (Ok (lo, hi)) 3.
Definition reloaded (m : mgr) : mgr := match load_text (to_json_text m) with Ok m' => m' | Raise _ => init [] end.

(** ** Results *)
(** [r == d] for two dictionaries. *)
Definition same_dict {K V} `{EqB K} (veq : V -> V -> bool) (r : res (dict K V)) (d : dict K V) : bool :=
  match r with
  | Ok r => Nat.eqb (length r) (length d) &&
            forallb (fun e => match dget (fst e) r with Some v => veq v (snd e) | None => false end) d
  | Raise _ => false
  end.
Definition gives (r : res (dict pystr Z)) (d : dict pystr Z) : Prop := same_dict Z.eqb r d = true.
(** [assert d] for an attribute that is a dictionary or [None]. *)
Definition truthy {K V} (d : option (dict K V)) : bool := match d with Some (_ :: _) => true | _ => false end.
Definition fail_or {A B} (r : res A) (f : A -> res B) : res B := match r with Ok a => f a | Raise e => Raise e end.

(** ** Models with the default values of the constructors *)
Definition kmeans_run shuffle max_iteration tolerance m vectors nb :=
  p <-- make_kmeans spec_float SFltb fzero (str "COP") max_iteration tolerance ;;;
  Ok (KMeans.cluster fvec spec_float distances_between SFltb fsum fmean shuffle ascending p m vectors nb (fresh_kmeans fvec)).
Definition hierarchical_run linkage m vectors nb :=
  p <-- make_hierarchical linkage ;;;
  Ok (Hierarchical.cluster fvec spec_float distances_within euclidean SFltb fsum (fun d n => fdiv d (fnat n)) (S754_infinity false) fmean
        p m vectors nb (fresh_hier fvec)).
Definition dbscan_run setlist eps min_samples m vectors nb :=
  p <-- make_dbscan spec_float SFleb fnat eps min_samples ;;;
  Ok (Dbscan.cluster fvec spec_float distances_within SFleb SFltb fnat setlist p m vectors nb fresh_dbscan).

(** Folds over non-empty arrays *)
Definition best (f : spec_float -> spec_float -> bool) (l : list spec_float) : spec_float :=
  match l with [] => fzero | x :: l' => fold_left (fun b y => if f b y then y else b) l' x end.
Definition arg_best (f : spec_float -> spec_float -> bool) (l : list spec_float) : nat :=
  match l with
  | [] => 0
  | x :: l' => fst (fold_left (fun b e => if f (snd b) (snd e) then e else b) (combine (seq 1 (length l')) l') (0, x))
  end.
Definition fgtb (x y : spec_float) : bool := SFltb y x.
(** [np.median] *)
Definition median (l : list spec_float) : spec_float :=
  let s := sorted_by SFltb l in
  let n := length s in
  let at_ i := nth i s fzero in
  if Nat.even n then fdiv (fadd (at_ (n / 2 - 1)) (at_ (n / 2))) (fint 2) else at_ (n / 2).

(** Affinity propagation with [damping = 0.5] and without the noise of line 316. *)
Definition half : spec_float := dec 1 2.
Definition affinity_ops : Affinity.ops spec_float :=
  Affinity.mkOps spec_float fzero (S754_infinity true) fadd fsub SFopp fmax (best SFltb) (best SFltb) (best fgtb) (arg_best SFltb) fsum
    (SFltb fzero) (fun x y => SFleb y x) SFeqb median (fmul (fint 2)) (fun x => fmul x half) (fun x => fmul x (fsub (fint 1) half)) (fun _ _ x => x).
Definition affinity_run max_iteration convergence_iteration m vectors nb :=
  p <-- make_affinity max_iteration convergence_iteration true ;;;
  Ok (Affinity.cluster fvec spec_float affinity_ops (fun rows i j => SFopp (distances_within rows i j)) p m vectors nb None).

(** MPCKMeans; the logarithm of line 519 is left out: it is the same for all clusters. *)
Definition fsq (x : spec_float) : spec_float := fmul x x.
Definition mpc_ops : Mpckmeans.ops spec_float :=
  Mpckmeans.mkOps spec_float fnat half (dec 1 1000000000) fadd fsub fmul fdiv fsq fsqrt SFltb
    (fun x => SFleb (SFabs x) (dec 1 1000000)) fsum (best fgtb) (fun l => fdiv (fsum l) (fnat (length l))) (arg_best fgtb)
    (fun x y A => fsq (fsqrt (dot (zip_with fmul (zip_with fsub x y) A) (zip_with fsub x y))))
    (fun _ => fzero).
Definition mpckmeans_run first shuffle model max_iteration w m vectors nb :=
  p <-- make_mpckmeans spec_float mpc_ops model max_iteration w ;;;
  Ok (Mpckmeans.cluster fvec spec_float mpc_ops (fun v => v) 900 (fun l => sorted_by Nat.ltb l) first (fun n k => seq 0 k) shuffle
        p m vectors nb (fresh_mpckmeans spec_float)).

(** The sampler *)
Definition sample_run draw clusters distance added inferred m nb clustering vectors :=
  o <-- make_options clusters distance added inferred ;;;
  Ok (Sampling.sample fvec spec_float distances_within SFltb draw o nb clustering vectors (fresh_sampler fvec spec_float, m)).

(** Result, state after a run, and whether the constructor failed. *)
Definition result {S A} (r : res (S * res A)) : res A := fail_or r snd.
Definition predicted {S A K V} (f : S -> option (dict K V)) (r : res (S * res A)) : bool :=
  match r with Ok (s, _) => truthy (f s) | Raise _ => false end.

(** Spectral clustering with an eigensolver that is never reached. *)
Definition spectral_run m vectors nb :=
  Ok (Spectral.cluster fvec spec_float distances_within fzero fzero (fun _ _ => Raise RuntimeError) m vectors nb (fresh_spectral spec_float)).

(** Instances made by a factory *)
Definition instance (r : res (clustering_model spec_float)) (f : clustering_model spec_float -> bool) : bool :=
  match r with Ok c => f c | Raise _ => false end.
Definition is_affinity r := instance r (fun c => match c with AffinityPropagationModel _ _ => true | _ => false end).
Definition is_dbscan r := instance r (fun c => match c with DBScanModel _ _ => true | _ => false end).
Definition is_hierarchical r := instance r (fun c => match c with HierarchicalModel _ _ => true | _ => false end).
Definition is_kmeans r := instance r (fun c => match c with KMeansModel _ _ => true | _ => false end).
Definition is_mpckmeans r := instance r (fun c => match c with MPCKMeansModel _ _ => true | _ => false end).
Definition is_spectral r := instance r (fun c => match c with SpectralModel _ _ => true | _ => false end).
Definition has_max_iteration r (n : Z) := instance r (fun c =>
  match c with
  | AffinityPropagationModel _ p => Z.eqb (Z.of_nat (ap_max_iteration p)) n
  | KMeansModel _ p => Z.eqb (Z.of_nat (kp_max_iteration _ p)) n
  | MPCKMeansModel _ p => Z.eqb (Z.of_nat (mp_max_iteration _ p)) n
  | _ => false
  end).
Definition has_convergence_iteration r (n : Z) := instance r (fun c =>
  match c with AffinityPropagationModel _ p => Z.eqb (Z.of_nat (ap_convergence_iteration p)) n | _ => false end).
Definition has_eps r x := instance r (fun c => match c with DBScanModel _ p => float_eqb (db_eps _ p) x | _ => false end).
Definition has_min_samples r (n : Z) := instance r (fun c => match c with DBScanModel _ p => Z.eqb (Z.of_nat (db_min_samples _ p)) n | _ => false end).
Definition has_linkage r s := instance r (fun c => match c with HierarchicalModel _ l => eqb l s | _ => false end).
Definition has_tolerance r x := instance r (fun c => match c with KMeansModel _ p => float_eqb (kp_tolerance _ p) x | _ => false end).
Definition has_w r x := instance r (fun c => match c with MPCKMeansModel _ p => float_eqb (mp_w _ p) x | _ => false end).
Definition has_nb_components r (n : Z) := instance r (fun c => match c with SpectralModel _ (Some k) => Z.eqb k n | _ => false end).
