(** Generated from SeedsThms.v by tools/gen_props.py: theorem statements,
    each closed by the lemma of the same name proved there. *)

From Coq Require Import String List Bool Arith ZArith QArith Permutation Lia.
From Verif Require Import Base Manager Spec  ManagerThms Sampling SamplingSpec ClusterSpec Rename KMeans KMeansSpec Spectral DbscanSpec DbscanThms MpckSpec MpckThms Seeds SeedsThms.
From Verif Require Dbscan Mpckmeans Affinity.
Import ListNotations.
Open Scope nat_scope.

Definition A := str "a". Definition B := str "b". Definition C := str "c". Definition E := str "d".
(** A generator is the number of the next draw: even states leave a list, odd ones reverse it. *)
Definition shuffle_n {T} (g : nat) (l : list T) : list T * nat := (if Nat.even g then l else rev l, S g).
Definition sample_n {T} (g : nat) (l : list T) (k : nat) : list T * nat := (firstn k (fst (shuffle_n g l)), S g).
Definition process_n (g n system : nat) : process nat nat := mkProcess g n system dedup.
Definition ex : mgr := run [CallAddConstraint A B MUST_LINK 1%Q] (init [A; B; C; E]).
Definition vecs : dict pystr Z := [(A, 0); (B, 1); (C, 10); (E, 12)]%Z.
Definition pw (X Y : list Z) (i j : nat) : Z := Z.abs (nth i X 0 - nth j Y 0)%Z.
Definition zmean (l : list Z) : Z := (fold_right Z.add 0 l / Z.of_nat (length l))%Z.
Definition zsum (l : list Z) : Z := fold_right Z.add 0%Z l.

(** C93: with a seed, constrained KMeans gives the same clusters and leaves the same object in every process, whatever was drawn before: those of
    a run of the algorithm for one order of the data. *)
Theorem C93_kmeans :
  forall G N seeded shuffle_from vec D (eqD : EqB D) pairwise ltb dsum mean set_order z p m vectors nb s,
    (forall g, KMeansSpec.valid_shuffle (fun l => fst (shuffle_from g l))) ->
    exists shuffle, KMeansSpec.valid_shuffle shuffle /\ forall w : process G N,
      snd (kmeans_call G N seeded shuffle_from vec D pairwise ltb dsum mean set_order (Some z) p m vectors nb s w) =
      KMeans.cluster vec D pairwise ltb dsum mean shuffle set_order p m vectors nb s.
Proof. exact C93_kmeans_proof. Qed.
Print Assumptions C93_kmeans.

Example C93_kmeans_ex : forall w, result (fun s => snd (kmeans_call nat nat Z.to_nat shuffle_n Z Z pw Z.ltb zsum zmean (nodup Z.eq_dec) (Some 3%Z)
    (mkKParams Z 5 1%Z) ex vecs (Some 2%Z) s w)) (fresh_kmeans Z) = Ok [(A, 0); (B, 0); (C, 1); (E, 1)]%Z.
Proof. intro w. vm_compute. reflexivity. Qed.

(** C93: with a seed, a sampler selects the same pairs in every process, whatever was drawn before: those of a sampling with one draw. *)
Theorem C93_sampler :
  forall G N seeded sample_from vec D pairwise ltb z o nb clusters vectors s,
    (forall g, valid_draw (fun l k => fst (sample_from g l k))) ->
    exists draw, valid_draw draw /\ forall w : process G N,
      snd (sample_call G N seeded sample_from vec D pairwise ltb (Some z) o nb clusters vectors s w) = sample vec D pairwise ltb draw o nb clusters vectors s.
Proof. exact C93_sampler_proof. Qed.
Print Assumptions C93_sampler.

Example C93_sampler_ex : forall w, result (fun s => snd (sample_call nat nat Z.to_nat sample_n Z Z (fun X => pw X X) Z.ltb (Some 3%Z)
    (mkOptions None None true true) 2%Z None None s w)) (fresh_sampler Z Z, ex) = Ok [(C, E); (B, E)].
Proof. intro w. vm_compute. reflexivity. Qed.

(** C93: with a seed, spectral clustering gives the same clusters in every process: those of one solver. *)
Theorem C93_spectral :
  forall G N numpy_seeded vec D kernel zero one solver z m vectors nb s,
    exists n, forall w : process G N,
      spectral_call G N numpy_seeded vec D kernel zero one solver (Some z) m vectors nb s w = Spectral.cluster vec D kernel zero one (solver n) m vectors nb s.
Proof. exact C93_spectral_proof. Qed.
Print Assumptions C93_spectral.

(** C93: with a seed, affinity propagation gives the same clusters in every process: those obtained with one noise. *)
Theorem C93_affinity :
  forall G N numpy_seeded vec D o similarity noise z p m vectors nb s,
    exists n, forall w : process G N,
      affinity_call G N numpy_seeded vec D o similarity noise (Some z) p m vectors nb s w =
      Affinity.cluster vec D (with_noise o (noise n (length (id_list m)))) similarity p m vectors nb s.
Proof. exact C93_affinity_proof. Qed.
Print Assumptions C93_affinity.

(** C93: DBScan gives the same clusters and leaves the same object in every process, with any seed or none, although processes hash strings differently. *)
Theorem C93_dbscan :
  forall G N vec D pairwise leb ltb of_nat eps ms p m vectors nb s seed1 seed2 (w1 w2 : process G N),
    valid_setlist (pr_sets w1) -> valid_setlist (pr_sets w2) -> Dbscan.make_dbscan D leb of_nat eps ms = Ok p ->
    (forall rows i, leb (pairwise rows i i) eps = true) -> strict_weak_order ltb -> (forall x y, leb x y = negb (ltb y x)) -> reachable m ->
    dbscan_call G N vec D pairwise leb ltb of_nat seed1 p m vectors nb s w1 = dbscan_call G N vec D pairwise leb ltb of_nat seed2 p m vectors nb s w2.
Proof. exact C93_dbscan_proof. Qed.
Print Assumptions C93_dbscan.

Example C93_dbscan_ex : forall s1 s2, result (fun s => dbscan_call nat nat Z Z (fun X => pw X X) Z.leb Z.ltb Z.of_nat s1
    (Dbscan.mkDBParams Z 2%Z 2) ex vecs None s (mkProcess 0 0 0 dedup)) Dbscan.fresh_dbscan = Ok [(A, 0); (B, 0); (C, 1); (E, 1)]%Z /\
  result (fun s => dbscan_call nat nat Z Z (fun X => pw X X) Z.leb Z.ltb Z.of_nat s2
    (Dbscan.mkDBParams Z 2%Z 2) ex vecs None s (mkProcess 5 1 7 (fun l => rev (dedup l)))) Dbscan.fresh_dbscan = Ok [(A, 0); (B, 0); (C, 1); (E, 1)]%Z.
Proof. intros. split; vm_compute; reflexivity. Qed.

(** C93 (refuted for MPCKMeans): it draws from np.random and never reads its seed: the same call with the same seed, in two states of np.random, gives different partitions of four points on a line.  Full statement (refuted): with a seed, snd (call w1) = snd (call w2). *)
Theorem C93_mpckmeans_refuted :
  exists p vectors d1 d2,
    Mpckmeans.make_mpckmeans Q Qops (str "MPC") 10 (1#1)%Q = Ok p /\ reachable four /\
    (forall seed, snd (line_mpck seed p four vectors (Some 2%Z) (state 0)) = Ok d1) /\
    (forall seed, snd (line_mpck seed p four vectors (Some 2%Z) (state 1)) = Ok d2) /\
    ~ same_partition d1 d2.
Proof. exact C93_mpckmeans_refuted_proof. Qed.
Print Assumptions C93_mpckmeans_refuted.

(** C93 (partial, MPCKMeans): its result is a function of its arguments and of the state of np.random only: a caller who seeds np.random before the call gets the same result.  Missing: the seed of the object has no effect (refuted above). *)
Theorem C93_mpckmeans_numpy_partial :
  forall G N vec D o flatten limit order choice choices numpy_shuffle seed1 seed2 p m vectors nb s (w1 w2 : process G N),
    pr_numpy w1 = pr_numpy w2 ->
    mpckmeans_call G N vec D o flatten limit order choice choices numpy_shuffle seed1 p m vectors nb s w1 =
    mpckmeans_call G N vec D o flatten limit order choice choices numpy_shuffle seed2 p m vectors nb s w2.
Proof. exact C93_mpckmeans_numpy_partial_proof. Qed.
Print Assumptions C93_mpckmeans_numpy_partial.

(** The generator counts what is drawn: an index counts for 100, several for one more than their number. *)
Definition count_centers (m : mgr) (k : nat) : nat :=
  after_centers nat Q Qops 100 (fun l => l) (fun g _ _ => (0, g + 100)) (fun g _ k => (seq 0 k, S (g + k))) m 4 k 0.
(** Three neighbourhoods: an index, nothing or one data is drawn. *)
Example C93_draws : count_centers ex 2 = 100 /\ count_centers ex 3 = 0 /\ count_centers ex 4 = 2.
Proof. repeat split; vm_compute; reflexivity. Qed.

(** C94 (refuted): a call of KMeans with a seed leaves the generator of the whole process in a state that depends on the seed and the IDs only: what the program had seeded is lost, and everything it draws next is fixed. *)
Theorem C94_kmeans_resets_refuted :
  forall G N seeded shuffle_from vec D (eqD : EqB D) pairwise ltb dsum mean set_order z p m vectors nb s (w1 w2 : process G N),
    (2 <= nb)%Z ->
    let call := kmeans_call G N seeded shuffle_from vec D pairwise ltb dsum mean set_order (Some z) p m vectors (Some nb) s in
    pr_random (fst (call w1)) = pr_random (fst (call w2)).
Proof. exact C94_kmeans_resets_refuted_proof. Qed.
Print Assumptions C94_kmeans_resets_refuted.

(** C94 (refuted): so does a call of a sampler that selects something, even one that chooses by distance and draws nothing. *)
Theorem C94_sampler_resets_refuted :
  forall G N seeded sample_from vec D pairwise ltb z o nb clusters vectors s (w1 w2 : process G N) l,
    let call := sample_call G N seeded sample_from vec D pairwise ltb (Some z) o nb clusters vectors s in
    (0 < nb)%Z -> snd (snd (call w1)) = Ok l ->
    pr_random (fst (call w1)) = pr_random (fst (call w2)).
Proof. exact C94_sampler_resets_refuted_proof. Qed.
Print Assumptions C94_sampler_resets_refuted.

(** C94 (refuted): without a seed KMeans takes a new one from the operating system, so that a program that seeds [random] itself is not reproducible: in two processes with the same generators the same call gives different partitions. *)
Theorem C94_unseeded_refuted :
  exists (w1 w2 : process nat nat) p d1 d2,
    pr_random w1 = pr_random w2 /\ pr_numpy w1 = pr_numpy w2 /\ (forall l, pr_sets w1 l = pr_sets w2 l) /\
    make_kmeans Z Z.ltb 0%Z (str "COP") 1 1%Z = Ok p /\ reachable four /\
    snd (snd (line_kmeans None p four four_vectors (Some 2%Z) w1)) = Ok d1 /\
    snd (snd (line_kmeans None p four four_vectors (Some 2%Z) w2)) = Ok d2 /\
    ~ same_partition d1 d2.
Proof. exact C94_unseeded_refuted_proof. Qed.
Print Assumptions C94_unseeded_refuted.

(** C94 (partial): KMeans and the samplers leave np.random alone, and a call that fails before its draw leaves both generators alone. *)
Theorem C94_numpy_untouched_partial :
  forall G N seeded (w : process G N),
    (forall shuffle_from vec D (eqD : EqB D) pairwise ltb dsum mean set_order seed p m vectors nb s,
       let w' := fst (kmeans_call G N seeded shuffle_from vec D pairwise ltb dsum mean set_order seed p m vectors nb s w) in
       pr_numpy w' = pr_numpy w /\ ((forall z, nb = Some z -> (z < 2)%Z) -> w' = w)) /\
    (forall sample_from vec D pairwise ltb seed o nb clusters vectors s,
       let r := sample_call G N seeded sample_from vec D pairwise ltb seed o nb clusters vectors s w in
       pr_numpy (fst r) = pr_numpy w /\ ((exists e, snd (snd r) = Raise e) \/ (nb <= 0)%Z -> fst r = w)).
Proof. exact C94_numpy_untouched_partial_proof. Qed.
Print Assumptions C94_numpy_untouched_partial.
