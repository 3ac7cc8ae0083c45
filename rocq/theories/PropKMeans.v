(** Generated from KMeansThms.v by tools/gen_props.py: theorem statements,
    each closed by the lemma of the same name proved there. *)

From Coq Require Import String List Bool Arith ZArith QArith Permutation Lia.
From Verif Require Import Base Manager Spec ManagerThms SamplingSpec ClusterSpec KMeans KMeansSpec KMeansThms.
Import ListNotations.
Open Scope nat_scope.

(** An instance for the examples: points on a line. *)
Definition pw (X Y : list Z) (i j : nat) : Z := Z.abs (nth i X 0 - nth j Y 0)%Z.
Definition zmean (l : list Z) : Z := (fold_right Z.add 0 l / Z.of_nat (length l))%Z.
Definition zsum (l : list Z) : Z := fold_right Z.add 0%Z l.
Definition kmeans_Z := cluster Z Z pw Z.ltb zsum zmean (fun l => l) (nodup Z.eq_dec).
Definition A := str "a". Definition B := str "b". Definition C := str "c". Definition E := str "d".
Definition ex : mgr := run [CallAddConstraint A C MUST_LINK 1%Q; CallAddConstraint A B CANNOT_LINK 1%Q] (init [A; B; C; E]).
Lemma ex_reachable : reachable ex.
Proof. apply run_reachable. Qed.
Definition vecs : dict pystr Z := [(A, 0); (B, 1); (C, 10); (E, 12)]%Z.
Definition pars := mkKParams Z 5 1%Z.
Lemma nodup_order : valid_set_order (nodup Z.eq_dec).
Proof. intro l. split; [apply NoDup_nodup|intro; apply nodup_In]. Qed.
Lemma id_shuffle : valid_shuffle (fun l => l).
Proof. intro l. apply Permutation_refl. Qed.


(** C34: whatever the vectors, distances and random choices, a clustering returned by KMeans respects every known constraint. *)
Theorem C34_kmeans_respects_constraints :
  forall vec D (eqD : EqB D) pairwise ltb dzero dsum mean shuffle set_order model it tol p m vectors nb s d,
    valid_set_order set_order -> valid_shuffle shuffle -> reachable m ->
    make_kmeans D ltb dzero model it tol = Ok p ->
    result (cluster vec D pairwise ltb dsum mean shuffle set_order p m vectors nb) s = Ok d ->
    respects m d.
Proof. exact C34_kmeans_respects_constraints_proof. Qed.
Print Assumptions C34_kmeans_respects_constraints.

(** "a" and "b" are nearest to each other, "c" is nearest to "d": the constraints decide. *)
Example C34_ex :
  inferred ex B C (Some CANNOT_LINK) /\
  result (kmeans_Z pars ex vecs (Some 2%Z)) (fresh_kmeans Z) = Ok [(A, 0); (B, 1); (C, 0); (E, 0)]%Z.
Proof. split; vm_compute; reflexivity. Qed.

(** C35: on a non-empty manager whose IDs all have vectors, KMeans returns a canonical clustering of exactly the managed IDs. *)
Theorem C35_kmeans_total :
  forall vec D (eqD : EqB D) pairwise ltb dzero dsum mean shuffle set_order model it tol p m vectors nb s,
    valid_set_order set_order -> valid_shuffle shuffle -> reachable m ->
    make_kmeans D ltb dzero model it tol = Ok p ->
    has_ids m -> covers (Some vectors) m -> (2 <= nb)%Z ->
    exists d, result (cluster vec D pairwise ltb dsum mean shuffle set_order p m vectors (Some nb)) s = Ok d /\
      canonical d /\ covers_exactly m d.
Proof. exact C35_kmeans_total_proof. Qed.
Print Assumptions C35_kmeans_total.

Example C35_ex : make_kmeans Z Z.ltb 0%Z (str "COP") 5%Z 1%Z = Ok pars /\ has_ids ex /\ covers (Some vecs) ex.
Proof.
  split; [reflexivity|]. split; [exists A, [A; B; C; E]; split; [reflexivity|left; reflexivity]|].
  exists vecs. split; [reflexivity|]. intros x (l & El & J). injection El as <-. exact J.
Qed.

(** C35: KMeans raises exactly on a bad number of clusters, a manager without ID or a missing vector; never anything else. *)
Theorem C35_kmeans_errors :
  forall vec D (eqD : EqB D) pairwise ltb dzero dsum mean shuffle set_order model it tol p m vectors nb s e,
    valid_set_order set_order -> valid_shuffle shuffle -> reachable m ->
    make_kmeans D ltb dzero model it tol = Ok p ->
    (result (cluster vec D pairwise ltb dsum mean shuffle set_order p m vectors nb) s = Raise e <->
     (e = ValueError /\ (nb = None \/ (exists n, nb = Some n /\ (n < 2)%Z) \/ ~ has_ids m)) \/
     (e = KeyError /\ (exists n, nb = Some n /\ (2 <= n)%Z) /\ exists x, managed m x /\ ~ In x (keys vectors))).
Proof. exact C35_kmeans_errors_proof. Qed.
Print Assumptions C35_kmeans_errors.

Example C35_ex_errors :
  result (kmeans_Z pars ex vecs None) (fresh_kmeans Z) = Raise ValueError /\
  result (kmeans_Z pars (init []) vecs (Some 2%Z)) (fresh_kmeans Z) = Raise ValueError /\
  result (kmeans_Z pars ex [(A, 0%Z)] (Some 2%Z)) (fresh_kmeans Z) = Raise KeyError.
Proof. repeat split; vm_compute; reflexivity. Qed.

(** C36 as stated is false: the numbers of the centroids are not those of the returned clusters. *)
Theorem C36_centroids_refuted :
  exists (pairwise : list Z -> list Z -> nat -> nat -> Z) ltb dsum mean shuffle set_order p m vectors nb s s' d,
    valid_set_order set_order /\ valid_shuffle shuffle /\ strict_weak_order ltb /\ reachable m /\
    make_kmeans Z ltb 0%Z (str "COP") 150%Z 1%Z = Ok p /\
    cluster Z Z pairwise ltb dsum mean shuffle set_order p m vectors nb s = (s', Ok d) /\
    exists ids, ask get_list_of_managed_data_IDs m = Ok ids /\ ~ centroids_of mean ids vectors d (k_centroids Z s').
Proof. exact C36_centroids_refuted_proof. Qed.
Print Assumptions C36_centroids_refuted.

(** C36, the part that holds: the centroids are the means of the returned clusters, under some other numbering of the clusters. *)
Theorem C36_centroids_partial :
  forall vec D (eqD : EqB D) pairwise ltb dzero dsum mean shuffle set_order model it tol p m vectors nb s s' d,
    valid_set_order set_order -> valid_shuffle shuffle -> reachable m ->
    make_kmeans D ltb dzero model it tol = Ok p ->
    cluster vec D pairwise ltb dsum mean shuffle set_order p m vectors nb s = (s', Ok d) ->
    k_clusters vec s' = d /\ k_predicted vec s' = Some d /\
    exists ids raw, ask get_list_of_managed_data_IDs m = Ok ids /\ same_partition raw d /\
      centroids_of mean ids vectors raw (k_centroids vec s').
Proof. exact C36_centroids_partial_proof. Qed.
Print Assumptions C36_centroids_partial.

Example C36_ex : let run := kmeans_Z pars ex vecs (Some 2%Z) (fresh_kmeans Z) in
  (snd run, k_centroids Z (fst run)) = (Ok [(A, 0); (B, 1); (C, 0); (E, 0)], [(0, 1); (1, 7)])%Z.
Proof. vm_compute; reflexivity. Qed.

(** C55: with complete constraints the clusters are the connected components. *)
Theorem C55_kmeans_complete_constraints :
  forall vec D (eqD : EqB D) pairwise ltb dzero dsum mean shuffle set_order model it tol p m vectors nb s d a b,
    valid_set_order set_order -> valid_shuffle shuffle -> reachable m ->
    make_kmeans D ltb dzero model it tol = Ok p ->
    complete m -> managed m a -> managed m b ->
    result (cluster vec D pairwise ltb dsum mean shuffle set_order p m vectors nb) s = Ok d ->
    (dget a d = dget b d <-> linked (added_must m) a b).
Proof. exact C55_kmeans_complete_constraints_proof. Qed.
Print Assumptions C55_kmeans_complete_constraints.

Definition ex_complete : mgr := run [CallAddConstraint A E CANNOT_LINK 1%Q; CallAddConstraint B E CANNOT_LINK 1%Q] ex.
Example C55_ex : complete ex_complete /\
  result (kmeans_Z pars ex_complete vecs (Some 2%Z)) (fresh_kmeans Z) = Ok [(A, 0); (B, 1); (C, 0); (E, 2)]%Z.
Proof. split; vm_compute; reflexivity. Qed.

(** C58: a call is a COP-KMeans run: rounds that send each component to the nearest cluster that is not blocked by a CANNOT_LINK, then recompute the means, until the centroids are stable or the rounds are used up. *)
Theorem C58_kmeans_is_cop_run :
  forall vec D (eqD : EqB D) pairwise ltb dzero dsum mean shuffle set_order model it tol p m vectors nb s s' d,
    valid_set_order set_order -> valid_shuffle shuffle -> strict_weak_order ltb -> reachable m ->
    make_kmeans D ltb dzero model it tol = Ok p ->
    cluster vec D pairwise ltb dsum mean shuffle set_order p m vectors (Some nb) s = (s', Ok d) ->
    exists ids first raw, ask get_list_of_managed_data_IDs m = Ok ids /\
      initial_centroids ids vectors (Nat.min (Z.to_nat nb) (length ids)) first /\
      cop_run pairwise ltb dsum mean tol m ids vectors (Z.to_nat it) first None raw (k_centroids vec s') /\
      same_partition raw d.
Proof. exact C58_kmeans_is_cop_run_proof. Qed.
Print Assumptions C58_kmeans_is_cop_run.

Lemma ltb_swo : strict_weak_order Z.ltb.
Proof. split; [|split]; intros; rewrite ?Z.ltb_lt, ?Z.ltb_ge in *; try lia; auto using Z.ltb_irrefl. Qed.
(** Without constraints: two groups on a line. *)
Example C58_ex : result (kmeans_Z pars (init [A; B; C; E]) vecs (Some 2%Z)) (fresh_kmeans Z) = Ok [(A, 0); (B, 0); (C, 1); (E, 1)]%Z.
Proof. vm_compute; reflexivity. Qed.

(** C59: a KMeans object can be reused: result and centroids do not depend on earlier calls. *)
Theorem C59_kmeans_no_memory :
  forall vec D (eqD : EqB D) pairwise ltb dsum mean shuffle set_order p m vectors nb s1 s2,
    result (cluster vec D pairwise ltb dsum mean shuffle set_order p m vectors nb) s1 =
    result (cluster vec D pairwise ltb dsum mean shuffle set_order p m vectors nb) s2 /\
    forall s1' s2' d1 d2,
      cluster vec D pairwise ltb dsum mean shuffle set_order p m vectors nb s1 = (s1', Ok d1) ->
      cluster vec D pairwise ltb dsum mean shuffle set_order p m vectors nb s2 = (s2', Ok d2) -> s1' = s2'.
Proof. exact C59_kmeans_no_memory_proof. Qed.
Print Assumptions C59_kmeans_no_memory.

Example C59_ex : forall s, result (kmeans_Z pars ex vecs (Some 2%Z)) s = Ok [(A, 0); (B, 1); (C, 0); (E, 0)]%Z.
Proof. intro s. transitivity (result (kmeans_Z pars ex vecs (Some 2%Z)) (fresh_kmeans Z)); [apply C59_kmeans_no_memory|vm_compute; reflexivity]. Qed.

(** C60: the number of clusters KMeans returns is feasible for the constraints, and is at most the number of connected components. *)
Theorem C60_kmeans_number_of_clusters :
  forall vec D (eqD : EqB D) pairwise ltb dzero dsum mean shuffle set_order model it tol p m vectors nb s d comps,
    valid_set_order set_order -> valid_shuffle shuffle -> reachable m ->
    make_kmeans D ltb dzero model it tol = Ok p ->
    result (cluster vec D pairwise ltb dsum mean shuffle set_order p m vectors nb) s = Ok d ->
    ask get_connected_components m = Ok comps ->
    feasible m (nb_clusters_of d) /\ nb_clusters_of d <= length comps.
Proof. exact C60_kmeans_number_of_clusters_proof. Qed.
Print Assumptions C60_kmeans_number_of_clusters.

Example C60_ex : nb_clusters_of [(A, 0); (B, 1); (C, 0); (E, 0)]%Z = 2 /\ ask get_connected_components ex = Ok [[A; C]; [B]; [E]].
Proof. split; vm_compute; reflexivity. Qed.
