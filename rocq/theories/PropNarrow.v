(** Generated from NarrowThms.v by tools/gen_props.py: theorem statements,
    each closed by the lemma of the same name proved there. *)

From Coq Require Import String List Bool Arith ZArith QArith Permutation Lia Relations.
From Verif Require Import Base Manager Spec ManagerInv ManagerQueries ManagerThms SamplingSpec ClusterSpec ClusterProofs KMeansSpec Hierarchical HierSpec CutSpec NarrowThms.
Import ListNotations.
Open Scope nat_scope.

(** An instance for the examples: points on a line. *)
Definition pw (X : list Z) (i j : nat) : Z := Z.abs (nth i X 0 - nth j X 0)%Z.
Definition zmean (l : list Z) : Z := (fold_right Z.add 0 l / Z.of_nat (length l))%Z.
Definition zsum (l : list Z) : Z := fold_right Z.add 0%Z l.
Definition hier_Z := cluster Z Z pw (fun x y => Z.abs (x - y)%Z) Z.ltb zsum (fun d n => (d / Z.of_nat n)%Z) 1000000%Z zmean.
Definition A := str "a". Definition B := str "b". Definition C := str "c". Definition E := str "d". Definition F := str "e".

(** C137: in a cut by iteration after complete linkage, joining two clusters that may be joined would put together two data at least as far
    from each other as any two data that are together now without a MUST_LINK. *)
Theorem C137_no_narrower_merge_partial :
  forall vec D (eqD : EqB D) pairwise cdistance ltb dsum ddiv inf mean m vectors nb s s' d k d',
    strict_total_order ltb -> (forall X i j, pairwise X i j = pairwise X j i) -> (forall x, ltb inf x = false) -> reachable m ->
    cluster vec D pairwise cdistance ltb dsum ddiv inf mean (str "complete") m vectors nb s = (s', Ok d) ->
    compute_predicted_clusters vec k (str "iteration") s' = (s', Ok d') ->
    forall x y u v dxy, managed m x -> managed m y -> managed m u -> managed m v ->
      dget x d' = dget y d' -> ~ inferred m x y (Some MUST_LINK) -> distance_is pairwise m vectors (x, y) dxy ->
      dget u d' <> dget v d' ->
      (forall a b, managed m a -> managed m b -> dget a d' = dget u d' -> dget b d' = dget v d' -> ~ inferred m a b (Some CANNOT_LINK)) ->
      exists a b dab, managed m a /\ managed m b /\ dget a d' = dget u d' /\ dget b d' = dget v d' /\
        distance_is pairwise m vectors (a, b) dab /\ ltb dab dxy = false.
Proof. exact C137_no_narrower_merge_partial_proof. Qed.
Print Assumptions C137_no_narrower_merge_partial.

(** "c" and "d" are at distance 1 but may not be together. *)
Definition six : mgr := run [CallAddConstraint C E CANNOT_LINK 1%Q] (init [A; B; C; E; F]).
Definition spots : dict pystr Z := [(A, 0); (B, 1); (C, 9); (E, 10); (F, 15)]%Z.
Example C137_ex : reachable six /\
  result (compute_predicted_clusters Z 3 (str "iteration")) (fst (hier_Z (str "complete") six spots (Some 3%Z) (fresh_hier Z))) =
    Ok [(A, 0); (B, 0); (C, 1); (E, 2); (F, 2)]%Z.
Proof. split; [apply run_reachable|]. vm_compute. reflexivity. Qed.

(** C137 (what fails): without any constraint, another clustering with as many clusters can be narrower: all its clusters have smaller diameters
    than one of the clusters that complete linkage returns, with either cut. *)
Theorem C137_narrowest_refuted :
  exists pairwise cdistance dsum ddiv mean m vectors s' d e,
    (forall X i j, pairwise X i j = pairwise X j i) /\ reachable m /\
    cluster Z Z pairwise cdistance Z.ltb dsum ddiv 1000%Z mean (str "complete") m vectors (Some 2%Z) (fresh_hier Z) = (s', Ok d) /\
    compute_predicted_clusters Z 2 (str "iteration") s' = (s', Ok d) /\
    NoDup (keys e) /\ covers_exactly m e /\ respects m e /\ nb_clusters_of e <= nb_clusters_of d /\
    exists x y dxy, managed m x /\ managed m y /\ dget x d = dget y d /\ distance_is pairwise m vectors (x, y) dxy /\
      forall a b dab, managed m a -> managed m b -> dget a e = dget b e -> distance_is pairwise m vectors (a, b) dab -> (dab < dxy)%Z.
Proof. exact C137_narrowest_refuted_proof. Qed.
Print Assumptions C137_narrowest_refuted.

(** C137 (what fails, default cut): the cut that [cluster] makes, by size, can separate two clusters whose union would be narrower than a
    cluster that it returns. *)
Theorem C137_default_cut_refuted :
  exists pairwise cdistance dsum ddiv mean m vectors d x y u v dxy,
    (forall X i j, pairwise X i j = pairwise X j i) /\ reachable m /\ (forall a b, ~ inferred m a b (Some CANNOT_LINK)) /\
    result (cluster Z Z pairwise cdistance Z.ltb dsum ddiv 1000%Z mean (str "complete") m vectors (Some 3%Z)) (fresh_hier Z) = Ok d /\
    managed m x /\ managed m y /\ managed m u /\ managed m v /\
    dget x d = dget y d /\ distance_is pairwise m vectors (x, y) dxy /\ dget u d <> dget v d /\
    forall a b dab, managed m a -> managed m b -> dget a d = dget u d \/ dget a d = dget v d -> dget b d = dget u d \/ dget b d = dget v d ->
      distance_is pairwise m vectors (a, b) dab -> (dab < dxy)%Z.
Proof. exact C137_default_cut_refuted_proof. Qed.
Print Assumptions C137_default_cut_refuted.
