(** Generated from TwinThms.v by tools/gen_props.py: theorem statements,
    each closed by the lemma of the same name proved there. *)

From Coq Require Import String List Bool Arith ZArith QArith Permutation Lia.
From Verif Require Import Base Manager Spec ManagerInv ManagerQueries ManagerThms SamplingSpec ClusterSpec ClusterProofs KMeans KMeansSpec Hierarchical HierSpec Dbscan DbscanSpec TwinSpec TwinThms.
Import ListNotations.
Open Scope nat_scope.

(** C122: two data with the same vector, about which nothing is known, are put in the same cluster by KMeans, whatever is known about the others and wherever the run stops. *)
Theorem C122_kmeans_twins :
  forall vec D (eqD : EqB D) pairwise ltb dzero dsum mean shuffle set_order model it tol p m vectors nb s d x y,
    valid_set_order set_order -> valid_shuffle shuffle -> strict_total_order ltb -> by_vectors2 pairwise -> reachable m ->
    make_kmeans D ltb dzero model it tol = Ok p ->
    result (KMeans.cluster vec D pairwise ltb dsum mean shuffle set_order p m vectors (Some nb)) s = Ok d ->
    managed m x -> managed m y -> twins vectors x y -> unconstrained m x -> unconstrained m y ->
    dget x d = dget y d.
Proof. exact C122_kmeans_twins_proof. Qed.
Print Assumptions C122_kmeans_twins.

(** "b" and "d" are at the same place; "a" and "c" must be linked, "a" and "e" must not. *)
Definition pw2 (X Y : list Z) (i j : nat) : Z := Z.abs (nth i X 0 - nth j Y 0)%Z.
Definition kmeans_line := KMeans.cluster Z Z pw2 Z.ltb line_sum line_mean (fun l => l) (fun l => nodup Z.eq_dec l) (mkKParams Z 150 1%Z).
Definition five : mgr := run [CallAddConstraint (str "a") (str "c") MUST_LINK 1%Q; CallAddConstraint (str "a") (str "e") CANNOT_LINK 1%Q]
  (init [str "a"; str "b"; str "c"; str "d"; str "e"]).
Definition five_points : dict pystr Z := [(str "a", 0); (str "b", 5); (str "c", 9); (str "d", 5); (str "e", 10)]%Z.
Example C122_ex :
  reachable five /\ by_vectors2 pw2 /\ twins five_points (str "b") (str "d") /\ unconstrained five (str "b") /\ unconstrained five (str "d") /\
  result (kmeans_line five five_points (Some 2%Z)) (fresh_kmeans Z) = Ok [(str "a", 0); (str "b", 1); (str "c", 0); (str "d", 1); (str "e", 1)]%Z.
Proof.
  split; [apply run_reachable|]. split.
  { intros X Y i i' j E. unfold pw2. f_equal. f_equal. destruct (nth_error X i) as [u|] eqn:N.
    - rewrite (nth_error_nth _ _ _ N). symmetry in E. rewrite (nth_error_nth _ _ _ E). auto.
    - symmetry in E. apply nth_error_None in N, E. rewrite !nth_overflow by auto. auto. }
  split; [exists 5%Z; split; reflexivity|].
  assert (In5 : forall x, managed five x <-> In x [str "a"; str "b"; str "c"; str "d"; str "e"]) by (intro x; rewrite managed_ids; reflexivity).
  split; [|split; [|vm_compute; reflexivity]]; intros y Y N; apply In5 in Y; simpl in Y; repeat destruct Y as [<-|Y]; try tauto; vm_compute; reflexivity.
Qed.

(** C123: with each linkage (average and ward when means and sums are exact enough), no CANNOT_LINK and MUST_LINK between identical
    vectors only, cutting by iteration into at most as many clusters as there are different vectors keeps data with the same vector together. *)
Theorem C123_hierarchical_twins_partial :
  forall vec D (eqD : EqB D) pairwise cdistance ltb dsum ddiv inf zero mean linkage m vectors nb s s' d k d' x y,
    strict_total_order ltb -> separates pairwise ltb zero -> ltb zero inf = true -> reachable m -> at_ease m vectors ->
    linkage_separates cdistance ltb dsum ddiv zero mean linkage ->
    Hierarchical.cluster vec D pairwise cdistance ltb dsum ddiv inf mean linkage m vectors nb s = (s', Ok d) ->
    compute_predicted_clusters vec (Z.of_nat k) (str "iteration") s' = (s', Ok d') -> different_vectors m vectors k ->
    managed m x -> managed m y -> twins vectors x y -> dget x d' = dget y d'.
Proof. exact C123_hierarchical_twins_partial_proof. Qed.
Print Assumptions C123_hierarchical_twins_partial.

Example C123_ex : forall name, In name [str "single"; str "complete"; str "average"; str "ward"] ->
  let s' := fst (Hierarchical.cluster Z Z on_line (fun u v => Z.abs (u - v)%Z) Z.ltb line_sum line_part 1000000%Z line_mean
                   name (init six_ids) six_points (Some 3%Z) (fresh_hier Z)) in
  result (compute_predicted_clusters Z 3 (str "iteration")) s' =
    Ok [(str "a", 0); (str "b", 0); (str "c", 0); (str "d", 0); (str "e", 1); (str "f", 2)]%Z.
Proof. intros name [<-|[<-|[<-|[<-|[]]]]]; vm_compute; reflexivity. Qed.
Example C123_hypotheses : reachable (init six_ids) /\ at_ease (init six_ids) six_points /\ separates on_line Z.ltb 0%Z /\ different_vectors (init six_ids) six_points 3 /\
  forall name, In name [str "single"; str "complete"; str "average"; str "ward"] -> linkage_separates (fun u v => Z.abs (u - v)%Z) Z.ltb line_sum line_part 0%Z line_mean name.
Proof. split; [exact (run_reachable _ [])|]. split; [exact six_at_ease|]. split; [exact on_line_separates|]. split; [exact six_different|exact line_linkages]. Qed.

(** C123 is false for the clusters that [cluster] returns, which are cut by size: with each linkage, data with the same vector can be
    separated while different data stay together. *)
Theorem C123_hierarchical_twins_refuted :
  forall name, In name [str "single"; str "complete"; str "average"; str "ward"] ->
  exists m vectors d x y z w,
    reachable m /\ at_ease m vectors /\ separates on_line Z.ltb 0%Z /\ different_vectors m vectors 3 /\
    linkage_separates (fun u v => Z.abs (u - v)%Z) Z.ltb line_sum line_part 0%Z line_mean name /\
    result (Hierarchical.cluster Z Z on_line (fun u v => Z.abs (u - v)%Z) Z.ltb line_sum line_part 1000000%Z line_mean
              name m vectors (Some 3%Z)) (fresh_hier Z) = Ok d /\
    (managed m x /\ managed m y /\ twins vectors x y /\ dget x d <> dget y d) /\
    (managed m z /\ managed m w /\ ~ twins vectors z w /\ dget z d = dget w d).
Proof. exact C123_hierarchical_twins_refuted_proof. Qed.
Print Assumptions C123_hierarchical_twins_refuted.

(** C124: without CANNOT_LINK, two data with the same vector, about which nothing is known, that have enough neighbours are in the same
    cluster or are both ignored. *)
Theorem C124_dbscan_twins_partial :
  forall vec D pairwise leb ltb of_nat setlist eps ms p m vectors nb s d x y,
    valid_setlist setlist -> make_dbscan D leb of_nat eps ms = Ok p -> (forall rows i, leb (pairwise rows i i) eps = true) ->
    strict_weak_order ltb -> (forall x y, leb x y = negb (ltb y x)) -> by_vectors pairwise -> reachable m -> ~ managed m (str "NONE") ->
    (forall a b, ~ inferred m a b (Some CANNOT_LINK)) ->
    result (Dbscan.cluster vec D pairwise leb ltb of_nat setlist p m vectors nb) s = Ok d ->
    managed m x -> managed m y -> twins vectors x y -> unconstrained m x -> unconstrained m y ->
    dense pairwise leb eps (Z.to_nat ms) m vectors x ->
    dget x d = dget y d \/ exists v w, dget x d = Some v /\ dget y d = Some w /\ (v < 0)%Z /\ (w < 0)%Z.
Proof. exact C124_dbscan_twins_partial_proof. Qed.
Print Assumptions C124_dbscan_twins_partial.

(** Two groups of points at the same place. *)
Definition db_line (eps : Z) (ms : nat) := Dbscan.cluster Z Z on_line Z.leb Z.ltb Z.of_nat dedup (mkDBParams Z eps ms).
Definition two_ids : list pystr := [str "a"; str "b"; str "c"; str "d"; str "e"].
Definition two_points : dict pystr Z := [(str "a", 0); (str "b", 9); (str "c", 0); (str "d", 9); (str "e", 1)]%Z.
Example C124_ex : result (db_line 2 2 (init two_ids) two_points None) fresh_dbscan =
  Ok [(str "a", 0); (str "b", 1); (str "c", 0); (str "d", 1); (str "e", 0)]%Z.
Proof. vm_compute; reflexivity. Qed.
Example C124_hypotheses : make_dbscan Z Z.leb Z.of_nat 2%Z 2%Z = Ok (mkDBParams Z 2%Z 2) /\ by_vectors on_line /\ twins two_points (str "a") (str "c") /\
  unconstrained (init two_ids) (str "a") /\ unconstrained (init two_ids) (str "c") /\ dense on_line Z.leb 2%Z 2 (init two_ids) two_points (str "a").
Proof.
  split; [reflexivity|]. split; [exact on_line_by_vectors|]. split; [exists 0%Z; split; reflexivity|].
  assert (In5 : forall x, managed (init two_ids) x <-> In x two_ids) by (intro x; rewrite managed_ids; reflexivity).
  split; [|split]; try (intros y Y N; apply In5 in Y; simpl in Y; repeat destruct Y as [<-|Y]; try tauto; vm_compute; reflexivity).
  exists [str "a"; str "c"]. split; [repeat constructor; simpl; intuition discriminate|]. split; [simpl; lia|].
  intros y [<-|[<-|[]]]; exists 0%Z; (split; [|reflexivity]); exists two_ids, [0; 9; 0; 9; 1]%Z.
  - exists 0, 0. repeat split; reflexivity.
  - exists 0, 2. repeat split; reflexivity.
Qed.

(** C124 is false for data that have too few neighbours: without any constraint, two data with the same vector can be in different clusters. *)
Theorem C124_dbscan_twins_refuted :
  exists p m vectors d x y v w,
    make_dbscan Z Z.leb Z.of_nat 1%Z 4%Z = Ok p /\ reachable m /\ (forall a, managed m a -> unconstrained m a) /\
    result (Dbscan.cluster Z Z on_line Z.leb Z.ltb Z.of_nat dedup p m vectors None) fresh_dbscan = Ok d /\
    managed m x /\ managed m y /\ twins vectors x y /\ dget x d = Some v /\ dget y d = Some w /\ v <> w /\ (0 <= v)%Z /\ (0 <= w)%Z.
Proof. exact C124_dbscan_twins_refuted_proof. Qed.
Print Assumptions C124_dbscan_twins_refuted.
