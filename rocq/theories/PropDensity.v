(** Generated from DensityThms.v by tools/gen_props.py: theorem statements,
    each closed by the lemma of the same name proved there. *)

From Coq Require Import String List Bool Arith ZArith QArith Permutation Lia Relations.
From Verif Require Import Base Manager Spec ManagerThms SamplingSpec ClusterSpec KMeansSpec Dbscan DbscanSpec DbscanThms DensitySpec DensityThms.
Import ListNotations.
Open Scope nat_scope.
Open Scope py_scope.

(** An instance for the examples: points on a line, [set] removes repetitions. *)
Definition pw (X : list Z) (i j : nat) : Z := Z.abs (nth i X 0 - nth j X 0)%Z.
Definition dbscan_Z (p : db_params Z) := cluster Z Z pw Z.leb Z.ltb Z.of_nat dedup p.
Definition A := str "a". Definition B := str "b". Definition C := str "c". Definition E := str "d". Definition F := str "e".

(** C110: two data in the same cluster are linked by a chain of steps of at most eps and of MUST_LINKs, whatever the constraints are. *)
Theorem C110_clusters_hang_together :
  forall vec D pairwise leb ltb of_nat setlist eps ms p m vectors nb s d x y c,
    valid_setlist setlist -> make_dbscan D leb of_nat eps ms = Ok p -> (forall rows i, leb (pairwise rows i i) eps = true) ->
    strict_weak_order ltb -> (forall x y, leb x y = negb (ltb y x)) -> reachable m -> ~ managed m (str "NONE") ->
    result (cluster vec D pairwise leb ltb of_nat setlist p m vectors nb) s = Ok d ->
    dget x d = Some c -> dget y d = Some c -> (0 <= c)%Z ->
    hangs_together pairwise leb eps m vectors x y.
Proof. exact C110_clusters_hang_together_proof. Qed.
Print Assumptions C110_clusters_hang_together.

(** A and F are in one cluster because of C, near F and linked to A. *)
Definition ex : mgr := run [CallAddConstraint A C MUST_LINK 1%Q; CallAddConstraint B F CANNOT_LINK 1%Q] (init [A; B; C; E; F]).
Definition vecs : dict pystr Z := [(A, 0); (B, 10); (C, 50); (E, 30); (F, 52)]%Z.
Example C110_ex : result (dbscan_Z (mkDBParams Z 2%Z 2) ex vecs None) fresh_dbscan = Ok [(A, 0); (C, 0); (F, 0); (B, -1); (E, -2)]%Z /\
  ~ managed ex (str "NONE") /\ reachable ex /\ make_dbscan Z Z.leb Z.of_nat 2%Z 2%Z = Ok (mkDBParams Z 2%Z 2) /\
  within pw Z.leb 2%Z ex vecs C F /\ ~ within pw Z.leb 2%Z ex vecs A F /\ ~ inferred ex A F (Some MUST_LINK).
Proof.
  split; [vm_compute; reflexivity|]. split; [|split; [apply run_reachable|split; [reflexivity|]]].
  { intros (l & Q & J). vm_compute in Q. injection Q as <-. repeat (destruct J as [J|J]; [discriminate|]). destruct J. }
  split; [|split; [|vm_compute; discriminate]].
  - exists 2%Z. split; [|reflexivity]. exists [A; B; C; E; F], [0; 10; 50; 30; 52]%Z, 2, 4. repeat split; vm_compute; reflexivity.
  - intros (d & (l & rows & i & j & Q & V & I & J & ->) & W). vm_compute in Q. injection Q as <-.
    destruct rows as [|r0 [|r1 [|r2 [|r3 [|r4 [|]]]]]]; try discriminate V. vm_compute in V. injection V as <- <- <- <- <-.
    destruct i as [|[|[|[|[|[|i]]]]]]; try discriminate I; destruct j as [|[|[|[|[|[|j]]]]]]; try discriminate J; discriminate W.
Qed.

(** C111 (refuted): there is no constraint at all, the datum x has min_samples data within eps, and it is ignored. *)
Theorem C111_dense_ignored_refuted :
  exists names vectors eps ms p d x,
    make_dbscan Z Z.leb Z.of_nat eps ms = Ok p /\
    result (cluster Z Z on_line Z.leb Z.ltb Z.of_nat dedup p (init names) vectors None) fresh_dbscan = Ok d /\
    dense on_line Z.leb eps (init names) vectors (Z.to_nat ms) x /\
    dget x d = Some (-1)%Z.
Proof. exact C111_dense_ignored_refuted_proof. Qed.
Print Assumptions C111_dense_ignored_refuted.

(** C111 (refuted): there is no constraint at all, x and y are core points within eps of each other, and they are in different clusters. *)
Theorem C111_dense_neighbours_split_refuted :
  exists names vectors eps ms p d x y cx cy,
    make_dbscan Z Z.leb Z.of_nat eps ms = Ok p /\
    result (cluster Z Z on_line Z.leb Z.ltb Z.of_nat dedup p (init names) vectors None) fresh_dbscan = Ok d /\
    dense on_line Z.leb eps (init names) vectors (Z.to_nat ms) x /\
    dense on_line Z.leb eps (init names) vectors (Z.to_nat ms) y /\
    within on_line Z.leb eps (init names) vectors x y /\
    dget x d = Some cx /\ dget y d = Some cy /\ (0 <= cx)%Z /\ (0 <= cy)%Z /\ cx <> cy.
Proof. exact C111_dense_neighbours_split_refuted_proof. Qed.
Print Assumptions C111_dense_neighbours_split_refuted.

(** C111 (positive part): when no two data must be apart and every positive number of points is at least eps, a core point and all the data within eps of it are put in clusters. *)
Theorem C111_dense_kept_partial :
  forall vec D pairwise leb ltb of_nat setlist eps ms p m vectors nb s d x y,
    valid_setlist setlist -> make_dbscan D leb of_nat eps ms = Ok p -> (forall rows i, leb (pairwise rows i i) eps = true) ->
    strict_weak_order ltb -> (forall x y, leb x y = negb (ltb y x)) -> reachable m -> ~ managed m (str "NONE") ->
    (forall a b, ~ inferred m a b (Some CANNOT_LINK)) -> (forall n, 1 <= n -> leb eps (of_nat n) = true) ->
    result (cluster vec D pairwise leb ltb of_nat setlist p m vectors nb) s = Ok d ->
    dense pairwise leb eps m vectors (Z.to_nat ms) x -> within pairwise leb eps m vectors x y ->
    exists c, dget y d = Some c /\ (0 <= c)%Z.
Proof. exact C111_dense_kept_partial_proof. Qed.
Print Assumptions C111_dense_kept_partial.

(** eps 2 counted in thirds of a point: the last datum of the chain of the first refutation is kept now (in a cluster of its own). *)
Example C111_kept_ex :
  let names := [B; C; E; A; F] in let vectors := [(B, 10); (C, 12); (E, 14); (A, 0); (F, 1)]%Z in
  make_dbscan Z Z.leb (fun n => 3 * Z.of_nat n)%Z 2%Z 2%Z = Ok (mkDBParams Z 2%Z 2) /\
  (forall n, 1 <= n -> Z.leb 2 (3 * Z.of_nat n) = true) /\ (forall a b, ~ inferred (init names) a b (Some CANNOT_LINK)) /\
  result (cluster Z Z pw Z.leb Z.ltb (fun n => 3 * Z.of_nat n)%Z dedup (mkDBParams Z 2%Z 2) (init names) vectors None) fresh_dbscan =
    Ok [(A, 0); (B, 1); (C, 1); (E, 2); (F, 0)]%Z.
Proof.
  intros names vectors. split; [reflexivity|]. split; [intros n N; apply Z.leb_le; lia|]. split; [exact (init_no_cl names)|vm_compute; reflexivity].
Qed.
