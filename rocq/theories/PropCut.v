(** Generated from CutThms.v by tools/gen_props.py: theorem statements,
    each closed by the lemma of the same name proved there. *)

From Coq Require Import String List Bool Arith ZArith QArith Permutation Lia Relations.
From Verif Require Import Base Manager Spec ManagerInv ManagerQueries ManagerThms SamplingSpec ClusterSpec ClusterProofs KMeansSpec Hierarchical HierSpec CutSpec CutThms.
Import ListNotations.
Open Scope nat_scope.

(** An instance for the examples: points on a line. *)
Definition pw (X : list Z) (i j : nat) : Z := Z.abs (nth i X 0 - nth j X 0)%Z.
Definition zmean (l : list Z) : Z := (fold_right Z.add 0 l / Z.of_nat (length l))%Z.
Definition zsum (l : list Z) : Z := fold_right Z.add 0%Z l.
Definition hier_Z := cluster Z Z pw (fun x y => Z.abs (x - y)%Z) Z.ltb zsum (fun d n => (d / Z.of_nat n)%Z) 1000000%Z zmean.
Definition A := str "a". Definition B := str "b". Definition C := str "c". Definition E := str "d". Definition F := str "e".

(** Cutting by iteration shows the agglomeration as it was when it had [k] clusters: the last forest with at least [k] clusters, or the
    first one (the connected components) when there are fewer. *)
Theorem C108_cut_undoes_merges :
  forall vec D (eqD : EqB D) pairwise cdistance ltb dsum ddiv inf mean name linkage m vectors nb s s' d,
    strict_total_order ltb -> reachable m -> make_hierarchical name = Ok linkage ->
    cluster vec D pairwise cdistance ltb dsum ddiv inf mean linkage m vectors nb s = (s', Ok d) ->
    exists root first trace, h_root vec s' = Some root /\ start mean m vectors first /\
      run_trace mean vectors (closest pairwise cdistance ltb dsum ddiv inf linkage m vectors)
        (stopped pairwise cdistance ltb dsum ddiv inf linkage m vectors) 1 first root trace /\
      forall k, exists d' forest, compute_predicted_clusters vec k (str "iteration") s' = (s', Ok d') /\
        last_with k first trace forest /\ groups_as forest d'.
Proof. exact C108_cut_undoes_merges_proof. Qed.
Print Assumptions C108_cut_undoes_merges.

(** Five points on a line: three close together, two not. *)
Definition line5 : mgr := init [A; B; C; E; F].
Definition points5 : dict pystr Z := [(A, 0); (B, 1); (C, 2); (E, 10); (F, 15)]%Z.
Definition done5 : hier Z := fst (hier_Z (str "single") line5 points5 (Some 3%Z) (fresh_hier Z)).
Example C108_ex :
  reachable line5 /\
  (** by iteration *)
  result (compute_predicted_clusters Z 3 (str "iteration")) done5 = Ok [(A, 0); (B, 0); (C, 0); (E, 1); (F, 2)]%Z /\
  (** by size, as [cluster] does *)
  h_predicted Z done5 = Some [(A, 0); (B, 0); (C, 1); (E, 2); (F, 2)]%Z.
Proof. split; [exact (run_reachable _ [])|]. split; vm_compute; reflexivity. Qed.

(** Single linkage has the largest spacing: compared with any clustering that respects the constraints and has at least as many clusters,
    two data in different clusters are never closer than some two data in different clusters of the other. *)
Theorem C109_maximum_spacing :
  forall vec D (eqD : EqB D) pairwise cdistance ltb dsum ddiv inf mean m vectors nb s s' d k d' e,
    strict_total_order ltb -> (forall X i j, pairwise X i j = pairwise X j i) -> reachable m ->
    cluster vec D pairwise cdistance ltb dsum ddiv inf mean (str "single") m vectors nb s = (s', Ok d) ->
    compute_predicted_clusters vec k (str "iteration") s' = (s', Ok d') ->
    NoDup (keys e) -> covers_exactly m e -> respects m e -> nb_clusters_of d' <= nb_clusters_of e ->
    forall u v du, managed m u -> managed m v -> dget u d' <> dget v d' -> distance_is pairwise m vectors (u, v) du ->
      exists a b da, managed m a /\ managed m b /\ dget a e <> dget b e /\ distance_is pairwise m vectors (a, b) da /\ ltb du da = false.
Proof. exact C109_maximum_spacing_proof. Qed.
Print Assumptions C109_maximum_spacing.

(** With a CANNOT_LINK between "b" and "c". *)
Definition split5 : mgr := run [CallAddConstraint B C CANNOT_LINK 1%Q] (init [A; B; C; E; F]).
Definition rival : dict pystr Z := [(A, 0); (B, 1); (C, 2); (E, 2); (F, 2)]%Z.
Example C109_ex :
  strict_total_order Z.ltb /\ (forall X i j, pw X i j = pw X j i) /\ reachable split5 /\ inferred split5 B C (Some CANNOT_LINK) /\
  result (compute_predicted_clusters Z 3 (str "iteration")) (fst (hier_Z (str "single") split5 points5 (Some 3%Z) (fresh_hier Z))) =
    Ok [(A, 0); (B, 0); (C, 1); (E, 2); (F, 2)]%Z /\
  NoDup (keys rival) /\ covers_exactly split5 rival /\ respects split5 rival /\ nb_clusters_of rival = 3.
Proof.
  split; [split; [split; [|split]|]; intros; rewrite ?Z.ltb_lt, ?Z.ltb_ge, ?Z.ltb_irrefl in *; try lia; auto|].
  split; [intros; unfold pw; lia|]. split; [apply run_reachable|].
  assert (In5 : forall x, managed split5 x <-> In x [A; B; C; E; F]) by (intro x; rewrite managed_ids by (apply reachable_inv, run_reachable); reflexivity).
  split; [vm_compute; reflexivity|]. split; [vm_compute; reflexivity|]. split; [repeat constructor; simpl; intuition discriminate|].
  split; [intro x; rewrite In5; reflexivity|]. split; [|vm_compute; reflexivity].
  split; intros a b Ma Mb Q; apply In5 in Ma, Mb; simpl in Ma, Mb; repeat destruct Ma as [<-|Ma]; try tauto; repeat destruct Mb as [<-|Mb]; try tauto;
    vm_compute in Q; try discriminate; vm_compute; congruence.
Qed.

(** Without CANNOT_LINK constraints, two data of one cluster are joined by steps no longer than those needed between any two clusters. *)
Theorem C109_chains :
  forall vec D (eqD : EqB D) pairwise cdistance ltb dsum ddiv inf mean m vectors nb s s' d k d',
    strict_total_order ltb -> (forall X i j, pairwise X i j = pairwise X j i) -> reachable m ->
    (forall a b, ~ inferred m a b (Some CANNOT_LINK)) ->
    cluster vec D pairwise cdistance ltb dsum ddiv inf mean (str "single") m vectors nb s = (s', Ok d) ->
    compute_predicted_clusters vec k (str "iteration") s' = (s', Ok d') ->
    forall x y u v h, managed m x -> managed m y -> managed m u -> managed m v ->
      dget x d' = dget y d' -> dget u d' <> dget v d' ->
      joined pairwise ltb m vectors h u v -> joined pairwise ltb m vectors h x y.
Proof. exact C109_chains_proof. Qed.
Print Assumptions C109_chains.

(** Without constraints, "a" and "c" (distance 2) are joined by steps of length 1. *)
Example C109_chains_ex :
  (forall a b, ~ inferred line5 a b (Some CANNOT_LINK)) /\
  result (compute_predicted_clusters Z 3 (str "iteration")) done5 = Ok [(A, 0); (B, 0); (C, 0); (E, 1); (F, 2)]%Z /\
  joined pw Z.ltb line5 points5 1%Z A C.
Proof.
  assert (Ml : forall x, In x [A; B; C; E; F] -> managed line5 x) by (intros x X; exists [A; B; C; E; F]; split; [vm_compute; reflexivity|auto]).
  split; [|split; [vm_compute; reflexivity|]].
  - intros a b Q. assert (Qa : In a [A; B; C; E; F] /\ In b [A; B; C; E; F]).
    { exact (inferred_inI line5 (reachable_inv _ (run_reachable _ [])) a b _ Q). }
    destruct Qa as [Ia Ib]. simpl in Ia, Ib. repeat destruct Ia as [<-|Ia]; try tauto; repeat destruct Ib as [<-|Ib]; try tauto; vm_compute in Q; discriminate.
  - eapply rt_trans with (y := B); apply rt_step; split; try (apply Ml; simpl; auto); split; try (apply Ml; simpl; auto); right; exists 1%Z; split; try reflexivity.
    + exists [A; B; C; E; F], [0; 1; 2; 10; 15]%Z, 0, 1. repeat split.
    + exists [A; B; C; E; F], [0; 1; 2; 10; 15]%Z, 1, 2. repeat split.
Qed.

(** The cut that [cluster] makes, by size, can do worse: a clustering with as many clusters has all its clusters farther apart. *)
Theorem C109_default_cut_spacing :
  exists pairwise cdistance dsum ddiv mean m vectors d e,
    (forall X i j, pairwise X i j = pairwise X j i) /\ reachable m /\
    result (cluster Z Z pairwise cdistance Z.ltb dsum ddiv 1000%Z mean (str "single") m vectors (Some 3%Z)) (fresh_hier Z) = Ok d /\
    NoDup (keys e) /\ covers_exactly m e /\ respects m e /\ nb_clusters_of d <= nb_clusters_of e /\
    exists u v du, managed m u /\ managed m v /\ dget u d <> dget v d /\ distance_is pairwise m vectors (u, v) du /\
      forall a b da, managed m a -> managed m b -> dget a e <> dget b e -> distance_is pairwise m vectors (a, b) da -> (du < da)%Z.
Proof. exact C109_default_cut_spacing_proof. Qed.
Print Assumptions C109_default_cut_spacing.
