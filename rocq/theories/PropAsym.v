(** Generated from AsymThms.v by tools/gen_props.py: theorem statements,
    each closed by the lemma of the same name proved there. *)

From Coq Require Import String List Bool Arith ZArith QArith SpecFloat Permutation Lia Relations.
From Verif Require Import Base Manager Spec ManagerInv ManagerQueries ManagerThms SamplingSpec ClusterSpec ClusterProofs KMeansSpec Hierarchical HierSpec FloatSpec AsymThms.
Import ListNotations.
Open Scope nat_scope.

(** C139 (what holds without symmetry): whatever the distances, after a merge at distance [du] no later merge joins two data that are nearer
    than [du] in both directions (single linkage), or only such data (complete linkage). *)
Theorem C139_later_merges_partial :
  forall vec D (eqD : EqB D) pairwise cdistance ltb dsum ddiv inf mean linkage m vectors nb s s' d root u u1 u2 v v1 v2 du,
    strict_total_order ltb -> linkage = str "single" \/ linkage = str "complete" -> reachable m ->
    cluster vec D pairwise cdistance ltb dsum ddiv inf mean linkage m vectors nb s = (s', Ok d) -> h_root vec s' = Some root ->
    subtree u root -> subtree v root -> t_children vec u = [u1; u2] -> t_children vec v = [v1; v2] ->
    t_iteration vec u < t_iteration vec v ->
    linkage_distance pairwise cdistance ltb dsum ddiv inf linkage m vectors u1 u2 du ->
    (forall a b, In a (t_members vec v1) -> In b (t_members vec v2) -> ~ inferred m a b (Some CANNOT_LINK)) ->
    let not_nearer a b := exists d, (distance_is pairwise m vectors (a, b) d \/ distance_is pairwise m vectors (b, a) d) /\ ltb d du = false in
    (linkage = str "single" -> forall a b, In a (t_members vec v1) -> In b (t_members vec v2) -> not_nearer a b) /\
    (linkage = str "complete" -> exists a b, In a (t_members vec v1) /\ In b (t_members vec v2) /\ not_nearer a b).
Proof. exact C139_later_merges_partial_proof. Qed.
Print Assumptions C139_later_merges_partial.

(** "a" sees the others nearer than they see it. *)
Definition A := str "a". Definition B := str "b". Definition C := str "c".
Definition slope (X : list Z) (i j : nat) : Z := let d := (nth j X 0 - nth i X 0)%Z in if (0 <? d)%Z then (2 * d)%Z else (- d)%Z.
Definition zmean (l : list Z) : Z := (fold_right Z.add 0 l / Z.of_nat (length l))%Z.
Definition zsum (l : list Z) : Z := fold_right Z.add 0%Z l.
Definition uphill := cluster Z Z slope (fun x y => Z.abs (x - y)%Z) Z.ltb zsum (fun d n => (d / Z.of_nat n)%Z) 1000000%Z zmean (str "single") (init [A; B; C])
  [(A, 0); (B, 4); (C, 9)]%Z (Some 2%Z) (fresh_hier Z).
Example C139_later_merges_ex : exists s' d root, uphill = (s', Ok d) /\ h_root Z s' = Some root /\
  map (fun u => (t_iteration Z u, map (t_members Z) (t_children Z u))) (filter (fun u => Nat.ltb 0 (t_iteration Z u)) (nodes root)) =
    [(2, [[C]; [A; B]]); (1, [[A]; [B]])] /\
  slope [0; 4; 9]%Z 0 1 = 8%Z /\ slope [0; 4; 9]%Z 1 2 = 10%Z /\ slope [0; 4; 9]%Z 2 1 = 5%Z.
Proof. do 3 eexists. split; [vm_compute; reflexivity|]. repeat split; vm_compute; reflexivity. Qed.

(** C139 (refuted): the formula of scikit-learn, rounded, gives 1 for the distance from 0.3 to 1.3 and for that from 1.3 to 2.3, but the number below 1
    for the distance from 2.3 to 1.3. *)
Theorem C139_symmetric_refuted :
  exists X, (forall x, In x X -> binary64 x /\ exists q, stands_for x (Finite q)) /\
    euclidean X 1 2 <> euclidean X 2 1 /\ SFltb (euclidean X 2 1) (euclidean X 1 2) = true.
Proof. exact C139_symmetric_refuted_proof. Qed.
Print Assumptions C139_symmetric_refuted.

(** C139 (refuted): so, with single linkage, no constraint and these three points, the second merge is between closer clusters than the first. *)
Theorem C139_merge_order_refuted :
  exists cdistance dsum ddiv mean names vectors s' d root u u1 u2 v v1 v2 du dv,
    let m := init names in let inf := S754_infinity false in
    @cluster spec_float spec_float bits euclidean cdistance SFltb dsum ddiv inf mean (str "single") m vectors (Some 2%Z) (fresh_hier spec_float) = (s', Ok d) /\
    h_root _ s' = Some root /\
    subtree u root /\ subtree v root /\ t_children _ u = [u1; u2] /\ t_children _ v = [v1; v2] /\ t_iteration _ u < t_iteration _ v /\
    linkage_distance euclidean cdistance SFltb dsum ddiv inf (str "single") m vectors u1 u2 du /\
    linkage_distance euclidean cdistance SFltb dsum ddiv inf (str "single") m vectors v1 v2 dv /\ SFltb dv du = true.
Proof. exact C139_merge_order_refuted_proof. Qed.
Print Assumptions C139_merge_order_refuted.
