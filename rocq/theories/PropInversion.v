(** Generated from InversionThms.v by tools/gen_props.py: theorem statements,
    each closed by the lemma of the same name proved there. *)

From Coq Require Import String List Bool Arith ZArith QArith Permutation Lia Relations.
From Verif Require Import Base Manager Spec ManagerInv ManagerQueries ManagerThms SamplingSpec ClusterSpec ClusterProofs KMeansSpec Hierarchical HierSpec InversionThms.
Import ListNotations.
Open Scope nat_scope.

(** An instance for the examples: points on a line. *)
Definition pw (X : list Z) (i j : nat) : Z := Z.abs (nth i X 0 - nth j X 0)%Z.
Definition zmean (l : list Z) : Z := (fold_right Z.add 0 l / Z.of_nat (length l))%Z.
Definition zsum (l : list Z) : Z := fold_right Z.add 0%Z l.

(** C112, single and complete linkage: of two merges, the one made first is between clusters that are not farther apart. *)
Theorem C112_merge_order_partial :
  forall vec D (eqD : EqB D) pairwise cdistance ltb dsum ddiv inf mean linkage m vectors nb s s' d root u u1 u2 v v1 v2 du dv,
    strict_total_order ltb -> (forall X i j, pairwise X i j = pairwise X j i) -> (forall x, ltb inf x = false) ->
    linkage = str "single" \/ linkage = str "complete" -> reachable m ->
    cluster vec D pairwise cdistance ltb dsum ddiv inf mean linkage m vectors nb s = (s', Ok d) -> h_root vec s' = Some root ->
    subtree u root -> subtree v root -> t_children vec u = [u1; u2] -> t_children vec v = [v1; v2] ->
    t_iteration vec u < t_iteration vec v ->
    linkage_distance pairwise cdistance ltb dsum ddiv inf linkage m vectors u1 u2 du ->
    linkage_distance pairwise cdistance ltb dsum ddiv inf linkage m vectors v1 v2 dv ->
    ltb dv du = false.
Proof. exact C112_merge_order_partial_proof. Qed.
Print Assumptions C112_merge_order_partial.

(** Four points; "c" and "d" must be apart, so that "b" joins "c" and "a" joins "d". *)
Definition A := str "a". Definition B := str "b". Definition C := str "c". Definition E := str "d".
Definition four : mgr := run [CallAddConstraint C E CANNOT_LINK 1%Q] (init [A; B; C; E]).
Definition spots : dict pystr Z := [(A, 0); (B, 5); (C, 7); (E, 8)]%Z.
Definition done4 := cluster Z Z pw (fun x y => Z.abs (x - y)%Z) Z.ltb zsum (fun d n => (d / Z.of_nat n)%Z) 1000000%Z zmean (str "complete") four spots (Some 2%Z) (fresh_hier Z).
Example C112_ex : reachable four /\ exists s' d root, done4 = (s', Ok d) /\ h_root Z s' = Some root /\
  map (fun u => (t_iteration Z u, map (t_members Z) (t_children Z u))) (filter (fun u => Nat.ltb 0 (t_iteration Z u)) (nodes root)) =
    [(3, [[E]; [A; B; C]]); (2, [[A]; [B; C]]); (1, [[B]; [C]])].
Proof. split; [apply run_reachable|]. do 3 eexists. split; [vm_compute; reflexivity|]. split; vm_compute; reflexivity. Qed.

(** C112 (refuted for "average"): the distance between two clusters is that of their centroids; the second merge is between closer clusters than the first. *)
Theorem C112_average_refuted :
  exists m vectors s' d root u u1 u2 v v1 v2 du dv, reachable m /\
    plane (str "average") m vectors (Some 2%Z) (fresh_hier (Z * Z)) = (s', Ok d) /\ h_root _ s' = Some root /\
    subtree u root /\ subtree v root /\ t_children _ u = [u1; u2] /\ t_children _ v = [v1; v2] /\ t_iteration _ u < t_iteration _ v /\
    plane_distance (str "average") m vectors u1 u2 du /\ plane_distance (str "average") m vectors v1 v2 dv /\ (dv < du)%Z.
Proof. exact C112_average_refuted_proof. Qed.
Print Assumptions C112_average_refuted.

(** C112 (refuted for "ward"): four data are linked from the start; the second merge is between closer clusters than the first. *)
Theorem C112_ward_refuted :
  exists m vectors s' d root u u1 u2 v v1 v2 du dv, reachable m /\
    plane (str "ward") m vectors (Some 2%Z) (fresh_hier (Z * Z)) = (s', Ok d) /\ h_root _ s' = Some root /\
    subtree u root /\ subtree v root /\ t_children _ u = [u1; u2] /\ t_children _ v = [v1; v2] /\ t_iteration _ u < t_iteration _ v /\
    plane_distance (str "ward") m vectors u1 u2 du /\ plane_distance (str "ward") m vectors v1 v2 dv /\ (dv < du)%Z.
Proof. exact C112_ward_refuted_proof. Qed.
Print Assumptions C112_ward_refuted.
