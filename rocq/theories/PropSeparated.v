(** Generated from SeparatedThms.v by tools/gen_props.py: theorem statements,
    each closed by the lemma of the same name proved there. *)

From Coq Require Import String List Bool Arith ZArith QArith Permutation Lia Relations.
From Verif Require Import Base Manager Spec ManagerInv ManagerQueries ManagerThms SamplingSpec ClusterSpec ClusterProofs KMeans KMeansSpec Hierarchical HierSpec CutSpec SepSpec SeparatedThms.
Import ListNotations.
Open Scope nat_scope.

(** Single and complete linkage, cut by iteration, find the true clusters as soon as every undecided pair of one cluster is nearer than every
    undecided pair of two clusters; constraints decide the other pairs. *)
Theorem C142_separated_partial :
  forall vec D (eqD : EqB D) pairwise cdistance ltb dsum ddiv inf mean linkage m vectors nb s s' d e,
    strict_total_order ltb -> (forall X i j, pairwise X i j = pairwise X j i) -> (forall X i j, ltb (pairwise X i j) inf = true) ->
    linkage = str "single" \/ linkage = str "complete" ->
    reachable m -> NoDup (keys e) -> covers_exactly m e -> respects m e ->
    separated_where_undecided ltb (distance_is pairwise m vectors) m e ->
    cluster vec D pairwise cdistance ltb dsum ddiv inf mean linkage m vectors nb s = (s', Ok d) ->
    exists d', compute_predicted_clusters vec (Z.of_nat (nb_clusters_of e)) (str "iteration") s' = (s', Ok d') /\ same_partition d' e.
Proof. exact C142_separated_partial_proof. Qed.
Print Assumptions C142_separated_partial.

(** "c" is as near to "d" as to "b"; a CANNOT_LINK decides. *)
Definition pw (X : list Z) (i j : nat) : Z := if (i =? j)%nat then 0%Z else Z.min 9999 (Z.abs (nth i X 0 - nth j X 0))%Z.
Definition hier_Z (linkage : pystr) := cluster Z Z pw (fun x y => Z.abs (x - y)%Z) Z.ltb (fold_right Z.add 0%Z) (fun d n => (d / Z.of_nat n)%Z) 10000%Z (fun l => nth 0 l 0%Z) linkage.
Definition A := str "a". Definition B := str "b". Definition C := str "c". Definition E := str "d".
Definition told : mgr := run [CallAddConstraint C E CANNOT_LINK 1%Q; CallAddConstraint A C MUST_LINK 1%Q] (init [A; B; C; E]).
Definition points : dict pystr Z := [(A, 0); (B, 3); (C, 7); (E, 11)]%Z.
Definition truth : dict pystr Z := [(A, 5); (B, 5); (C, 5); (E, 8)]%Z.
Example C142_ex :
  strict_total_order Z.ltb /\ (forall X i j, pw X i j = pw X j i) /\ (forall X i j, Z.ltb (pw X i j) 10000 = true) /\ reachable told /\
  NoDup (keys truth) /\ covers_exactly told truth /\ respects told truth /\ nb_clusters_of truth = 2 /\
  separated_where_undecided Z.ltb (distance_is pw told points) told truth /\ ~ separated Z.ltb (distance_is pw told points) told truth /\
  result (compute_predicted_clusters Z 2 (str "iteration")) (fst (hier_Z (str "complete") told points (Some 2%Z) (fresh_hier Z))) = Ok [(A, 0); (B, 0); (C, 0); (E, 1)]%Z.
Proof.
  split; [split; [split; [|split]|]; intros; rewrite ?Z.ltb_lt, ?Z.ltb_ge, ?Z.ltb_irrefl in *; try lia; auto|].
  split; [intros X i j; unfold pw; destruct (Nat.eqb_spec i j), (Nat.eqb_spec j i); subst; try congruence; lia|].
  split; [intros X i j; unfold pw; destruct (i =? j)%nat; apply Z.ltb_lt; lia|].
  split; [apply run_reachable|]. split; [repeat constructor; simpl; intuition discriminate|].
  assert (In4 : forall x, managed told x <-> In x [A; B; C; E]) by (intro x; rewrite managed_ids; reflexivity).
  split; [intro x; rewrite In4; reflexivity|]. split.
  { split; intros a b Ma Mb Q; apply In4 in Ma, Mb; simpl in Ma, Mb; repeat destruct Ma as [<-|Ma]; try tauto; repeat destruct Mb as [<-|Mb]; try tauto;
    vm_compute in Q; try discriminate; vm_compute; congruence. }
  split; [vm_compute; reflexivity|]. split; [|split; [|vm_compute; reflexivity]].
  - intros a b x y l l' Ma Mb Mx My E1 N1 E2 N2 (l1 & rows & i & j & El & Er & Ni & Nj & ->) (l2 & rows2 & i' & j' & El2 & Er2 & Ni' & Nj' & ->).
    vm_compute in El. injection El as <-. vm_compute in El2. injection El2 as <-.
    assert (RW : forall r, map (fun x => dget x points) [A; B; C; E] = map Some r -> r = [0; 3; 7; 11]%Z).
    { intros r Q. vm_compute in Q. do 4 (destruct r as [|? r]; [discriminate|]). destruct r; [|discriminate]. injection Q as <- <- <- <-. auto. }
    rewrite (RW _ Er), (RW _ Er2). cbn [fst snd] in Ni, Nj, Ni', Nj'. clear - E1 N1 E2 N2 Ni Nj Ni' Nj'.
    assert (W1 : forall n z, nth_error [A; B; C; E] n = Some z -> n < 4) by (intros n z Q; apply (nth_error_Some [A; B; C; E]); congruence).
    assert (Wi := W1 _ _ Ni). assert (Wj := W1 _ _ Nj). assert (Wi' := W1 _ _ Ni'). assert (Wj' := W1 _ _ Nj'). clear W1.
    assert (W4 : forall n, n < 4 -> n = 0 \/ n = 1 \/ n = 2 \/ n = 3) by (intros; lia).
    destruct (W4 _ Wi) as [->|[->|[->| ->]]], (W4 _ Wj) as [->|[->|[->| ->]]]; vm_compute in Ni, Nj; injection Ni as <-; injection Nj as <-;
      try (exfalso; apply N1; vm_compute; reflexivity); try (vm_compute in E1; discriminate);
      destruct (W4 _ Wi') as [->|[->|[->| ->]]], (W4 _ Wj') as [->|[->|[->| ->]]]; vm_compute in Ni', Nj'; injection Ni' as <-; injection Nj' as <-;
      try (exfalso; apply N2; vm_compute; reflexivity); try (exfalso; apply E2; vm_compute; reflexivity); vm_compute; reflexivity.
  - intro Sp. specialize (Sp B C C E 4%Z 4%Z). assert (H : (4 <? 4)%Z = true); [|vm_compute in H; discriminate].
    apply Sp; try (apply In4; simpl; auto); try reflexivity; try (vm_compute; discriminate).
    + exists [A; B; C; E], [0; 3; 7; 11]%Z, 1, 2. repeat split.
    + exists [A; B; C; E], [0; 3; 7; 11]%Z, 2, 3. repeat split.
Qed.

(** The cut that [cluster] makes can miss clearly separated clusters, with each linkage and without any constraint: it splits the biggest one. *)
Theorem C142_default_refuted :
  forall linkage, In linkage [str "single"; str "complete"; str "average"; str "ward"] ->
  exists pairwise cdistance dsum ddiv inf mean names vectors e d,
    strict_total_order Z.ltb /\ (forall X i j, pairwise X i j = pairwise X j i) /\ (forall X i j, Z.ltb (pairwise X i j) inf = true) /\
    NoDup (keys e) /\ covers_exactly (init names) e /\ separated Z.ltb (distance_is pairwise (init names) vectors) (init names) e /\
    result (cluster Z Z pairwise cdistance Z.ltb dsum ddiv inf mean linkage (init names) vectors (Some (Z.of_nat (nb_clusters_of e)))) (fresh_hier Z) = Ok d /\
    nb_clusters_of d = nb_clusters_of e /\ ~ same_partition d e.
Proof. exact C142_default_refuted_proof. Qed.
Print Assumptions C142_default_refuted.

(** Average and ward linkage can miss clearly separated clusters with the cut by iteration too, with four points of the plane and no constraint. *)
Theorem C142_average_ward_refuted :
  forall linkage, In linkage [str "average"; str "ward"] ->
  exists pairwise cdistance dsum ddiv inf mean names vectors e d,
    strict_total_order Z.ltb /\ (forall X i j, pairwise X i j = pairwise X j i) /\ (forall X i j, Z.ltb (pairwise X i j) inf = true) /\
    NoDup (keys e) /\ covers_exactly (init names) e /\ separated Z.ltb (distance_is pairwise (init names) vectors) (init names) e /\
    result (compute_predicted_clusters (Z * Z) (Z.of_nat (nb_clusters_of e)) (str "iteration"))
      (fst (cluster (Z * Z) Z pairwise cdistance Z.ltb dsum ddiv inf mean linkage (init names) vectors (Some 2%Z) (fresh_hier (Z * Z)))) = Ok d /\
    nb_clusters_of d = nb_clusters_of e /\ ~ same_partition d e.
Proof. exact C142_average_ward_refuted_proof. Qed.
Print Assumptions C142_average_ward_refuted.

(** KMeans can miss clearly separated clusters without any constraint, however many rounds it makes: it depends on the data drawn first. *)
Theorem C142_kmeans_refuted :
  exists pairwise dsum mean shuffle set_order names vectors e d,
    valid_shuffle shuffle /\ valid_set_order set_order /\
    NoDup (keys e) /\ covers_exactly (init names) e /\ separated Z.ltb (distance_is (fun X => pairwise X X) (init names) vectors) (init names) e /\
    nb_clusters_of d = nb_clusters_of e /\ ~ same_partition d e /\
    forall rounds tolerance, (0 < tolerance)%Z ->
      result (KMeans.cluster Z Z pairwise Z.ltb dsum mean shuffle set_order (mkKParams Z (3 + rounds) tolerance) (init names) vectors (Some (Z.of_nat (nb_clusters_of e)))) (fresh_kmeans Z) = Ok d.
Proof. exact C142_kmeans_refuted_proof. Qed.
Print Assumptions C142_kmeans_refuted.
