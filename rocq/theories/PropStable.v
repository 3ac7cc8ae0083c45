(** Generated from StableThms.v by tools/gen_props.py: theorem statements,
    each closed by the lemma of the same name proved there. *)

From Coq Require Import String List Bool Arith ZArith QArith Permutation Lia Relations.
From Verif Require Import Base Manager Spec ManagerInv ManagerQueries ManagerThms SamplingSpec ClusterSpec ClusterProofs KMeansSpec Hierarchical HierSpec CutSpec StableThms.
Import ListNotations.
Open Scope nat_scope.

(** Single linkage, cut by iteration: when constraints are added that the clusters already meet, the clusters stay the same (when no two
    distances, one within and one across the clusters, are equal). *)
Theorem C141_single_partial :
  forall vec D (eqD : EqB D) pairwise cdistance ltb dsum ddiv inf mean m m' vectors nb nb' s s' t t' d d' k e,
    strict_total_order ltb -> (forall X i j, pairwise X i j = pairwise X j i) -> (forall X i j, ltb (pairwise X i j) inf = true) ->
    reachable m -> reachable m' ->
    ask get_list_of_managed_data_IDs m' = ask get_list_of_managed_data_IDs m ->
    (forall a b c, inferred m a b (Some c) -> inferred m' a b (Some c)) ->
    cluster vec D pairwise cdistance ltb dsum ddiv inf mean (str "single") m vectors nb s = (s', Ok d) ->
    cluster vec D pairwise cdistance ltb dsum ddiv inf mean (str "single") m' vectors nb' t = (t', Ok d') ->
    compute_predicted_clusters vec k (str "iteration") s' = (s', Ok e) ->
    respects m' e ->
    (forall a b x y l, managed m a -> managed m b -> managed m x -> managed m y -> a <> b -> dget a e = dget b e -> dget x e <> dget y e ->
      distance_is pairwise m vectors (a, b) l -> ~ distance_is pairwise m vectors (x, y) l) ->
    compute_predicted_clusters vec k (str "iteration") t' = (t', Ok e).
Proof. exact C141_single_partial_proof. Qed.
Print Assumptions C141_single_partial.

(** Five points on a line, cut into three clusters; then a MUST_LINK and a CANNOT_LINK that the clusters meet. *)
Definition pw (X : list Z) (i j : nat) : Z := if (i =? j)%nat then 0%Z else Z.min 9999 (Z.abs (nth i X 0 - nth j X 0))%Z.
Definition hier_Z (linkage : pystr) := cluster Z Z pw (fun x y => Z.abs (x - y)%Z) Z.ltb (fold_right Z.add 0%Z) (fun d n => (d / Z.of_nat n)%Z) 10000%Z (fun l => nth 0 l 0%Z) linkage.
Definition A := str "a". Definition B := str "b". Definition C := str "c". Definition E := str "d". Definition F := str "e".
Definition before_ : mgr := init [A; B; C; E; F].
Definition after_ : mgr := run [CallAddConstraint A C MUST_LINK 1%Q; CallAddConstraint A E CANNOT_LINK 1%Q] (init [A; B; C; E; F]).
Definition points : dict pystr Z := [(A, 0); (B, 1); (C, 3); (E, 10); (F, 15)]%Z.
Definition found : dict pystr Z := [(A, 0); (B, 0); (C, 0); (E, 1); (F, 2)]%Z.
Example C141_single_ex :
  strict_total_order Z.ltb /\ (forall X i j, pw X i j = pw X j i) /\ (forall X i j, Z.ltb (pw X i j) 10000 = true) /\
  reachable before_ /\ reachable after_ /\ ask get_list_of_managed_data_IDs after_ = ask get_list_of_managed_data_IDs before_ /\
  (forall a b c, inferred before_ a b (Some c) -> inferred after_ a b (Some c)) /\
  result (compute_predicted_clusters Z 3 (str "iteration")) (fst (hier_Z (str "single") before_ points (Some 3%Z) (fresh_hier Z))) = Ok found /\
  respects after_ found /\ inferred after_ A C (Some MUST_LINK) /\ inferred after_ C E (Some CANNOT_LINK) /\
  (forall a b x y l, managed before_ a -> managed before_ b -> managed before_ x -> managed before_ y -> a <> b -> dget a found = dget b found -> dget x found <> dget y found ->
    distance_is pw before_ points (a, b) l -> ~ distance_is pw before_ points (x, y) l) /\
  result (compute_predicted_clusters Z 3 (str "iteration")) (fst (hier_Z (str "single") after_ points (Some 3%Z) (fresh_hier Z))) = Ok found.
Proof.
  split; [split; [split; [|split]|]; intros; rewrite ?Z.ltb_lt, ?Z.ltb_ge, ?Z.ltb_irrefl in *; try lia; auto|].
  split; [intros X i j; unfold pw; destruct (Nat.eqb_spec i j), (Nat.eqb_spec j i); subst; try congruence; lia|].
  split; [intros X i j; unfold pw; destruct (i =? j)%nat; apply Z.ltb_lt; lia|].
  split; [exact (run_reachable _ [])|]. split; [apply run_reachable|]. split; [reflexivity|].
  assert (In5 : forall x, managed before_ x <-> In x [A; B; C; E; F]) by (intro x; rewrite managed_ids by exact (reachable_inv _ (run_reachable _ [])); reflexivity).
  assert (In5' : forall x, managed after_ x <-> In x [A; B; C; E; F]) by (intro x; rewrite managed_ids by (apply reachable_inv, run_reachable); reflexivity).
  split.
  { intros a b c Q. assert (Qa : In a [A; B; C; E; F] /\ In b [A; B; C; E; F]) by exact (inferred_inI before_ (reachable_inv _ (run_reachable _ [])) a b _ Q).
    destruct Qa as [Ia Ib]. simpl in Ia, Ib. repeat destruct Ia as [<-|Ia]; try tauto; repeat destruct Ib as [<-|Ib]; try tauto; vm_compute in Q; try discriminate; injection Q as <-; vm_compute; reflexivity. }
  split; [vm_compute; reflexivity|]. split.
  { split; intros a b Ma Mb Q; apply In5' in Ma, Mb; simpl in Ma, Mb; repeat destruct Ma as [<-|Ma]; try tauto; repeat destruct Mb as [<-|Mb]; try tauto;
    vm_compute in Q; try discriminate; vm_compute; congruence. }
  split; [vm_compute; reflexivity|]. split; [vm_compute; reflexivity|]. split; [|vm_compute; reflexivity].
  intros a b x y l Ma Mb Mx My N1 N2 N3 (l1 & rows & i & j & El & Er & Ni & Nj & ->) (l2 & rows2 & i' & j' & El2 & Er2 & Ni' & Nj' & Eq).
  vm_compute in El. injection El as <-. vm_compute in El2. injection El2 as <-.
  assert (RW : forall r, map (fun x => dget x points) [A; B; C; E; F] = map Some r -> r = [0; 1; 3; 10; 15]%Z).
  { intros r Q. vm_compute in Q. do 5 (destruct r as [|? r]; [discriminate|]). destruct r; [|discriminate]. injection Q as <- <- <- <- <-. auto. }
  rewrite (RW _ Er), (RW _ Er2) in Eq. cbn [fst snd] in Ni, Nj, Ni', Nj'. clear - N1 N2 N3 Ni Nj Ni' Nj' Eq.
  assert (W1 : forall n z, nth_error [A; B; C; E; F] n = Some z -> n < 5) by (intros n z Q; apply (nth_error_Some [A; B; C; E; F]); congruence).
  assert (Wi := W1 _ _ Ni). assert (Wj := W1 _ _ Nj). assert (Wi' := W1 _ _ Ni'). assert (Wj' := W1 _ _ Nj'). clear W1.
  assert (W5 : forall n, n < 5 -> n = 0 \/ n = 1 \/ n = 2 \/ n = 3 \/ n = 4) by (intros; lia).
  destruct (W5 _ Wi) as [->|[->|[->|[->| ->]]]], (W5 _ Wj) as [->|[->|[->|[->| ->]]]]; vm_compute in Ni, Nj; injection Ni as <-; injection Nj as <-;
    try (exfalso; apply N1; reflexivity); try (vm_compute in N2; discriminate);
    destruct (W5 _ Wi') as [->|[->|[->|[->| ->]]]], (W5 _ Wj') as [->|[->|[->|[->| ->]]]]; vm_compute in Ni', Nj'; injection Ni' as <-; injection Nj' as <-;
    try (exfalso; apply N3; reflexivity); vm_compute in Eq; discriminate.
Qed.

(** With the cut that [cluster] makes, every linkage can change clusters that meet a new constraint, even when all distances differ: a right
    answer can make a right result wrong. *)
Theorem C141_default_refuted :
  forall linkage, In linkage [str "single"; str "complete"; str "average"; str "ward"] ->
  exists pairwise cdistance dsum ddiv inf mean m m' vectors k d d',
    strict_total_order Z.ltb /\ (forall X i j, pairwise X i j = pairwise X j i) /\ (forall X i j, Z.ltb (pairwise X i j) inf = true) /\
    reachable m /\ (exists a b c, result (add_constraint a b c 1%Q) m = Ok true /\ m' = fst (add_constraint a b c 1%Q m)) /\
    (forall a b x y l, a <> b -> x <> y -> distance_is pairwise m vectors (a, b) l -> distance_is pairwise m vectors (x, y) l -> (x = a /\ y = b) \/ (x = b /\ y = a)) /\
    result (cluster Z Z pairwise cdistance Z.ltb dsum ddiv inf mean linkage m vectors (Some k)) (fresh_hier Z) = Ok d /\
    respects m' d /\
    result (cluster Z Z pairwise cdistance Z.ltb dsum ddiv inf mean linkage m' vectors (Some k)) (fresh_hier Z) = Ok d' /\
    ~ same_partition d d'.
Proof. exact C141_default_refuted_proof. Qed.
Print Assumptions C141_default_refuted.

(** With the cut by iteration, complete, average and ward linkage can still change clusters that meet a new constraint, even when all distances differ. *)
Theorem C141_by_iteration_refuted :
  forall linkage, In linkage [str "complete"; str "average"; str "ward"] ->
  exists pairwise cdistance dsum ddiv inf mean m m' vectors d d',
    strict_total_order Z.ltb /\ (forall X i j, pairwise X i j = pairwise X j i) /\ (forall X i j, Z.ltb (pairwise X i j) inf = true) /\
    reachable m /\ (exists a b, result (add_constraint a b MUST_LINK 1%Q) m = Ok true /\ m' = fst (add_constraint a b MUST_LINK 1%Q m)) /\
    (forall a b x y l, a <> b -> x <> y -> distance_is pairwise m vectors (a, b) l -> distance_is pairwise m vectors (x, y) l -> (x = a /\ y = b) \/ (x = b /\ y = a)) /\
    result (compute_predicted_clusters Z 2 (str "iteration"))
      (fst (cluster Z Z pairwise cdistance Z.ltb dsum ddiv inf mean linkage m vectors (Some 2%Z) (fresh_hier Z))) = Ok d /\
    respects m' d /\
    result (compute_predicted_clusters Z 2 (str "iteration"))
      (fst (cluster Z Z pairwise cdistance Z.ltb dsum ddiv inf mean linkage m' vectors (Some 2%Z) (fresh_hier Z))) = Ok d' /\
    ~ same_partition d d'.
Proof. exact C141_by_iteration_refuted_proof. Qed.
Print Assumptions C141_by_iteration_refuted.

(** With equal distances within and across the clusters, single linkage can change them too. *)
Theorem C141_tie_refuted :
  exists pairwise cdistance dsum ddiv inf mean m m' vectors d d',
    strict_total_order Z.ltb /\ (forall X i j, pairwise X i j = pairwise X j i) /\ (forall X i j, Z.ltb (pairwise X i j) inf = true) /\
    reachable m /\ (exists a b, result (add_constraint a b MUST_LINK 1%Q) m = Ok true /\ m' = fst (add_constraint a b MUST_LINK 1%Q m)) /\
    result (compute_predicted_clusters Z 2 (str "iteration"))
      (fst (cluster Z Z pairwise cdistance Z.ltb dsum ddiv inf mean (str "single") m vectors (Some 2%Z) (fresh_hier Z))) = Ok d /\
    respects m' d /\
    result (compute_predicted_clusters Z 2 (str "iteration"))
      (fst (cluster Z Z pairwise cdistance Z.ltb dsum ddiv inf mean (str "single") m' vectors (Some 2%Z) (fresh_hier Z))) = Ok d' /\
    ~ same_partition d d'.
Proof. exact C141_tie_refuted_proof. Qed.
Print Assumptions C141_tie_refuted.
