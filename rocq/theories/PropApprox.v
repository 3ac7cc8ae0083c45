(** Generated from ApproxThms.v by tools/gen_props.py: theorem statements,
    each closed by the lemma of the same name proved there. *)

From Coq Require Import String List Bool Arith ZArith QArith Qabs Lqa Lia Permutation.
From Verif Require Import Base Manager Spec ManagerThms ManagerInv ManagerQueries ClusterSpec ClusterProofs KMeansSpec Sampling SamplingSpec Hierarchical HierSpec Dbscan DbscanSpec DbscanThms ApproxSpec ApproxThms.
Import ListNotations.
Open Scope nat_scope.

(** **C151.** Every computed distance is at most [delta] from the exact one. Then a pair that is sampled is at most [2 * delta] worse than any pair that could have been sampled instead. *)
Theorem C151_sampling :
  forall vec D computed ltb (value : D -> Q) delta exact draw o nb clustering (v : dict pystr vec) s m l,
    compares ltb value -> approximates value delta computed exact -> reachable m -> (0 < nb)%Z ->
    result (sample vec D computed ltb draw o nb clustering (Some v)) (s, m) = Ok l ->
    forall p q dp dq, distance_is exact m v p dp -> distance_is exact m v q dq -> In p l -> eligible o m clustering q -> ~ In q l ->
      (o_distance o = Some CLOSEST -> dp <= dq + 2 * delta)%Q /\ (o_distance o = Some FARTHEST -> dq <= dp + 2 * delta)%Q.
Proof. exact C151_sampling_proof. Qed.
Print Assumptions C151_sampling.

(** Points on a line, distances rounded to tens: "b" and "c" are sampled, at distance 14, although "a" and "b" are at distance 12. *)
Definition qa := str "a". Definition qb := str "b". Definition qc := str "c". Definition qd := str "d".
Definition exact_Z (X : list Z) (i j : nat) : Q := inject_Z (Z.abs (nth i X 0 - nth j X 0))%Z.
Definition rounded (X : list Z) (i j : nat) : Z := (10 * ((Z.abs (nth i X 0 - nth j X 0) + 5) / 10))%Z.
Definition places : dict pystr Z := [(qb, 12); (qc, 26); (qa, 0)]%Z.
Lemma compares_Z : compares Z.ltb inject_Z.
Proof. intros x y. rewrite Z.ltb_lt, Zlt_Qlt. tauto. Qed.
Lemma rounded_near : approximates inject_Z 5%Q rounded exact_Z.
Proof.
  intros X i j. unfold rounded, exact_Z. set (z := Z.abs (nth i X 0 - nth j X 0)%Z). unfold Qminus. rewrite <- inject_Z_opp, <- inject_Z_plus.
  apply Qabs_Qle_condition. change (- (5))%Q with (inject_Z (-5)). change 5%Q with (inject_Z 5). rewrite <- !Zle_Qle.
  pose proof (Z.div_mod (z + 5) 10). pose proof (Z.mod_pos_bound (z + 5) 10). lia.
Qed.
Lemma rounded_sym X i j : rounded X i j = rounded X j i.
Proof. unfold rounded. do 3 f_equal. lia. Qed.
Lemma Z_total : strict_total_order Z.ltb.
Proof. split; [split; [|split]|]; intros; rewrite ?Z.ltb_lt, ?Z.ltb_ge, ?Z.ltb_irrefl in *; try lia; auto. Qed.
Example C151_sampling_ex :
  result (sample Z Z rounded Z.ltb (fun l k => firstn k l) (mkOptions None (Some CLOSEST) true true) 1 None (Some places)) (fresh_sampler Z Z, init [qb; qc; qa]) = Ok [(qb, qc)] /\
  distance_is exact_Z (init [qb; qc; qa]) places (qb, qc) 14%Q /\ distance_is exact_Z (init [qb; qc; qa]) places (qa, qb) 12%Q.
Proof.
  split; [vm_compute; reflexivity|]. split; [exists [qb; qc; qa], [12; 26; 0]%Z, 0, 1|exists [qb; qc; qa], [12; 26; 0]%Z, 2, 0]; repeat split.
Qed.

(** Single linkage, cut by iteration, keeps the clusters as far apart as possible up to [2 * delta]. *)
Theorem C151_spacing :
  forall vec D (eqD : EqB D) computed cdistance ltb dsum ddiv inf mean (value : D -> Q) delta exact m (vectors : dict pystr vec) nb s s' d k d' e,
    compares ltb value -> approximates value delta computed exact ->
    strict_total_order ltb -> (forall X i j, computed X i j = computed X j i) -> reachable m ->
    Hierarchical.cluster vec D computed cdistance ltb dsum ddiv inf mean (str "single") m vectors nb s = (s', Ok d) ->
    compute_predicted_clusters vec k (str "iteration") s' = (s', Ok d') ->
    NoDup (keys e) -> covers_exactly m e -> respects m e -> nb_clusters_of d' <= nb_clusters_of e ->
    forall u v du, managed m u -> managed m v -> dget u d' <> dget v d' -> distance_is exact m vectors (u, v) du ->
      exists a b da, managed m a /\ managed m b /\ dget a e <> dget b e /\ distance_is exact m vectors (a, b) da /\ (da <= du + 2 * delta)%Q.
Proof. exact C151_spacing_proof. Qed.
Print Assumptions C151_spacing.

Example C151_spacing_ex : compares Z.ltb inject_Z /\ approximates inject_Z 5%Q rounded exact_Z /\ strict_total_order Z.ltb /\ (forall X i j, rounded X i j = rounded X j i) /\
  result (compute_predicted_clusters Z 2 (str "iteration")) (fst (Hierarchical.cluster Z Z rounded (fun x y => Z.abs (x - y)%Z) Z.ltb (fold_right Z.add 0%Z) (fun d n => (d / Z.of_nat n)%Z) 10000%Z (fun l => nth 0 l 0%Z)
    (str "single") (init [qb; qc; qa]) places (Some 2%Z) (fresh_hier Z))) = Ok [(qa, 0); (qb, 1); (qc, 1)]%Z.
Proof. split; [exact compares_Z|]. split; [exact rounded_near|]. split; [exact Z_total|]. split; [exact rounded_sym|]. vm_compute. reflexivity. Qed.

(** Single and complete linkage, cut by iteration, find clusters that are separated by more than [2 * delta]. *)
Theorem C151_separated :
  forall vec D (eqD : EqB D) computed cdistance ltb dsum ddiv inf mean linkage (value : D -> Q) delta exact m (vectors : dict pystr vec) nb s s' d e,
    compares ltb value -> approximates value delta computed exact ->
    strict_total_order ltb -> (forall X i j, computed X i j = computed X j i) -> (forall X i j, ltb (computed X i j) inf = true) ->
    linkage = str "single" \/ linkage = str "complete" ->
    reachable m -> NoDup (keys e) -> covers_exactly m e -> respects m e ->
    separated_by (2 * delta) (distance_is exact m vectors) m e ->
    Hierarchical.cluster vec D computed cdistance ltb dsum ddiv inf mean linkage m vectors nb s = (s', Ok d) ->
    exists d', compute_predicted_clusters vec (Z.of_nat (nb_clusters_of e)) (str "iteration") s' = (s', Ok d') /\ same_partition d' e.
Proof. exact C151_separated_proof. Qed.
Print Assumptions C151_separated.

(** The clusters {a, b} and {c, d} are separated by more than 10, twice the error. *)
Definition four : dict pystr Z := [(qa, 0); (qb, 7); (qc, 41); (qd, 44)]%Z.
Definition pairs150 : dict pystr Z := [(qa, 0); (qb, 0); (qc, 1); (qd, 1)]%Z.
Definition hier_rounded (linkage : pystr) := Hierarchical.cluster Z Z rounded (fun x y => Z.abs (x - y)%Z) Z.ltb (fold_right Z.add 0%Z) (fun d n => (d / Z.of_nat n)%Z) 10000%Z (fun l => nth 0 l 0%Z) linkage.
Example C151_separated_ex : separated_by (2 * 5)%Q (distance_is exact_Z (init [qa; qb; qc; qd]) four) (init [qa; qb; qc; qd]) pairs150 /\
  result (compute_predicted_clusters Z 2 (str "iteration")) (fst (hier_rounded (str "complete") (init [qa; qb; qc; qd]) four (Some 2%Z) (fresh_hier Z))) = Ok pairs150.
Proof.
  split; [|vm_compute; reflexivity]. intros a b x y l l' Ma Mb Mx My E1 N1 E2 N2 (l1 & rows & i & j & El & Er & Ni & Nj & ->) (l2 & rows2 & i' & j' & El2 & Er2 & Ni' & Nj' & ->).
  vm_compute in El. injection El as <-. vm_compute in El2. injection El2 as <-.
  assert (RW : forall r, map (fun x => dget x four) [qa; qb; qc; qd] = map Some r -> r = [0; 7; 41; 44]%Z).
  { intros r Q. vm_compute in Q. do 4 (destruct r as [|? r]; [discriminate|]). destruct r; [|discriminate]. injection Q as <- <- <- <-. auto. }
  rewrite (RW _ Er), (RW _ Er2). cbn [fst snd] in Ni, Nj, Ni', Nj'. clear - E1 E2 Ni Nj Ni' Nj'.
  assert (W1 : forall n z, nth_error [qa; qb; qc; qd] n = Some z -> n < 4) by (intros n z Q; apply (nth_error_Some [qa; qb; qc; qd]); congruence).
  assert (Wi := W1 _ _ Ni). assert (Wj := W1 _ _ Nj). assert (Wi' := W1 _ _ Ni'). assert (Wj' := W1 _ _ Nj'). clear W1.
  assert (W4 : forall n, n < 4 -> n = 0 \/ n = 1 \/ n = 2 \/ n = 3) by (intros; lia).
  destruct (W4 _ Wi) as [->|[->|[->| ->]]], (W4 _ Wj) as [->|[->|[->| ->]]]; vm_compute in Ni, Nj; injection Ni as <-; injection Nj as <-; try (vm_compute in E1; discriminate);
    destruct (W4 _ Wi') as [->|[->|[->| ->]]], (W4 _ Wj') as [->|[->|[->| ->]]]; vm_compute in Ni', Nj'; injection Ni' as <-; injection Nj' as <-;
    try (exfalso; apply E2; vm_compute; reflexivity); vm_compute; reflexivity.
Qed.

(** DBScan finds clusters when the distances within them are at most [eps - delta] and those across them more than [eps + delta]. *)
Theorem C151_dbscan :
  forall vec D computed leb ltb of_nat setlist eps ms p (value : D -> Q) delta exact m (vectors : dict pystr vec) nb s d e,
    compares ltb value -> approximates value delta computed exact ->
    valid_setlist setlist -> make_dbscan D leb of_nat eps ms = Ok p -> (forall x y, leb x y = negb (ltb y x)) ->
    (forall rows i, leb (computed rows i i) eps = true) -> reachable m -> ~ managed m (str "NONE") ->
    covers_exactly m e -> respects m e ->
    (forall x y, managed m x -> managed m y -> exists q, distance_is exact m vectors (x, y) q /\
       (dget x e = dget y e -> q <= value eps - delta)%Q /\ (dget x e <> dget y e -> value eps + delta < q)%Q) ->
    (forall x, managed m x -> exists ns, NoDup ns /\ 2 <= length ns /\ Z.to_nat ms <= length ns /\ forall z, In z ns -> managed m z /\ dget z e = dget x e) ->
    result (Dbscan.cluster vec D computed leb ltb of_nat setlist p m vectors nb) s = Ok d ->
    same_partition d e /\ forall x c, dget x d = Some c -> (0 <= c)%Z.
Proof. exact C151_dbscan_proof. Qed.
Print Assumptions C151_dbscan.

Example C151_dbscan_ex : make_dbscan Z Z.leb Z.of_nat 20%Z 2%Z = Ok (mkDBParams Z 20%Z 2) /\ (forall rows i, Z.leb (rounded rows i i) 20 = true) /\
  result (Dbscan.cluster Z Z rounded Z.leb Z.ltb Z.of_nat dedup (mkDBParams Z 20%Z 2) (init [qa; qb; qc; qd]) four None) fresh_dbscan = Ok pairs150 /\
  forall x y, managed (init [qa; qb; qc; qd]) x -> managed (init [qa; qb; qc; qd]) y -> exists q, distance_is exact_Z (init [qa; qb; qc; qd]) four (x, y) q /\
    (dget x pairs150 = dget y pairs150 -> q <= inject_Z 20 - 5)%Q /\ (dget x pairs150 <> dget y pairs150 -> inject_Z 20 + 5 < q)%Q.
Proof.
  split; [reflexivity|]. split; [intros rows i; unfold rounded; rewrite Z.sub_diag; reflexivity|]. split; [vm_compute; reflexivity|].
  assert (In4 : forall x, managed (init [qa; qb; qc; qd]) x <-> In x [qa; qb; qc; qd]) by (intro x; rewrite managed_ids; reflexivity).
  intros x y Mx My. apply In4 in Mx, My. destruct (In_nth_error _ _ Mx) as [i Ni], (In_nth_error _ _ My) as [j Nj].
  exists (exact_Z [0; 7; 41; 44]%Z i j). split; [exists [qa; qb; qc; qd], [0; 7; 41; 44]%Z, i, j; repeat split; auto|].
  destruct i as [|[|[|[|i]]]]; [injection Ni as <-|injection Ni as <-|injection Ni as <-|injection Ni as <-|destruct i; discriminate Ni];
  (destruct j as [|[|[|[|j]]]]; [injection Nj as <-|injection Nj as <-|injection Nj as <-|injection Nj as <-|destruct j; discriminate Nj]);
  split; intro H; vm_compute; try reflexivity; try discriminate; try (vm_compute in H; discriminate); try (exfalso; apply H; reflexivity).
Qed.
