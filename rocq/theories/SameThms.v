(** * What clusterings and samplers depend on (C88, C89). *)

From Coq Require Import String List Bool Arith ZArith QArith Permutation Lia.
From Verif Require Import Base Manager Spec Closure ManagerInv ManagerProofs ManagerSem ManagerQueries ManagerThms
  Json JsonSpec JsonThms Sampling SamplingSpec SamplingProofs SamplingThms Rename ClusterSpec ClusterProofs KMeans KMeansSpec KMeansProofs
  Hierarchical HierSpec HierProofs Spectral Affinity Dbscan Mpckmeans SameSpec Same SameComps SameHier SameAff.
Import ListNotations.
Open Scope nat_scope.
Open Scope py_scope.

(*HEADER
From Coq Require Import String List Bool Arith ZArith QArith Permutation Lia.
From Verif Require Import Base Manager Spec ManagerThms Json JsonSpec JsonThms Sampling SamplingSpec ClusterSpec KMeans KMeansSpec Hierarchical HierSpec
  Spectral Dbscan Mpckmeans Affinity AffinityExample SameSpec SameThms.
Import ListNotations.
Open Scope nat_scope.

Definition A := str "a". Definition B := str "b". Definition C := str "c". Definition E := str "d". Definition F := str "e".
Definition by_ab := CallAddConstraint A B MUST_LINK 1%Q. Definition by_ac := CallAddConstraint A C MUST_LINK 1%Q.
Definition ex1 : mgr := run [by_ab; by_ac; CallAddConstraint C E CANNOT_LINK 1%Q] (init [A; B; C; E; F]).
(** The same knowledge from other answers, some of them taken back. *)
Definition ex2 : mgr := run [by_ac; CallAddConstraint A F CANNOT_LINK 1%Q; CallAddConstraint B C MUST_LINK (1#2)%Q;
  CallDeleteConstraint A F; CallAddConstraint E B CANNOT_LINK 1%Q] (init [A; B; C; E; F]).
Definition vecs1 : dict pystr Z := [(A, 0); (B, 1); (C, 10); (E, 12); (F, 13)]%Z.
Definition vecs2 : dict pystr Z := [(F, 13); (E, 12); (str "other", 100); (A, 0); (B, 1); (C, 10)]%Z.
Definition pw (X : list Z) (i j : nat) : Z := Z.abs (nth i X 0 - nth j X 0)%Z.
Definition zmean (l : list Z) : Z := (fold_right Z.add 0 l / Z.of_nat (length l))%Z.
Definition zsum (l : list Z) : Z := fold_right Z.add 0%Z l.
Lemma ex_same : same_knowledge ex1 ex2.
Proof.
  apply (proj1 (C88_same_knowledge_iff_proof ex1 ex2 ltac:(apply run_reachable) ltac:(apply run_reachable))).
  split; [reflexivity|]. intros a b [l [El Ia]] [l' [El' Ib]]. injection El as <-. injection El' as <-.
  repeat (destruct Ia as [<-|Ia]; [repeat (destruct Ib as [<-|Ib]; [vm_compute; reflexivity|]); destruct Ib|]). destruct Ia.
Qed.
Lemma ex_vectors : same_vectors ex1 vecs1 vecs2.
Proof. intros x [l [El Ix]]. injection El as <-. repeat (destruct Ix as [<-|Ix]; [vm_compute; reflexivity|]). destruct Ix. Qed.
HEADER*)

(** Floats with 3 significant bits, truncated: 0 to 7 exactly, then multiples of 2 up to 14. *)
Definition round3 (x : Z) : Z := if (x <? 8)%Z then x else (2 * (x / 2))%Z.
Definition sum3 (l : list Z) : Z := fold_left (fun s x => round3 (s + x)) l 0%Z.
Definition mean3 (l : list Z) : Z := (sum3 l / Z.of_nat (length l))%Z.
Definition pw3 (X : list Z) (i j : nat) : Z := Z.abs (nth i X 0 - nth j X 0)%Z.
Definition hier3 := Hierarchical.cluster Z Z pw3 (fun x y => Z.abs (x - y)%Z) Z.ltb sum3 (fun d n => (d / Z.of_nat n)%Z) 1000000%Z mean3.

(*PROP C88: queries about unmanaged IDs raise the same error, so managers know the same when they have the same IDs and the same answers on them. *)
Lemma C88_same_knowledge_iff_proof :
  forall m1 m2, reachable m1 -> reachable m2 ->
    (ask get_list_of_managed_data_IDs m1 = ask get_list_of_managed_data_IDs m2 /\
     (forall a b, managed m1 a -> managed m1 b -> ask (get_inferred_constraint a b) m1 = ask (get_inferred_constraint a b) m2))
    <-> same_knowledge m1 m2.
Proof.
  intros m1 m2 R1 R2. apply reachable_inv in R1. apply reachable_inv in R2. split; intros [E Q]; split; auto. intros a b.
  assert (EI : ids m1 = ids m2) by (change (Ok (ids m1) = Ok (ids m2)) in E; congruence).
  destruct (both m1 a b) eqn:B1.
  - apply both_true in B1 as [A1 A2]. apply Q; exists (ids m1); auto.
  - unfold ask. rewrite (run_inferred m1 a b R1), (run_inferred m2 a b R2). 
    assert (B2 : both m2 a b = false). { destruct (both m2 a b) eqn:X; auto. apply both_true in X as [X1 X2]. rewrite <- EI in *. 
      assert (both m1 a b = true) by (apply both_true; auto). congruence. }
    rewrite B1, B2. auto.
Qed.

(*PROP C88: the same IDs with the same added constraints, in whatever order they were added and after whatever other calls, are the same knowledge. *)
Lemma C88_same_constraints_proof :
  forall m1 m2, reachable m1 -> reachable m2 ->
    ask get_list_of_managed_data_IDs m1 = ask get_list_of_managed_data_IDs m2 ->
    (forall t a b, added m1 t a b <-> added m2 t a b) ->
    same_knowledge m1 m2.
Proof.
  intros m1 m2 R1 R2 E A. split; auto. apply C10_history_independence_proof; auto.
  intro x. unfold managed. rewrite E. tauto.
Qed.

(*PROP C88: a manager reloaded from its file has the same knowledge. *)
Lemma C88_reloaded_proof :
  forall m, reachable m -> (forall x, managed m x -> python_string x /\ ~ splits_a_character x) ->
    exists m', load_text (to_json_text m) = Ok m' /\ reachable m' /\ same_knowledge m' m.
Proof.
  intros m R P. destruct (C22_round_trip_partial_proof m R P) as (m' & L & R' & E & (S & _) & _). exists m'. split; auto. split; auto. split; auto.
Qed.

(*PROP C88: constrained KMeans gives the same result, and the same attributes, for the same knowledge and the same vectors of the managed IDs. *)
Lemma C88_kmeans_proof :
  forall vec D (eqD : EqB D) pairwise ltb dsum mean shuffle set_order p m1 m2 v1 v2 nb s,
    valid_shuffle shuffle -> same_knowledge m1 m2 -> same_vectors m1 v1 v2 ->
    KMeans.cluster vec D pairwise ltb dsum mean shuffle set_order p m1 v1 nb s =
    KMeans.cluster vec D pairwise ltb dsum mean shuffle set_order p m2 v2 nb s.
Proof. intros. apply same_kmeans; auto. Qed.

(*EX
Example C88_kmeans_ex : same_knowledge ex1 ex2 /\ same_vectors ex1 vecs1 vecs2 /\
  forall m v, m = ex1 /\ v = vecs1 \/ m = ex2 /\ v = vecs2 ->
  result (KMeans.cluster Z Z (fun X Y i j => Z.abs (nth i X 0 - nth j Y 0)%Z) Z.ltb zsum zmean (fun l => l) (nodup Z.eq_dec) (mkKParams Z 5 1%Z) m v (Some 2%Z)) (fresh_kmeans Z)
  = Ok [(A, 0); (B, 0); (C, 0); (E, 1); (F, 1)]%Z.
Proof.
  split; [exact ex_same|]. split; [exact ex_vectors|]. intros m v [[-> ->]|[-> ->]]; vm_compute; reflexivity.
Qed.
EX*)

(*PROP C88: constrained spectral clustering likewise. *)
Lemma C88_spectral_proof :
  forall vec D kernel zero one solver m1 m2 v1 v2 nb s,
    same_knowledge m1 m2 -> same_vectors m1 v1 v2 ->
    Spectral.cluster vec D kernel zero one solver m1 v1 nb s = Spectral.cluster vec D kernel zero one solver m2 v2 nb s.
Proof. intros. apply same_spectral; auto. Qed.

(*EX
Example C88_spectral_ex : forall m v, m = ex1 /\ v = vecs1 \/ m = ex2 /\ v = vecs2 ->
  result (Spectral.cluster Z Z (fun X i j => (1000 - pw X i j)%Z) 0%Z 1000%Z (fun _ M => Ok (map (fun row => nth 0 row 0%Z) M)) m v (Some 2%Z)) (fresh_spectral Z)
  = Ok [(A, 0); (B, 0); (C, 0); (E, 1); (F, 2)]%Z.
Proof. intros m v [[-> ->]|[-> ->]]; vm_compute; reflexivity. Qed.
EX*)

(*PROP C88: constrained DBScan likewise. *)
Lemma C88_dbscan_proof :
  forall vec D pairwise leb ltb of_nat setlist p m1 m2 v1 v2 nb s,
    same_knowledge m1 m2 -> same_vectors m1 v1 v2 ->
    Dbscan.cluster vec D pairwise leb ltb of_nat setlist p m1 v1 nb s = Dbscan.cluster vec D pairwise leb ltb of_nat setlist p m2 v2 nb s.
Proof. intros. apply same_dbscan; auto. Qed.

(*EX
Example C88_dbscan_ex : forall m v, m = ex1 /\ v = vecs1 \/ m = ex2 /\ v = vecs2 ->
  result (Dbscan.cluster Z Z pw Z.leb Z.ltb Z.of_nat dedup (mkDBParams Z 2%Z 2) m v None) fresh_dbscan
  = Ok [(A, 0); (B, 0); (C, 0); (E, -1); (F, -2)]%Z.
Proof. intros m v [[-> ->]|[-> ->]]; vm_compute; reflexivity. Qed.
EX*)

(*PROP C88: constrained affinity propagation likewise, when [max] does not depend on the order of its arguments. *)
Lemma C88_affinity_proof :
  forall vec D (o : Affinity.ops D) similarity p m1 m2 v1 v2 nb s,
    reachable m1 -> reachable m2 -> same_knowledge m1 m2 -> same_vectors m1 v1 v2 -> order_free (o_pymax D o) ->
    Affinity.cluster vec D o similarity p m1 v1 nb s = Affinity.cluster vec D o similarity p m2 v2 nb s.
Proof. intros. apply same_affinity; auto; apply reachable_inv; auto. Qed.

(*EX
Lemma exact_free : order_free (o_pymax num exact_ops).
Proof.
  intros l l' P. change (nmax l = nmax l'). destruct l as [|x l]; [apply Permutation_nil in P as ->; reflexivity|].
  assert (N : x :: l <> []) by discriminate. assert (N' : l' <> []) by (intros ->; apply Permutation_sym, Permutation_nil in P; discriminate).
  destruct (nmax_spec _ N) as [I L], (nmax_spec _ N') as [I' L'].
  apply nle_antisym; [apply L'; exact (Permutation_in _ P I)|apply L; exact (Permutation_in _ (Permutation_sym P) I')].
Qed.
Example C88_affinity_ex : exists d, forall m v, m = ex1 /\ v = vecs1 \/ m = ex2 /\ v = vecs2 ->
  result (Affinity.cluster Z num exact_ops (fun X i j => Some (- pw X i j)%Z) (mkAPParams 60 15 true) m v None) None = Ok d.
Proof. eexists. intros m v [[-> ->]|[-> ->]]; vm_compute; reflexivity. Qed.
EX*)

(*PROP C88 (partial): MPCKMeans gives the same result for the same knowledge and the same vectors.  Missing: it also reads the vectors of data that are not managed (C80). *)
Lemma C88_mpckmeans_partial_proof :
  forall vec D o flatten limit order first sample shuffle p m1 m2 v nb s,
    same_knowledge m1 m2 ->
    Mpckmeans.cluster vec D o flatten limit order first sample shuffle p m1 v nb s =
    Mpckmeans.cluster vec D o flatten limit order first sample shuffle p m2 v nb s.
Proof. intros. apply same_mpckmeans; auto. Qed.

(*PROP C88 (partial): hierarchical clustering, and every later cut of its tree, give the same result for the same knowledge and vectors when sums do not depend on the order of the terms, distances are symmetric and totally ordered.  Missing: sums of floats depend on the order (refuted below). *)
Lemma C88_hierarchical_partial_proof :
  forall vec D (eqD : EqB D) pairwise cdistance ltb dsum ddiv inf mean linkage m1 m2 v1 v2 nb s,
    reachable m1 -> reachable m2 -> same_knowledge m1 m2 -> same_vectors m1 v1 v2 ->
    strict_total_order ltb -> order_free dsum -> order_free mean -> (forall rows i j, pairwise rows i j = pairwise rows j i) ->
    let c1 := Hierarchical.cluster vec D pairwise cdistance ltb dsum ddiv inf mean linkage m1 v1 nb in
    let c2 := Hierarchical.cluster vec D pairwise cdistance ltb dsum ddiv inf mean linkage m2 v2 nb in
    result c1 s = result c2 s /\
    forall nb' by_, result (compute_predicted_clusters vec nb' by_) (fst (c1 s)) = result (compute_predicted_clusters vec nb' by_) (fst (c2 s)).
Proof.
  intros vec D eqD pairwise cdistance ltb dsum ddiv inf mean linkage m1 m2 v1 v2 nb s R1 R2 SK SV STO OS OM SY c1 c2.
  apply reachable_inv in R1. apply reachable_inv in R2.
  destruct (same_hier vec D pairwise cdistance ltb dsum ddiv inf mean linkage m1 m2 v1 v2 nb s R1 R2 SK SV STO OS OM SY) as [E [F|F]].
  - split; [exact E|]. intros. unfold c1, c2. rewrite F. auto.
  - split; [exact E|]. intros. apply (predicted_same vec m1); auto.
Qed.

(*EX
Lemma Zltb_total : strict_total_order Z.ltb.
Proof.
  split; [split; [|split]|]; intros; rewrite ?Z.ltb_lt, ?Z.ltb_ge in *; try lia; auto using Z.ltb_irrefl.
Qed.
Lemma zsum_free : order_free zsum.
Proof. intros l l' P. unfold zsum. induction P; simpl; lia. Qed.
Lemma zmean_free : order_free zmean.
Proof. intros l l' P. unfold zmean. rewrite (Permutation_length P). f_equal. apply (zsum_free l l' P). Qed.
Example C88_hierarchical_ex : forall m v, m = ex1 /\ v = vecs1 \/ m = ex2 /\ v = vecs2 ->
  ask get_connected_components ex1 = Ok [[A; B; C]; [E]; [F]] /\ ask get_connected_components ex2 = Ok [[B; A; C]; [E]; [F]] /\
  forall linkage, In linkage [str "ward"; str "average"; str "complete"; str "single"] ->
  result (Hierarchical.cluster Z Z pw (fun x y => Z.abs (x - y)%Z) Z.ltb zsum (fun d n => (d / Z.of_nat n)%Z) 1000000%Z zmean linkage m v (Some 2%Z)) (fresh_hier Z)
  = Ok [(A, 0); (B, 0); (C, 0); (E, 1); (F, 1)]%Z.
Proof.
  intros m v [[-> ->]|[-> ->]]; (split; [vm_compute; reflexivity|]; split; [vm_compute; reflexivity|]);
  intros linkage [<-|[<-|[<-|[<-|[]]]]]; vm_compute; reflexivity.
Qed.
EX*)

(*PROP C88 (refuted for rounded sums): the same IDs, constraints and vectors, with the constraints added in another order, give different hierarchical clusters when sums are rounded, since members of a component are summed in the order in which the constraints were added. *)
Lemma C88_hierarchical_rounding_refuted_proof :
  exists m1 m2 v l1 l2, reachable m1 /\ reachable m2 /\ same_knowledge m1 m2 /\ same_answers m1 m2 /\
    (forall a b, ask (get_added_constraint a b) m1 = ask (get_added_constraint a b) m2) /\
    result (hier3 (str "average") m1 v (Some 2%Z)) (fresh_hier Z) = Ok l1 /\
    result (hier3 (str "average") m2 v (Some 2%Z)) (fresh_hier Z) = Ok l2 /\ l1 <> l2.
Proof.
  set (A := str "a"). set (B := str "b"). set (C := str "c"). set (E := str "d"). set (F := str "e").
  set (m1 := run [CallAddConstraint A B MUST_LINK 1%Q; CallAddConstraint A C MUST_LINK 1%Q] (init [A; B; C; E; F])).
  set (m2 := run [CallAddConstraint A C MUST_LINK 1%Q; CallAddConstraint A B MUST_LINK 1%Q] (init [A; B; C; E; F])).
  assert (R1 : reachable m1) by apply run_reachable. assert (R2 : reachable m2) by apply run_reachable.
  assert (EI : ask get_list_of_managed_data_IDs m1 = ask get_list_of_managed_data_IDs m2) by reflexivity.
  assert (EA : forall a b, ask (get_added_constraint a b) m1 = ask (get_added_constraint a b) m2).
  { intros a b. unfold ask. rewrite (run_added m1 a b (reachable_inv m1 R1)), (run_added m2 a b (reachable_inv m2 R2)).
    destruct (both m1 a b) eqn:B1.
    - assert (B2 : both m2 a b = true) by (apply both_true; apply both_true in B1; exact B1). rewrite B2.
      apply both_true in B1 as [Ia Ib]. change (ids m1) with [A; B; C; E; F] in Ia, Ib.
      repeat (destruct Ia as [<-|Ia]; [repeat (destruct Ib as [<-|Ib]; [vm_compute; reflexivity|]); destruct Ib|]). destruct Ia.
    - assert (B2 : both m2 a b = false).
      { destruct (both m2 a b) eqn:X; auto. apply both_true in X. assert (both m1 a b = true) by (apply both_true; exact X). congruence. }
      rewrite B2. auto. }
  assert (EM : forall x, managed m1 x <-> managed m2 x) by (intro x; unfold managed; rewrite EI; tauto).
  assert (ED : forall t a b, added m1 t a b <-> added m2 t a b) by (intros t a b; unfold added; rewrite EA; tauto).
  exists m1, m2, [(A, 1); (B, 8); (C, 1); (E, 5); (F, 8)]%Z.
  exists [(A, 0); (B, 0); (C, 0); (E, 1); (F, 1)]%Z, [(A, 0); (B, 0); (C, 0); (E, 0); (F, 1)]%Z.
  split; auto. split; auto. split; [apply C88_same_constraints_proof; auto|].
  split; [apply C10_history_independence_proof; auto|]. split; auto.
  split; [vm_compute; reflexivity|]. split; [vm_compute; reflexivity|]. discriminate.
Qed.

(** ** Sampling *)
Lemma same_keepr vec D m1 m2 o cr1 cr2 p : Inv m1 -> Inv m2 -> same_knowledge m1 m2 ->
  (forall a b, a <> b -> ask (get_added_constraint a b) m1 = Ok None <-> ask (get_added_constraint a b) m2 = Ok None) ->
  In (fst p) (ids m1) -> In (snd p) (ids m1) ->
  match cr1, cr2 with Some c1, Some c2 => same_vectors m1 c1 c2 | None, None => True | _, _ => False end ->
  keepr vec D o m1 cr1 p = keepr vec D o m2 cr2 p.
Proof.
  intros I1 I2 SK EA P1 P2 EC. destruct p as [a b]. cbn [fst snd] in *.
  assert (EI := same_ids_eq _ _ SK). assert (Q1 := P1). assert (Q2 := P2). rewrite EI in Q1, Q2.
  unfold keepr. rewrite !keep_run by auto. cbn [snd]. destruct (str_leb b a) eqn:LE; auto.
  assert (NE : a <> b) by (intros ->; rewrite str_leb_refl in LE; discriminate).
  assert (Ai : is_some (addf m1 a b) = is_some (addf m2 a b)).
  { specialize (EA a b NE). unfold ask in EA. rewrite (run_added m1 a b I1), (run_added m2 a b I2) in EA.
    assert (B1 : both m1 a b = true) by (apply both_true; auto). assert (B2 : both m2 a b = true) by (apply both_true; auto).
    rewrite B1, B2 in EA. cbn [snd] in EA. destruct (addf m1 a b), (addf m2 a b); auto.
    - destruct EA as [_ EA]. specialize (EA eq_refl). discriminate.
    - destruct EA as [EA _]. specialize (EA eq_refl). discriminate. }
  assert (Ii : infer m1 a b = infer m2 a b).
  { assert (X := proj2 SK a b). unfold ask in X. rewrite (run_inferred m1 a b I1), (run_inferred m2 a b I2) in X.
    assert (B1 : both m1 a b = true) by (apply both_true; auto). assert (B2 : both m2 a b = true) by (apply both_true; auto).
    rewrite B1, B2 in X. cbn [snd] in X. congruence. }
  rewrite Ai, Ii. f_equal. rewrite !skip_clusters_run. cbn [snd s_clustering]. destruct (reads_clusters o); auto.
  destruct cr1 as [c1|], cr2 as [c2|]; try contradiction; auto.
  rewrite (dlookup_dget a c1 c2), (dlookup_dget b c1 c2); auto; apply EC; exists (ids m1); auto.
Qed.

(*PROP C89: a sample depends only on the IDs, on which pairs of different IDs have an added or inferred constraint, and on the labels and vectors of the managed IDs: neither on the history of the manager, nor on earlier calls of the sampler, nor on other entries of the dictionaries. *)
Lemma C89_sample_depends_proof :
  forall vec D pairwise ltb draw o nb c1 c2 (v1 v2 : option (dict pystr vec)) m1 m2 s1 s2,
    reachable m1 -> reachable m2 -> same_knowledge m1 m2 ->
    (forall a b, a <> b -> ask (get_added_constraint a b) m1 = Ok None <-> ask (get_added_constraint a b) m2 = Ok None) ->
    match c1, c2 with Some x, Some y => same_vectors m1 x y | None, None => True | _, _ => False end ->
    match v1, v2 with Some x, Some y => same_vectors m1 x y | None, None => True | _, _ => False end ->
    snd (sample vec D pairwise ltb draw o nb c1 v1 (s1, m1)) = snd (sample vec D pairwise ltb draw o nb c2 v2 (s2, m2)).
Proof.
  intros vec D pairwise ltb draw o nb c1 c2 v1 v2 m1 m2 s1 s2 R1 R2 SK EA EC EV.
  apply reachable_inv in R1. apply reachable_inv in R2.
  destruct (sample_psample vec D pairwise ltb draw o nb c1 v1 s1 m1 R1) as [t1 E1].
  destruct (sample_psample vec D pairwise ltb draw o nb c2 v2 s2 m2 R2) as [t2 E2]. rewrite E1, E2. cbn [snd]. clear E1 E2 t1 t2.
  assert (EI := same_ids_eq _ _ SK).
  assert (EF : rfilter (keepr vec D o m1 c1) (list_prod (ids m1) (ids m1)) = rfilter (keepr vec D o m2 c2) (list_prod (ids m1) (ids m1))).
  { apply rfilter_ext. intros [a b] P. apply in_prod_iff in P as [Pa Pb]. apply same_keepr; auto. }
  unfold psample. rewrite <- EI. destruct (nb <? 0)%Z; auto. destruct (nb =? 0)%Z; auto.
  rewrite EF. destruct v1 as [v1|], v2 as [v2|]; try contradiction.
  - assert (ER := same_managed_rows m1 v1 v2 EV (ids m1) eq_refl (ids m1) (incl_refl _)). rewrite ER.
    destruct c1, c2; try contradiction; reflexivity.
  - destruct c1, c2; try contradiction; reflexivity.
Qed.

(*EX
Definition opts := mkOptions (Some DIFFERENT_CLUSTERS) (Some CLOSEST) true true.
Definition labels1 : dict pystr Z := [(A, 0); (B, 0); (C, 0); (E, 1); (F, 1)]%Z.
Definition labels2 : dict pystr Z := [(str "other", 0); (E, 1); (F, 1); (A, 0); (B, 0); (C, 0)]%Z.
Definition ex3 : mgr := run [by_ac; by_ab; CallAddConstraint E A CANNOT_LINK 1%Q; CallAddConstraint C E CANNOT_LINK 1%Q; CallDeleteConstraint A E] (init [A; B; C; E; F]).
Example C89_ex : forall m c v, m = ex1 /\ c = labels1 /\ v = vecs1 \/ m = ex3 /\ c = labels2 /\ v = vecs2 ->
  snd (sample Z Z pw Z.ltb (fun l k => firstn k l) opts 2 (Some c) (Some v) (fresh_sampler Z Z, m)) = Ok [(C, F); (B, F)].
Proof. intros m c v [(-> & -> & ->)|(-> & -> & ->)]; vm_compute; reflexivity. Qed.
EX*)
