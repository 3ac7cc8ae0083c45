(** * The session of the usage guide (C54, C81, C82). *)

From Coq Require Import String List Bool Arith ZArith QArith Lia Permutation.
From Verif Require Import Base Manager Spec Closure ManagerProofs ManagerInv ManagerQueries ManagerSem ManagerThms JsonThms
  Sampling SamplingSpec SamplingProofs SamplingThms MinMax MinMaxThms Rename ClusterSpec RenameThms ClusterProofs
  KMeans KMeansSpec KMeansProofs KMeansRun KMeansThms Loop LoopThms Usage UsageSpec Factories.
From Verif Require Hierarchical HierThms Spectral Mpckmeans.
Import ListNotations.
Open Scope nat_scope.
Open Scope py_scope.
Notation ids m := (keys (cdict m)).

(*HEADER
From Coq Require Import String List Bool Arith ZArith QArith Permutation Lia.
From Verif Require Import Base Manager Spec ManagerThms Sampling SamplingSpec MinMax ClusterSpec KMeans KMeansSpec Loop Usage UsageSpec Factories UsageThms.
From Verif Require Hierarchical Spectral Mpckmeans.
Import ListNotations.
Open Scope nat_scope.
Open Scope py_scope.

(** The examples use points on a line, no shuffling, insertion orders, and draw the first pairs. *)
Lemma first_draw : forall i : nat, valid_draw ((fun _ l k => firstn k l) i).
Proof. intros i l k L. split; [apply firstn_length_le; exact L|]. exists (skipn k l). rewrite firstn_skipn. apply Permutation_refl. Qed.
Lemma id_shuffle : forall i : nat, valid_shuffle ((fun _ l => l) i).
Proof. intros i l. apply Permutation_refl. Qed.
Lemma nodup_order : forall i : nat, valid_set_order ((fun _ => nodup Z.eq_dec) i).
Proof. intros i l. split; [apply NoDup_nodup|intro; apply nodup_In]. Qed.
Lemma insertion_order : forall i : nat, valid_orders ((fun _ _ g => g_nodes g) i).
Proof. intros i j g. apply Permutation_refl. Qed.

HEADER*)

Lemma suggested_run order m : valid_orders order -> Inv m -> ids m <> [] ->
  exists lo, get_min_and_max_number_of_clusters order m = (m, Ok (lo, length (comps m))) /\
    suggested_number order m = (m, Ok (Z.of_nat ((lo + length (comps m)) / 2))) /\
    2 <= lo /\ (2 <= length (comps m) -> lo <= length (comps m)) /\ (length (comps m) <= 1 -> lo = 2).
Proof.
  intros V I N. destruct (minmax_lo_le order m V I N) as (lo & col & E & H2 & L & _).
  exists lo. split; auto. unfold suggested_number, bind. rewrite E. split; auto. split; auto. split; lia.
Qed.

Lemma half_bounds lo n : 2 <= lo -> lo <= n -> 2 <= (lo + n) / 2 /\ lo <= (lo + n) / 2 <= n.
Proof.
  intros A B. assert (lo <= (lo + n) / 2) by (apply Nat.div_le_lower_bound; lia).
  assert ((lo + n) / 2 <= n) by (apply Nat.div_le_upper_bound; lia). lia.
Qed.

Lemma one_complete m : reachable m -> length (comps m) = 1 -> complete m.
Proof.
  intros R L. assert (I := reachable_inv _ R). destruct (C14_completude_exact_proof m R) as (b & Eb & K).
  unfold complete. rewrite Eb. f_equal. apply K. intros x y X Y. apply managed_ids in X. apply managed_ids in Y.
  left. apply inferred_spec; auto. apply infer_ML; auto. apply comp_of_In; auto.
  assert (A : In (comp_of m x) (comps m)) by (apply comps_In; eauto).
  assert (B : In (comp_of m y) (comps m)) by (apply comps_In; eauto).
  destruct (comps m) as [|c [|]]; try discriminate. destruct A as [<-|[]], B as [EB|[]]. rewrite EB.
  apply comp_of_In; auto. constructor.
Qed.

Lemma two_comps m : Inv m -> 2 <= length (comps m) -> exists x y, In x (ids m) /\ In y (ids m) /\ ~ linked (sml m) x y.
Proof.
  intros I L. assert (N := heads_NoDup m I). assert (LH : length (heads m) = length (comps m)) by apply map_length.
  assert (HI := fun h => heads_ids m h I). assert (HR := fun h => heads_rep m h I).
  destruct (heads m) as [|x [|y t]]; cbn [length] in LH; try lia.
  exists x, y. split; [apply HI; left; auto|]. split; [apply HI; right; left; auto|].
  intro K. apply rep_of_eq in K; auto; try (apply HI; simpl; auto).
  rewrite !HR in K by (simpl; auto). inversion N; subst. simpl in *. tauto.
Qed.

Lemma complete_cases m : reachable m -> complete m -> forall x y, In x (ids m) -> In y (ids m) ->
  linked (sml m) x y \/ separated (sml m) (scl m) x y.
Proof.
  intros R C x y X Y. assert (I := reachable_inv _ R). destruct (C14_completude_exact_proof m R) as (b & Eb & K).
  unfold complete in C. assert (b = true) by congruence. subst b.
  destruct (proj1 K eq_refl x y) as [H|H]; try (apply managed_ids; auto); apply inferred_spec in H; auto.
  - left. apply infer_ML; auto.
  - right. apply infer_CL; auto.
Qed.

Section Session.
  Variables vec D : Type.
  Variable sd : list vec -> nat -> nat -> D.
  Variable ltb : D -> D -> bool.
  Variable draws : nat -> list (pystr * pystr) -> nat -> list (pystr * pystr).
  Variable node_orders : nat -> nat -> graph -> list node.
  Variable truth : pystr -> nat.
  Variable o : options.
  Variable nb : Z.
  Variable vectors : dict pystr vec.
  Variable step : nat -> Z -> M mgr (dict pystr Z).
  Hypothesis VD : forall i, valid_draw (draws i).
  Hypothesis VN : forall i, valid_orders (node_orders i).
  Hypothesis OI : o_without_inferred o = true.
  Hypothesis NB : (1 <= nb)%Z.
  Hypothesis SC : sound_clustering vectors step.
  Notation loop := (iterations vec D sd ltb draws node_orders truth o nb vectors step).

  Definition good (m : mgr) : Prop :=
    reachable m /\ satisfies (added_must m) (added_cannot m) truth /\ has_ids m /\ covers (Some vectors) m.
  Definition clustered (m : mgr) (d : dict pystr Z) : Prop := exists i k, step i k m = (m, Ok d).

  Lemma step_ok m i k : good m -> (2 <= k)%Z -> exists d, step i k m = (m, Ok d).
  Proof. intros (R & _ & H & C) K. destruct (proj1 (SC m i k R H C) K) as (d & E & _). eauto. Qed.

  Lemma clustered_facts m d : good m -> clustered m d -> canonical d /\ covers_exactly m d /\ respects m d.
  Proof.
    intros (R & _ & H & C) (i & k & E). destruct (SC m i k R H C) as [S1 S2].
    destruct (Z_lt_ge_dec k 2) as [L|L]; [rewrite (S2 L) in E; discriminate|].
    destruct (S1 ltac:(lia)) as (d' & E' & F). assert (d' = d) by congruence. subst. auto.
  Qed.

  Lemma step_one m i k : good m -> (k < 2)%Z -> step i k m = (m, Raise ValueError).
  Proof. intros (R & _ & H & C) K. apply (SC m i k R H C). auto. Qed.

  Lemma good_ids m m' : good m -> reachable m' -> satisfies (added_must m') (added_cannot m') truth -> ids m' = ids m -> good m'.
  Proof.
    intros (_ & _ & (x & X) & (d & Ed & C)) R S K. split; auto. split; auto.
    assert (MM : forall x, managed m' x <-> managed m x) by (intro; rewrite !managed_ids, K; tauto).
    split; [exists x; apply MM; auto|]. exists d. split; auto. intros y Y. apply C, MM. auto.
  Qed.

  Lemma good_va m d : good m -> clustered m d -> valid_arguments o m nb (Some d) (Some vectors).
  Proof.
    intros G H. destruct (clustered_facts m d G H) as (_ & CO & _). destruct G as (_ & _ & G & C).
    split; [lia|]. split; [|auto]. intros _. exists d. split; auto. intros x X. apply CO. auto.
  Qed.

  (** An iteration that finds no pair although some pairs are undecided. *)
  Definition stall (m : mgr) : Prop := exists m1 d1,
    good m1 /\ ids m1 = ids m /\ clustered m1 d1 /\ ~ complete m1 /\ (forall q, ~ eligible o m1 (Some d1) q).

  Lemma nothing_sampled m d s i : good m -> clustered m d ->
    result (sample vec D sd ltb (draws i) o nb (Some d) (Some vectors)) (s, m) = Ok [] -> forall q, ~ eligible o m (Some d) q.
  Proof.
    intros G H E q EQ. assert (VA := good_va m d G H). assert (R := proj1 G). assert (I := reachable_inv _ R).
    destruct (C28_sampling_count_proof vec D sd ltb (draws i) o nb (Some d) (Some vectors) s m (VD i) R VA) as (l & E1 & L).
    assert (l = []) by congruence. subst l. rewrite ask_sample in E by auto. apply psample_Ok in E.
    destruct E as [[X _]|(_ & pairs & E & _)]; [lia|].
    apply eligible_pairs_spec in E; auto. destruct E as (ND & EL & _). specialize (L pairs ND EL). apply EL in EQ.
    destruct pairs; [destruct EQ|]. simpl in L. destruct (Z.to_nat nb) eqn:Z; [lia|discriminate].
  Qed.

  Definition outcome (fuel : nat) (m : mgr) (i : nat) (m' : mgr) (r : res (nat * dict pystr Z * list (pystr * pystr * pystr))) : Prop :=
    (exists k d, r = Ok (i + k, d, []) /\ (o_clusters o = None -> k <= nb_undecided m) /\ complete m' /\ clustered m' d /\
       ((k = 0 /\ m' = m) \/ (~ complete m /\ 2 <= length (comps m')))) \/
    (r = Raise ValueError /\ ~ complete m /\ length (comps m') = 1) \/
    (r = Raise OutOfFuel /\ (fuel <= nb_undecided m \/ (stall m /\ o_clusters o <> None))).

  Lemma loop_any fuel : forall m i d, good m -> clustered m d ->
    exists m' r, loop fuel i d m = (m', r) /\ good m' /\ ids m' = ids m /\
      (forall x y, linked (sml m) x y -> linked (sml m') x y) /\
      (forall x y, separated (sml m) (scl m) x y -> separated (sml m') (scl m') x y) /\
      outcome fuel m i m' r.
  Proof.
    induction fuel as [|fuel IH]; intros m i d G H.
    { exists m, (Raise OutOfFuel). cbn [iterations]. split; [reflexivity|]. split; auto. split; auto. split; auto. split; auto.
      right. right. split; auto. left. lia. }
    cbn [iterations]. assert (R := proj1 G). assert (I := reachable_inv _ R).
    destruct (C14_completude_exact_proof m R) as (b & Eb & _).
    assert (Q : check_completude_of_constraints m = (m, Ok b)).
    { destruct (run_completude m I) as (b' & Eb' & _). unfold ask in Eb. rewrite Eb' in Eb. cbn [snd] in Eb.
      rewrite Eb'. f_equal. auto. }
    unfold bind at 1. rewrite Q. destruct b.
    - exists m, (Ok (i, d, [])). split; [reflexivity|]. split; auto. split; auto. split; auto. split; auto.
      left. exists 0, d. rewrite Nat.add_0_r. split; auto. split; [lia|]. auto.
    - assert (NC : ~ complete m) by (unfold complete; congruence).
      destruct (round_any vec D sd ltb draws truth o nb (Some vectors) VD OI NB (Some d) m (fresh_sampler vec D) i R (proj1 (proj2 G)) (good_va m d G H))
        as (l & s1 & Es & NE & m1 & Ea & R1 & C1 & K1 & ML & MS & U1).
      unfold bind at 1. unfold sampling_step at 1. rewrite Es. cbn [fst snd].
      unfold bind at 1. rewrite Ea.
      assert (G1 := good_ids m m1 G R1 C1 K1). assert (I1 := reachable_inv _ R1).
      assert (N1 : ids m1 <> []) by (apply has_ids_spec; apply G1).
      destruct (suggested_run (node_orders i) m1 (VN i) I1 N1) as (lo & _ & Esg & L2 & LN & L1).
      unfold bind at 1. rewrite Esg.
      destruct (le_lt_dec 2 (length (comps m1))) as [T|T].
      + destruct (half_bounds lo _ L2 (LN T)) as (HB & _).
        destruct (step_ok m1 (S i) (Z.of_nat ((lo + length (comps m1)) / 2)) G1) as (d1 & Ed); [lia|].
        unfold bind at 1. rewrite Ed.
        destruct (IH m1 (S i) d1 G1) as (m2 & r & E2 & G2 & K2 & ML2 & MS2 & OUT).
        { eexists; eexists; exact Ed. }
        unfold bind at 1. rewrite E2.
        exists m2, (match r with Ok x => Ok (fst x, [] ++ snd x) | Raise e => Raise e end).
        split; [destruct r; reflexivity|]. split; auto. split; [congruence|]. split; auto. split; auto.
        destruct OUT as [(k & d2 & -> & LK & CP & CL & W)|[(-> & NC1 & C)|(-> & C)]].
        * left. exists (S k), d2. cbn [fst snd app]. split; [do 3 f_equal; lia|]. split.
          { intro OC. specialize (LK OC). specialize (U1 (NE OC NC)). lia. }
          split; auto. split; auto. right. split; auto. destruct W as [(_ & ->)|(_ & W)]; auto.
        * right. left. auto.
        * right. right. split; auto. destruct C as [C|((ms & ds & S1 & S2 & S3) & C)].
          -- destruct l as [|q l].
             ++ right. split; [|intro OC; exact (NE OC NC eq_refl)].
                exists m, d. split; auto. split; auto. split; auto. split; auto.
                apply (nothing_sampled m d (fresh_sampler vec D) i G H). unfold result. rewrite Es. auto.
             ++ left. assert (nb_undecided m1 < nb_undecided m) by (apply U1; discriminate). lia.
          -- right. split; auto. exists ms, ds. split; auto. split; [congruence|auto].
      + assert (L : lo = 2) by (apply L1; lia). subst lo.
        assert (X : 1 <= length (comps m1)).
        { destruct G1 as (_ & _ & (x & X) & _). apply managed_ids in X.
          assert (Y : In (comp_of m1 x) (comps m1)) by (apply comps_In; exists x; auto).
          destruct (comps m1); [destruct Y|simpl; lia]. }
        assert (length (comps m1) = 1) as -> by lia.
        exists m1, (Raise ValueError). unfold bind at 1. rewrite step_one; auto; [|vm_compute; reflexivity].
        split; auto. split; auto. split; auto. split; auto. split; auto. right. left. split; auto. split; auto. lia.
  Qed.

  Lemma ground_truth m d a b : good m -> complete m -> clustered m d -> In a (ids m) -> In b (ids m) ->
    (dget a d = dget b d <-> truth a = truth b).
  Proof.
    intros G C H A B. destruct (clustered_facts m d G H) as (_ & _ & RM & RC). destruct G as (R & S & _).
    assert (I := reachable_inv _ R). assert (MA : managed m a) by (apply managed_ids; auto). assert (MB : managed m b) by (apply managed_ids; auto).
    destruct (complete_cases m R C a b A B) as [L|L].
    - split; intros _; [eapply sat_linked; eauto|]. apply RM; auto. apply inferred_spec; auto. apply infer_ML; auto.
    - split; intro X; exfalso; [|eapply sat_separated; eauto].
      revert X. apply RC; auto. apply inferred_spec; auto. apply infer_CL; auto.
  Qed.

  Notation session := (session_with vec D sd ltb draws node_orders truth o nb vectors step).

  Lemma session_any fuel m : good m ->
    exists m' r, session fuel m = (m', r) /\ good m' /\ ids m' = ids m /\
      (forall x y, linked (sml m) x y -> linked (sml m') x y) /\
      (forall x y, separated (sml m) (scl m) x y -> separated (sml m') (scl m') x y) /\
      outcome fuel m 0 m' r.
  Proof.
    intro G. unfold session_with. destruct (step_ok m 0 2 G) as (d & E); [lia|].
    unfold bind at 1. rewrite E. apply loop_any; auto. eexists; eexists; exact E.
  Qed.
End Session.

(*PROP C95: what a session asks of its clustering holds of constrained KMeans. *)
Lemma C95_kmeans_sound_proof :
  forall vec D (eqD : EqB D) pairwise ltb dzero dsum mean shuffles set_orders model it tol p (vectors : dict pystr vec),
    (forall i, valid_shuffle (shuffles i)) -> (forall i, valid_set_order (set_orders i)) -> make_kmeans D ltb dzero model it tol = Ok p ->
    sound_clustering vectors (clustering_step vec D pairwise ltb dsum mean shuffles set_orders p vectors).
Proof.
  intros vec D eqD pw ltb dz dsum mean shuffles sos model it tol p vectors VS VO MK m i k R H C. unfold clustering_step. split; intro K.
  - destruct (C35_kmeans_total_proof vec D eqD pw ltb dz dsum mean (shuffles i) (sos i) model it tol p m vectors k
                (fresh_kmeans vec) (VO i) (VS i) R MK H C K) as (d & E & CA & CO).
    exists d. assert (E' := E). unfold result in E'. rewrite E'. split; auto. split; auto. split; auto.
    eapply (C34_kmeans_respects_constraints_proof vec D eqD pw ltb dz dsum mean (shuffles i) (sos i) model it tol p m vectors (Some k)
      (fresh_kmeans vec) d (VO i) (VS i) R MK). exact E.
  - f_equal. apply (proj2 (C35_kmeans_errors_proof vec D eqD pw ltb dz dsum mean (shuffles i) (sos i) model it tol p m vectors (Some k)
                (fresh_kmeans vec) ValueError (VO i) (VS i) R MK)).
    left. split; auto. right. left. exists k. auto.
Qed.

(*PROP C95: and of hierarchical clustering, for the four linkages. *)
Lemma C95_hierarchical_sound_proof :
  forall vec D (eqD : EqB D) pairwise cdistance ltb dsum ddiv inf mean name linkage (vectors : dict pystr vec),
    Hierarchical.make_hierarchical name = Ok linkage ->
    sound_clustering vectors (hierarchical_step vec D pairwise cdistance ltb dsum ddiv inf mean linkage vectors).
Proof.
  intros vec D eqD pw cd ltb dsum ddiv inf mean name linkage vectors MK m i k R H C. unfold hierarchical_step. split; intro K.
  - destruct (HierThms.C61_hierarchical_total_proof vec D eqD pw cd ltb dsum ddiv inf mean name linkage m vectors k
      (Hierarchical.fresh_hier vec) R MK H C K) as (d & E & CA & CO).
    exists d. assert (E' := E). unfold result in E'. rewrite E'. split; auto. split; auto. split; auto.
    eapply HierThms.C37_hierarchical_respects_proof; eauto.
  - f_equal. unfold Hierarchical.cluster. unfold bind at 1. cbn. destruct (Z.ltb_spec k 2); [reflexivity|lia].
Qed.

(*PROP C95: with any such clustering and any sampler that does not look at the clusters, the session decides all the pairs within n(n-1)/2 iterations, whatever the draws, and refuses no annotation.  It returns the ground truth, numbered canonically, when some IDs have different true clusters or everything was decided before; otherwise it ends with ValueError. *)
Lemma C95_session_proof :
  forall vec D sampling_distances ltb draws node_orders truth o nb_to_select (vectors : dict pystr vec) clustering m l,
    sound_clustering vectors clustering ->
    (forall i, valid_draw (draws i)) -> (forall i, valid_orders (node_orders i)) ->
    o_clusters o = None -> o_without_inferred o = true -> (1 <= nb_to_select)%Z ->
    reachable m -> satisfies (added_must m) (added_cannot m) truth ->
    ask get_list_of_managed_data_IDs m = Ok l -> l <> [] -> covers (Some vectors) m ->
    let bound := length l * (length l - 1) / 2 in
    let (m', r) := session_with vec D sampling_distances ltb draws node_orders truth o nb_to_select vectors clustering (S bound) m in
    complete m' /\ ask get_list_of_managed_data_IDs m' = Ok l /\ satisfies (added_must m') (added_cannot m') truth /\
    (complete m \/ (exists a b, In a l /\ In b l /\ truth a <> truth b) ->
       exists rounds d, r = Ok (rounds, d, []) /\ rounds <= bound /\ canonical d /\ covers_exactly m d /\
         forall a b, In a l -> In b l -> (dget a d = dget b d <-> truth a = truth b)) /\
    (~ complete m -> (forall a b, In a l -> In b l -> truth a = truth b) -> r = Raise ValueError).
Proof.
  intros vec D sd ltb draws nos truth o nb vectors step m l SC VD VN OC OI NB R S EL NE C bound.
  assert (I := reachable_inv _ R). unfold ask in EL. rewrite run_managed in EL. cbn in EL. injection EL; intros; subst l.
  assert (HI : has_ids m).
  { destruct (ids m) as [|x l] eqn:Q; [congruence|]. exists x. apply managed_ids. rewrite Q. left; auto. }
  assert (G : good vec truth vectors m) by (repeat (split; auto)).
  assert (U := nb_undecided_le m I).
  assert (U' : nb_undecided m <= bound) by (apply Nat.div_le_lower_bound; lia).
  destruct (session_any vec D sd ltb draws nos truth o nb vectors step VD VN OI NB SC (Datatypes.S bound) m G) as (m' & r & E & G' & K & _ & _ & OUT).
  rewrite E. assert (CP : complete m').
  { destruct OUT as [(k & d & _ & _ & CP & _)|[(_ & _ & CP)|(_ & [CP|(_ & CP)])]]; auto; [|lia|tauto]. apply one_complete; auto. apply G'. }
  assert (I' := reachable_inv _ (proj1 G')).
  split; auto. split; [unfold ask; rewrite run_managed, K; auto|]. split; [apply G'|]. split.
  - intro CASE. destruct OUT as [(k & d & -> & LK & _ & CL & _)|[(_ & NC & CC)|(_ & [CC|(_ & CC)])]]; [| |lia|tauto].
    + exists k, d. split; auto. split; [specialize (LK OC); lia|].
      destruct (clustered_facts vec truth vectors step SC m' d G' CL) as (CA & CO & _).
      split; auto. split; [intro x; rewrite (CO x), !managed_ids, K; tauto|].
      intros a b A B. eapply ground_truth; eauto; rewrite K; auto.
    + exfalso. destruct CASE as [?|(a & b & A & B & N)]; [tauto|]. apply N.
      apply (sat_linked m' truth a b I' (proj1 (proj2 G'))).
      rewrite <- K in A, B. apply comps_common; auto.
      assert (A' : In (comp_of m' a) (comps m')) by (apply comps_In; eauto).
      assert (B' : In (comp_of m' b) (comps m')) by (apply comps_In; eauto).
      exists (comp_of m' a). split; auto. split; [apply comp_of_In; auto; constructor|].
      destruct (comps m') as [|c [|]]; try discriminate. destruct A' as [<-|[]], B' as [EB|[]]. rewrite EB. apply comp_of_In; auto. constructor.
  - intros NC T. destruct OUT as [(k & d & _ & _ & _ & CL & W)|[(-> & _)|(_ & [CC|(_ & CC)])]]; auto; [|lia|tauto].
    exfalso. destruct W as [(_ & ->)|(_ & W)]; [tauto|].
    destruct (two_comps m' I' W) as (x & y & X & Y & NL).
    destruct (complete_cases m' (proj1 G') CP x y X Y) as [L|L]; [tauto|].
    apply (sat_separated m' truth x y I' (proj1 (proj2 G')) L). apply T; rewrite <- K; auto.
Qed.

(*PROP C54 (what fails): with a single component the range is (2, 1) and the suggested number is 1, which every algorithm with a number of clusters rejects with ValueError; two IDs and one MUST_LINK are enough. *)
Lemma C54_suggested_number_refuted_proof :
  (exists m a b, reachable m /\ managed m a /\ managed m b /\ a <> b /\ nb_components m 1) /\
  forall m order, reachable m -> nb_components m 1 -> valid_orders order ->
    ask (suggested_number order) m = Ok 1%Z /\
    (forall vec D (eqD : EqB D) pairwise ltb dzero dsum mean shuffle set_order model it tol p vectors s,
       valid_set_order set_order -> valid_shuffle shuffle -> make_kmeans D ltb dzero model it tol = Ok p ->
       result (cluster vec D pairwise ltb dsum mean shuffle set_order p m vectors (Some 1%Z)) s = Raise ValueError) /\
    (forall vec D (eqD : EqB D) pairwise cdistance ltb dsum ddiv inf mean linkage vectors s,
       result (Hierarchical.cluster vec D pairwise cdistance ltb dsum ddiv inf mean linkage m vectors (Some 1%Z)) s = Raise ValueError) /\
    (forall vec D kernel (zero one : D) solver vectors s,
       result (Spectral.cluster vec D kernel zero one solver m vectors (Some 1%Z)) s = Raise ValueError) /\
    (forall vec D o flatten limit order first sample shuffle p vectors s,
       result (Mpckmeans.cluster vec D o flatten limit order first sample shuffle p m vectors (Some 1%Z)) s = Raise ValueError).
Proof.
  split.
  { exists (run [CallAddConstraint (str "a") (str "b") MUST_LINK 1%Q] (init [str "a"; str "b"])), (str "a"), (str "b").
    split; [apply run_reachable|]. split; [exists [str "a"; str "b"]; split; [vm_compute; reflexivity|left; reflexivity]|].
    split; [exists [str "a"; str "b"]; split; [vm_compute; reflexivity|right; left; reflexivity]|].
    split; [intro X; apply (f_equal (eqb (str "a"))) in X; vm_compute in X; discriminate|].
    eexists; split; [vm_compute; reflexivity|reflexivity]. }
  intros m order R N V. assert (I := reachable_inv _ R). apply nb_components_spec in N; auto.
  assert (NI : ids m <> []) by (apply comps_nonempty; auto; lia).
  destruct (suggested_run order m V I NI) as (lo & _ & E & _ & _ & L1).
  assert (L : lo = 2) by (apply L1; lia). subst lo. rewrite N in E.
  split; [unfold ask; rewrite E; reflexivity|]. split.
  { intros. apply (proj2 (C35_kmeans_errors_proof vec D eqD pairwise ltb dzero dsum mean shuffle set_order model it tol p m vectors (Some 1%Z)
                s ValueError H H0 R H1)). left. split; auto. right. left. exists 1%Z. split; auto. lia. }
  split.
  { intros. unfold result, Hierarchical.cluster. unfold bind at 1. reflexivity. }
  split; intros; reflexivity.
Qed.

(*PROP C54 (what holds): with at least two components the suggested number lies in the range, is a feasible number of clusters and is accepted: KMeans and hierarchical clustering return a clustering of exactly the managed IDs. *)
Lemma C54_suggested_number_partial_proof :
  forall m order n, reachable m -> nb_components m n -> 2 <= n -> valid_orders order ->
    exists lo k, ask (get_min_and_max_number_of_clusters order) m = Ok (lo, n) /\
      suggested_number order m = (m, Ok (Z.of_nat k)) /\ 2 <= k /\ lo <= k <= n /\ feasible m k /\
    (forall vec D (eqD : EqB D) pairwise ltb dzero dsum mean shuffle set_order model it tol p vectors s,
       valid_set_order set_order -> valid_shuffle shuffle -> make_kmeans D ltb dzero model it tol = Ok p -> covers (Some vectors) m ->
       exists d, result (cluster vec D pairwise ltb dsum mean shuffle set_order p m vectors (Some (Z.of_nat k))) s = Ok d /\ covers_exactly m d) /\
    (forall vec D (eqD : EqB D) pairwise cdistance ltb dsum ddiv inf mean name linkage vectors s,
       Hierarchical.make_hierarchical name = Ok linkage -> covers (Some vectors) m ->
       exists d, result (Hierarchical.cluster vec D pairwise cdistance ltb dsum ddiv inf mean linkage m vectors (Some (Z.of_nat k))) s = Ok d /\
         covers_exactly m d).
Proof.
  intros m order n R N L V. assert (I := reachable_inv _ R). assert (N' := N). apply nb_components_spec in N'; auto.
  assert (NI : ids m <> []) by (apply comps_nonempty; auto; lia).
  destruct (suggested_run order m V I NI) as (lo & E0 & E & L2 & LN & _). rewrite N' in *.
  destruct (half_bounds lo n L2 (LN L)) as (HB & HR).
  destruct (C16_range_feasible_proof order m n V R N L) as (lo' & hi' & E' & _ & F).
  assert (X : (lo', hi') = (lo, n)) by (unfold ask in E'; rewrite E0 in E'; cbn in E'; congruence).
  injection X; intros -> ->.
  assert (HI : has_ids m).
  { destruct (ids m) as [|x l] eqn:Q; [congruence|]. exists x. apply managed_ids. rewrite Q. left; auto. }
  exists lo, ((lo + n) / 2). split; auto. split; auto. split; auto. split; auto. split; auto. split.
  - intros. destruct (C35_kmeans_total_proof vec D eqD pairwise ltb dzero dsum mean shuffle set_order model it tol p m vectors
      (Z.of_nat ((lo + n) / 2)) s H H0 R H1 HI H2 ltac:(lia)) as (d & Ed & _ & C). eauto.
  - intros. destruct (HierThms.C61_hierarchical_total_proof vec D eqD pairwise cdistance ltb dsum ddiv inf mean name linkage m vectors
      (Z.of_nat ((lo + n) / 2)) s R H HI H0 ltac:(lia)) as (d & Ed & _ & C). eauto.
Qed.

(*EX
Definition ex54 : mgr := run [CallAddConstraint (str "a") (str "b") CANNOT_LINK 1%Q] (init [str "a"; str "b"; str "c"; str "d"]).
Example C54_ex : nb_components ex54 4 /\ ask (suggested_number (fun _ g => g_nodes g)) ex54 = Ok 3%Z.
Proof. split; [eexists; split; [vm_compute; reflexivity|reflexivity]|vm_compute; reflexivity]. Qed.
EX*)

(*PROP C81: from any manager whose constraints agree with the ground truth, and with any sampler that does not look at the clusters, the session of the usage guide decides all the pairs within n(n-1)/2 iterations.  When some IDs have different true clusters (or everything was decided before), it returns: no annotation was refused and the last clustering is exactly the ground truth, numbered canonically. *)
Lemma C81_session_partial_proof :
  forall vec D (eqD : EqB D) sampling_distances pairwise ltb dzero dsum mean draws shuffles set_orders node_orders truth o
         model it tol p nb_to_select vectors m l,
    (forall i, valid_draw (draws i)) -> (forall i, valid_shuffle (shuffles i)) ->
    (forall i, valid_set_order (set_orders i)) -> (forall i, valid_orders (node_orders i)) ->
    o_clusters o = None -> o_without_inferred o = true -> (1 <= nb_to_select)%Z -> make_kmeans D ltb dzero model it tol = Ok p ->
    reachable m -> satisfies (added_must m) (added_cannot m) truth ->
    ask get_list_of_managed_data_IDs m = Ok l -> l <> [] -> covers (Some vectors) m ->
    let bound := length l * (length l - 1) / 2 in
    let (m', r) := session vec D sampling_distances pairwise ltb dsum mean draws shuffles set_orders node_orders truth o p
                     nb_to_select vectors (S bound) m in
    complete m' /\ ask get_list_of_managed_data_IDs m' = Ok l /\ satisfies (added_must m') (added_cannot m') truth /\
    (complete m \/ (exists a b, In a l /\ In b l /\ truth a <> truth b) ->
       exists rounds d, r = Ok (rounds, d, []) /\ rounds <= bound /\ canonical d /\ covers_exactly m d /\
         forall a b, In a l -> In b l -> (dget a d = dget b d <-> truth a = truth b)).
Proof.
  intros vec D eqD sd pw ltb dz dsum mean draws shuffles sos nos truth o model it tol p nb vectors m l VD VS VO VN OC OI NB MK R S EL NE C bound.
  assert (SC := C95_kmeans_sound_proof vec D eqD pw ltb dz dsum mean shuffles sos model it tol p vectors VS VO MK).
  assert (H := C95_session_proof vec D sd ltb draws nos truth o nb vectors _ m l SC VD VN OC OI NB R S EL NE C).
  cbv zeta in H. fold bound in H. unfold session. destruct (session_with _ _ _ _ _ _ _ _ _ _ _ _ m) as [m' r].
  destruct H as (A1 & A2 & A3 & A4 & _). auto.
Qed.

(*EX
Definition a := str "a". Definition b := str "b". Definition c := str "c". Definition d := str "d".
Definition pw (X Y : list Z) (i j : nat) : Z := Z.abs (nth i X 0 - nth j Y 0)%Z.
Definition zmean (l : list Z) : Z := (fold_right Z.add 0 l / Z.of_nat (length l))%Z.
Definition zsum (l : list Z) : Z := fold_right Z.add 0%Z l.
Definition session_Z := session Z Z (fun X => pw X X) pw Z.ltb zsum zmean (fun _ l k => firstn k l) (fun _ l => l) (fun _ => nodup Z.eq_dec) (fun _ _ g => g_nodes g).
Definition pars := mkKParams Z 5 1%Z.
Definition truth x := if eqb x a then 1 else if eqb x c then 1 else 2.
Definition vecs : dict pystr Z := [(a, 0); (b, 1); (c, 10); (d, 12)]%Z.
(** The vectors suggest {a, b}, {c, d}; the annotations lead to {a, c}, {b, d}. *)
Example C81_ex : make_kmeans Z Z.ltb 0%Z (str "COP") 5 1%Z = Ok pars /\
  result (session_Z truth (mkOptions None None true true) pars 2%Z vecs 7) (init [a; b; c; d]) = Ok (2, [(a, 0); (b, 1); (c, 0); (d, 1)]%Z, []).
Proof. split; vm_compute; reflexivity. Qed.
EX*)

(*PROP C81 (what fails): when all the IDs belong to one true cluster, the session of the usage guide always ends with ValueError, after the annotation that completes the constraints. *)
Lemma C81_session_refuted_proof :
  forall vec D (eqD : EqB D) sampling_distances pairwise ltb dzero dsum mean draws shuffles set_orders node_orders truth o
         model it tol p nb_to_select vectors m l,
    (forall i, valid_draw (draws i)) -> (forall i, valid_shuffle (shuffles i)) ->
    (forall i, valid_set_order (set_orders i)) -> (forall i, valid_orders (node_orders i)) ->
    o_clusters o = None -> o_without_inferred o = true -> (1 <= nb_to_select)%Z -> make_kmeans D ltb dzero model it tol = Ok p ->
    reachable m -> satisfies (added_must m) (added_cannot m) truth ->
    ask get_list_of_managed_data_IDs m = Ok l -> covers (Some vectors) m ->
    (forall a b, In a l -> In b l -> truth a = truth b) -> ~ complete m ->
    result (session vec D sampling_distances pairwise ltb dsum mean draws shuffles set_orders node_orders truth o p
              nb_to_select vectors (S (length l * (length l - 1) / 2))) m = Raise ValueError.
Proof.
  intros vec D eqD sd pw ltb dz dsum mean draws shuffles sos nos truth o model it tol p nb vectors m l VD VS VO VN OC OI NB MK R S EL C T NC.
  assert (SC := C95_kmeans_sound_proof vec D eqD pw ltb dz dsum mean shuffles sos model it tol p vectors VS VO MK).
  assert (NE : l <> []).
  { intros ->. apply NC. destruct (C14_completude_exact_proof m R) as (b & Eb & K). unfold complete. rewrite Eb. f_equal. apply K.
    intros x y (l & El & X). rewrite EL in El. injection El as <-. destruct X. }
  assert (H := C95_session_proof vec D sd ltb draws nos truth o nb vectors _ m l SC VD VN OC OI NB R S EL NE C). cbv zeta in H.
  unfold result, session. destruct (session_with _ _ _ _ _ _ _ _ _ _ _ _ m) as [m' r]. cbn [snd]. apply H; auto.
Qed.

(*EX
(** One topic, three texts: the session fails with ValueError. *)
Example C81_refuted_ex : result (session_Z (fun _ => 5) (mkOptions None None true true) pars 1%Z vecs 4) (init [a; b; c]) = Raise ValueError.
Proof. vm_compute; reflexivity. Qed.
(** The same four texts as for C81, with hierarchical clustering. *)
Definition hstep (link : pystr) := hierarchical_step Z Z (fun X => pw X X) (fun x y => Z.abs (x - y)) Z.ltb zsum (fun s k => s / Z.of_nat k)%Z 1000%Z zmean link vecs.
Example C95_ex : sound_clustering vecs (hstep (str "complete")) /\
  result (session_with Z Z (fun X => pw X X) Z.ltb (fun _ l k => firstn k l) (fun _ _ g => g_nodes g) truth (mkOptions None None true true) 2%Z vecs
    (hstep (str "complete")) 7) (init [a; b; c; d]) = Ok (2, [(a, 0); (b, 1); (c, 0); (d, 1)]%Z, []).
Proof. split; [eapply (C95_hierarchical_sound_proof _ _ _ _ _ _ _ _ _ _ (str "complete")); reflexivity|vm_compute; reflexivity]. Qed.
EX*)

(** ** Sessions that never end. *)
Section Stall.
  Variables vec D : Type.
  Variable sd : list vec -> nat -> nat -> D.
  Variable ltb : D -> D -> bool.
  Variable draws : nat -> list (pystr * pystr) -> nat -> list (pystr * pystr).
  Variable node_orders : nat -> nat -> graph -> list node.
  Variable truth : pystr -> nat.
  Variable o : options.
  Variable nb : Z.
  Variable vectors : dict pystr vec.
  Variable step : nat -> Z -> M mgr (dict pystr Z).
  Variables (m : mgr) (d : dict pystr Z) (k : Z).

  Lemma stuck fuel : forall i,
    check_completude_of_constraints m = (m, Ok false) ->
    (forall i, sampling_step vec D sd ltb draws o nb vectors i d m = (m, Ok [])) ->
    (forall i, suggested_number (node_orders i) m = (m, Ok k)) ->
    (forall i, step i k m = (m, Ok d)) ->
    iterations vec D sd ltb draws node_orders truth o nb vectors step fuel i d m = (m, Raise OutOfFuel).
  Proof.
    induction fuel as [|fuel IH]; intros i H1 H2 H3 H4; [reflexivity|]. cbn [iterations].
    unfold bind at 1. rewrite H1. unfold bind at 1. rewrite H2. unfold bind at 1. cbn [annotate map add_annotations ret].
    unfold bind at 1. rewrite H3. unfold bind at 1. rewrite H4. unfold bind at 1. rewrite IH; auto.
  Qed.
End Stall.

(** Two texts on a line. *)
Definition line (X Y : list Z) (i j : nat) : Z := Z.abs (nth i X 0 - nth j Y 0)%Z.
Definition line_mean (l : list Z) : Z := (fold_right Z.add 0 l / Z.of_nat (length l))%Z.
Definition line_sum (l : list Z) : Z := fold_right Z.add 0%Z l.
Definition line_session := session Z Z (fun X => line X X) line Z.ltb line_sum line_mean (fun _ l k => firstn k l) (fun _ l => l)
  (fun _ => nodup Z.eq_dec) (fun _ _ g => g_nodes g).
Definition two : mgr := init [str "a"; str "b"].
Definition far_apart : dict pystr Z := [(str "a", 0); (str "b", 10)]%Z.
Definition together : dict pystr Z := [(str "a", 3); (str "b", 3)]%Z.

Ltac stuck_by D := 
  match goal with |- forall fuel, result (line_session ?t ?o ?p ?n ?v fuel) ?m = _ =>
    let E := fresh in
    assert (E : clustering_step Z Z line Z.ltb line_sum line_mean (fun _ l => l) (fun _ => nodup Z.eq_dec) p v 0 2 m = (m, Ok D)) by (vm_compute; reflexivity);
    intro fuel; unfold result, line_session, session, session_with; unfold bind at 1; rewrite E;
    rewrite (stuck Z Z (fun X => line X X) Z.ltb (fun _ l k => firstn k l) (fun _ _ g => g_nodes g) t o n v
      (clustering_step Z Z line Z.ltb line_sum line_mean (fun _ l => l) (fun _ => nodup Z.eq_dec) p v) m D 2%Z fuel 0);
    [reflexivity|vm_compute; reflexivity|intro; vm_compute; reflexivity|intro; vm_compute; reflexivity|intro; vm_compute; reflexivity]
  end.

(*PROP C82 (what fails): with each of the three samplers of the factory that look at the clusters there is a session of two texts that never ends although their pair is undecided: far-apart texts are always in different clusters, equal ones always in the same. *)
Lemma C82_every_sampler_refuted_proof :
  forall name, In name [str "random_in_same_cluster"; str "farthest_in_same_cluster"; str "closest_in_different_clusters"] ->
    exists o p vectors, sampling_factory name no_sampling_kargs = Ok o /\ make_kmeans Z Z.ltb 0%Z (str "COP") 150 1%Z = Ok p /\
      covers (Some vectors) two /\ ~ complete two /\
      forall truth fuel, result (line_session truth o p 3%Z vectors fuel) two = Raise OutOfFuel.
Proof.
  assert (NC : ~ complete two) by (vm_compute; discriminate).
  intros name [<-|[<-|[<-|[]]]].
  - exists (mkOptions (Some SAME_CLUSTER) None true true), (mkKParams Z 150 1%Z), far_apart.
    split; [vm_compute; reflexivity|]. split; [reflexivity|].
    split; [exists far_apart; split; auto; intros x (l & El & J); injection El as <-; exact J|]. split; auto.
    intro truth. stuck_by [(str "a", 0); (str "b", 1)]%Z.
  - exists (mkOptions (Some SAME_CLUSTER) (Some FARTHEST) true true), (mkKParams Z 150 1%Z), far_apart.
    split; [vm_compute; reflexivity|]. split; [reflexivity|].
    split; [exists far_apart; split; auto; intros x (l & El & J); injection El as <-; exact J|]. split; auto.
    intro truth. stuck_by [(str "a", 0); (str "b", 1)]%Z.
  - exists (mkOptions (Some DIFFERENT_CLUSTERS) (Some CLOSEST) true true), (mkKParams Z 150 1%Z), together.
    split; [vm_compute; reflexivity|]. split; [reflexivity|].
    split; [exists together; split; auto; intros x (l & El & J); injection El as <-; exact J|]. split; auto.
    intro truth. stuck_by [(str "a", 0); (str "b", 0)]%Z.
Qed.

(*PROP C82 (what holds for every sampler that skips inferred constraints): no annotation is refused and what is decided stays decided; a session that returns has the ground truth as its last clustering; it fails only with ValueError on a single component; it goes on for more than n(n-1)/2 iterations only when in some iteration a pair is undecided and no undecided pair meets the restriction of the sampler. *)
Lemma C82_every_sampler_partial_proof :
  forall vec D (eqD : EqB D) sampling_distances pairwise ltb dzero dsum mean draws shuffles set_orders node_orders truth o
         model it tol p nb_to_select vectors m l fuel,
    (forall i, valid_draw (draws i)) -> (forall i, valid_shuffle (shuffles i)) ->
    (forall i, valid_set_order (set_orders i)) -> (forall i, valid_orders (node_orders i)) ->
    o_without_inferred o = true -> (1 <= nb_to_select)%Z -> make_kmeans D ltb dzero model it tol = Ok p ->
    reachable m -> satisfies (added_must m) (added_cannot m) truth ->
    ask get_list_of_managed_data_IDs m = Ok l -> l <> [] -> covers (Some vectors) m ->
    let (m', r) := session vec D sampling_distances pairwise ltb dsum mean draws shuffles set_orders node_orders truth o p
                     nb_to_select vectors fuel m in
    ask get_list_of_managed_data_IDs m' = Ok l /\ satisfies (added_must m') (added_cannot m') truth /\
    (forall a b t, In a l -> In b l -> inferred m a b (Some t) -> inferred m' a b (Some t)) /\
    match r with
    | Ok (rounds, d, refused) =>
        refused = [] /\ complete m' /\ canonical d /\ covers_exactly m d /\
        forall a b, In a l -> In b l -> (dget a d = dget b d <-> truth a = truth b)
    | Raise e =>
        (e = ValueError /\ nb_components m' 1 /\ complete m') \/
        (e = OutOfFuel /\
          (fuel <= length l * (length l - 1) / 2 \/
           exists m1 d1, reachable m1 /\ ask get_list_of_managed_data_IDs m1 = Ok l /\ satisfies (added_must m1) (added_cannot m1) truth /\
             ~ complete m1 /\ canonical d1 /\ covers_exactly m1 d1 /\ respects m1 d1 /\ o_clusters o <> None /\
             forall q, ~ eligible o m1 (Some d1) q))
    end.
Proof.
  intros vec D eqD sd pw ltb dz dsum mean draws shuffles sos nos truth o model it tol p nb vectors m l fuel VD VS VO VN OI NB MK R S EL NE C.
  assert (I := reachable_inv _ R). unfold ask in EL. rewrite run_managed in EL. cbn in EL. injection EL; intros; subst l.
  assert (HI : has_ids m).
  { destruct (ids m) as [|x l] eqn:Q; [congruence|]. exists x. apply managed_ids. rewrite Q. left; auto. }
  assert (G : good vec truth vectors m) by (repeat (split; auto)).
  assert (U := nb_undecided_le m I).
  assert (U' : nb_undecided m <= length (ids m) * (length (ids m) - 1) / 2) by (apply Nat.div_le_lower_bound; lia).
  assert (SC := C95_kmeans_sound_proof vec D eqD pw ltb dz dsum mean shuffles sos model it tol p vectors VS VO MK).
  unfold session. destruct (session_any vec D sd ltb draws nos truth o nb vectors _ VD VN OI NB SC fuel m G) as (m' & r & E & G' & K & ML & MS & OUT).
  rewrite E. assert (I' := reachable_inv _ (proj1 G')).
  split; [unfold ask; rewrite run_managed, K; auto|]. split; [apply G'|]. split.
  { intros a b t A B H. assert (A' := A). assert (B' := B). rewrite <- K in A', B'.
    apply inferred_spec in H; auto. apply inferred_spec; auto.
    destruct (infer_cases m a b) as [F|[F|F]]; rewrite F in H; try discriminate; injection H; intros <-.
    - apply infer_ML; auto. apply ML. apply infer_ML in F; auto.
    - apply infer_CL; auto. apply MS. apply infer_CL in F; auto. }
  destruct OUT as [(k & d & -> & _ & CP & CL & _)|[(-> & NC & CC)|(-> & W)]].
  - destruct (clustered_facts vec truth vectors _ SC m' d G' CL) as (CA & CO & _).
    split; auto. split; auto. split; auto. split; [intro x; rewrite (CO x), !managed_ids, K; tauto|].
    intros a b A B. eapply ground_truth; eauto; rewrite K; auto.
  - left. split; auto. split; [apply nb_components_spec; auto|]. apply one_complete; auto. apply G'.
  - right. split; auto. destruct W as [W|((m1 & d1 & G1 & K1 & CL1 & NC1 & NEL) & OC)]; [left; lia|]. right.
    destruct (clustered_facts vec truth vectors _ SC m1 d1 G1 CL1) as (CA & CO & RS).
    exists m1, d1. split; [apply G1|]. split; [unfold ask; rewrite run_managed, K1; auto|]. split; [apply G1|]. auto 10.
Qed.

(*EX
(** A restricted sampler that does end. *)
Example C82_ex : result (session_Z truth (mkOptions (Some SAME_CLUSTER) None true true) pars 2%Z [(a, 0); (c, 10); (b, 1); (d, 12)]%Z 7) (init [a; b; c; d]) =
  Ok (3, [(a, 0); (b, 1); (c, 0); (d, 1)]%Z, []).
Proof. vm_compute; reflexivity. Qed.
EX*)
