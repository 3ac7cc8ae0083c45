(** * Threads that sample pairs while one thread adds constraints (C153). *)

From Coq Require Import String List Bool Arith ZArith QArith Lia Permutation.
(*HEADER
From Coq Require Import String List Bool Arith ZArith QArith Permutation Lia.
From Verif Require Import Base Manager Spec ManagerThms ManagerInv ManagerQueries Sampling SamplingSpec Threads ThreadSpec ThreadsThms Readers ReadersSpec ReadersThms ListingSpec SampleThread SampleThreadSpec SampleThreadThms.
Import ListNotations.
Open Scope nat_scope.
HEADER*)
From Verif Require Import Base Manager Spec Closure ManagerProofs ManagerInv ManagerQueries ManagerSem ManagerThms Interrupt InterruptThms Sampling SamplingSpec SamplingProofs SamplingThms
  Threads ThreadSpec ThreadsThms Readers ReadersSpec ReadersThms Listing ListingSpec ListingThms SampleThread SampleThreadSpec.
Import ListNotations.
Open Scope nat_scope.

(** ** What is chosen among some pairs *)
Section Chosen.
  Variables vec D : Type.
  Variable pw : list vec -> nat -> nat -> D.
  Variable ltb : D -> D -> bool.
  Variable draw : list (pystr * pystr) -> nat -> list (pystr * pystr).

  Lemma choose_Ok o nb cr vs m pairs : Inv m -> (o_distance o <> None -> covers vs m /\ has_ids m) -> incl pairs (list_prod (ids m) (ids m)) ->
    exists l, snd (choose vec D pw ltb draw o nb (ids m) pairs (mkSampler vec D cr vs None, init [])) = Ok l /\ selected vec D pw ltb draw o nb vs m pairs l.
  Proof.
    intros I W IP. unfold choose. destruct (o_distance o) as [u|] eqn:U.
    - destruct W as ((v & -> & W) & (x0 & M0)); [discriminate|].
      destruct (rmap_total (fun x => dlookup x v) (ids m)) as [rows Er].
      { intros x Ix. apply dlookup_total, W, managed_ids; auto. }
      assert (NR : rows <> []). { intro X. subst. apply rmap_length in Er. apply managed_ids in M0. destruct (ids m); simpl in *; [tauto|discriminate]. }
      assert (Ek : exists k, keyed D (table vec D pw rows (ids m)) pairs = Ok k).
      { unfold keyed. apply rmap_total. intros [x y] Ip. apply IP in Ip. apply in_prod_iff in Ip as [Mx My].
        apply In_nth_error in Mx. apply In_nth_error in My. destruct Mx as [i Ex], My as [j Ey].
        rewrite (table_look pw rows (ids m) i j x y) by auto using inv_nodup. simpl; eauto. }
      destruct Ek as [k Ek]. unfold bind at 1. rewrite (compute_distances_run vec D pw (ids m) _ _ v) by reflexivity. rewrite Er.
      destruct rows as [|r0 rows]; [congruence|].
      destruct (opt_is (Some u) CLOSEST) eqn:C; [|destruct (opt_is (Some u) FARTHEST) eqn:F].
      + unfold bind. erewrite with_keys_run by reflexivity. rewrite Ek. eexists. split; [reflexivity|].
        assert (S := selected_sorted vec D pw ltb draw o nb (Some v) m pairs v (r0 :: rows) k). unfold prefers in S. rewrite U, C in S. auto.
      + unfold bind. erewrite with_keys_run by reflexivity. rewrite Ek. eexists. split; [reflexivity|].
        assert (S := selected_sorted vec D pw ltb draw o nb (Some v) m pairs v (r0 :: rows) k). unfold prefers in S. rewrite U, C in S. auto.
      + eexists. split; [reflexivity|]. apply selected_random; rewrite U; auto.
    - eexists. split; [reflexivity|]. apply selected_random; rewrite U; auto.
  Qed.

  Lemma selected_order o nb v m pairs l : strict_weak_order ltb -> Inv m -> NoDup pairs -> incl pairs (list_prod (ids m) (ids m)) ->
    o_distance o = Some CLOSEST \/ o_distance o = Some FARTHEST -> selected vec D pw ltb draw o nb (Some v) m pairs l ->
    let dist := distance_is pw m v in
    (forall p q dp dq, dist p dp -> dist q dq -> before l p q -> ~ taken_first ltb o dq dp) /\
    (forall p q dp dq, dist p dp -> dist q dq -> In p l -> In q pairs -> ~ In q l -> ~ taken_first ltb o dq dp).
  Proof.
    intros (Irr & Tr & Neg) R ND IP O S dist. destruct S as [C F | v' rows k _ EV Er K].
    { exfalso. destruct O as [O|O]; apply opt_is_eq in O; congruence. }
    injection EV; intros; subst v'. clear EV.
    assert (SN := keyed_snd _ _ _ _ K). pose proof (keyed_look _ _ _ _ K) as LK.
    assert (EX : forall p, In p pairs -> exists d, dist p d /\ look D (table vec D pw rows (ids m)) p = Ok d).
    { intros [x y] Ip. apply IP, in_prod_iff in Ip. apply distance_exists; cbn [fst snd]; tauto. }
    assert (TF : forall d1 d2, taken_first ltb o d1 d2 <-> prefers D ltb o d1 d2 = true).
    { intros. unfold taken_first, prefers. destruct O as [O|O]; rewrite O.
      - replace (opt_is (Some CLOSEST) CLOSEST) with true by reflexivity. split; [|auto].
        intros [[_ X]|[X _]]; auto. apply (f_equal (fun o => opt_is o FARTHEST)) in X. discriminate.
      - replace (opt_is (Some FARTHEST) CLOSEST) with false by reflexivity. split; [|auto].
        intros [[X _]|[_ X]]; auto. apply (f_equal (fun o => opt_is o FARTHEST)) in X. discriminate. }
    set (lt := fun p q : D * (pystr * pystr) => prefers D ltb o (fst p) (fst q)) in *.
    assert (Irr' : forall x, lt x x = false) by (intro; unfold lt, prefers; destruct (opt_is _ _); auto).
    assert (Tr' : forall x y z, lt x y = true -> lt y z = true -> lt x z = true).
    { intros x y z. unfold lt, prefers. destruct (opt_is _ _); eauto. }
    assert (Neg' : forall x y z, lt x z = true -> lt x y = true \/ lt y z = true).
    { intros x y z. unfold lt, prefers. destruct (opt_is _ _); auto. intro H. apply or_comm. auto. }
    assert (NDk : NoDup k). { apply NoDup_map_inv with (f := snd). rewrite SN; auto. }
    destruct (sorted_before lt Neg' Irr' Tr' k NDk) as [B1 B2].
    set (L := sorted_by lt k) in *.
    assert (PL : Permutation k L) by apply sorted_perm.
    assert (NDL : NoDup (map snd L)). { eapply Permutation_NoDup. apply Permutation_map, PL. rewrite SN; auto. }
    assert (KEY : forall p dp, dist p dp -> In p pairs -> In (dp, p) k).
    { intros p dp Dp Ip. pose proof Ip as Ip'. rewrite <- SN in Ip. apply in_map_iff in Ip. destruct Ip as ([d p'] & E1 & I1). simpl in E1. subst p'.
      assert (L1 := LK _ I1). cbn [fst snd] in L1. destruct (EX p Ip') as (d' & D1 & D2).
      rewrite L1 in D2. injection D2; intros; subst d'. rewrite (distance_unique pw m v p dp d); auto. }
    assert (INL : forall p, In p (map snd L) <-> In p pairs).
    { intro p. rewrite <- SN. split; apply Permutation_in, Permutation_map; auto. apply Permutation_sym; auto. }
    assert (FST : forall p, In p (firstn (Z.to_nat nb) (map snd L)) -> In p pairs).
    { intros p I1. apply INL. rewrite <- (firstn_skipn (Z.to_nat nb) (map snd L)). apply in_or_app; auto. }
    assert (ORD : forall p q dp dq, dist p dp -> dist q dq -> In p pairs -> In q pairs -> before (map snd L) p q -> ~ taken_first ltb o dq dp).
    { intros p q dp dq Dp Dq Ip Iq Bf T. apply TF in T.
      assert (Bk : before L (dq, q) (dp, p)). { apply B1; auto. }
      apply (before_map snd) in Bk. cbn [snd] in Bk. eapply before_asym; eauto. }
    split.
    - intros p q dp dq Dp Dq Bf. assert (I1 := before_In _ _ _ Bf). eapply ORD; eauto; try (apply FST; tauto).
      rewrite <- (firstn_skipn (Z.to_nat nb) (map snd L)). apply before_app_l; auto.
    - intros p q dp dq Dp Dq Ip Eq NIq. eapply ORD; eauto.
      rewrite <- (firstn_skipn (Z.to_nat nb) (map snd L)). apply before_app_m; auto.
      apply INL in Eq. rewrite <- (firstn_skipn (Z.to_nat nb) (map snd L)) in Eq. apply in_app_or in Eq. tauto.
  Qed.
End Chosen.

(** ** The data stay the same *)
Definition same_data {T} (p : prog T) : Prop := forall s, (forall t, In t (states p s) -> keys (cdict t) = keys (cdict s)) /\ keys (cdict (fst (alone p s))) = keys (cdict s).
Lemma sd_bind {T U} (p : prog T) (k : T -> prog U) : same_data p -> (forall a, same_data (k a)) -> same_data (pbind p k).
Proof.
  intros H1 H2 s. destruct (H1 s) as [A1 A2]. rewrite states_bind, alone_bind. destruct (alone p s) as [s1 [a|e]]; cbn [fst snd] in *.
  - destruct (H2 a s1) as [B1 B2]. split; [|congruence]. intros t I. apply in_app_iff in I as [I|I]; auto. rewrite (B1 t I). auto.
  - rewrite app_nil_r. auto.
Qed.
Lemma sd_silent {T} (p : prog T) : silent p -> same_data p.
Proof.
  intros S s. assert (I := silent_incl p s S). split.
  - intros t J. apply I in J as [<-|[]]; auto.
  - destruct (last_state p s) as [<-|J]; auto. apply I in J as [<-|[]]; auto.
Qed.
Lemma sd_for {T} (l : list T) f : (forall x, same_data (f x)) -> same_data (pfor l f).
Proof. intro H. induction l as [|x l IH]; cbn [pfor]; [apply sd_silent; exact I|]. apply sd_bind; auto. Qed.
Lemma sd_set_ml x l : same_data (p_set_ml x l).
Proof. intro s. cbn. unfold dlookup. destruct (dget x (ctrans s)) as [e|]; cbn; (split; [intros t [<-|[]]; auto|auto]). Qed.
Lemma sd_set_cl x l : same_data (p_set_cl x l).
Proof. intro s. cbn. unfold dlookup. destruct (dget x (ctrans s)) as [e|]; cbn; (split; [intros t [<-|[]]; auto|auto]). Qed.
Lemma sd_set a b v : same_data (p_set_constraint a b v).
Proof.
  intro s. cbn. unfold dlookup. destruct (dget a (cdict s)) as [row|] eqn:G; cbn; [|split; [intros t [<-|[]]; auto|auto]].
  assert (Q : keys (dset a (dset b v row) (cdict s)) = keys (cdict s)) by (apply keys_dset_in; eapply dget_Some_key; eauto).
  split; auto. intros t [<-|[]]. exact Q.
Qed.
Lemma sd_transitivity a b t : same_data (p_add_constraint_transitivity a b t).
Proof.
  assert (M : forall x, same_data (p_ml x)) by (intro; apply sd_silent; cbn; auto). assert (C : forall x, same_data (p_cl x)) by (intro; apply sd_silent; cbn; auto).
  unfold p_add_constraint_transitivity. cbv zeta. destruct (eqb t MUST_LINK).
  - do 4 (apply sd_bind; [auto|intro]). apply sd_bind; [|intro]; apply sd_for; intro x; apply sd_bind; auto using sd_set_ml, sd_set_cl.
  - do 5 (apply sd_bind; [auto|intro]). apply sd_bind; [apply sd_for; auto using sd_set_cl|intro]. apply sd_bind; [auto|intro]. apply sd_for; auto using sd_set_cl.
Qed.
Lemma sd_add a b t v : same_data (p_add_constraint a b t v).
Proof.
  assert (Y : forall x, same_data (prequire x)) by (intros []; apply sd_silent; exact I).
  assert (X : forall x, same_data (p_in_dict x)) by (intros x; apply sd_silent; cbn; auto).
  unfold p_add_constraint. do 2 (apply sd_bind; [apply X|intro]; apply sd_bind; [apply Y|intro]).
  apply sd_bind; [apply Y|intro]. apply sd_bind; [apply sd_silent, silent_inferred|intro]. apply sd_bind; [apply Y|intro].
  apply sd_bind; [apply sd_silent, silent_added|intros [c|]]; [apply sd_silent; exact I|].
  apply sd_bind; [destruct (str_leb a b); apply sd_set|intro]. apply sd_bind; [apply sd_transitivity|intro]. apply sd_silent; exact I.
Qed.
Lemma sd_catch {T} (p : prog T) : same_data p -> same_data (pcatch p).
Proof. intros H s. destruct (H s). rewrite states_catch, alone_catch. auto. Qed.
Lemma sd_session cs : Forall only_adds_constraints cs -> same_data (p_wsession cs).
Proof.
  induction 1 as [|c cs A F IH]; cbn [p_wsession]; [apply sd_silent; exact I|]. apply sd_bind; [|intro; apply sd_bind; auto; intro; apply sd_silent; exact I].
  apply sd_catch. destruct c; cbn in A; try tauto. cbn [p_wexec]. apply sd_bind; [apply sd_add|intro; apply sd_silent; exact I].
Qed.

Lemma trail_and (P : nat -> mgr -> Prop) (Q : mgr -> Prop) {T} (p : prog T) n m e : trail P n p m e -> (forall x, In x (m :: states p m) -> Q x) -> trail (fun n s => P n s /\ Q s) n p m e.
Proof.
  revert n m. induction p as [r|f g IH]; intros n m H K; cbn [trail] in *.
  - assert (Qm : Q m) by (apply K; left; auto). tauto.
  - destruct H as (H1 & n' & L & H2). split; [split; auto; apply K; left; auto|]. exists n'. split; auto. apply IH; auto. intros x J. apply K. right. exact J.
Qed.
Lemma trail_end (P : nat -> mgr -> Prop) {T} (p : prog T) n m e : trail P n p m e -> P e (fst (alone p m)).
Proof. revert n m. induction p as [r|f g IH]; intros n m H; cbn in *; [tauto|]. destruct H as (_ & n' & _ & H). eapply IH; eauto. Qed.
Lemma watch_impl (P P' : nat -> mgr -> Prop) {T} (p : prog T) lo r hi : (forall n s, P n s -> P' n s) -> watch P lo p r hi -> watch P' lo p r hi.
Proof. intros H W. induction W; econstructor; eauto. Qed.
Lemma watch_done_inv (P : nat -> mgr -> Prop) {T} (x r : res T) lo hi : watch P lo (Done x) r hi -> r = x /\ lo = hi.
Proof. intro H. inversion H; subst; auto. Qed.

Lemma addf_kept m a b t v p q : Inv m -> addf m p q <> None -> addf (fst (exec (CallAddConstraint a b t v) m)) p q <> None.
Proof.
  intros I H. cbn [exec]. unfold bind. destruct (accepts m a b t) eqn:A.
  - destruct (run_add_constraint m a b t v I A) as (m' & E & _ & _ & S & _). rewrite E. cbn [fst ret]. rewrite (addf_lo_hi m'), S. rewrite addf_lo_hi in H.
    destruct (same_pair a b (lo p q) (hi p q)); auto. destruct (addf m a b); congruence.
  - rewrite (run_add_constraint_raise m a b t v I A). auto.
Qed.

(** The part of the loop body that reads the clusters. *)
Lemma skip_clusters_done o cr a b :
  por (pand (opt_is (o_clusters o) SAME_CLUSTER)
            (pbind (p_cluster_of cr a) (fun c1 => pbind (p_cluster_of cr b) (fun c2 => Done (Ok (negb (Z.eqb c1 c2)))))))
      (pand (opt_is (o_clusters o) DIFFERENT_CLUSTERS)
            (pbind (p_cluster_of cr a) (fun c1 => pbind (p_cluster_of cr b) (fun c2 => Done (Ok (Z.eqb c1 c2))))))
  = Done (if reads_clusters o
          then match cr with
               | None => Raise AttributeError
               | Some c => rbind (dlookup a c) (fun z1 => rbind (dlookup b c) (fun z2 => Ok (clash o z1 z2)))
               end
          else Ok false).
Proof.
  unfold reads_clusters, clash, por, pand, p_cluster_of. destruct (opt_is (o_clusters o) SAME_CLUSTER) eqn:E1.
  - rewrite (opt_excl _ E1). destruct cr as [c|]; [|reflexivity]. destruct (dlookup a c) as [z1|]; [|reflexivity]. destruct (dlookup b c) as [z2|]; [|reflexivity].
    cbn. destruct (Z.eqb z1 z2); reflexivity.
  - destruct (opt_is (o_clusters o) DIFFERENT_CLUSTERS) eqn:E2; [|reflexivity].
    destruct cr as [c|]; [|reflexivity]. destruct (dlookup a c) as [z1|]; [|reflexivity]. destruct (dlookup b c) as [z2|]; reflexivity.
Qed.

(** The conditions of a sampler that do not depend on the constraints. *)
Definition unrestricted (o : options) : options := mkOptions (o_clusters o) (o_distance o) false false.
Lemma skip_clusters_spec o m cr a b : Inv m -> In a (ids m) -> In b (ids m) -> (o_clusters o <> None -> covers cr m) -> str_leb b a = false ->
  exists z, (if reads_clusters o
          then match cr with
               | None => Raise AttributeError
               | Some c => rbind (dlookup a c) (fun z1 => rbind (dlookup b c) (fun z2 => Ok (clash o z1 z2)))
               end
          else Ok false) = Ok z /\ (z = false <-> eligible (unrestricted o) m cr (a, b)).
Proof.
  intros I Ia Ib C L. set (s := mkSampler unit unit cr None None). assert (S := skip_clusters_run unit unit (unrestricted o) a b s m).
  destruct (eligible_pairs_total unit unit (unrestricted o) m cr I C) as [l E]. apply rfilter_Ok in E as [_ T]. destruct (T (a, b)) as [r Er]; [apply in_prod; auto|].
  assert (KS := keepr_spec unit unit (unrestricted o) m cr (a, b) r I (in_prod _ _ _ _ Ia Ib) Er).
  unfold keepr in Er. rewrite keep_run in Er by auto. cbn [snd] in Er. rewrite L in Er. fold s in Er. rewrite S in Er. cbn [snd] in Er.
  change (reads_clusters (unrestricted o)) with (reads_clusters o) in Er. change (s_clustering unit unit s) with cr in Er.
  change (clash (unrestricted o)) with (clash o) in Er.
  match type of Er with rbind ?e _ = _ => destruct e as [z|]; [|discriminate] end. exists z. split; auto.
  cbn in Er. injection Er as Er. rewrite andb_true_r in Er. rewrite <- KS, <- Er. destruct z; cbn; split; congruence.
Qed.

Section Sampling.
  Variable m0 : mgr.
  Variable cs : list wcall.
  Hypothesis R0 : reachable m0.
  Hypothesis AC : Forall only_adds_constraints cs.
  Notation N := (ReadersThms.N m0 cs).
  Definition here (n : nat) (s : mgr) : Prop := seen m0 cs n s /\ keys (cdict s) = ids m0.
  Notation AD := (adds cs AC).
  Notation last := (length cs).

  Lemma N_call n : N (S n) = N n \/ exists a b t v, N (S n) = fst (exec (CallAddConstraint a b t v) (N n)).
  Proof.
    destruct (nth_error cs n) as [c|] eqn:E.
    - destruct (at_call cs AC n c E) as (a & b & t & v & ->). right. exists a, b, t, v. exact (N_step m0 cs n _ E).
    - apply nth_error_None in E. left. rewrite (N_end m0 cs (S n)), <- (N_end m0 cs n) by lia. auto.
  Qed.
  Lemma N_ids n : ids (N n) = ids m0.
  Proof.
    rewrite <- !(inv_keys _ (N_inv m0 cs R0 n)), (N_keys m0 cs R0 AC n). apply inv_keys, reachable_inv, R0.
  Qed.
  Lemma addf_later n n' p q : n <= n' -> addf (N n) p q <> None -> addf (N n') p q <> None.
  Proof.
    induction 1 as [|k L IH]; auto. intro H. apply IH in H. destruct (N_call k) as [->|(a & b & t & v & ->)]; auto. apply addf_kept; auto. apply N_inv; auto.
  Qed.
  Lemma infer_later n n' p q : n <= n' -> In p (ids m0) -> In q (ids m0) -> infer (N n) p q <> None -> infer (N n') p q <> None.
  Proof.
    intros L Ip Iq H. unfold infer in *. destruct (dget q (ctrans (N n))) as [e|] eqn:E; [|congruence].
    destruct (N_below m0 cs R0 AD n n' L q e E) as (e' & -> & Q1 & Q2). destruct (mem p (t_ml e)) eqn:M1.
    - apply mem_In in M1. apply Q1 in M1. apply mem_In in M1. rewrite M1. discriminate.
    - destruct (mem p (t_cl e)) eqn:M2; [|congruence]. apply mem_In in M2. apply Q2 in M2. apply mem_In in M2. rewrite M2. destruct (mem p (t_ml e')); discriminate.
  Qed.

  Lemma eligible_run o n cr a b : In a (ids m0) -> In b (ids m0) -> str_leb b a = false ->
    (eligible o (N n) cr (a, b) <-> eligible (unrestricted o) m0 cr (a, b) /\ (o_without_added o = true -> addf (N n) a b = None) /\ (o_without_inferred o = true -> infer (N n) a b = None)).
  Proof.
    intros Ia Ib L. assert (In_ : Inv (N n)) by (apply N_inv; auto). assert (I0 := reachable_inv _ R0).
    unfold eligible. cbn [unrestricted o_clusters o_without_added o_without_inferred]. rewrite !managed_ids, N_ids, str_ltb_negb, L. cbn [negb].
    assert (X : (~ exists t, added (N n) t a b) <-> addf (N n) a b = None).
    { split.
      - intro H. destruct (addf (N n) a b) as [[t v]|] eqn:E; auto. exfalso. apply H. exists t. unfold added, ask. rewrite run_added by auto.
        replace (both (N n) a b) with true by (symmetry; apply both_true; rewrite N_ids; auto). rewrite E. simpl. eauto.
      - intros E [t A]. apply addf_added in A; auto. destruct A as (_ & _ & A). congruence. }
    rewrite X. assert (Y : inferred (N n) a b None <-> infer (N n) a b = None) by (apply inferred_spec; auto; rewrite N_ids; auto). rewrite Y. intuition discriminate.
  Qed.

  Lemma eligible_earlier o n n' cr p : n <= n' -> eligible o (N n') cr p -> eligible o (N n) cr p.
  Proof.
    destruct p as [a b]. intros L E. assert (Q := E). destruct Q as (Ma & Mb & S & _). apply managed_ids in Ma, Mb. rewrite N_ids in Ma, Mb.
    rewrite str_ltb_negb in S. apply negb_true_iff in S. apply eligible_run in E as (E1 & E2 & E3); auto. apply eligible_run; auto. split; auto. split; intro W.
    - destruct (addf (N n) a b) eqn:X; auto. destruct (addf_later n n' a b L); auto. congruence.
    - destruct (infer (N n) a b) eqn:X; auto. destruct (infer_later n n' a b L); auto. congruence.
  Qed.

  Lemma known_added o lo a b r hi : In a (ids m0) -> In b (ids m0) ->
    watch here lo (pand (o_without_added o) (pbind (p_get_added_constraint a b) (fun c => Done (Ok (known_constraint c))))) r hi ->
    exists k, r = Ok k /\ (k = true -> o_without_added o = true /\ addf (N (S hi)) a b <> None) /\ (k = false -> o_without_added o = true -> addf (N lo) a b = None).
  Proof.
    intros Ia Ib W. destruct (o_without_added o); cbn [pand] in W.
    - apply watch_bind in W as (x & n1 & W1 & W2). apply (watch_impl here (seen m0 cs)) in W1; [|intros ? ? [? _]; auto].
      apply (added_right m0 cs R0 AD) in W1 as (n & B1 & B2 & ->); auto. rewrite run_added in W2 by (apply N_inv; auto).
      replace (both (N n) a b) with true in W2 by (symmetry; apply both_true; rewrite N_ids; auto). cbn [snd] in W2. apply watch_done_inv in W2 as [-> <-].
      exists (known_constraint (addf (N n) a b)). split; auto. split.
      + intro K. split; auto. apply (addf_later n); [lia|]. destruct (addf (N n) a b); discriminate.
      + intros K _. destruct (addf (N lo) a b) eqn:E; auto. exfalso. assert (H : addf (N n) a b <> None) by (apply (addf_later lo); [lia|congruence]).
        destruct (addf (N n) a b); [discriminate|congruence].
    - apply watch_done_inv in W as [-> _]. exists false. repeat split; try discriminate.
  Qed.
  Lemma known_inferred o lo a b r hi : In a (ids m0) -> In b (ids m0) ->
    watch here lo (pand (o_without_inferred o) (pbind (p_get_inferred_constraint a b) (fun c => Done (Ok (known_constraint c))))) r hi ->
    exists k, r = Ok k /\ (k = true -> o_without_inferred o = true /\ infer (N (S hi)) a b <> None) /\ (k = false -> o_without_inferred o = true -> infer (N lo) a b = None).
  Proof.
    intros Ia Ib W. destruct (o_without_inferred o); cbn [pand] in W.
    - apply watch_bind in W as (x & n1 & W1 & W2). apply (watch_impl here (seen m0 cs)) in W1; [|intros ? ? [? _]; auto].
      apply (inferred_right m0 cs R0 AD) in W1 as (n & B1 & B2 & ->); auto. rewrite run_inferred in W2 by (apply N_inv; auto).
      replace (both (N n) a b) with true in W2 by (symmetry; apply both_true; rewrite N_ids; auto). cbn [snd] in W2. apply watch_done_inv in W2 as [-> <-].
      exists (known_constraint (infer (N n) a b)). split; auto. split.
      + intro K. split; auto. apply (infer_later n); auto; [lia|]. destruct (infer (N n) a b); discriminate.
      + intros K _. destruct (infer (N lo) a b) eqn:E; auto. exfalso. assert (H : infer (N n) a b <> None) by (apply (infer_later lo); auto; [lia|congruence]).
        destruct (infer (N n) a b); [discriminate|congruence].
    - apply watch_done_inv in W as [-> _]. exists false. repeat split; try discriminate.
  Qed.

  Lemma keep_right o cr p lo r hi : In p (list_prod (ids m0) (ids m0)) -> (o_clusters o <> None -> covers cr m0) -> watch here lo (p_keep o cr p) r hi ->
    exists k, r = Ok k /\ (eligible o (N (S hi)) cr p -> k = true) /\ (k = true -> eligible o (N lo) cr p).
  Proof.
    destruct p as [a b]. intros Ip C W. apply in_prod_iff in Ip as [Ia Ib]. cbn [p_keep] in W. destruct (str_leb b a) eqn:L.
    - apply watch_done_inv in W as [-> _]. exists false. split; auto. split; [|discriminate]. intros (_ & _ & H & _). rewrite str_ltb_negb, L in H. discriminate.
    - rewrite skip_clusters_done in W. destruct (skip_clusters_spec o m0 cr a b (reachable_inv _ R0) Ia Ib C L) as (z & Ez & Hz). rewrite Ez in W. cbn [pbind] in W.
      assert (EL := eligible_run o (S hi) cr a b Ia Ib L). assert (E0 := eligible_run o lo cr a b Ia Ib L). destruct z.
      + apply watch_done_inv in W as [-> _]. exists false. split; auto. split; [|discriminate]. intro H. apply EL in H as [H _]. apply Hz in H. discriminate.
      + assert (H0 := proj1 Hz eq_refl). apply watch_bind in W as (x & n1 & W1 & W2). unfold por in W1. apply watch_bind in W1 as (x1 & n2 & W1 & W3).
        assert (G1 := watch_le _ _ _ _ _ W1).
        apply known_added in W1 as (k1 & -> & K1 & K1'); auto. destruct k1.
        * apply watch_done_inv in W3 as [-> <-]. apply watch_done_inv in W2 as [-> <-]. exists false. split; auto. split; [|discriminate].
          intro H. apply EL in H as (_ & H & _). destruct (K1 eq_refl) as [K2 K3]. destruct (K3 (H K2)).
        * apply known_inferred in W3 as (k2 & -> & K2 & K2'); auto. apply watch_done_inv in W2 as [-> <-]. exists (negb k2). split; auto. split.
          -- intro H. apply EL in H as (_ & _ & H). destruct k2; auto. destruct (K2 eq_refl) as [K3 K4]. destruct (K4 (H K3)).
          -- intro H. apply E0. split; auto. destruct k2; [discriminate|]. split; auto. intro Wi. specialize (K2' eq_refl Wi).
             destruct (infer (N lo) a b) eqn:X; auto. destruct (infer_later lo n2 a b G1); auto. congruence.
  Qed.

  Lemma filter_right o cr l lo r hi : incl l (list_prod (ids m0) (ids m0)) -> (o_clusters o <> None -> covers cr m0) -> watch here lo (pfilter (p_keep o cr) l) r hi ->
    exists pairs, r = Ok pairs /\ incl pairs l /\ (NoDup l -> NoDup pairs) /\ (forall p, In p l -> eligible o (N (S hi)) cr p -> In p pairs) /\ (forall p, In p pairs -> eligible o (N lo) cr p).
  Proof.
    intros IL C. revert lo r hi. induction l as [|p l IH]; intros lo r hi W; cbn [pfilter] in W.
    - apply watch_done_inv in W as [-> _]. exists []. split; auto. split; [apply incl_refl|]. split; auto. split; intros ? [].
    - assert (Ip : In p (list_prod (ids m0) (ids m0))) by (apply IL; left; auto). assert (Il : incl l (list_prod (ids m0) (ids m0))) by (intros x J; apply IL; right; auto).
      apply watch_bind in W as (x & n1 & W1 & W2). assert (G1 := watch_le _ _ _ _ _ W1). apply keep_right in W1 as (k & -> & K1 & K2); auto.
      apply watch_bind in W2 as (y & n2 & W2 & W3). assert (G2 := watch_le _ _ _ _ _ W2). apply IH in W2 as (pairs & -> & I1 & I2 & I3 & I4); auto. apply watch_done_inv in W3 as [-> <-].
      exists (if k then p :: pairs else pairs). split; auto. split; [|split; [|split]].
      + destruct k; [apply incl_cons; [left; auto|apply incl_tl; auto]|apply incl_tl; auto].
      + intro ND. inversion ND; subst. destruct k; auto. constructor; auto.
      + intros q [<-|J] E; [rewrite K1; [left; auto|]; eapply eligible_earlier; [|exact E]; lia|]. specialize (I3 q J E). destruct k; [right|]; auto.
      + intros q J. assert (H : forall q, In q pairs -> eligible o (N lo) cr q) by (intros; eapply eligible_earlier; [|apply I4; auto]; lia).
        destruct k; auto. destruct J as [<-|J]; auto.
  Qed.

  Variables vec D : Type.
  Variable pw : list vec -> nat -> nat -> D.
  Variable ltb : D -> D -> bool.
  Variable draw : list (pystr * pystr) -> nat -> list (pystr * pystr).
  Hypothesis V : valid_draw draw.

  Lemma sample_right o nb cr vs lo r hi : lo <= last -> valid_arguments o m0 nb cr vs -> watch here lo (p_sample vec D pw ltb draw o nb cr vs) r hi ->
    exists l n2, r = Ok l /\ lo <= n2 <= last /\ pred n2 <= hi /\ sampled_between pw ltb (N lo) (N n2) o nb cr vs l.
  Proof.
    intros Llo (Hnb & C & Wd) W. assert (G := watch_le _ _ _ _ _ W). exists (match r with Ok l => l | Raise _ => [] end), (Nat.min (S hi) last).
    assert (EN : N (Nat.min (S hi) last) = N (S hi)). { destruct (Nat.le_gt_cases (S hi) last); [rewrite Nat.min_l|rewrite Nat.min_r, (N_end m0 cs (S hi))]; auto; lia. }
    rewrite EN. unfold p_sample in W. destruct (Z.ltb_spec nb 0); [lia|]. destruct (Z.eqb_spec nb 0) as [->|NZ].
    - apply watch_done_inv in W as [-> _]. split; auto. split; [lia|]. split; [lia|]. split; [constructor|]. split; [intros ? []|]. split; [cbn; lia|]. split; [cbn; lia|].
      intros v _ _ _. split; [|intros ? ? ? ? _ _ []]. intros p q dp dq _ _ (l1 & l2 & X & _). destruct l1; discriminate.
    - assert (W' : watch here lo (pbind p_ids (fun ids => pbind (pfilter (p_keep o cr) (list_prod ids ids)) (fun pairs =>
          Done (snd (choose vec D pw ltb draw o nb ids pairs (mkSampler vec D cr vs None, init [])))))) r hi).
      { destruct (o_clusters o); [destruct C as (c & -> & _); [discriminate|]|]; (destruct (o_distance o); [destruct Wd as ((v & -> & _) & _); [discriminate|]|]); exact W. }
      clear W. apply watch_bind in W' as (x & n1 & W1 & W2). apply watch_read in W1 as (L1 & s & [_ K] & ->). rewrite K in W2.
      apply watch_bind in W2 as (y & n3 & W2 & W3). assert (L3 := watch_le _ _ _ _ _ W2). apply filter_right in W2 as (pairs & -> & I1 & I2 & I3 & I4); auto; [|apply incl_refl].
      assert (I0 := reachable_inv _ R0). assert (ND := I2 (list_prod_NoDup _ _ (inv_nodup _ I0) (inv_nodup _ I0))). clear I2.
      destruct (choose_Ok vec D pw ltb draw o nb cr vs m0 pairs I0 Wd I1) as (l & El & S). rewrite El in W3. apply watch_done_inv in W3 as [-> <-].
      assert (SP := selected_part vec D pw ltb draw o nb vs m0 pairs l V S). destruct SP as (SL & rest & Pm).
      assert (ND2 := Permutation_NoDup Pm ND). apply NoDup_app_inv in ND2.
      assert (II : incl l pairs) by (intros p J; apply (Permutation_in _ (Permutation_sym Pm)), in_or_app; auto).
      split; auto. split; [lia|]. split; [lia|]. split; [tauto|]. split; [|split; [|split]].
      + intros p J. eapply eligible_earlier; [|apply I4, II, J]. lia.
      + lia.
      + intros all NA EA. rewrite SL. assert (length all <= length pairs); [|lia]. apply NoDup_incl_length; auto. intros p J. apply I3; auto.
        assert (Q := eligible_managed _ _ _ _ (EA p J)). rewrite N_ids in Q. auto.
      + intros v -> SW OD. assert (SO := selected_order vec D pw ltb draw o nb v m0 pairs l SW I0 ND I1 OD S). cbv zeta in SO. destruct SO as [S1 S2].
        assert (DI : forall p d, distance_is pw (N lo) v p d -> distance_is pw m0 v p d).
        { intros p d (i & rows & j & k & Ei & X). exists i, rows, j, k. split; auto. unfold ask in *. rewrite run_managed in *. rewrite N_ids in Ei. auto. }
        split; [intros p q dp dq D1 D2; apply S1; auto|]. intros p q dp dq D1 D2 J1 J2 J3. apply (S2 p q); auto.
        apply I3; auto. apply eligible_managed in J2. rewrite N_ids in J2. auto.
  Qed.

  Lemma watch_last {T} (p : prog T) lo r hi : lo <= last -> watch here lo p r hi -> hi <= last.
  Proof. intros L W. induction W as [|? n s ? ? ? ? L1 [[P1 _] _] W0 IH]; auto. Qed.
  Lemma sampled_lower lo lo' rqs (ls : list (list (pystr * pystr))) : lo' <= lo -> sampled_at_times pw ltb (map as_wcall cs) m0 lo rqs ls -> sampled_at_times pw ltb (map as_wcall cs) m0 lo' rqs ls.
  Proof. intros L H. inversion H as [|? n1 n2 q qs l ls' L1 L2 B S]; subst; [constructor|]. apply (one_sampling _ _ _ _ _ n1 n2); auto. lia. Qed.

  Lemma samples_right rqs lo r hi : lo <= last -> Forall (fun q => valid_arguments (r_options q) m0 (r_nb q) (r_clustering q) (r_vectors q)) rqs ->
    watch here lo (p_samples vec D pw ltb draw rqs) r hi ->
    exists ls, r = Ok (map Ok ls) /\ sampled_at_times pw ltb (map as_wcall cs) m0 lo rqs ls.
  Proof.
    intros Ll F. revert lo r hi Ll. induction F as [|q rqs Q F IH]; intros lo r hi Ll W; cbn [p_samples] in W.
    - apply watch_done_inv in W as [-> _]. exists []. split; auto. constructor.
    - apply watch_bind in W as (x & n1 & W1 & W2). apply watch_catch in W1 as (y & -> & W1). assert (G := watch_le _ _ _ _ _ W1). assert (Ln := watch_last _ _ _ _ Ll W1).
      apply sample_right in W1 as (l & n2 & -> & L2 & L3 & S); auto.
      apply watch_bind in W2 as (z & n3 & W2 & W3).
      apply IH in W2 as (ls & -> & SS); auto. apply watch_done_inv in W3 as [-> _]. exists (l :: ls). split; auto.
      apply (one_sampling _ _ _ _ _ lo n2); rewrite ?map_length; auto; [lia|lia|]. eapply sampled_lower; [|exact SS]. auto.
  Qed.
End Sampling.

Lemma silent_keep o cr p : silent (p_keep o cr p).
Proof.
  destruct p as [a b]. cbn [p_keep]. destruct (str_leb b a); [exact I|]. rewrite skip_clusters_done. apply silent_bind; [exact I|]. intros []; [exact I|].
  apply silent_bind; [|intro; exact I]. apply silent_bind.
  - destruct (o_without_added o); [|exact I]. apply silent_bind; [apply silent_added|intro; exact I].
  - intros []; [exact I|]. destruct (o_without_inferred o); [|exact I]. apply silent_bind; [apply silent_inferred|intro; exact I].
Qed.
Lemma silent_filter {A} (f : A -> prog bool) l : (forall x, silent (f x)) -> silent (pfilter f l).
Proof. intro F. induction l as [|x l IH]; cbn [pfilter]; [exact I|]. apply silent_bind; auto. intro. apply silent_bind; auto. intro. exact I. Qed.
Lemma silent_sample vec D pw ltb draw o nb cr vs : silent (p_sample vec D pw ltb draw o nb cr vs).
Proof.
  unfold p_sample. destruct (nb <? 0)%Z; [exact I|]. destruct (nb =? 0)%Z; [exact I|]. apply silent_bind; [destruct (o_clusters o), cr; exact I|]. intro.
  apply silent_bind; [destruct (o_distance o), vs; exact I|]. intro. apply silent_bind; [cbn; auto|]. intro. apply silent_bind; [apply silent_filter; intro; apply silent_keep|]. intro. exact I.
Qed.
Lemma silent_samples vec D pw ltb draw qs : silent (p_samples vec D pw ltb draw qs).
Proof. induction qs as [|q qs IH]; cbn [p_samples]; [exact I|]. apply silent_bind; [apply silent_catch, silent_sample|]. intro. apply silent_bind; auto. intro. exact I. Qed.

Lemma alone_keep vec D o cr p m : Inv m -> In p (list_prod (ids m) (ids m)) -> alone (p_keep o cr p) m = (m, keepr vec D o m cr p).
Proof.
  intros I Ip. destruct p as [a b]. apply in_prod_iff in Ip as [Ia Ib]. assert (B : both m a b = true) by (apply both_true; auto). unfold keepr. rewrite keep_run by auto. cbn [snd p_keep].
  destruct (str_leb b a); [reflexivity|]. rewrite skip_clusters_done, skip_clusters_run. cbn [snd s_clustering].
  match goal with |- alone (pbind (Done ?e) _) _ = _ => destruct e as [z|] end; [|reflexivity]. cbn [pbind rbind]. destruct z; [reflexivity|]. cbn [negb andb].
  rewrite alone_bind. unfold por. rewrite alone_bind. destruct (o_without_added o); cbn [pand].
  - rewrite alone_bind, does_added, run_added, B by auto. cbn [alone]. destruct (addf m a b); [reflexivity|]. cbn [known_constraint is_some andb orb].
    destruct (o_without_inferred o); cbn [pand]; [|reflexivity]. rewrite alone_bind, does_inferred, run_inferred, B by auto. destruct (infer m a b); reflexivity.
  - cbn [alone]. destruct (o_without_inferred o); cbn [pand]; [|reflexivity]. rewrite alone_bind, does_inferred, run_inferred, B by auto. destruct (infer m a b); reflexivity.
Qed.
Lemma alone_filter {A} (f : A -> prog bool) (g : A -> res bool) l m : (forall x, In x l -> alone (f x) m = (m, g x)) -> alone (pfilter f l) m = (m, rfilter g l).
Proof.
  induction l as [|x l IH]; intro E; cbn [pfilter]; [reflexivity|]. rewrite alone_bind, E by (left; auto). cbn [rfilter]. destruct (g x); [|reflexivity]. cbn [rbind].
  rewrite alone_bind, IH by (intros; apply E; right; auto). destruct (rfilter g l); reflexivity.
Qed.

(*PROP C153: the sampling alone, action by action, leaves the manager as it is and ends with the result of the method. *)
Lemma C153_alone_proof : forall vec D pairwise ltb draw o nb clustering vectors s m, reachable m ->
  alone (p_sample vec D pairwise ltb draw o nb clustering vectors) m = (m, result (sample vec D pairwise ltb draw o nb clustering vectors) (s, m)).
Proof.
  intros vec D pw ltb draw o nb cr vs s m R. assert (I := reachable_inv _ R). rewrite ask_sample by auto. unfold p_sample, SamplingProofs.psample.
  destruct (nb <? 0)%Z; [reflexivity|]. destruct (nb =? 0)%Z; [reflexivity|].
  assert (H : (o_distance o <> None -> vs <> None) ->
    alone (pbind p_ids (fun ids => pbind (pfilter (p_keep o cr) (list_prod ids ids)) (fun pairs =>
          Done (snd (choose vec D pw ltb draw o nb ids pairs (mkSampler vec D cr vs None, init [])))))) m =
    (m, rbind (rfilter (keepr vec D o m cr) (list_prod (ids m) (ids m))) (fun pairs =>
             match o_distance o, vs with
             | Some _, Some v => rbind (rmap (fun x => dlookup x v) (ids m)) (fun rows => select vec D pw ltb draw o nb (Some rows) (ids m) pairs)
             | _, _ => select vec D pw ltb draw o nb None (ids m) pairs
             end))).
  { intro Dv. rewrite alone_bind. cbn [p_ids pread alone]. rewrite alone_bind, (alone_filter _ (keepr vec D o m cr)) by (intros; apply alone_keep; auto).
    destruct (rfilter (keepr vec D o m cr) (list_prod (ids m) (ids m))) as [pairs|]; [|reflexivity]. cbn [rbind alone]. f_equal. unfold choose, select.
    destruct (o_distance o) as [u|] eqn:U; [|reflexivity]. destruct vs as [v|]; [|destruct Dv; congruence]. unfold bind at 1.
    rewrite (compute_distances_run vec D pw (ids m) _ _ v) by reflexivity. destruct (rmap (fun x => dlookup x v) (ids m)) as [[|r0 rows]|]; cbn [rbind]; try reflexivity.
    destruct (opt_is (Some u) CLOSEST); [|destruct (opt_is (Some u) FARTHEST); [|reflexivity]]; unfold bind; erewrite with_keys_run by reflexivity; destruct (keyed D _ pairs); reflexivity. }
  destruct (o_clusters o), cr; try reflexivity; (destruct (o_distance o) eqn:U, vs; try reflexivity; apply H; congruence).
Qed.
(*EX
Definition A := str "a". Definition B := str "b". Definition C := str "c".
Definition ex : mgr := run [CallAddConstraint A B MUST_LINK 1%Q] (init [B; A; C]).
Lemma ex_reachable : reachable ex. Proof. apply run_reachable. Qed.
(** Numbers as vectors, and how far apart they are. *)
Definition apart (rows : list Z) (i j : nat) : Z := Z.abs (nth i rows 0 - nth j rows 0)%Z.
Definition places : dict pystr Z := [(A, 0%Z); (B, 1%Z); (C, 5%Z)].
Definition far : options := mkOptions None (Some FARTHEST) true true.
Definition any : options := mkOptions None None true true.
Definition first_ones (l : list (pystr * pystr)) (k : nat) := firstn k l.
Example C153_alone_ex : alone (p_sample Z Z apart Z.ltb first_ones far 5 None (Some places)) ex = (ex, Ok [(A, C); (B, C)]).
Proof. vm_compute. reflexivity. Qed.
EX*)

(*PROP C153: one thread adds constraints, any number of calls, and any number of other threads sample pairs, any number of times each, with the documented arguments. However their reads
    and writes are interleaved, the additions end as when they are made alone, and no sampling fails: each returns a sample of the pairs that were eligible after some number of the additions,
    as large as the pairs still eligible a number of additions later allow, and with nothing left out that was still eligible then and comes first in the order of the distances. *)
Lemma C153_samples_while_adding_proof : forall vec D pairwise ltb draw m cs rqss m' r rs,
    valid_draw draw -> reachable m -> Forall only_adds_constraints cs ->
    Forall (Forall (fun q => valid_arguments (r_options q) m (r_nb q) (r_clustering q) (r_vectors q))) rqss ->
    interleaved m (p_left (p_wsession cs) :: map (fun rqs => p_right (p_samples vec D pairwise ltb draw rqs)) rqss) m' (r :: rs) ->
    m' = run (map as_wcall cs) m /\ r = Ok (inl (snd (one_by_one (map as_wcall cs) m))) /\
    Forall2 (fun rqs x => exists ls, x = Ok (inr (map Ok ls)) /\ sampled_at_times pairwise ltb (map as_wcall cs) m 0 rqs ls) rqss rs.
Proof.
  intros vec D pw ltb draw m cs rqss m' r rs V R AC VA J.
  destruct (session_trail m cs R (adds cs AC) cs 0 eq_refl (Nat.le_0_l _)) as [e T].
  assert (T2 : trail (here m cs) 0 (p_wsession cs) m e).
  { apply trail_and; [exact T|]. destruct (sd_session cs AC m) as [S1 _]. intros x [<-|Ix]; auto. }
  assert (PE : here m cs e (fst (alone (p_wsession cs) m))) by (eapply trail_end; eauto).
  destruct (silent_watch (here m cs) m (p_left (p_wsession cs)) (map (fun rqs => p_right (p_samples vec D pw ltb draw rqs)) rqss) m' r rs 0 e J) as [E W].
  { apply Forall_forall. intros p Ip. apply in_map_iff in Ip as (rqs & <- & _). apply silent_bind; [apply silent_samples|intro; exact I]. }
  { unfold p_left. eapply trail_bind; [exact T2|]. rewrite alone_wsession in *. cbn. auto. }
  unfold p_left in E. rewrite alone_bind, alone_wsession in E. cbn [alone] in E. injection E as <- <-. split; auto. split; auto.
  clear J T T2 PE. revert rs W. induction VA as [|rqs rqss F VA IH]; intros rs W; inversion W as [|? ? ? ? [hi H] W']; subst; constructor; auto.
  unfold p_right in H. apply watch_bind in H as (x & n1 & H1 & H2). apply (samples_right m cs R AC vec D pw ltb draw V) in H1 as (ls & -> & S); auto; [|lia].
  apply watch_done_inv in H2 as [-> _]. exists ls. auto.
Qed.
(*EX
Definition news : list wcall := [WAdd C A CANNOT_LINK 1%Q].
Definition wanted : list (request Z) := [mkRequest any 2 None None; mkRequest far 1 None (Some places)].
(** The constraint between [c] and [a] is added while the first sampling goes on: it returns a pair that is decided meanwhile. *)
Definition turns : list nat := repeat 1 8 ++ repeat 0 (length (states (p_wsession news) ex)) ++ repeat 1 (length (states (p_samples Z Z apart Z.ltb first_ones wanted) (run (map as_wcall news) ex)) - 8).
Example C153_samples_ex : valid_draw first_ones /\ strict_weak_order Z.ltb /\ Forall only_adds_constraints news /\
  Forall (fun q => valid_arguments (r_options q) ex (r_nb q) (r_clustering q) (r_vectors q)) wanted /\
  (exists m', interleaved ex [p_left (p_wsession news); p_right (p_samples Z Z apart Z.ltb first_ones wanted)] m' [Ok (inl [Ok (VBool true)]); Ok (inr [Ok [(B, C)]; Ok []])]).
Proof.
  split. { intros l k L. split; [apply firstn_length_le; auto|]. exists (skipn k l). unfold first_ones. rewrite firstn_skipn. auto. }
  split. { split; [intro; apply Z.ltb_irrefl|]. split; intros x y z; rewrite !Z.ltb_lt; lia. }
  split; [repeat constructor|]. split.
  - assert (M : forall x, managed ex x -> In x (keys places)). { intros x Mx. apply managed_ids in Mx. change (In x [B; A; C]) in Mx. change (In x [A; B; C]). cbn [In] in *. tauto. }
    constructor; [|constructor; [|constructor]]; (split; [cbn; lia|]); (split; [cbn; congruence|]); cbn; [congruence|]. intros _. split; [exists places; auto|].
    exists A. apply managed_ids. change (In A [B; A; C]). cbn [In]. auto.
  - eexists. apply (play_interleaved turns). vm_compute. reflexivity.
Qed.
EX*)
