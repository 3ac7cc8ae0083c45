(** * Sampling and clustering with other names, names in the same order *)

From Coq Require Import String List Bool Arith ZArith QArith Lia.
From Verif Require Import Base Manager Sampling Rename KMeans Rel RelManager MonoSpec.
From Verif Require Spectral Hierarchical Dbscan Affinity Mpckmeans.
Import ListNotations.
Open Scope nat_scope.
Open Scope py_scope.

Lemma by_position_rel {A} (R : A -> A -> Prop) g l l' : by_position g -> RL R l l' -> RL R (g l) (g l').
Proof.
  intros (c & H) F. assert (E := H l). assert (E' := H l'). rewrite <- (RL_length _ _ _ F) in E'.
  assert (G : RL (RO R) (map Some (g l)) (map Some (g l'))).
  { rewrite E, E'. generalize (c (length l)) as k. clear - F. induction k; cbn; constructor; [apply RL_nth_error|]; auto. }
  revert G. generalize (g l) (g l'). clear. induction l as [|x l IH]; intros [|y k] G; inversion G; subst; auto. inversion H2; subst. constructor; auto.
Qed.

Lemma ask_rel {A B} R (S : A -> B -> Prop) q q' m m' : RM (RMgr R) S q q' -> RMgr R m m' -> RR S (ask q m) (ask q' m').
Proof. intros H E. apply H. auto. Qed.

Lemma enum_dset_rel {K} `{EqB K} (R : K -> K -> Prop) `{RelEq K R} {V V'} (S : V -> V' -> Prop) (g : nat -> V) (g' : nat -> V') l l' :
  (forall i, S (g i) (g' i)) -> RL R l l' ->
  forall d d', RD R S d d' -> RD R S (fold_left (fun d e => dset (snd e) (g (fst e)) d) (enum l) d) (fold_left (fun d e => dset (snd e) (g' (fst e)) d) (enum l') d').
Proof.
  intros Hg F. apply (RL_fold_left (RP eq R)); [|apply RL_enum; auto]. intros a a' [i x] [i' x'] Ha E. inversion E; subst. cbn. apply dset_rel; auto.
Qed.

Section Names.
  Variable R : pystr -> pystr -> Prop.
  Context {SO : same_order R}.
  #[local] Instance R_eqb' : RelEq R := R_eqb R.
  #[local] Hint Extern 0 (RelEq _) => typeclasses eauto : core.
  Notation RLab := (RD R (@eq Z)).

  (** ** [rename_clusters_by_order] *)
  Lemma rename_rel d d' : RLab d d' -> RR RLab (rename_clusters_by_order d) (rename_clusters_by_order d').
  Proof.
    intro F. unfold rename_clusters_by_order. assert (L : RL R (sorted_strings (keys d)) (sorted_strings (keys d'))).
    { apply RL_sorted; [intros; apply (R_ltb R); auto|eapply keys_rel; eauto]. }
    eapply rbind_rel with (R := eq).
    - generalize (@nil (Z * Z)) as mp, 0%Z as n. induction L as [|x x' l l' E L IH]; intros mp n; cbn [mapping_loop]; [constructor; auto|].
      eapply rbind_rel; [apply (dlookup_rel R eq); eauto|]. intros c ? <-. destruct (mem c (keys mp)); apply IH.
    - intros mp ? <-. eapply rfold_rel; [|exact L|constructor]. intros b b' x x' Eb E.
      eapply rbind_rel; [apply (dlookup_rel R eq); eauto|]. intros c ? <-. eapply rbind_rel with (R := eq); [apply RR_eq; auto|]. intros n ? <-.
      constructor. apply dset_rel; auto.
  Qed.

  (** ** Queries *)
  Section Queries.
    Variables m m' : mgr.
    Hypothesis Rm : RMgr R m m'.
    Variable vec : Type.
    Variables vectors vectors' : dict pystr vec.
    Hypothesis Rv : RD R eq vectors vectors'.

    Lemma ask_ids : RR (RL R) (ask get_list_of_managed_data_IDs m) (ask get_list_of_managed_data_IDs m').
    Proof. eapply ask_rel; eauto. apply ids_rel; auto. Qed.
    Lemma ask_comps : RR (RL (RL R)) (ask get_connected_components m) (ask get_connected_components m').
    Proof. eapply ask_rel; eauto. apply components_rel; auto. Qed.
    Lemma ask_added a a' b b' : R a a' -> R b b' -> ask (get_added_constraint a b) m = ask (get_added_constraint a' b') m'.
    Proof. intros. apply RR_eq. eapply ask_rel; eauto. apply get_added_rel; auto. Qed.
    Lemma inferred_eq a a' b b' t : R a a' -> R b b' -> inferred_is m a b t = inferred_is m' a' b' t.
    Proof. intros. unfold inferred_is. f_equal. apply RR_eq. eapply ask_rel; eauto. apply get_inferred_rel; auto. Qed.
    Lemma rows_eq l l' : RL R l l' -> rmap (fun x => dlookup x vectors) l = rmap (fun x => dlookup x vectors') l'.
    Proof.
      intro F. apply RR_eq. eapply RR_mono; [|eapply (rmap_rel R eq); [|exact F]].
      - intros x y E. apply RL_eq. auto.
      - intros. apply (dlookup_rel R eq); auto.
    Qed.
    Lemma lookup_eq {V} (d d' : dict pystr V) x x' : R x x' -> RD R eq d d' -> dlookup x d = dlookup x' d'.
    Proof. intros. apply RR_eq. apply (dlookup_rel R eq); auto. Qed.
  End Queries.

  Definition table_of {D} (g : nat -> nat -> D) (l : list pystr) : dict pystr (dict pystr D) :=
    fold_left (fun t e => dset (snd e) (fold_left (fun r e' => dset (snd e') (g (fst e) (fst e')) r) (enum l) []) t) (enum l) [].
  Lemma table_rel {D} (g : nat -> nat -> D) l l' : RL R l l' -> RD R (RD R eq) (table_of g l) (table_of g l').
  Proof.
    intro F. unfold table_of.
    apply (enum_dset_rel R (RD R eq) (fun i => fold_left (fun r e' => dset (snd e') (g i (fst e')) r) (enum l) []) (fun i => fold_left (fun r e' => dset (snd e') (g i (fst e')) r) (enum l') [])); auto.
    intro i. apply (enum_dset_rel R eq (g i) (g i)); auto.
  Qed.

  (** ** Sampling *)
  Section Sampler.
    Variables vec D : Type.
    Variable pairwise : list vec -> nat -> nat -> D.
    Variable ltb : D -> D -> bool.
    Variable draw : list (pystr * pystr) -> nat -> list (pystr * pystr).
    Hypothesis DR : forall k, by_position (fun l => draw l k).

    Inductive RS : sampler vec D -> sampler vec D -> Prop := RS_mk : forall c c' v v' t t',
      RO RLab c c' -> RO (RD R eq) v v' -> RO (RD R (RD R eq)) t t' -> RS (mkSampler vec D c v t) (mkSampler vec D c' v' t').
    Notation RW := (RP RS (RMgr R)).
    Notation RPair := (RP R R).

    Lemma on_mgr_rel {A B} (S : A -> B -> Prop) q q' : RM (RMgr R) S q q' -> RM RW S (on_mgr vec D q) (on_mgr vec D q').
    Proof.
      intros H ? ? [s s' m m' Es Em]. unfold on_mgr. cbn [fst snd]. destruct (H m m' Em) as [E1 E2]. destruct (q m), (q' m'). cbn in *. split; auto. constructor; auto.
    Qed.
    Lemma attr_rel {A B} (S : A -> B -> Prop) f f' : (forall s s', RS s s' -> RO S (f s) (f' s')) -> RM RW S (attr vec D f) (attr vec D f').
    Proof.
      intro H. unfold attr. eapply bind_rel with (R := RO S).
      - apply gets_rel. intros s s' []. cbn. auto.
      - intros o o' []; [apply raise_rel|apply ret_rel]; auto.
    Qed.
    Lemma cluster_of_rel x x' : R x x' -> RM RW eq (cluster_of vec D x) (cluster_of vec D x').
    Proof.
      intro E. unfold cluster_of. eapply bind_rel; [apply (attr_rel RLab); intros s s' []; auto|]. intros c c' Ec. apply lift_rel. apply (dlookup_rel R eq); auto.
    Qed.
    Lemma mand_rel a a' b b' : a = a' -> RM RW eq b b' -> RM RW eq (mand vec D a b) (mand vec D a' b').
    Proof. intros <- E. unfold mand. destruct a; auto. apply ret_rel; auto. Qed.
    Lemma mor_rel a a' b b' : RM RW eq a a' -> RM RW eq b b' -> RM RW eq (mor vec D a b) (mor vec D a' b').
    Proof. intros E F. unfold mor. eapply bind_rel; [exact E|]. intros x ? <-. destruct x; auto. apply ret_rel; auto. Qed.
    Lemma keep_rel o p p' : RPair p p' -> RM RW eq (keep vec D o p) (keep vec D o p').
    Proof.
      intros [a a' b b' Ea Eb]. unfold keep. rewrite (SO b b' a a') by auto. destruct (str_leb b' a'); [apply ret_rel; auto|].
      assert (CC : forall g : Z -> Z -> bool, RM RW eq (c1 <- cluster_of vec D a ;; c2 <- cluster_of vec D b ;; ret (g c1 c2)) (c1 <- cluster_of vec D a' ;; c2 <- cluster_of vec D b' ;; ret (g c1 c2))).
      { intro g. eapply bind_rel; [apply cluster_of_rel; auto|]. intros x ? <-. eapply bind_rel; [apply cluster_of_rel; auto|]. intros y ? <-. apply ret_rel; auto. }
      eapply bind_rel.
      - apply mor_rel; apply mand_rel; auto.
      - intros s ? <-. destruct s; [apply ret_rel; auto|]. eapply bind_rel.
        + apply mor_rel; apply mand_rel; auto.
          * eapply bind_rel; [apply on_mgr_rel, get_added_rel; auto|]. intros c ? <-. apply ret_rel; auto.
          * eapply bind_rel; [apply on_mgr_rel, get_inferred_rel; auto|]. intros c ? <-. apply ret_rel; auto.
        + intros s ? <-. apply ret_rel; auto.
    Qed.
    Lemma compute_distances_rel l l' : RL R l l' -> RM RW eq (compute_distances vec D pairwise l) (compute_distances vec D pairwise l').
    Proof.
      intro F. unfold compute_distances. eapply bind_rel; [apply (attr_rel (RD R eq)); intros s s' []; auto|]. intros v v' Ev.
      eapply bind_rel with (R := eq); [apply lift_rel, RR_eq, rows_eq; auto|]. intros rows ? <-.
      eapply bind_rel with (R := eq); [destruct rows; [apply raise_rel|apply ret_rel; auto]|]. intros _ _ _. cbv zeta.
      apply modify_rel. intros ? ? [? ? ? ? [] ?]. constructor; auto. cbn. constructor; auto. constructor.
      apply (table_rel (pairwise rows)); auto.
    Qed.
    Lemma distance_of_rel p p' : RPair p p' -> RM RW eq (distance_of vec D p) (distance_of vec D p').
    Proof.
      intros [a a' b b' Ea Eb]. unfold distance_of. eapply bind_rel; [apply (attr_rel (RD R (RD R eq))); intros s s' []; auto|]. intros d d' Ed.
      eapply bind_rel; [apply lift_rel, (dlookup_rel R (RD R eq)); cbn; eauto|]. intros r r' Er. apply lift_rel, (dlookup_rel R eq); auto.
    Qed.
    Lemma with_keys_rel l l' : RL RPair l l' -> RM RW (RL (RP eq RPair)) (with_keys vec D l) (with_keys vec D l').
    Proof.
      induction 1 as [|p p' l l' E F IH]; cbn [with_keys]; [apply ret_rel; auto|]. eapply bind_rel; [apply distance_of_rel; auto|]. intros k ? <-.
      eapply bind_rel; [apply IH|]. intros r r' Er. apply ret_rel. constructor; auto. constructor; auto.
    Qed.
    Lemma sample_rel o n c c' v v' : RO RLab c c' -> RO (RD R eq) v v' ->
      RM RW (RL RPair) (sample vec D pairwise ltb draw o n c v) (sample vec D pairwise ltb draw o n c' v').
    Proof.
      intros Ec Ev. unfold sample. destruct (n <? 0)%Z; [apply raise_rel|]. destruct (n =? 0)%Z; [apply ret_rel; auto|].
      eapply bind_rel with (R := eq).
      { destruct (o_clusters o); [|apply ret_rel; auto]. destruct Ec; [apply raise_rel|]. apply modify_rel. intros ? ? [? ? ? ? [] ?]. constructor; auto. constructor; auto. constructor; auto. }
      intros _ _ _. eapply bind_rel with (R := eq).
      { destruct (o_distance o); [|apply ret_rel; auto]. destruct Ev; [apply raise_rel|]. apply modify_rel. intros ? ? [? ? ? ? [] ?]. constructor; auto. constructor; auto. constructor; auto. }
      intros _ _ _. eapply bind_rel; [apply on_mgr_rel, ids_rel; auto|]. intros l l' El.
      eapply bind_rel; [eapply mfilter_rel; [intros; apply keep_rel; eauto|apply RL_prod; eauto]|]. intros ps ps' Ep.
      eapply bind_rel with (R := eq); [destruct (o_distance o); [apply compute_distances_rel; auto|apply ret_rel; auto]|]. intros _ _ _.
      assert (LT : forall a a' b b', RP eq RPair a a' -> RP eq RPair b b' -> ltb (fst a) (fst b) = ltb (fst a') (fst b')) by (intros ? ? ? ? [? ? ? ? -> ?] [? ? ? ? -> ?]; auto).
      destruct (opt_is (o_distance o) CLOSEST); [|destruct (opt_is (o_distance o) FARTHEST)].
      - eapply bind_rel; [apply with_keys_rel; eauto|]. intros k k' Ek. apply ret_rel. apply RL_firstn. eapply RL_map; [|apply RL_sorted; [|exact Ek]]; [apply RP_snd|].
        intros a a' b b' Ea Eb. apply LT; auto.
      - eapply bind_rel; [apply with_keys_rel; eauto|]. intros k k' Ek. apply ret_rel. apply RL_firstn. eapply RL_map; [|apply RL_sorted; [|exact Ek]]; [apply RP_snd|].
        intros a a' b b' Ea Eb. apply LT; auto.
      - apply ret_rel. rewrite (RL_length _ _ _ Ep). apply (by_position_rel RPair (fun l => draw l _)); auto.
    Qed.
  End Sampler.

  (** ** K-means *)
  Section KM.
    Variables vec D : Type.
    Context `{EqB D}.
    Variable pairwise : list vec -> list vec -> nat -> nat -> D.
    Variable ltb : D -> D -> bool.
    Variable dsum : list D -> D.
    Variable mean : list vec -> vec.
    Variable shuffle : list pystr -> list pystr.
    Variable set_order : list Z -> list Z.
    Hypothesis SH : by_position shuffle.
    Variables m m' : mgr.
    Hypothesis Rm : RMgr R m m'.
    Variables vectors vectors' : dict pystr vec.
    Hypothesis Rv : RD R eq vectors vectors'.

    Inductive RK : kmeans vec -> kmeans vec -> Prop := RK_mk : forall p p' c c' z,
      RO RLab p p' -> RLab c c' -> RK (mkKMeans vec p c z) (mkKMeans vec p' c' z).

    Lemma initialize_rel l l' n : RL R l l' -> RR eq (initialize_centroids vec shuffle l vectors n) (initialize_centroids vec shuffle l' vectors' n).
    Proof.
      intro F. unfold initialize_centroids. cbv zeta. eapply rfold_rel with (R := eq); [|apply RL_eq; auto|auto]. intros b ? i ? <- <-.
      eapply rbind_rel with (R := R).
      - destruct (RL_nth_error R _ _ i (RL_firstn R n _ _ (by_position_rel R shuffle l l' SH F))); constructor; auto.
      - intros x x' E. eapply rbind_rel; [apply (dlookup_rel R eq); eauto|]. intros v ? <-. constructor; auto.
    Qed.

    Lemma centroids_rel c c' : RLab c c' -> RR eq (compute_centroids vec mean set_order m vectors c) (compute_centroids vec mean set_order m' vectors' c').
    Proof.
      intro F. unfold compute_centroids. assert (E : vals c = vals c') by (apply RL_eq; eapply vals_rel; eauto). rewrite E.
      eapply rfold_rel with (R := eq); [|apply RL_eq; auto|auto]. intros b ? i ? <- <-.
      eapply rbind_rel; [apply ask_ids; eauto|]. intros l l' El. eapply rbind_rel.
      - eapply rfilter_rel; [|exact El]. intros x x' Ex. eapply rbind_rel; [apply (dlookup_rel R eq); eauto|]. intros k ? <-. constructor; auto.
      - intros k k' Ek. cbv beta. rewrite (rows_eq vec vectors vectors' Rv k k' Ek). apply RR_eq. auto.
    Qed.

    Lemma distance_table_rel z : RR (RD R eq) (distance_table vec D pairwise m vectors z) (distance_table vec D pairwise m' vectors' z).
    Proof.
      unfold distance_table. eapply rbind_rel; [apply ask_ids; eauto|]. intros l l' El. rewrite (rows_eq vec vectors vectors' Rv l l' El).
      destruct (rmap _ l') as [rows|e]; [|constructor]. cbn [rbind]. destruct rows, (vals z); constructor.
      apply (enum_dset_rel R eq (fun i => fold_left (fun r e' => dset (snd e') (pairwise (v :: rows) (v0 :: l0) i (fst e')) r) (enum (keys z)) [])
                            (fun i => fold_left (fun r e' => dset (snd e') (pairwise (v :: rows) (v0 :: l0) i (fst e')) r) (enum (keys z)) [])); auto.
    Qed.

    Section Ids.
      Variables l l' : list pystr.
      Hypothesis Rl : RL R l l'.
      Variable n : nat.

      Lemma not_compatible_rel c c' x x' : RLab c c' -> R x x' -> not_compatible m l c x = not_compatible m' l' c' x'.
      Proof.
        intros Ec Ex. apply RR_eq. unfold not_compatible. eapply rbind_rel.
        - eapply rfilter_rel; [|exact Rl]. intros y y' Ey. eapply rbind_rel; [apply (dlookup_rel R eq); eauto|]. intros k ? <-.
          destruct (Z.eqb k (-1)); [constructor; auto|]. apply RR_eq. apply inferred_eq; auto.
        - intros k k' Ek. eapply RR_mono; [|eapply (rmap_rel R eq); [|exact Ek]]; [intros; apply RL_eq; auto|]. intros y y' Ey. apply (dlookup_rel R eq); auto.
      Qed.
      Lemma choose_rel z t t' c c' x x' : RD R eq t t' -> RLab c c' -> R x x' ->
        choose_cluster vec D ltb m l n z t c x = choose_cluster vec D ltb m' l' n z t' c' x'.
      Proof.
        intros Et Ec Ex. unfold choose_cluster. rewrite (not_compatible_rel c c' x x') by auto. destruct (not_compatible m' l' c' x') as [nc|e]; auto. cbn [rbind].
        assert (V : vals c = vals c') by (apply RL_eq; eapply vals_rel; eauto). rewrite V.
        destruct (filter (fun k => negb (mem k nc)) (keys z)) as [|k ks]; auto. rewrite (lookup_eq t t' x x') by auto. auto.
      Qed.
      Lemma propagate_rel x x' todo todo' c c' : R x x' -> RL R todo todo' -> RLab c c' -> RR (RP (RL R) RLab) (propagate m l x todo c) (propagate m' l' x' todo' c').
      Proof.
        intros Ex Et Ec. unfold propagate. eapply rfold_rel; [|exact Rl|constructor; auto]. intros ? ? y y' [td td' cc cc' E1 E2] Ey. cbn [fst snd].
        rewrite (inferred_eq m m' Rm x x' y y') by auto. eapply rbind_rel with (R := eq); [apply RR_eq; auto|]. intros bb ? <-. destruct bb; [|constructor; constructor; auto].
        eapply rbind_rel; [apply (dlookup_rel R eq); eauto|]. intros k ? <-. constructor. constructor; [|apply dset_rel; auto].
        rewrite (mem_rel R y y' td td') by auto. destruct (mem y' td'); auto. apply list_remove_rel; auto.
      Qed.
      Lemma assign_loop_rel fuel z t t' : RD R eq t t' -> forall todo todo' c c', RL R todo todo' -> RLab c c' ->
        RR RLab (assign_loop vec D ltb m l n fuel z t todo c) (assign_loop vec D ltb m' l' n fuel z t' todo' c').
      Proof.
        intro Et. induction fuel as [|fuel IH]; intros todo todo' c c' Ed Ec; cbn [assign_loop]; destruct (RL_pop_last R todo todo' Ed) as [|? ? [td td' x x' E1 E2]]; try (constructor; auto; fail).
        rewrite (choose_rel z t t' c c' x x') by auto. eapply rbind_rel with (R := eq); [apply RR_eq; auto|]. intros k ? <-.
        eapply rbind_rel; [apply propagate_rel; eauto; apply dset_rel; auto|]. intros ? ? []. cbn. apply IH; auto.
      Qed.
      Lemma assign_rel z : RR RLab (assign vec D pairwise ltb m l vectors n z) (assign vec D pairwise ltb m' l' vectors' n z).
      Proof.
        unfold assign. eapply rbind_rel; [apply distance_table_rel|]. intros t t' Et. rewrite (RL_length _ _ _ Rl). apply assign_loop_rel; auto. apply dcomp_rel; auto.
      Qed.
      Lemma converged_rel p c1 c1' c2 c2' z1 z2 : RLab c1 c1' -> RLab c2 c2' -> has_converged vec D pairwise ltb dsum p c1 c2 z1 z2 = has_converged vec D pairwise ltb dsum p c1' c2' z1 z2.
      Proof.
        intros E1 E2. unfold has_converged. assert (V1 : vals c1 = vals c1') by (apply RL_eq; eapply vals_rel; eauto). assert (V2 : vals c2 = vals c2') by (apply RL_eq; eapply vals_rel; eauto).
        rewrite V1, V2. auto.
      Qed.
      Lemma iterate_rel p rounds : forall c c' b, RO RLab c c' ->
        RM RK (RO RLab) (iterate vec D pairwise ltb dsum mean set_order p m l vectors n rounds c b) (iterate vec D pairwise ltb dsum mean set_order p m' l' vectors' n rounds c' b).
      Proof.
        induction rounds as [|r IH]; intros c c' b Ec; cbn [iterate]; (destruct b; [apply ret_rel; auto|]); [apply ret_rel; auto|].
        eapply bind_rel with (R := eq); [apply gets_rel; intros ? ? []; auto|]. intros z ? <-.
        eapply bind_rel with (R := RLab); [apply gets_rel; intros ? ? []; auto|]. intros c1 c1' E1.
        eapply bind_rel; [apply lift_rel, assign_rel|]. intros c2 c2' E2.
        eapply bind_rel with (R := eq); [apply lift_rel, centroids_rel; auto|]. intros z2 ? <-.
        eapply bind_rel with (R := eq); [apply lift_rel, RR_eq, converged_rel; auto|]. intros bb ? <-.
        eapply bind_rel with (R := eq); [apply modify_rel; intros ? ? []; constructor; auto|]. intros _ _ _.
        eapply bind_rel with (R := eq); [apply modify_rel; intros ? ? []; constructor; auto|]. intros _ _ _.
        apply IH. constructor; auto.
      Qed.
      Lemma COP_rel p : RM RK RLab (clustering_COP vec D pairwise ltb dsum mean shuffle set_order p m l vectors n) (clustering_COP vec D pairwise ltb dsum mean shuffle set_order p m' l' vectors' n).
      Proof.
        unfold clustering_COP. eapply bind_rel with (R := eq); [apply lift_rel, initialize_rel; auto|]. intros z ? <-.
        eapply bind_rel with (R := eq); [apply modify_rel; intros ? ? []; constructor; auto|]. intros _ _ _.
        eapply bind_rel with (R := eq); [apply modify_rel; intros ? ? []; constructor; auto; apply dcomp_rel; auto|]. intros _ _ _.
        eapply bind_rel; [apply iterate_rel; constructor|]. intros o o' Eo.
        eapply bind_rel with (R := RLab); [apply gets_rel; intros ? ? []; auto|]. intros c1 c1' E1.
        eapply bind_rel; [apply lift_rel, rename_rel; eauto|]. intros c2 c2' E2.
        eapply bind_rel with (R := eq); [apply modify_rel; intros ? ? []; constructor; auto|]. intros _ _ _.
        eapply bind_rel with (R := RLab); [destruct Eo; [apply raise_rel|apply ret_rel; auto]|]. intros c3 c3' E3.
        eapply bind_rel with (R := eq); [apply lift_rel, centroids_rel; auto|]. intros z2 ? <-.
        eapply bind_rel with (R := eq); [apply modify_rel; intros ? ? []; constructor; auto|]. intros _ _ _. apply ret_rel; auto.
      Qed.
    End Ids.

    Lemma kmeans_rel p nb : RM RK RLab (cluster vec D pairwise ltb dsum mean shuffle set_order p m vectors nb) (cluster vec D pairwise ltb dsum mean shuffle set_order p m' vectors' nb).
    Proof.
      unfold cluster. eapply bind_rel; [apply lift_rel, ask_ids; eauto|]. intros l l' El. destruct nb as [nb|]; [|apply raise_rel]. destruct (nb <? 2)%Z; [apply raise_rel|].
      eapply bind_rel with (R := eq); [apply modify_rel; intros ? ? []; constructor; auto; constructor|]. intros _ _ _.
      rewrite (RL_length _ _ _ El). eapply bind_rel; [apply COP_rel; auto|]. intros d d' Ed.
      eapply bind_rel with (R := eq); [apply modify_rel; intros ? ? []; constructor; auto; constructor; auto|]. intros _ _ _. apply ret_rel; auto.
    Qed.
  End KM.

  (** ** Spectral clustering *)
  Lemma py_nth_rel {A B} (S : A -> B -> Prop) l l' i : RL S l l' -> RR S (Spectral.py_nth l i) (Spectral.py_nth l' i).
  Proof. intro F. unfold Spectral.py_nth. destruct (RL_nth_error S l l' i F); constructor; auto. Qed.

  Section Spec.
    Variables vec D : Type.
    Variable kernel : list vec -> nat -> nat -> D.
    Variables zero one : D.
    Variable solver : nat -> Spectral.matrix D -> res (list Z).
    Variables m m' : mgr.
    Hypothesis Rm : RMgr R m m'.
    Variables vectors vectors' : dict pystr vec.
    Hypothesis Rv : RD R eq vectors vectors'.

    Inductive RSp : Spectral.spectral D -> Spectral.spectral D -> Prop := RSp_mk : forall M p p', RO RLab p p' -> RSp (Spectral.mkSpectral D M p) (Spectral.mkSpectral D M p').

    Lemma label_dict_rel l l' labels : RL R l l' -> RR RLab (Spectral.label_dict l labels) (Spectral.label_dict l' labels).
    Proof.
      intro F. unfold Spectral.label_dict. eapply rfold_rel; [|apply RL_enum; eauto|constructor]. intros b b' ? ? Eb [i ? x x' <- Ex]. cbn [fst snd].
      eapply rbind_rel with (R := eq); [apply RR_eq; auto|]. intros c ? <-. constructor. apply dset_rel; auto.
    Qed.
    Lemma constrain_rel l l' W : RL R l l' -> Spectral.constrain_matrix D zero one m l W = Spectral.constrain_matrix D zero one m' l' W.
    Proof.
      intro F. apply RR_eq. unfold Spectral.constrain_matrix. eapply rfold_rel with (S := eq); [|apply RL_enum; eauto|auto]. intros b ? ? ? <- [i ? x x' <- Ex].
      eapply rfold_rel with (S := eq); [|apply RL_enum; eauto|auto]. intros b2 ? ? ? <- [j ? y y' <- Ey]. cbn [fst snd].
      rewrite (inferred_eq m m' Rm x x' y y' MUST_LINK), (inferred_eq m m' Rm x x' y y' CANNOT_LINK) by auto. apply RR_eq. auto.
    Qed.
    Lemma spectral_rel nb : RM RSp RLab (Spectral.cluster vec D kernel zero one solver m vectors nb) (Spectral.cluster vec D kernel zero one solver m' vectors' nb).
    Proof.
      unfold Spectral.cluster. eapply bind_rel; [apply lift_rel, ask_ids; eauto|]. intros l l' El. destruct nb as [nb|]; [|apply raise_rel]. destruct (nb <? 2)%Z; [apply raise_rel|].
      eapply bind_rel with (R := eq).
      { apply lift_rel. unfold Spectral.similarity_matrix. eapply rbind_rel; [apply ask_ids; eauto|]. intros k k' Ek. rewrite (rows_eq vec vectors vectors' Rv k k' Ek). apply RR_eq. auto. }
      intros W ? <-. eapply bind_rel with (R := eq); [apply modify_rel; intros ? ? []; constructor; auto|]. intros _ _ _.
      eapply bind_rel with (R := eq); [apply modify_rel; intros ? ? []; constructor; auto; constructor|]. intros _ _ _. eapply bind_rel.
      - unfold Spectral.clustering_SPEC. eapply bind_rel with (R := eq); [apply lift_rel, RR_eq, constrain_rel; eauto|]. intros W2 ? <-.
        eapply bind_rel with (R := eq); [apply modify_rel; intros ? ? []; constructor; auto|]. intros _ _ _. rewrite (RL_length _ _ _ El).
        eapply bind_rel with (R := eq); [apply lift_rel, RR_eq; auto|]. intros lab ? <-.
        eapply bind_rel; [apply lift_rel, label_dict_rel; eauto|]. intros d d' Ed. apply lift_rel, rename_rel; auto.
      - intros d d' Ed. eapply bind_rel with (R := eq); [apply modify_rel; intros ? ? []; constructor; auto; constructor; auto|]. intros _ _ _. apply ret_rel; auto.
    Qed.
  End Spec.

  (** ** Affinity propagation *)
  Section AP.
    Variables vec D : Type.
    Variable o : Affinity.ops D.
    Variable similarity : list vec -> nat -> nat -> D.
    Variables m m' : mgr.
    Hypothesis Rm : RMgr R m m'.
    Variables vectors vectors' : dict pystr vec.
    Hypothesis Rv : RD R eq vectors vectors'.

    Lemma must_links_rel l l' : RL R l l' -> Affinity.must_link_indices m l = Affinity.must_link_indices m' l'.
    Proof.
      intro F. apply RR_eq. unfold Affinity.must_link_indices. cbv zeta. eapply rbind_rel; [apply ask_comps; eauto|]. intros c c' Ec.
      eapply RR_mono; [|eapply (rmap_rel (RL R) eq); [|exact Ec]]; [intros; apply RL_eq; auto|]. intros x x' Ex.
      eapply RR_mono; [|eapply (rmap_rel R eq); [|exact Ex]]; [intros; apply RL_eq; auto|]. intros y y' Ey. apply (dlookup_rel R eq); auto.
      apply (enum_dset_rel R eq (fun i => i) (fun i => i)); auto.
    Qed.
    Lemma cannot_links_rel l l' : RL R l l' -> Affinity.cannot_link_pairs m l = Affinity.cannot_link_pairs m' l'.
    Proof.
      intro F. apply RR_eq. unfold Affinity.cannot_link_pairs. rewrite (RL_length _ _ _ F). eapply RR_mono; [|eapply (rfilter_rel eq); [|apply RL_eq; reflexivity]]; [intros; apply RL_eq; auto|].
      intros [i j] ? <-. cbn [fst snd]. eapply rbind_rel; [apply (py_nth_rel R); eauto|]. intros a a' Ea. eapply rbind_rel; [apply (py_nth_rel R); eauto|]. intros b b' Eb.
      rewrite (ask_added m m' Rm a a' b b') by auto. apply RR_eq. auto.
    Qed.
    Lemma labelled_rel l l' labels : RL R l l' -> RR RLab (Affinity.labelled l labels) (Affinity.labelled l' labels).
    Proof.
      intro F. unfold Affinity.labelled. eapply rfold_rel with (R := eq); [|apply RL_eq; auto|constructor]. intros b b' [i c] ? Eb <-. cbn [fst snd].
      eapply rbind_rel; [apply (py_nth_rel R); eauto|]. intros x x' Ex. constructor. apply dset_rel; auto.
    Qed.
    Lemma affinity_rel p nb : RM (RO RLab) RLab (Affinity.cluster vec D o similarity p m vectors nb) (Affinity.cluster vec D o similarity p m' vectors' nb).
    Proof.
      unfold Affinity.cluster. eapply bind_rel; [apply lift_rel, ask_ids; eauto|]. intros l l' El. destruct nb as [nb|]; [apply raise_rel|].
      eapply bind_rel with (R := eq); [apply modify_rel; constructor|]. intros _ _ _.
      eapply bind_rel with (R := eq); [apply lift_rel, RR_eq, rows_eq; auto|]. intros rows ? <-.
      eapply bind_rel with (R := eq); [destruct rows; [apply raise_rel|apply ret_rel; auto]|]. intros W ? <-.
      eapply bind_rel with (R := eq); [apply lift_rel, RR_eq, must_links_rel; auto|]. intros ml ? <-.
      eapply bind_rel with (R := eq); [apply lift_rel, RR_eq, cannot_links_rel; auto|]. intros cl ? <-.
      eapply bind_rel with (R := eq); [apply lift_rel, RR_eq; auto|]. intros lab ? <-.
      eapply bind_rel; [apply lift_rel, labelled_rel; eauto|]. intros d d' Ed. eapply bind_rel; [apply lift_rel, rename_rel; eauto|]. intros d2 d2' Ed2.
      eapply bind_rel with (R := eq); [apply modify_rel; constructor; auto|]. intros _ _ _. apply ret_rel; auto.
    Qed.
  End AP.

  (** ** MPCKMeans *)
  Section MPC.
    Variables vec D : Type.
    Variable o : Mpckmeans.ops D.
    Variable flatten : vec -> list D.
    Variable limit : nat.
    Variable order : list nat -> list nat.
    Variable first : nat -> list D -> nat.
    Variable sample : nat -> nat -> list nat.
    Variable shuffle : nat -> list nat -> list nat.
    Hypothesis NP : forall x x', R x x' -> R (Mpckmeans.np_str x) (Mpckmeans.np_str x').
    Variables m m' : mgr.
    Hypothesis Rm : RMgr R m m'.
    Variables vectors vectors' : dict pystr vec.
    Hypothesis Rv : RD R eq vectors vectors'.

    Inductive RMp : Mpckmeans.mpckmeans D -> Mpckmeans.mpckmeans D -> Prop := RMp_mk : forall p p' c l, RO RLab p p' -> RMp (Mpckmeans.mkMpckmeans D p c l) (Mpckmeans.mkMpckmeans D p' c l).

    Lemma index_pairs_rel l l' t : RL R l l' -> Mpckmeans.index_pairs m l t = Mpckmeans.index_pairs m' l' t.
    Proof.
      intro F. apply RR_eq. unfold Mpckmeans.index_pairs. eapply rbind_rel.
      - eapply rfilter_rel; [|apply (RL_prod (RP eq R) (RP eq R)); apply RL_enum; eauto]. intros ? ? [? ? ? ? [] []]. cbn [fst snd]. apply RR_eq, inferred_eq; auto.
      - intros k k' Ek. constructor. apply RL_eq. eapply RL_map; [|exact Ek]. intros ? ? [? ? ? ? [? ? ? ? -> ?] [? ? ? ? -> ?]]. auto.
    Qed.
    Lemma mpckmeans_rel p nb : RM RMp RLab (Mpckmeans.cluster vec D o flatten limit order first sample shuffle p m vectors nb)
                                           (Mpckmeans.cluster vec D o flatten limit order first sample shuffle p m' vectors' nb).
    Proof.
      unfold Mpckmeans.cluster. eapply bind_rel; [apply lift_rel, ask_ids; eauto|]. intros l l' El. destruct nb as [nb|]; [|apply raise_rel]. destruct (nb <? 2)%Z; [apply raise_rel|].
      rewrite (RL_length _ _ _ El). assert (V : vals vectors = vals vectors') by (apply RL_eq; eapply vals_rel; eauto). rewrite V. cbv zeta.
      eapply bind_rel with (R := eq).
      { apply lift_rel, RR_eq. unfold Mpckmeans.constraint_graphs. rewrite (index_pairs_rel l l' MUST_LINK), (index_pairs_rel l l' CANNOT_LINK), (RL_length _ _ _ El) by auto. auto. }
      intros [[mg cg] nh] ? <-. eapply bind_rel with (R := eq); [apply lift_rel, RR_eq; auto|]. intros ce ? <-.
      eapply bind_rel with (R := eq); [apply lift_rel, RR_eq; auto|]. intros [ce2 [labels|]] ? <-; cbn [fst snd]; [|apply raise_rel].
      assert (RAW : RLab (fold_left (fun d e => dset (fst e) (snd e) d) (combine (map Mpckmeans.np_str (keys vectors)) (map Z.of_nat labels)) [])
                         (fold_left (fun d e => dset (fst e) (snd e) d) (combine (map Mpckmeans.np_str (keys vectors')) (map Z.of_nat labels)) [])).
      { apply (RL_fold_left (RP R eq) RLab); [| |constructor].
        - intros a a' ? ? Ea []. cbn. apply dset_rel; auto.
        - apply RL_combine; [|apply RL_eq; auto]. eapply RL_map; [exact NP|]. eapply keys_rel; eauto. }
      eapply bind_rel with (R := eq); [apply modify_rel; constructor; constructor; auto|]. intros _ _ _.
      eapply bind_rel; [apply lift_rel, rename_rel; eauto|]. intros d d' Ed.
      assert (FIN : RLab (fold_left (fun d x => if mem x (keys d) then d else dset x (-1)%Z d) l d) (fold_left (fun d x => if mem x (keys d) then d else dset x (-1)%Z d) l' d')).
      { apply (RL_fold_left R RLab); auto. intros a a' x x' Ea Ex. rewrite (mem_rel R x x' (keys a) (keys a')) by (auto; eapply keys_rel; eauto).
        destruct (mem x' (keys a')); auto. apply dset_rel; auto. }
      eapply bind_rel with (R := eq); [apply modify_rel; intros ? ? []; constructor; constructor; auto|]. intros _ _ _. apply ret_rel; auto.
    Qed.
  End MPC.
End Names.
