(** * Hierarchical clustering and DBScan with other names, names in the same order *)

From Coq Require Import String List Bool Arith ZArith QArith Lia.
From Verif Require Import Base Manager Sampling Rename KMeans Spectral Hierarchical Rel RelManager MonoSpec RelClusterings.
From Verif Require Dbscan.
Import ListNotations.
Open Scope nat_scope.
Open Scope py_scope.

Lemma RL_py_max {A} (R : A -> A -> Prop) lt lt' l l' : (forall a a' b b', R a a' -> R b b' -> lt a b = lt' a' b') -> RL R l l' -> RR R (py_max lt l) (py_max lt' l').
Proof.
  intro H. intros [|x x' l0 l0' E F]; cbn; constructor. revert x x' E. induction F as [|y y' l0 l0' Ey F IH]; cbn; auto.
  intros x x' E. rewrite (H x x' y y') by auto. destruct (lt' x' y'); auto.
Qed.
Lemma rexists_rel {A} (R : A -> A -> Prop) f f' l l' : (forall x x', R x x' -> f x = f' x') -> RL R l l' -> rexists f l = rexists f' l'.
Proof. intro H. induction 1 as [|x x' l l' E F IH]; cbn; auto. rewrite (H x x' E), IH. auto. Qed.

Section Names.
  Variable R : pystr -> pystr -> Prop.
  Context {SO : same_order R}.
  #[local] Instance R_eqb'' : RelEq R := R_eqb R.
  #[local] Hint Extern 0 (RelEq _) => typeclasses eauto : core.
  Notation RLab := (RD R (@eq Z)).

  Section Hier.
    Variables vec D : Type.
    Context `{EqB D}.
    Variable pairwise : list vec -> nat -> nat -> D.
    Variable cdistance : vec -> vec -> D.
    Variable ltb : D -> D -> bool.
    Variable dsum : list D -> D.
    Variable ddiv : D -> nat -> D.
    Variable inf : D.
    Variable mean : list vec -> vec.
    Variables m m' : mgr.
    Hypothesis Rm : RMgr R m m'.
    Variables vectors vectors' : dict pystr vec.
    Hypothesis Rv : RD R eq vectors vectors'.

    Notation tree := (tree vec).
    Inductive RTr : tree -> tree -> Prop := RTr_mk : forall i it ch ch' d ms ms' c, RL RTr ch ch' -> RL R ms ms' -> RTr (Node vec i it ch d ms c) (Node vec i it ch' d ms' c).
    Inductive RF : forest vec D -> forest vec D -> Prop := RF_mk : forall c s s' d, RD eq RTr s s' -> RF (mkForest vec D c s d) (mkForest vec D c s' d).

    Lemma tr_id t t' : RTr t t' -> t_id vec t = t_id vec t'. Proof. intros []; auto. Qed.
    Lemma tr_it t t' : RTr t t' -> t_iteration vec t = t_iteration vec t'. Proof. intros []; auto. Qed.
    Lemma tr_depth t t' : RTr t t' -> t_depth vec t = t_depth vec t'. Proof. intros []; auto. Qed.
    Lemma tr_centroid t t' : RTr t t' -> t_centroid vec t = t_centroid vec t'. Proof. intros []; auto. Qed.
    Lemma tr_members t t' : RTr t t' -> RL R (t_members vec t) (t_members vec t'). Proof. intros []; auto. Qed.
    Lemma tr_children t t' : RTr t t' -> RL RTr (t_children vec t) (t_children vec t'). Proof. intros []; auto. Qed.
    Lemma tr_size : forall t t', RTr t t' -> tree_size vec t = tree_size vec t'.
    Proof.
      fix IH 1. intros [i it ch d ms c] t' E. inversion E; subst. cbn [tree_size]. f_equal. clear E.
      match goal with F : RL RTr ch ?ch' |- _ => revert ch' F end. induction ch as [|x ch IHc]; intros ch' F; inversion F as [|? y ? l' E1 E2]; subst; [reflexivity|]. change (tree_size vec x + list_sum (map (tree_size vec) ch) = tree_size vec y + list_sum (map (tree_size vec) l')). rewrite (IH x y E1), (IHc l' E2). reflexivity.
    Qed.

    Lemma new_cluster_rel i it c c' ms ms' : RO (RL RTr) c c' -> RO (RL R) ms ms' -> RR RTr (new_cluster vec mean vectors i it c ms) (new_cluster vec mean vectors' i it c' ms').
    Proof.
      intros Ec Em.
      assert (G : forall ch ch' l l', RL RTr ch ch' -> RL R l l' ->
        RR RTr (rows <-- rmap (fun x => dlookup x vectors) l ;;; match rows with [] => Raise ZeroDivisionError | _ => Ok (Node vec i it ch (match ch with [] => 0 | _ => list_max (map (t_depth vec) ch) + 1 end) l (mean rows)) end)
               (rows <-- rmap (fun x => dlookup x vectors') l' ;;; match rows with [] => Raise ZeroDivisionError | _ => Ok (Node vec i it ch' (match ch' with [] => 0 | _ => list_max (map (t_depth vec) ch') + 1 end) l' (mean rows)) end)).
      { intros ch ch' l l' E1 E2. rewrite (rows_eq R vec vectors vectors' Rv l l' E2). destruct (rmap _ l') as [rows|e]; [|constructor]. cbn [rbind]. destruct rows; constructor.
        assert (Q : match ch with [] => 0 | _ => list_max (map (t_depth vec) ch) + 1 end = match ch' with [] => 0 | _ => list_max (map (t_depth vec) ch') + 1 end).
        { assert (MD : map (t_depth vec) ch = map (t_depth vec) ch') by (apply RL_eq; eapply RL_map; [apply tr_depth|exact E1]). destruct E1; auto. rewrite MD. auto. }
        rewrite Q. constructor; auto. }
      unfold new_cluster. destruct Ec as [|ch ch' Ec], Em as [|l l' Em]; try constructor.
      - apply G; auto.
      - apply G; auto. eapply RL_flat_map; [|exact Ec]. apply tr_members.
    Qed.

    Lemma storage_keys (s s' : dict Z tree) : RD eq RTr s s' -> keys s = keys s'.
    Proof. intro F. apply RL_eq. eapply keys_rel; eauto. Qed.

    Lemma add_by_members_rel it f f' ms ms' : RF f f' -> RL R ms ms' -> RR RF (add_by_members vec D mean vectors it f ms) (add_by_members vec D mean vectors' it f' ms').
    Proof.
      intros [c s s' d Es] Em. unfold add_by_members. cbn [f_storage f_current f_distance]. eapply rbind_rel with (R := eq).
      - rewrite (storage_keys s s' Es). destruct Es; constructor; auto.
      - intros n ? <-. eapply rbind_rel; [apply new_cluster_rel; constructor; eauto|]. intros t t' Et. constructor. constructor. apply dset_rel; auto.
    Qed.
    Lemma add_by_merging_rel it f f' ch : RF f f' -> RR (RP RF eq) (add_by_merging vec D mean vectors it f ch) (add_by_merging vec D mean vectors' it f' ch).
    Proof.
      intros [c s s' d Es]. unfold add_by_merging. cbn [f_storage f_current f_distance]. eapply rbind_rel with (R := eq); [apply RR_eq; auto|]. intros cur ? <-.
      rewrite (storage_keys s s' Es). eapply rbind_rel with (R := eq); [apply RR_eq; auto|]. intros mx ? <-. cbv zeta.
      eapply rbind_rel; [eapply (rmap_rel eq RTr); [|apply RL_eq; auto]; intros x ? <-; apply (dlookup_rel eq RTr); auto|]. intros ts ts' Ets.
      eapply rbind_rel; [apply new_cluster_rel; constructor; eauto|]. intros t t' Et. constructor. constructor; auto. constructor. apply dset_rel; auto.
    Qed.

    Lemma pairwise_table_rel : RR (RD R (RD R eq)) (pairwise_table vec D pairwise m vectors) (pairwise_table vec D pairwise m' vectors').
    Proof.
      unfold pairwise_table. eapply rbind_rel; [apply ask_ids; eauto|]. intros l l' El. rewrite (rows_eq R vec vectors vectors' Rv l l' El).
      destruct (rmap _ l') as [rows|e]; [|constructor]. cbn [rbind]. destruct rows; constructor. apply (table_rel R (pairwise (v :: rows)) l l' El).
    Qed.

    Section Table.
      Variables t t' : dict pystr (dict pystr D).
      Hypothesis Rt : RD R (RD R eq) t t'.
      Variable linkage : pystr.

      Lemma table_get_rel p p' : RP R R p p' -> table_get D t p = table_get D t' p'.
      Proof.
        intros [a a' b b' Ea Eb]. apply RR_eq. unfold table_get. eapply rbind_rel; [apply (dlookup_rel R (RD R eq)); eauto|]. intros r r' Er. apply (dlookup_rel R eq); auto.
      Qed.
      Lemma tables_rel l l' : RL (RP R R) l l' -> rmap (table_get D t) l = rmap (table_get D t') l'.
      Proof.
        intro F. apply RR_eq. eapply RR_mono; [|eapply (rmap_rel (RP R R) eq); [|exact F]]; [intros; apply RL_eq; auto|]. intros. apply RR_eq, table_get_rel; auto.
      Qed.
      Lemma pairs_below_rel l l' : RL R l l' -> RL (RP R R) (pairs_below l) (pairs_below l').
      Proof.
        intro F. unfold pairs_below. eapply (RL_map (RP (RP eq R) (RP eq R)) (RP R R)).
        - intros ? ? [? ? ? ? [] []]. cbn. constructor; auto.
        - apply RL_filter; [|apply RL_prod; apply RL_enum; auto]. intros ? ? [? ? ? ? [? ? ? ? -> ?] [? ? ? ? -> ?]]. auto.
      Qed.
      Lemma tree_distance_rel a a' b b' : RTr a a' -> RTr b b' -> tree_distance vec D cdistance ltb dsum ddiv inf m linkage t a b = tree_distance vec D cdistance ltb dsum ddiv inf m' linkage t' a' b'.
      Proof.
        intros Ea Eb. assert (Ma := tr_members _ _ Ea). assert (Mb := tr_members _ _ Eb). assert (P := RL_prod R R _ _ _ _ Ma Mb). unfold tree_distance.
        rewrite (rexists_rel (RP R R) (fun p => inferred_is m (fst p) (snd p) CANNOT_LINK) (fun p => inferred_is m' (fst p) (snd p) CANNOT_LINK) _ _ ltac:(intros ? ? []; cbn; apply (inferred_eq R); auto) P).
        rewrite (tables_rel _ _ P), (tables_rel _ _ (pairs_below_rel _ _ (RL_app R _ _ _ _ Ma Mb))), (tr_centroid a a' Ea), (tr_centroid b b' Eb), (RL_length _ _ _ Ma), (RL_length _ _ _ Mb). auto.
      Qed.
      Lemma update_rel p f f' : RF f f' -> RR RF (update_distance vec D cdistance ltb dsum ddiv inf m linkage t f p) (update_distance vec D cdistance ltb dsum ddiv inf m' linkage t' f' p).
      Proof.
        intros [c s s' d Es]. unfold update_distance, compute_distance. cbn [f_storage f_current f_distance]. eapply rbind_rel with (R := eq).
        - eapply rbind_rel; [apply (dlookup_rel eq RTr); eauto|]. intros x x' Ex. eapply rbind_rel; [apply (dlookup_rel eq RTr); eauto|]. intros y y' Ey. apply RR_eq, tree_distance_rel; auto.
        - intros x ? <-. constructor. constructor; auto.
      Qed.
      Lemma updates_rel l f f' : RF f f' -> RR RF (rfold (update_distance vec D cdistance ltb dsum ddiv inf m linkage t) l f) (rfold (update_distance vec D cdistance ltb dsum ddiv inf m' linkage t') l f').
      Proof. apply (rfold_rel eq RF); [|apply RL_eq; auto]. intros b b' x ? Eb <-. apply update_rel; auto. Qed.
      Lemma two_closest_rel f f' : RF f f' -> two_closest vec D ltb inf f = two_closest vec D ltb inf f'.
      Proof.
        intros [c s s' d Es]. unfold two_closest. cbn [f_storage f_current f_distance]. f_equal. apply RR_eq.
        eapply RR_mono; [|eapply (rmap_rel eq eq); [|apply RL_eq; reflexivity]]; [intros; apply RL_eq; auto|]. intros p ? <-.
        eapply rbind_rel with (R := eq); [apply RR_eq; auto|]. intros x ? <-. eapply rbind_rel; [apply (dlookup_rel eq RTr); eauto|]. intros t1 t1' E1.
        eapply rbind_rel; [apply (dlookup_rel eq RTr); eauto|]. intros t2 t2' E2. constructor. rewrite (RL_length _ _ _ (tr_members _ _ E1)), (RL_length _ _ _ (tr_members _ _ E2)). auto.
      Qed.
      Lemma RF_current f f' : RF f f' -> f_current vec D f = f_current vec D f'. Proof. intros []; auto. Qed.
      Lemma RF_storage f f' : RF f f' -> RD eq RTr (f_storage vec D f) (f_storage vec D f'). Proof. intros []; auto. Qed.
      Lemma merge_loop_rel fuel : forall it f f', RF f f' ->
        RR (RP RF eq) (merge_loop vec D cdistance ltb dsum ddiv inf mean fuel m linkage t vectors it f) (merge_loop vec D cdistance ltb dsum ddiv inf mean fuel m' linkage t' vectors' it f').
      Proof.
        induction fuel as [|fuel IH]; intros it f f' Ef; cbn [merge_loop]; rewrite (RF_current f f' Ef); (destruct (Nat.leb (length (f_current vec D f')) 1); [apply RR_ok; constructor; auto|]); [apply RR_raise|].
        rewrite (two_closest_rel f f' Ef). eapply rbind_rel with (R := eq); [apply RR_eq; auto|]. intros [[c1 c2]|] ? <-; [|constructor; constructor; auto].
        eapply rbind_rel; [apply add_by_merging_rel; eauto|]. intros ? ? [g g' k ? Eg <-]. rewrite (RF_current g g' Eg).
        eapply rbind_rel; [apply updates_rel; eauto|]. intros h h' Eh. apply IH; auto.
      Qed.
      Lemma build_tree_rel : RR RTr (build_tree vec D cdistance ltb dsum ddiv inf mean m linkage vectors t) (build_tree vec D cdistance ltb dsum ddiv inf mean m' linkage vectors' t').
      Proof.
        unfold build_tree. eapply rbind_rel; [apply ask_comps; eauto|]. intros cs cs' Ecs. eapply rbind_rel.
        { eapply (rfold_rel (RL R) RF); [|exact Ecs|constructor; constructor]. intros b b' x x' Eb Ex. apply add_by_members_rel; auto. }
        intros f f' Ef. rewrite (RF_current f f' Ef). eapply rbind_rel; [apply updates_rel; eauto|]. intros g g' Eg. rewrite (RF_current g g' Eg).
        eapply rbind_rel; [apply merge_loop_rel; eauto|]. intros ? ? [h h' k ? Eh <-]. rewrite (RF_current h h' Eh). eapply rbind_rel with (R := RF).
        { destruct (Nat.ltb 1 (length (f_current vec D h'))); [|constructor; auto]. eapply rbind_rel; [apply add_by_merging_rel; eauto|]. intros ? ? []. constructor. auto. }
        intros i i' Ei. rewrite (RF_current i i' Ei). destruct (f_current vec D i'); [constructor|]. apply (dlookup_rel eq RTr); auto. apply RF_storage; auto.
      Qed.
    End Table.

    Lemma to_split_rel by_ l l' : RL RTr l l' -> RR RTr (to_split vec by_ l) (to_split vec by_ l').
    Proof.
      intro F. unfold to_split. destruct (eqb by_ (str "size")); (eapply RL_py_max; [|exact F]); intros a a' b b' Ea Eb.
      - rewrite (RL_length _ _ _ (tr_members _ _ Ea)), (RL_length _ _ _ (tr_members _ _ Eb)). auto.
      - rewrite (tr_it _ _ Ea), (tr_it _ _ Eb). auto.
    Qed.
    Lemma remove_tree_rel t t' l l' : RTr t t' -> RL RTr l l' -> RL RTr (remove_tree vec t l) (remove_tree vec t' l').
    Proof. intros Et F. induction F as [|x x' l l' Ex F IH]; cbn; auto. rewrite (tr_id _ _ Et), (tr_id _ _ Ex). destruct (Z.eqb _ _); auto. Qed.
    Lemma explore_rel fuel by_ n : forall l l', RL RTr l l' -> RR (RL RTr) (explore vec fuel by_ n l) (explore vec fuel by_ n l').
    Proof.
      induction fuel as [|fuel IH]; intros l l' F; cbn [explore]; rewrite (RL_length _ _ _ F); (destruct (Z.of_nat (length l') <? n)%Z; [|apply RR_ok; auto]);
        (eapply rbind_rel; [apply to_split_rel; eauto|]); intros t t' Et; assert (C := tr_children _ _ Et); (destruct C as [|x x' ch ch' Ex C]; [apply RR_ok; auto|]); [apply RR_raise|].
      apply IH. apply RL_app; [apply remove_tree_rel; auto|constructor; auto].
    Qed.
    Lemma labels_of_rel l l' ts ts' : RL R l l' -> RL RTr ts ts' -> RLab (labels_of vec l ts) (labels_of vec l' ts').
    Proof.
      intros F G. unfold labels_of. apply (RL_fold_left RTr RLab); auto.
      - intros a a' t t' Ea Et. rewrite (tr_id _ _ Et). apply (RL_fold_left R RLab); auto; [|apply tr_members; auto]. intros b b' x x' Eb Ex. apply dset_rel; auto.
      - apply dcomp_rel; auto.
    Qed.

    Inductive RH : hier vec -> hier vec -> Prop := RH_mk : forall l l' r r' p p', RO (RL R) l l' -> RO RTr r r' -> RO RLab p p' -> RH (mkHier vec l r p) (mkHier vec l' r' p').

    Lemma compute_predicted_rel n by_ : RM RH RLab (compute_predicted_clusters vec n by_) (compute_predicted_clusters vec n by_).
    Proof.
      unfold compute_predicted_clusters. eapply bind_rel with (R := RO RTr); [apply gets_rel; intros ? ? []; auto|]. intros ? ? [|t t' Et]; [apply raise_rel|].
      rewrite (tr_size t t' Et). eapply bind_rel; [apply lift_rel, explore_rel; repeat constructor; auto|]. intros l l' El.
      eapply bind_rel with (R := RO (RL R)); [apply gets_rel; intros ? ? []; auto|]. intros ? ? [|k k' Ek]; [apply raise_rel|]. apply lift_rel, rename_rel; auto. apply labels_of_rel; auto.
    Qed.

    Lemma hierarchical_rel linkage nb : RM RH RLab (cluster vec D pairwise cdistance ltb dsum ddiv inf mean linkage m vectors nb) (cluster vec D pairwise cdistance ltb dsum ddiv inf mean linkage m' vectors' nb).
    Proof.
      unfold cluster. eapply bind_rel; [apply lift_rel, ask_ids; eauto|]. intros l l' El.
      eapply bind_rel with (R := eq); [apply modify_rel; intros ? ? []; constructor; auto; constructor; auto|]. intros _ _ _.
      destruct nb as [nb|]; [|apply raise_rel]. destruct (nb <? 2)%Z; [apply raise_rel|]. eapply bind_rel; [apply lift_rel, pairwise_table_rel|]. intros t t' Et.
      eapply bind_rel with (R := eq); [apply modify_rel; intros ? ? []; constructor; auto; constructor|]. intros _ _ _.
      eapply bind_rel; [apply lift_rel, build_tree_rel; eauto|]. intros r r' Er.
      eapply bind_rel with (R := eq); [apply modify_rel; intros ? ? []; constructor; auto; constructor; auto|]. intros _ _ _. rewrite (RL_length _ _ _ El).
      eapply bind_rel; [apply compute_predicted_rel|]. intros d d' Ed.
      eapply bind_rel with (R := eq); [apply modify_rel; intros ? ? []; constructor; auto; constructor; auto|]. intros _ _ _. apply ret_rel; auto.
    Qed.
  End Hier.

  Section Db.
    Variables vec D : Type.
    Variable pairwise : list vec -> nat -> nat -> D.
    Variables leb ltb : D -> D -> bool.
    Variable of_nat : nat -> D.
    Variable setlist : list pystr -> list pystr.
    Hypothesis SL : forall l l', RL R l l' -> RL R (setlist l) (setlist l').
    Hypothesis NN : forall x x', R x x' -> eqb x Dbscan.NONE = eqb x' Dbscan.NONE.
    Variable p : Dbscan.db_params D.
    Variables m m' : mgr.
    Hypothesis Rm : RMgr R m m'.
    Variables t t' : dict pystr (dict pystr D).
    Hypothesis Rt : RD R (RD R eq) t t'.
    Variables l l' : list pystr.
    Hypothesis Rl : RL R l l'.
    Notation RG := (RD R (RL R)).

    Lemma db_conflict_rel xs xs' ys ys' : RL R xs xs' -> RL R ys ys' -> Dbscan.conflict m xs ys = Dbscan.conflict m' xs' ys'.
    Proof.
      intros Ex Ey. apply RR_eq. unfold Dbscan.conflict. eapply rbind_rel.
      - eapply (rmap_rel R (RL R)); [|exact Ex]. intros x x' E. eapply rfilter_rel; [|exact Ey]. intros y y' F. apply RR_eq, (inferred_eq R); auto.
      - intros r r' Er. constructor. eapply RL_existsb; [|exact Er]. intros a a' Ea. rewrite (RL_length _ _ _ Ea). auto.
    Qed.
    Lemma local_step_rel s s' x x' : RP (RD R eq) RG s s' -> R x x' -> RR (RP (RD R eq) RG) (Dbscan.local_step D leb p m t l s x) (Dbscan.local_step D leb p m' t' l' s' x').
    Proof.
      intros [la la' lo lo' E1 E2] Ex. unfold Dbscan.local_step. eapply rbind_rel; [apply (dlookup_rel R eq); eauto|]. intros lab ? <-.
      destruct (Dbscan.is_single lab); [constructor; constructor; auto|]. eapply rbind_rel.
      { eapply rfilter_rel; [|exact Rl]. intros y y' Ey. eapply rbind_rel; [apply (dlookup_rel R eq); eauto|]. intros k ? <-. constructor; auto. }
      intros po po' Ep. eapply rbind_rel.
      { eapply rfilter_rel; [|exact Ep]. intros y y' Ey. rewrite (table_get_rel D t t' Rt (x, y) (x', y')) by (constructor; auto). apply RR_eq; auto. }
      intros ne ne' En. rewrite (db_conflict_rel ne ne' ne ne') by auto. eapply rbind_rel with (R := eq); [apply RR_eq; auto|]. intros c ? <-.
      rewrite (RL_length _ _ _ En). destruct (length ne' <? Dbscan.db_min_samples D p); [constructor; constructor; auto; apply dset_rel; auto|].
      destruct c; constructor; constructor; try (apply dset_rel; auto; fail).
      - apply (RL_fold_left R (RD R eq)); auto. intros a a' y y' Ea Ey. apply dset_rel; auto.
      - apply (RL_fold_left R RG); auto. intros a a' y y' Ea Ey. apply dset_rel; auto.
    Qed.
    Lemma local_clusters_rel : RR (RP (RD R eq) RG) (Dbscan.local_clusters D leb p m t l) (Dbscan.local_clusters D leb p m' t' l').
    Proof.
      unfold Dbscan.local_clusters. eapply rfold_rel; [|exact Rl|]; [intros; apply local_step_rel; auto|]. constructor; auto. apply dcomp_rel; auto.
    Qed.

    (** The owner of a point: a name or ["NONE"]. *)
    Definition RN (a a' : pystr) : Prop := R a a' \/ (a = Dbscan.NONE /\ a' = Dbscan.NONE).
    Lemma RN_none a a' : RN a a' -> eqb a Dbscan.NONE = eqb a' Dbscan.NONE.
    Proof. intros [E|[-> ->]]; auto. Qed.
    Lemma RN_id a a' x x' : RN a a' -> R x x' -> eqb a x = eqb a' x'.
    Proof. intros [E|[-> ->]] F; [apply releq; auto|]. rewrite !(eqb_sym Dbscan.NONE). auto. Qed.

    Section Merge.
      Variables la la' : dict pystr Dbscan.label.
      Hypothesis Rla : RD R eq la la'.
      Variables lo lo' co co' cl cl' : dict pystr (list pystr).
      Hypothesis Rlo : RG lo lo'.
      Hypothesis Rco : RG co co'.
      Hypothesis Rcl : RG cl cl'.
      Notation RA := (RD R RN).

      Lemma pick_rel a a' x x' c c' cs cs' : RA a a' -> R x x' -> R c c' -> RL R cs cs' -> RR R (Dbscan.pick a x c cs) (Dbscan.pick a' x' c' cs').
      Proof.
        intros Ea Ex Ec. induction 1 as [|y y' cs cs' Ey F IH]; cbn [Dbscan.pick]; [constructor; auto|].
        eapply rbind_rel; [apply (dlookup_rel R RN); eauto|]. intros o o' Eo. rewrite (RN_none o o' Eo). destruct (eqb o' Dbscan.NONE); [constructor|]; auto.
      Qed.
      Lemma local_cluster_of_rel a a' x x' : RA a a' -> R x x' -> RR R (Dbscan.local_cluster_of cl a x) (Dbscan.local_cluster_of cl' a' x').
      Proof.
        intros Ea Ex. unfold Dbscan.local_cluster_of. eapply rbind_rel; [apply (dlookup_rel R (RL R)); eauto|]. intros cs cs' Ecs.
        eapply rbind_rel; [apply (py_nth_rel R); eauto|]. intros c c' Ec. apply pick_rel; auto.
      Qed.
      Lemma claim_rel c c' a a' ps ps' : R c c' -> RA a a' -> RL R ps ps' -> RR (RP RA (RL R)) (Dbscan.claim c a ps) (Dbscan.claim c' a' ps').
      Proof.
        intros Ec Ea Ep. unfold Dbscan.claim. eapply rfold_rel; [|exact Ep|constructor; auto]. intros ? ? k k' [b b' tk tk' Eb Et] Ek.
        eapply rbind_rel; [apply (dlookup_rel R RN); eauto|]. intros o o' Eo. rewrite (RN_none o o' Eo). constructor. destruct (eqb o' Dbscan.NONE); constructor; auto.
        - apply dset_rel; auto. left; auto.
        - apply RL_app; auto.
      Qed.
      Lemma merge_step_rel i i' c c' ps ps' s s' j j' : R i i' -> R c c' -> RL R ps ps' -> RP RA RG s s' -> R j j' ->
        RR (RP RA RG) (Dbscan.merge_step setlist la lo cl i c ps s j) (Dbscan.merge_step setlist la' lo' cl' i' c' ps' s' j').
      Proof.
        intros Ei Ec Ep [a a' k k' Ea Ek] Ej. unfold Dbscan.merge_step. eapply rbind_rel; [apply (dlookup_rel R eq); eauto|]. intros lab ? <-.
        eapply rbind_rel with (R := RL R).
        { destruct (Dbscan.is_noise lab); [constructor; auto|]. eapply rbind_rel with (R := RL R).
          - rewrite (mem_rel R j j' (keys lo) (keys lo')) by (auto; eapply keys_rel; eauto). destruct (mem j' (keys lo')); [constructor; auto|].
            eapply rbind_rel; [apply local_cluster_of_rel; eauto|]. intros x x' Ex. apply (dlookup_rel R (RL R)); auto.
          - intros q q' Eq. constructor. apply SL, RL_app; auto. }
        intros mo mo' Emo. eapply rbind_rel; [apply claim_rel; eauto|]. intros ? ? [b b' tk tk' Eb Et].
        eapply rbind_rel; [apply (dlookup_rel R (RL R)); eauto|]. intros old old' Eold. constructor. constructor; auto. apply dset_rel; auto. apply SL. apply RL_app; auto. apply RL_app; auto.
      Qed.
      Lemma merge_point_rel s s' i i' : RP (RL R) (RP RA RG) s s' -> R i i' -> RR (RP (RL R) (RP RA RG)) (Dbscan.merge_point setlist la lo co cl s i) (Dbscan.merge_point setlist la' lo' co' cl' s' i').
      Proof.
        intros [an an' ? ? En [a a' k k' Ea Ek]] Ei. unfold Dbscan.merge_point. rewrite (mem_rel R i i' an an') by auto. destruct (mem i' an'); [constructor; constructor; auto; constructor; auto|].
        eapply rbind_rel; [apply (dlookup_rel R (RL R)); eauto|]. intros q q' Eq. eapply rbind_rel with (R := RP RA RG).
        - assert (G : RR (RP RA RG)
            (lab <-- dlookup i la ;;; cp <-- (if Dbscan.is_noise lab then Ok (i, [i]) else if mem i (keys lo) then pts <-- dlookup i lo ;;; Ok (i, pts) else c <-- Dbscan.local_cluster_of cl a i ;;; pts <-- dlookup c lo ;;; Ok (c, pts)) ;;;
             rfold (Dbscan.merge_step setlist la lo cl i (fst cp) (snd cp)) q (a, k))
            (lab <-- dlookup i' la' ;;; cp <-- (if Dbscan.is_noise lab then Ok (i', [i']) else if mem i' (keys lo') then pts <-- dlookup i' lo' ;;; Ok (i', pts) else c <-- Dbscan.local_cluster_of cl' a' i' ;;; pts <-- dlookup c lo' ;;; Ok (c, pts)) ;;;
             rfold (Dbscan.merge_step setlist la' lo' cl' i' (fst cp) (snd cp)) q' (a', k'))).
          { eapply rbind_rel; [apply (dlookup_rel R eq); eauto|]. intros lab ? <-. eapply rbind_rel with (R := RP R (RL R)).
            - destruct (Dbscan.is_noise lab); [constructor; constructor; auto|]. rewrite (mem_rel R i i' (keys lo) (keys lo')) by (auto; eapply keys_rel; eauto).
              destruct (mem i' (keys lo')).
              + eapply rbind_rel; [apply (dlookup_rel R (RL R)); eauto|]. intros ps ps' Eps. constructor; constructor; auto.
              + eapply rbind_rel; [apply local_cluster_of_rel; eauto|]. intros w w' Ew. eapply rbind_rel; [apply (dlookup_rel R (RL R)); eauto|]. intros ps ps' Eps. constructor; constructor; auto.
            - intros ? ? [w w' ps ps' Ew Eps]. cbn [fst snd]. eapply rfold_rel; [|exact Eq|constructor; auto]. intros. apply merge_step_rel; auto. }
          destruct Eq; [constructor; constructor; auto|exact G].
        - intros st st' Est. constructor. constructor; auto. apply RL_app; auto.
      Qed.
    End Merge.

    Lemma merge_must_links_rel s s' : RP (RD R eq) RG s s' -> RR (RP (RD R RN) RG) (Dbscan.merge_must_links setlist m l s) (Dbscan.merge_must_links setlist m' l' s').
    Proof.
      intros [la la' lo lo' E1 E2]. unfold Dbscan.merge_must_links. eapply rbind_rel with (R := RG).
      { eapply rmap_rel; [|exact Rl]. intros j j' Ej. eapply rbind_rel.
        - eapply rfilter_rel; [|exact Rl]. intros i i' Ei. apply RR_eq, (inferred_eq R); auto.
        - intros c c' Ec. constructor. constructor; auto. }
      intros co co' Eco. cbv zeta.
      assert (CL : RG (map (fun j => (j, filter (fun c => match dget c lo with Some pts => mem j pts | None => false end) (keys lo))) l)
                      (map (fun j => (j, filter (fun c => match dget c lo' with Some pts => mem j pts | None => false end) (keys lo'))) l')).
      { eapply RL_map; [|exact Rl]. intros j j' Ej. constructor; auto. apply RL_filter; [|eapply keys_rel; eauto]. intros c c' Ec.
        destruct (dget_rel R (RL R) c c' lo lo' Ec E2); auto. apply (mem_rel R); auto. }
      eapply rbind_rel.
      - eapply rfold_rel; [|exact Rl|]; [intros; apply merge_point_rel; eauto|]. constructor; auto. constructor; apply dcomp_rel; auto. intros. right; auto.
      - intros ? ? []. constructor. auto.
    Qed.

    Lemma dpop_strict_rel x x' d d' : R x x' -> RG d d' -> RR RG (Dbscan.dpop_strict x d) (Dbscan.dpop_strict x' d').
    Proof.
      intros Ex Ed. unfold Dbscan.dpop_strict. rewrite (mem_rel R x x' (keys d) (keys d')) by (auto; eapply keys_rel; eauto). destruct (mem x' (keys d')); constructor. apply dpop_rel; auto.
    Qed.
    Lemma clean_rel s s' : RP (RD R RN) RG s s' -> RR RG (Dbscan.clean l s) (Dbscan.clean l' s').
    Proof.
      intros [a a' k k' Ea Ek]. unfold Dbscan.clean. eapply rbind_rel.
      - eapply rfold_rel; [|exact Rl|exact Ek]. intros b b' x x' Eb Ex. eapply rbind_rel; [apply (dlookup_rel R (RL R)); eauto|]. intros c c' Ec.
        assert (G : RR RG (o <-- dlookup x a ;;; if eqb o x then Ok b else Dbscan.dpop_strict x b) (o <-- dlookup x' a' ;;; if eqb o x' then Ok b' else Dbscan.dpop_strict x' b')).
        { eapply rbind_rel; [apply (dlookup_rel R RN); eauto|]. intros o o' Eo. rewrite (RN_id o o' x x') by auto. destruct (eqb o' x'); [constructor; auto|apply dpop_strict_rel; auto]. }
        destruct Ec; [apply dpop_strict_rel; auto|exact G].
      - intros b b' Eb. eapply rfold_rel; [|exact Rl|exact Eb]. intros e e' x x' Ee Ex. rewrite (mem_rel R x x' (keys e) (keys e')) by (auto; eapply keys_rel; eauto).
        destruct (mem x' (keys e')); [|constructor; auto]. eapply rbind_rel; [apply (dlookup_rel R (RL R)); eauto|]. intros c c' Ec. rewrite (RL_length _ _ _ Ec).
        destruct (length c' <? 2); [apply dpop_strict_rel; auto|constructor; auto].
    Qed.

    Lemma cluster_distance_rel xs xs' ys ys' : RL R xs xs' -> RL R ys ys' -> Dbscan.cluster_distance D ltb t xs ys = Dbscan.cluster_distance D ltb t' xs' ys'.
    Proof. intros Ex Ey. unfold Dbscan.cluster_distance. rewrite (tables_rel D t t' Rt _ _ (RL_prod R R _ _ _ _ Ex Ey)). auto. Qed.
    Lemma absorb_rel fuel : forall c c' lo lo', RL R c c' -> RG lo lo' -> RR (RP (RL R) RG) (Dbscan.absorb D ltb setlist p m t fuel c lo) (Dbscan.absorb D ltb setlist p m' t' fuel c' lo').
    Proof.
      induction fuel as [|fuel IH]; intros c c' lo lo' Ec Elo; cbn [Dbscan.absorb]; [constructor|].
      assert (G : RR (RP (RL R) RG)
        (ds <-- rmap (fun e => d <-- Dbscan.cluster_distance D ltb t c (snd e) ;;; Ok (fst e, d)) lo ;;; closest <-- py_min str_ltb (keys ds) ;;; d <-- dlookup closest ds ;;;
         if ltb (Dbscan.db_eps D p) d then Ok (c, lo) else pts <-- dlookup closest lo ;;; conflict <-- Dbscan.conflict m c pts ;;;
         if conflict : bool then Ok (c, lo) else Dbscan.absorb D ltb setlist p m t fuel (setlist (c ++ pts)) (dpop closest lo))
        (ds <-- rmap (fun e => d <-- Dbscan.cluster_distance D ltb t' c' (snd e) ;;; Ok (fst e, d)) lo' ;;; closest <-- py_min str_ltb (keys ds) ;;; d <-- dlookup closest ds ;;;
         if ltb (Dbscan.db_eps D p) d then Ok (c', lo') else pts <-- dlookup closest lo' ;;; conflict <-- Dbscan.conflict m' c' pts ;;;
         if conflict : bool then Ok (c', lo') else Dbscan.absorb D ltb setlist p m' t' fuel (setlist (c' ++ pts)) (dpop closest lo'))).
      { eapply rbind_rel with (R := RD R eq).
        - eapply rmap_rel; [|exact Elo]. intros ? ? [x x' y y' Ex Ey]. cbn [fst snd]. rewrite (cluster_distance_rel c c' y y') by auto.
          eapply rbind_rel with (R := eq); [apply RR_eq; auto|]. intros d ? <-. constructor. constructor; auto.
        - intros ds ds' Eds. eapply rbind_rel; [eapply RL_py_min; [|eapply keys_rel; eauto]; intros; apply (R_ltb R); auto|]. intros x x' Ex.
          eapply rbind_rel; [apply (dlookup_rel R eq); eauto|]. intros d ? <-. destruct (ltb (Dbscan.db_eps D p) d); [constructor; constructor; auto|].
          eapply rbind_rel; [apply (dlookup_rel R (RL R)); eauto|]. intros ps ps' Eps. rewrite (db_conflict_rel c c' ps ps') by auto.
          eapply rbind_rel with (R := eq); [apply RR_eq; auto|]. intros [] ? <-; [constructor; constructor; auto|]. apply IH; [apply SL, RL_app; auto|apply dpop_rel; auto]. }
      destruct Elo; [constructor; constructor; auto|exact G].
    Qed.
    Lemma merge_cannot_links_rel k k' : RG k k' -> forall lo lo', RG lo lo' -> RR (RP RG RG) (Dbscan.merge_cannot_links D ltb setlist p m t k lo) (Dbscan.merge_cannot_links D ltb setlist p m' t' k' lo').
    Proof.
      induction 1 as [|? ? k k' [x x' y y' Ex Ey] F IH]; intros lo lo' Elo; cbn [Dbscan.merge_cannot_links]; [constructor; constructor; auto|].
      rewrite (RL_length _ _ _ Elo). eapply rbind_rel; [apply absorb_rel; eauto|]. intros ? ? [c c' d d' Ec Ed]. cbn [fst snd].
      eapply rbind_rel; [apply IH; eauto|]. intros ? ? [e e' g g' Ee Eg]. constructor. cbn [fst snd]. constructor; auto. constructor; auto. constructor; auto.
    Qed.

    Lemma assign_all_rel d d' ps ps' n : RLab d d' -> RL R ps ps' -> RLab (Dbscan.assign_all d ps n) (Dbscan.assign_all d' ps' n).
    Proof. intros Ed Ep. apply (RL_fold_left R RLab); auto. intros a a' x x' Ea Ex. apply dset_rel; auto. Qed.
    Lemma final_core_rel cs cs' : RL (RL R) cs cs' -> forall s s', RP RLab eq s s' -> RP RLab eq (Dbscan.final_core cs s) (Dbscan.final_core cs' s').
    Proof. induction 1 as [|x x' cs cs' Ex F IH]; cbn [Dbscan.final_core]; auto. intros ? ? [d d' n ? Ed <-]. apply IH. cbn [fst snd]. constructor; auto. apply assign_all_rel; auto. Qed.
    Lemma final_local_rel cs cs' : RL (RL R) cs cs' -> forall s s', RP RLab eq s s' -> RP RLab eq (Dbscan.final_local D leb of_nat p cs s) (Dbscan.final_local D leb of_nat p cs' s').
    Proof.
      induction 1 as [|x x' cs cs' Ex F IH]; cbn [Dbscan.final_local]; auto. intros ? ? [d d' n ? Ed <-]. apply IH. cbn [fst snd].
      assert (FI : RL R (filter (fun x => negb (mem x (keys d))) x) (filter (fun x => negb (mem x (keys d'))) x')).
      { apply RL_filter; auto. intros y y' Ey. rewrite (mem_rel R y y' (keys d) (keys d')) by (auto; eapply keys_rel; eauto). auto. }
      rewrite (RL_length _ _ _ FI). destruct (leb _ _); constructor; auto. apply assign_all_rel; auto.
    Qed.
    Lemma final_ignored_rel d d' : RLab d d' -> RP RLab eq (Dbscan.final_ignored l d) (Dbscan.final_ignored l' d').
    Proof.
      intro Ed. unfold Dbscan.final_ignored. apply (RL_fold_left R (RP RLab eq)); auto; [|constructor; auto]. intros ? ? x x' [e e' n ? Ee <-] Ex. cbn [fst snd].
      rewrite (mem_rel R x x' (keys e) (keys e')) by (auto; eapply keys_rel; eauto). destruct (mem x' (keys e')); constructor; auto. apply dset_rel; auto.
    Qed.
  End Db.

  Section DbCluster.
    Variables vec D : Type.
    Variable pairwise : list vec -> nat -> nat -> D.
    Variables leb ltb : D -> D -> bool.
    Variable of_nat : nat -> D.
    Variable setlist : list pystr -> list pystr.
    Hypothesis SL : forall l l', RL R l l' -> RL R (setlist l) (setlist l').
    Hypothesis NN : forall x x', R x x' -> eqb x Dbscan.NONE = eqb x' Dbscan.NONE.
    Variables m m' : mgr.
    Hypothesis Rm : RMgr R m m'.
    Variables vectors vectors' : dict pystr vec.
    Hypothesis Rv : RD R eq vectors vectors'.

    Inductive RDb : Dbscan.dbscan -> Dbscan.dbscan -> Prop := RDb_mk : forall p p' a b c, RO RLab p p' -> RDb (Dbscan.mkDbscan p a b c) (Dbscan.mkDbscan p' a b c).

    Lemma dbscan_rel p nb : RM RDb RLab (Dbscan.cluster vec D pairwise leb ltb of_nat setlist p m vectors nb) (Dbscan.cluster vec D pairwise leb ltb of_nat setlist p m' vectors' nb).
    Proof.
      unfold Dbscan.cluster. eapply bind_rel; [apply lift_rel, ask_ids; eauto|]. intros l l' El. destruct nb; [apply raise_rel|].
      eapply bind_rel; [apply lift_rel, (pairwise_table_rel vec D pairwise m m' Rm vectors vectors' Rv)|]. intros t t' Et.
      eapply bind_rel with (R := eq); [apply modify_rel; intros ? ? []; constructor; constructor; auto|]. intros _ _ _.
      eapply bind_rel; [apply lift_rel, local_clusters_rel; eauto|]. intros s s' Es. eapply bind_rel; [apply lift_rel, merge_must_links_rel; eauto|]. intros g g' Eg.
      eapply bind_rel; [apply lift_rel, clean_rel; eauto|]. intros k k' Ek. eapply bind_rel; [apply lift_rel, merge_cannot_links_rel; eauto; apply (RP_snd (RD R eq) _ s s' Es)|]. intros ? ? [c c' lo lo' Ec Elo]. cbv zeta. cbn [fst snd].
      assert (RAW := final_local_rel D leb of_nat p (vals lo) (vals lo') (vals_rel R (RL R) lo lo' Elo) _ _ (final_core_rel (vals c) (vals c') (vals_rel R (RL R) c c' Ec) ([], 0%Z) ([], 0%Z) ltac:(constructor; auto))).
      eapply bind_rel; [apply lift_rel; apply (rename_rel R); apply (RP_fst RLab eq); exact RAW|]. intros d d' Ed.
      assert (V : vals d = vals d') by (apply RL_eq; eapply vals_rel; eauto). assert (FI := final_ignored_rel l l' El d d' Ed). rewrite V.
      destruct FI as [e e' n ? Ee <-]. cbn [fst snd]. eapply bind_rel with (R := eq); [apply modify_rel; constructor; constructor; auto|]. intros _ _ _. apply ret_rel; auto.
    Qed.
  End DbCluster.
End Names.
