(** * The tree built by hierarchical clustering. *)

From Coq Require Import String List Bool Arith ZArith Lia Permutation Sorted.
From Verif Require Import Base Manager Spec Closure ManagerProofs ManagerInv ManagerQueries ManagerThms
  Sampling SamplingSpec SamplingProofs SamplingThms Rename ClusterSpec RenameThms ClusterProofs KMeans KMeansSpec KMeansProofs
  Hierarchical HierSpec HierProofs.
Import ListNotations.
Open Scope nat_scope.
Open Scope py_scope.

Lemma sorted_lt_NoDup l : StronglySorted Z.lt l -> NoDup l.
Proof.
  induction 1; constructor; auto. intro J. rewrite Forall_forall in H0. specialize (H0 _ J). lia.
Qed.

Lemma ZZ_dec (x y : Z * Z) : {x = y} + {x <> y}.
Proof. decide equality; apply Z.eq_dec. Qed.

Lemma py_max_seq n : py_max_Z (map Z.of_nat (seq 0 (S n))) = Ok (Z.of_nat n).
Proof.
  cbn [seq map py_max_Z]. f_equal. assert (G : forall k j, fold_left Z.max (map Z.of_nat (seq (S j) k)) (Z.of_nat j) = Z.of_nat (j + k)).
  { induction k as [|k IH]; intro j; cbn [seq map fold_left]; [f_equal; lia|].
    rewrite Z.max_r by lia. rewrite IH. f_equal. lia. }
  exact (G n 0).
Qed.

(** The first minimum. *)
Lemma py_min_first {A} (lt : A -> A -> bool) l k y : strict_weak_order lt -> py_min lt l = Ok k -> NoDup l -> before l y k -> lt k y = true.
Proof.
  intros SW E ND (a & b & -> & K).
  assert (G : forall l best, lt (fold_left (fun best y => if lt y best then y else best) l best) best = true \/
    fold_left (fun best y => if lt y best then y else best) l best = best).
  { clear - SW. induction l as [|z l IH]; intro best; cbn [fold_left]; auto. destruct (lt z best) eqn:E; [|apply IH; auto].
    destruct (IH z) as [Q| ->]; auto. left. exact (proj1 (proj2 SW) _ _ _ Q E). }
  assert (N : forall p x q (u : list A), ~ In k (p ++ [x]) -> In k q -> forall best, fold_left (fun best y => if lt y best then y else best) (p ++ x :: q) best = k -> best <> k -> lt k x = true).
  { clear E ND a b K y. intros p x q _ NK KQ best. rewrite fold_left_app. cbn [fold_left].
    set (b1 := fold_left _ p best). intros E NB.
    assert (NB1 : b1 <> k).
    { unfold b1. clear E b1. revert best NB NK. induction p as [|z p IH]; intros best NB NK; cbn; auto. apply IH; [|intro Q; apply NK; right; auto].
      destruct (lt z best); auto. intros ->. apply NK. left; auto. }
    destruct (G q (if lt x b1 then x else b1)) as [Q|Q]; rewrite E in Q.
    - destruct (lt x b1) eqn:L; auto. destruct (proj2 (proj2 SW) _ x _ Q) as [|Q']; auto. congruence.
    - exfalso. destruct (lt x b1); [|congruence]. apply NK. apply in_or_app. right. left. auto. }
  destruct a as [|z a]; cbn [app py_min] in E; injection E as E.
  - destruct (G b y) as [Q|Q]; rewrite E in Q; auto. exfalso. rewrite Q in K. apply NoDup_cons_iff in ND as [N1 _]. auto.
  - apply (N a y b b) with (best := z); auto.
    + apply NoDup_cons_iff in ND as [_ ND']. intro Q. assert (Ak : In k a \/ y = k) by (apply in_app_or in Q as [Q|[Q|[]]]; auto).
      assert (ND2 : NoDup ((a ++ [y]) ++ b)) by (rewrite <- app_assoc; exact ND').
      apply NoDup_app_inv in ND2 as (_ & _ & DJ). apply (DJ k); auto.
    + intro Q. apply NoDup_cons_iff in ND as [N1 _]. apply N1. rewrite Q. apply in_or_app. right. right. auto.
Qed.

Lemma before_prod_l {A B} (l : list A) (l' : list B) x y a b : before l x y -> In a l' -> In b l' -> before (list_prod l l') (x, a) (y, b).
Proof.
  induction l as [|z l IH]; intros Bf Ia Ib; [destruct Bf as ([|] & ? & E & _); discriminate|]. cbn [list_prod].
  apply before_cons_inv in Bf as [[-> Y]|Bf]; [|apply before_app_r; auto].
  apply before_app_m; [apply in_map; auto|apply in_prod; auto].
Qed.
Lemma before_prod_r {A B} (l : list A) (l' : list B) x a b : In x l -> before l' a b -> before (list_prod l l') (x, a) (x, b).
Proof.
  induction l as [|z l IH]; intros Ix Bf; [destruct Ix|]. cbn [list_prod]. destruct Ix as [->|Ix]; [|apply before_app_r; auto].
  apply before_app_l. apply (before_map (pair x)); auto.
Qed.
Lemma NoDup_list_prod {A B} (l : list A) (l' : list B) : NoDup l -> NoDup l' -> NoDup (list_prod l l').
Proof.
  induction 1 as [|x l N ND IH]; intro ND'; cbn [list_prod]; [constructor|]. apply NoDup_app_intro; auto.
  - apply FinFun.Injective_map_NoDup; auto. intros u v E. congruence.
  - intros p P Q. apply in_map_iff in P as (b & <- & _). apply in_prod_iff in Q. tauto.
Qed.
Lemma before_Forall2 {A B} (l : list A) (l' : list B) (R : A -> B -> Prop) x y x' y' : Forall2 R l l' ->
  (forall c, R x c -> c = x') -> (forall c, R y c -> c = y') -> before l x y -> before l' x' y'.
Proof.
  intros F Ux Uy (a & b & -> & K). apply Forall2_app_inv_l in F as (a' & b' & _ & F & ->). inversion F as [|? c ? b0 Rx F']; subst.
  exists a', b0. rewrite (Ux c Rx). split; auto. destruct (Forall2_In_l _ _ _ y F' K) as (c' & C & Ry). rewrite <- (Uy c' Ry). auto.
Qed.

Section Run.
  Context {vec D : Type} `{EqB D}.
  Variable pairwise : list vec -> nat -> nat -> D.
  Variable cdistance : vec -> vec -> D.
  Variable ltb : D -> D -> bool.
  Variable dsum : list D -> D.
  Variable ddiv : D -> nat -> D.
  Variable inf : D.
  Variable mean : list vec -> vec.
  Variable linkage : pystr.
  Variable m : mgr.
  Variable vectors : dict pystr vec.
  Hypothesis I : Inv m.
  Hypothesis COV : forall x, In x (ids m) -> In x (keys vectors).
  Hypothesis LK : make_hierarchical linkage = Ok linkage.
  Variable table : dict pystr (dict pystr D).
  Hypothesis GT : good_ptable pairwise m vectors table.
  Notation tree := (tree vec).
  Notation forest := (forest vec D).
  Notation members := (t_members vec).
  Notation children := (t_children vec).
  Notation tid := (t_id vec).
  Notation tdist := (tree_distance vec D cdistance ltb dsum ddiv inf m linkage table).
  Notation ldist := (linkage_distance pairwise cdistance ltb dsum ddiv inf linkage m vectors).
  Notation inids := (in_ids m).
  Notation node_over := (node_over mean vectors).
  Notation centroid_ok := (centroid_ok mean vectors).

  Lemma tdist_ok t1 t2 : inids t1 -> inids t2 -> exists d, tdist t1 t2 = Ok d.
  Proof. intros G1 G2. destruct (tree_distance_run pairwise cdistance ltb dsum ddiv inf linkage m vectors I LK table t1 t2 GT G1 G2) as (d & E & _). eauto. Qed.

  (** ** Creating clusters *)
  Lemma rows_for l : incl l (ids m) -> exists rows, rmap (fun x => dlookup x vectors) l = Ok rows /\ vectors_are vectors l rows /\ length rows = length l.
  Proof.
    intro S. destruct (rmap_total (fun x => dlookup x vectors) l) as [rows R].
    { intros x X. apply dlookup_total. auto. }
    exists rows. split; auto. split; [apply dlookup_map; auto|]. eapply rmap_length; eauto.
  Qed.

  Lemma new_leaf id it l : l <> [] -> incl l (ids m) -> exists t,
    new_cluster vec mean vectors id it None (Some l) = Ok t /\
    tid t = id /\ children t = [] /\ t_iteration vec t = it /\ members t = l /\ t_depth vec t = 0 /\ centroid_ok t.
  Proof.
    intros NE S. destruct (rows_for l S) as (rows & R & V & L). unfold new_cluster. rewrite R. cbn [rbind].
    destruct rows as [|r rows]; [destruct l; [congruence|discriminate]|].
    eexists. split; [reflexivity|]. repeat split. exists (r :: rows). auto.
  Qed.

  Lemma members_flat ts : Forall inids ts -> ts <> [] -> flat_map members ts <> [] /\ incl (flat_map members ts) (ids m).
  Proof.
    intros F NE. rewrite Forall_forall in F. split.
    - destruct ts as [|t ts]; [congruence|]. destruct (F t (or_introl eq_refl)) as [N _]. simpl. destruct (members t); [congruence|discriminate].
    - intros x X. apply in_flat_map in X as (t & T & X). apply (F t T); auto.
  Qed.

  Lemma new_node id it ts : Forall inids ts -> ts <> [] -> exists t,
    new_cluster vec mean vectors id it (Some ts) None = Ok t /\
    tid t = id /\ children t = ts /\ t_iteration vec t = it /\ members t = flat_map members ts /\
    t_depth vec t = S (list_max (map (t_depth vec) ts)) /\ centroid_ok t.
  Proof.
    intros F NE. destruct (members_flat ts F NE) as [N S]. destruct (rows_for _ S) as (rows & R & V & L).
    unfold new_cluster. rewrite R. cbn [rbind].
    destruct rows as [|r rows]; [destruct (flat_map members ts); [congruence|discriminate]|].
    destruct ts as [|t0 ts]; [congruence|].
    eexists. split; [reflexivity|]. repeat split; cbn [t_depth]; [lia|]. exists (r :: rows). auto.
  Qed.

  (** ** Forests *)
  Record finv (f : forest) (ts : list tree) : Prop := {
    fi_current : f_current vec D f = map tid ts;
    fi_sorted : StronglySorted Z.lt (map tid ts);
    fi_storage : forall t, In t ts -> dget (tid t) (f_storage vec D f) = Some t;
    fi_ids : Forall inids ts;
    fi_top : forall k, In k (keys (f_storage vec D f)) -> exists u, In u ts /\ (k <= tid u)%Z }.

  Definition dinv (f : forest) (ts : list tree) : Prop :=
    forall t1 t2, before ts t1 t2 -> get_distance D (f_distance vec D f) (tid t1) (tid t2) = tdist t1 t2.

  Lemma before_lt ts t1 t2 : StronglySorted Z.lt (map tid ts) -> before ts t1 t2 -> (tid t1 < tid t2)%Z.
  Proof. intros S B. apply (proj1 (StronglySorted_before_iff _ _) S). apply before_map; auto. Qed.

  Lemma tid_inj ts t1 t2 : StronglySorted Z.lt (map tid ts) -> In t1 ts -> In t2 ts -> tid t1 = tid t2 -> t1 = t2.
  Proof.
    intros S. apply sorted_lt_NoDup in S. induction ts as [|t ts IH]; simpl; [tauto|]. simpl in S. inversion S; subst.
    intros [<-|T1] [<-|T2] E; auto.
    - exfalso. apply H2. rewrite E. apply in_map; auto.
    - exfalso. apply H2. rewrite <- E. apply in_map; auto.
  Qed.

  (** Pairs of current clusters. *)
  Lemma current_pairs ts : StronglySorted Z.lt (map tid ts) -> forall p,
    In p (filter (fun p => Z.ltb (fst p) (snd p)) (list_prod (map tid ts) (map tid ts))) <->
    exists t1 t2, before ts t1 t2 /\ p = (tid t1, tid t2).
  Proof.
    intros S [a b]. rewrite filter_In, in_prod_iff. cbn [fst snd]. rewrite Z.ltb_lt. split.
    - intros [[A B] L]. apply in_map_iff in A as (t1 & <- & A). apply in_map_iff in B as (t2 & <- & B).
      exists t1, t2. split; auto. destruct (before_total ts t1 t2 A B) as [|Q]; auto.
      + intros ->. lia.
      + apply before_lt in Q; auto. lia.
    - intros (t1 & t2 & B & E). injection E as -> ->. destruct (before_In _ _ _ B). split; [split; apply in_map; auto|].
      eapply before_lt; eauto.
  Qed.

  Lemma get_set_distance d i j v a b : (i < j)%Z -> (a < b)%Z ->
    get_distance D (set_distance D d i j v) a b = if (Z.eqb a i && Z.eqb b j)%bool then Ok v else get_distance D d a b.
  Proof.
    intros L1 L2. unfold get_distance, set_distance. rewrite (Z.min_l i j), (Z.max_r i j), (Z.min_l a b), (Z.max_r a b) by lia.
    unfold dlookup at 1 3. rewrite dget_dset.
    destruct (Z.eqb_spec a i) as [->|N]; cbn [andb].
    - rewrite eqb_refl. cbn [rbind]. unfold dlookup. rewrite dget_dset. destruct (Z.eqb_spec b j) as [->|N2].
      + rewrite eqb_refl. auto.
      + replace (eqb b j) with false by (symmetry; apply eqb_neq; auto). destruct (dget i d) as [row|] eqn:E; cbn [rbind]; auto.
    - replace (eqb a i) with false by (symmetry; apply eqb_neq; auto). reflexivity.
  Qed.

  Lemma update_fold ts pairs : StronglySorted Z.lt (map tid ts) -> Forall inids ts ->
    (forall p, In p pairs -> exists t1 t2, before ts t1 t2 /\ p = (tid t1, tid t2)) ->
    forall f, (forall t, In t ts -> dget (tid t) (f_storage vec D f) = Some t) ->
    exists f', rfold (update_distance vec D cdistance ltb dsum ddiv inf m linkage table) pairs f = Ok f' /\
      f_current vec D f' = f_current vec D f /\ f_storage vec D f' = f_storage vec D f /\
      forall t1 t2, before ts t1 t2 ->
        (In (tid t1, tid t2) pairs -> get_distance D (f_distance vec D f') (tid t1) (tid t2) = tdist t1 t2) /\
        (~ In (tid t1, tid t2) pairs -> get_distance D (f_distance vec D f') (tid t1) (tid t2) = get_distance D (f_distance vec D f) (tid t1) (tid t2)).
  Proof.
    intros S FI. rewrite Forall_forall in FI. induction pairs as [|p pairs IH]; intros PP f ST; simpl.
    - exists f. repeat split; tauto.
    - destruct (PP p (or_introl eq_refl)) as (u1 & u2 & B & ->). destruct (before_In _ _ _ B) as [U1 U2].
      unfold update_distance at 1, compute_distance. cbn [fst snd]. unfold dlookup at 1 2. rewrite (ST u1 U1), (ST u2 U2). cbn [rbind].
      destruct (tdist_ok u1 u2 (FI u1 U1) (FI u2 U2)) as [d Ed]. rewrite Ed. cbn [rbind].
      set (f1 := mkForest vec D (f_current vec D f) (f_storage vec D f) (set_distance D (f_distance vec D f) (tid u1) (tid u2) d)).
      destruct (IH (fun p P => PP p (or_intror P)) f1 ST) as (f' & R & C & St & G). exists f'. split; auto. split; auto. split; auto.
      intros t1 t2 B12. destruct (G t1 t2 B12) as [G1 G2]. destruct (before_In _ _ _ B12) as [T1 T2].
      assert (GS : get_distance D (f_distance vec D f1) (tid t1) (tid t2) =
                   if (Z.eqb (tid t1) (tid u1) && Z.eqb (tid t2) (tid u2))%bool then Ok d else get_distance D (f_distance vec D f) (tid t1) (tid t2)).
      { apply get_set_distance; eapply before_lt; eauto. }
      destruct (in_dec ZZ_dec (tid t1, tid t2) pairs) as [J|J].
      + split; [auto|]. intro N. tauto.
      + rewrite G2, GS by auto. split.
        * intros [E|E]; [|tauto]. injection E as E1 E2. rewrite <- E1, <- E2, !Z.eqb_refl. cbn [andb].
          rewrite (tid_inj ts t1 u1 S T1 U1), (tid_inj ts t2 u2 S T2 U2); auto.
        * intro N. destruct (Z.eqb_spec (tid t1) (tid u1)) as [E1|]; auto. destruct (Z.eqb_spec (tid t2) (tid u2)) as [E2|]; auto.
          exfalso. apply N. left. congruence.
  Qed.

  (** ** Merging *)
  Lemma py_max_Z_In l mx : py_max_Z l = Ok mx -> In mx l.
  Proof.
    destruct l as [|x l]; [discriminate|]. cbn [py_max_Z]. intro E. injection E as <-.
    assert (G : forall l x, fold_left Z.max l x = x \/ In (fold_left Z.max l x) l).
    { clear. induction l as [|y l IH]; intro x; cbn [fold_left]; auto. destruct (IH (Z.max x y)) as [E|E]; [|right; right; auto].
      rewrite E. destruct (Z.max_spec x y) as [[_ ->]|[_ ->]]; [right; left|left]; auto. }
    destruct (G l x) as [E|E]; [left|right]; auto.
  Qed.
  Lemma new_ID_above (f : forest) ts t : finv f ts -> In t ts ->
    exists mx, py_max_Z (keys (f_storage vec D f)) = Ok mx /\ (forall u, In u ts -> (tid u < mx + 1)%Z) /\ exists u, In u ts /\ mx = tid u.
  Proof.
    intros F T. assert (NE : keys (f_storage vec D f) <> []).
    { assert (K := fi_storage _ _ F t T). apply dget_Some_key in K. intro E0. rewrite E0 in K. destruct K. }
    destruct (py_max_Z_spec (keys (f_storage vec D f)) NE) as (mx & E & G).
    exists mx. split; auto.
    assert (UP : forall u, In u ts -> (tid u <= mx)%Z) by (intros u U; assert (K := fi_storage _ _ F u U); apply dget_Some_key in K; apply G in K; lia).
    split; [intros u U; specialize (UP u U); lia|].
    destruct (fi_top _ _ F mx) as (u & U & L); [apply py_max_Z_In; auto|]. exists u. split; auto. specialize (UP u U). lia.
  Qed.

  Lemma rmap_storage f ts l : finv f ts -> incl l ts -> rmap (fun c => dlookup c (f_storage vec D f)) (map tid l) = Ok l.
  Proof.
    intros F. induction l as [|t l IH]; intro S; simpl; auto. unfold dlookup at 1.
    rewrite (fi_storage _ _ F t) by (apply S; left; auto). cbn [rbind]. rewrite IH; auto. intros x X. apply S. right; auto.
  Qed.

  Lemma sorted_mid (l1 l2 : list Z) x : StronglySorted Z.lt (l1 ++ x :: l2) -> StronglySorted Z.lt (l1 ++ l2).
  Proof.
    induction l1 as [|y l1 IH]; simpl; intro S; inversion S; subst; auto. constructor; auto.
    apply Forall_app in H3 as [F1 F2]. inversion F2; subst. apply Forall_app; auto.
  Qed.

  Lemma add_new f ts ts' t : finv f ts -> (forall u, In u ts' -> In u ts) -> StronglySorted Z.lt (map tid ts') ->
    (forall u, In u ts -> (tid u < tid t)%Z) -> inids t ->
    finv (mkForest vec D (map tid ts' ++ [tid t]) (dset (tid t) t (f_storage vec D f)) (f_distance vec D f)) (ts' ++ [t]).
  Proof.
    intros F S SS UP T. constructor; cbn [f_current f_storage].
    - rewrite map_app. auto.
    - rewrite map_app. apply StronglySorted_app; auto. intros y Y. apply in_map_iff in Y as (u & <- & U). auto.
    - intros u U. apply in_app_or in U as [U|[<-|[]]]; [|apply dget_dset_same].
      rewrite dget_dset_other; [apply (fi_storage _ _ F); auto|]. specialize (UP u (S u U)). lia.
    - apply Forall_app. split; [|constructor; auto]. apply Forall_forall. intros u U.
      assert (FF := fi_ids _ _ F). rewrite Forall_forall in FF. auto.
    - intros k K. exists t. split; [apply in_or_app; right; left; auto|]. apply In_keys_dset in K. destruct K as [->|K]; [lia|].
      destruct (fi_top _ _ F k K) as (u & U & L). specialize (UP u U). lia.
  Qed.

  Lemma merge_two f it l1 t1 l2 t2 l3 : finv f (l1 ++ t1 :: l2 ++ t2 :: l3) -> exists f' t,
    add_by_merging vec D mean vectors it f [tid t1; tid t2] = Ok (f', tid t) /\
    finv f' (l1 ++ l2 ++ l3 ++ [t]) /\ node_over it (l1 ++ t1 :: l2 ++ t2 :: l3) [t1; t2] t /\
    f_distance vec D f' = f_distance vec D f.
  Proof.
    intro F. set (ts := l1 ++ t1 :: l2 ++ t2 :: l3) in *.
    assert (T1 : In t1 ts) by (apply in_elt). assert (T2 : In t2 ts) by (apply in_or_app; right; right; apply in_elt).
    assert (FF := fi_ids _ _ F). assert (FA := proj1 (Forall_forall _ _) FF).
    destruct (new_ID_above f ts t1 F T1) as (mx & EM & UP & u0 & U0 & Eu0).
    destruct (new_node (mx + 1) it [t1; t2]) as (t & ET & Eid & Ech & Eit & Eme & Edp & Ece); [auto|discriminate|].
    assert (SS := fi_sorted _ _ F). unfold ts in SS. rewrite map_app in SS. cbn [map] in SS. rewrite map_app in SS. cbn [map] in SS.
    assert (ND := sorted_lt_NoDup _ SS).
    exists (mkForest vec D (map tid (l1 ++ l2 ++ l3) ++ [tid t]) (dset (tid t) t (f_storage vec D f)) (f_distance vec D f)), t.
    assert (RM : rfold remove_strict [tid t1; tid t2] (f_current vec D f) = Ok (map tid (l1 ++ l2 ++ l3))).
    { rewrite (fi_current _ _ F). unfold ts. rewrite !map_app. cbn [map]. rewrite map_app. cbn [map rfold]. unfold remove_strict.
      replace (mem (tid t1) (map tid l1 ++ tid t1 :: map tid l2 ++ tid t2 :: map tid l3)) with true
        by (symmetry; apply mem_In, in_elt). cbn [rbind].
      rewrite list_remove_mid by (intro Q; apply NoDup_remove_2 in ND; apply ND, in_or_app; auto).
      apply NoDup_remove_1 in ND. rewrite app_assoc in ND |- *.
      replace (mem (tid t2) ((map tid l1 ++ map tid l2) ++ tid t2 :: map tid l3)) with true
        by (symmetry; apply mem_In, in_elt). cbn [rbind].
      rewrite list_remove_mid by (intro Q; apply NoDup_remove_2 in ND; apply ND, in_or_app; auto).
      rewrite <- app_assoc. auto. }
    split; [|split; [|split]].
    - unfold add_by_merging. rewrite RM. cbn [rbind]. rewrite EM. cbn [rbind].
      change [tid t1; tid t2] with (map tid [t1; t2]). rewrite (rmap_storage f ts) by (auto; intros x [<-|[<-|[]]]; auto).
      cbn [rbind]. rewrite ET. cbn [rbind]. rewrite Eid. auto.
    - replace (l1 ++ l2 ++ l3 ++ [t]) with ((l1 ++ l2 ++ l3) ++ [t]) by (rewrite <- !app_assoc; auto).
      apply (add_new f ts); auto.
      + intros u U. unfold ts. rewrite !in_app_iff in U. rewrite in_app_iff. cbn [In]. rewrite in_app_iff. cbn [In]. tauto.
      + apply sorted_mid in SS. rewrite app_assoc in SS. apply sorted_mid in SS. rewrite <- app_assoc in SS. rewrite !map_app. auto.
      + intros u U. rewrite Eid. auto.
      + unfold in_ids. rewrite Eme. apply members_flat; auto. discriminate.
    - repeat split; auto; [|intros u U; rewrite Eid; auto]. exists u0. split; auto. lia.
    - reflexivity.
  Qed.

  Lemma remove_all l : rfold remove_strict l l = Ok [].
  Proof.
    enough (G : forall l, rfold remove_strict l l = Ok []) by apply G. clear l.
    induction l as [|x l IH]; cbn [rfold]; auto. unfold remove_strict at 1. cbn [mem]. rewrite eqb_refl. cbn [orb rbind list_remove].
    rewrite eqb_refl. exact IH.
  Qed.

  Lemma merge_all f it ts : finv f ts -> ts <> [] -> exists f' t,
    add_by_merging vec D mean vectors it f (f_current vec D f) = Ok (f', tid t) /\
    f_current vec D f' = [tid t] /\ dget (tid t) (f_storage vec D f') = Some t /\ node_over it ts ts t.
  Proof.
    intros F NE. assert (FF := fi_ids _ _ F).
    destruct ts as [|t0 ts0]; [congruence|]. destruct (new_ID_above f _ t0 F (or_introl eq_refl)) as (mx & EM & UP & u0 & U0 & Eu0).
    set (ts := t0 :: ts0) in *.
    destruct (new_node (mx + 1) it ts FF NE) as (t & ET & Eid & Ech & Eit & Eme & Edp & Ece).
    exists (mkForest vec D [tid t] (dset (tid t) t (f_storage vec D f)) (f_distance vec D f)), t.
    split; [|split; [|split]]; cbn [f_current f_storage]; auto.
    - unfold add_by_merging. rewrite remove_all. cbn [rbind]. rewrite EM. cbn [rbind]. rewrite (fi_current _ _ F).
      rewrite (rmap_storage f ts) by (auto; apply incl_refl). cbn [rbind]. rewrite ET. cbn [rbind]. rewrite Eid. auto.
    - apply dget_dset_same.
    - repeat split; auto; [|intros u U; rewrite Eid; auto]. exists u0. split; auto. lia.
  Qed.

  (** ** The pair that is merged *)
  Notation size t := (length (members t)).
  Definition chosen (ts : list tree) (t1 t2 : tree) : Prop :=
    before ts t1 t2 /\ exists d, tdist t1 t2 = Ok d /\ d <> inf /\
      (strict_total_order ltb -> forall u1 u2 d', before ts u1 u2 -> tdist u1 u2 = Ok d' ->
         ltb d' d = false /\ (d' = d -> size t1 + size t2 <= size u1 + size u2) /\
         (before ts u1 t1 \/ (u1 = t1 /\ before ts u2 t2) -> d' = d -> size t1 + size t2 < size u1 + size u2)).
  Definition exhausted (ts : list tree) : Prop :=
    (strict_total_order ltb -> forall t1 t2 d, before ts t1 t2 -> tdist t1 t2 = Ok d -> ltb d inf = false) /\
    exists t1 t2, before ts t1 t2 /\ tdist t1 t2 = Ok inf.

  Lemma closer_spec (x y : Z * Z * D * nat) : (forall d, ltb d d = false) ->
    closer D ltb x y = true <-> ltb (snd (fst x)) (snd (fst y)) = true \/ (snd (fst x) = snd (fst y) /\ snd x < snd y).
  Proof.
    intro Ir. unfold closer. destruct (eqb_spec (snd (fst x)) (snd (fst y))) as [E|N].
    - rewrite Nat.ltb_lt, E, Ir. split; [auto|]. intros [Q|[]]; [discriminate|auto].
    - split; [auto|]. intros [Q|[]]; [auto|tauto].
  Qed.

  Lemma closer_swo : strict_total_order ltb -> strict_weak_order (closer D ltb).
  Proof.
    intros [(Ir & Tr & W) TO]. split; [|split].
    - intro x. destruct (closer D ltb x x) eqn:E; auto. apply closer_spec in E; auto. destruct E as [E|[_ E]]; [rewrite Ir in E; discriminate|lia].
    - intros x y z. rewrite !closer_spec by auto. intros [E1|[E1 L1]] [E2|[E2 L2]].
      + left. eauto.
      + left. congruence.
      + left. congruence.
      + right. split; [congruence|lia].
    - intros x y z. rewrite !closer_spec by auto. intros [E|[E L]].
      + destruct (W _ (snd (fst y)) _ E); auto.
      + destruct (ltb (snd (fst x)) (snd (fst y))) eqn:E1; auto. destruct (ltb (snd (fst y)) (snd (fst z))) eqn:E2; auto.
        assert (snd (fst x) = snd (fst y)) by (apply TO; congruence).
        destruct (Nat.lt_ge_cases (snd x) (snd y)); auto. right. right. split; [congruence|lia].
  Qed.

  Lemma two_closest_run f ts : finv f ts -> dinv f ts -> 2 <= length ts ->
    (two_closest vec D ltb inf f = Ok None /\ exhausted ts) \/
    exists t1 t2, two_closest vec D ltb inf f = Ok (Some (tid t1, tid t2)) /\ chosen ts t1 t2.
  Proof.
    intros F DI L. unfold two_closest. rewrite (fi_current _ _ F). assert (SS := fi_sorted _ _ F).
    assert (FA := proj1 (Forall_forall _ _) (fi_ids _ _ F)).
    set (pairs := filter (fun p => (fst p <? snd p)%Z) (list_prod (map tid ts) (map tid ts))).
    assert (PS := current_pairs ts SS : forall p, In p pairs <-> _).
    set (body := fun p : Z * Z => _ : res (Z * Z * D * nat)).
    assert (BD : forall t1 t2, before ts t1 t2 -> exists d, tdist t1 t2 = Ok d /\ body (tid t1, tid t2) = Ok (tid t1, tid t2, d, size t1 + size t2)).
    { intros t1 t2 B. destruct (before_In _ _ _ B) as [T1 T2]. destruct (tdist_ok t1 t2 (FA _ T1) (FA _ T2)) as [d Ed].
      exists d. split; auto. unfold body. cbn [fst snd]. rewrite (DI t1 t2 B), Ed. cbn [rbind]. unfold dlookup.
      rewrite (fi_storage _ _ F t1 T1), (fi_storage _ _ F t2 T2). reflexivity. }
    destruct (rmap_total2 body pairs) as (cs & R & F2).
    { intros p P. apply PS in P as (t1 & t2 & B & ->). destruct (BD t1 t2 B) as (d & _ & E). eauto. }
    change (rmap _ pairs) with (rmap body pairs). rewrite R. cbn [rbind].
    assert (CS : forall c, In c cs -> exists t1 t2 d, before ts t1 t2 /\ tdist t1 t2 = Ok d /\ c = (tid t1, tid t2, d, size t1 + size t2)).
    { intros c Cc. destruct (Forall2_In_r _ _ _ _ F2 Cc) as (p & P & E). apply PS in P as (t1 & t2 & B & ->).
      destruct (BD t1 t2 B) as (d & Ed & E'). exists t1, t2, d. rewrite E in E'. injection E' as ->. auto. }
    assert (CA : forall t1 t2 d, before ts t1 t2 -> tdist t1 t2 = Ok d -> In (tid t1, tid t2, d, size t1 + size t2) cs).
    { intros t1 t2 d B Ed. destruct (Forall2_In_l _ _ _ (tid t1, tid t2) F2) as (c & Cc & E).
      - apply PS. eauto.
      - destruct (BD t1 t2 B) as (d' & Ed' & E'). rewrite Ed in Ed'. injection Ed' as <-. rewrite E in E'. injection E' as ->. auto. }
    assert (NDC : NoDup cs).
    { apply (NoDup_map_inv (fun c => fst (fst c))). replace (map (fun c => fst (fst c)) cs) with pairs.
      - apply NoDup_filter. apply sorted_lt_NoDup in SS. apply NoDup_list_prod; auto.
      - clear - F2 PS BD. assert (PS' := fun p P => proj1 (PS p) P). clear PS. revert PS'. induction F2 as [|p c ps cs' E F2' IHF]; intro PS'; auto. cbn [map]. f_equal.
        + destruct (PS' p (or_introl eq_refl)) as (u1 & u2 & Bu & ->). destruct (BD u1 u2 Bu) as (d & _ & E'). rewrite E in E'. injection E' as ->. reflexivity.
        + apply IHF. intros q Q. apply PS'. right; auto. }
    destruct (py_min_In (closer D ltb) cs) as (best & EB & IB).
    { intro E0. destruct ts as [|t1 [|t2 ts']]; simpl in L; [lia|lia|]. assert (B : before (t1 :: t2 :: ts') t1 t2) by (apply before_head; left; auto).
      destruct (BD t1 t2 B) as (d & Ed & _). specialize (CA t1 t2 d B Ed). rewrite E0 in CA. destruct CA. }
    rewrite EB. cbn [rbind]. destruct (CS best IB) as (t1 & t2 & d & B & Ed & ->). cbn [fst snd].
    assert (OPT : strict_total_order ltb -> forall u1 u2 d', before ts u1 u2 -> tdist u1 u2 = Ok d' ->
         ltb d' d = false /\ (d' = d -> size t1 + size t2 <= size u1 + size u2) /\
         (before ts u1 t1 \/ (u1 = t1 /\ before ts u2 t2) -> d' = d -> size t1 + size t2 < size u1 + size u2)).
    { intros TO u1 u2 d' Bu Eu.
      assert (FST : before ts u1 t1 \/ (u1 = t1 /\ before ts u2 t2) -> closer D ltb (tid t1, tid t2, d, size t1 + size t2) (tid u1, tid u2, d', size u1 + size u2) = true).
      { intro Bf. apply (py_min_first _ cs _ _ (closer_swo TO) EB NDC). apply (before_Forall2 pairs cs (fun p c => body p = Ok c) (tid u1, tid u2) (tid t1, tid t2)).
        - exact F2.
        - destruct (BD u1 u2 Bu) as (d1 & Ed1 & E1). rewrite Eu in Ed1. injection Ed1 as <-. intros c Q. rewrite E1 in Q. injection Q as <-. auto.
        - destruct (BD t1 t2 B) as (d1 & Ed1 & E1). rewrite Ed in Ed1. injection Ed1 as <-. intros c Q. rewrite E1 in Q. injection Q as <-. auto.
        - apply SamplingProofs.before_filter; [|cbn [fst snd]; apply Z.ltb_lt; eapply before_lt; eauto|cbn [fst snd]; apply Z.ltb_lt; eapply before_lt; eauto].
          destruct (before_In _ _ _ Bu) as [U1 U2]. destruct (before_In _ _ _ B) as [T1 T2]. destruct Bf as [Bf|[-> Bf]].
          + apply before_prod_l; [apply before_map; auto|apply in_map; auto|apply in_map; auto].
          + apply before_prod_r; [apply in_map; auto|apply before_map; auto]. } assert (Ls := py_min_least _ cs _ (closer_swo TO) EB _ (CA u1 u2 d' Bu Eu)).
      assert (Ir := proj1 (proj1 TO)).
      assert (Q : ~ (ltb d' d = true \/ (d' = d /\ size u1 + size u2 < size t1 + size t2))).
      { intro Q. assert (Q' := proj2 (closer_spec (tid u1, tid u2, d', size u1 + size u2) (tid t1, tid t2, d, size t1 + size t2) Ir) Q).
        congruence. }
      split; [destruct (ltb d' d); [exfalso; auto|auto]|]. split.
      - intros ->. destruct (Nat.lt_ge_cases (size u1 + size u2) (size t1 + size t2)); [exfalso; auto|auto].
      - intros Bf ->. apply FST in Bf. apply closer_spec in Bf; auto. cbn [fst snd] in Bf. destruct Bf as [Bf|[_ Bf]]; [rewrite Ir in Bf; discriminate|auto]. }
    destruct (eqb_spec d inf) as [->|N].
    - left. split; auto. split; [intros TO u1 u2 d' Bu Eu; apply (OPT TO u1 u2 d' Bu Eu)|]. eauto.
    - right. exists t1, t2. split; auto. split; auto. exists d. auto.
  Qed.

  (** ** The loop *)
  Notation agg := (agglomerates mean vectors chosen exhausted).

  Lemma merge_loop_run fuel : forall f ts it, finv f ts -> dinv f ts -> ts <> [] -> length ts <= S fuel ->
    exists f' ts' it', merge_loop vec D cdistance ltb dsum ddiv inf mean fuel m linkage table vectors it f = Ok (f', it') /\
      finv f' ts' /\ ts' <> [] /\ (length ts' = 1 \/ exhausted ts') /\
      forall root, agg it' ts' root -> agg it ts root.
  Proof.
    induction fuel as [|fuel IH]; intros f ts it F DI NE L.
    - exists f, ts, it. cbn [merge_loop]. rewrite (fi_current _ _ F), map_length.
      destruct ts as [|t [|]]; simpl in L; [congruence| |lia]. simpl. split; [auto|]. split; [auto|]. split; [discriminate|]. auto.
    - cbn [merge_loop]. rewrite (fi_current _ _ F), map_length. destruct (Nat.leb_spec (length ts) 1) as [L1|L1].
      + exists f, ts, it. split; [auto|]. split; [auto|]. split; [auto|]. split; [|auto]. left. destruct ts as [|t [|]]; simpl in *; [congruence|auto|lia].
      + destruct (two_closest_run f ts F DI L1) as [[E X]|(t1 & t2 & E & Ch)]; rewrite E; cbn [rbind].
        { exists f, ts, it. split; [auto|]. split; [auto|]. split; [auto|]. auto. }
        destruct (before_dec_split _ _ _ (proj1 Ch)) as (l1 & l2 & l3 & Ets). subst ts.
        destruct (merge_two f it l1 t1 l2 t2 l3 F) as (f1 & t & EM & F1 & NO & ED). rewrite EM. cbn [rbind].
        set (ts1 := l1 ++ l2 ++ l3 ++ [t]) in *.
        assert (SS1 := fi_sorted _ _ F1). assert (ND1 := sorted_lt_NoDup _ SS1).
        assert (E1 : ts1 = (l1 ++ l2 ++ l3) ++ [t]) by (unfold ts1; rewrite <- !app_assoc; auto).
        set (rest := l1 ++ l2 ++ l3) in *.
        assert (NT : forall u, In u rest -> tid u <> tid t).
        { intros u U EQ. assert (B : before ts1 u t) by (rewrite E1; apply before_app_m; [auto|left; auto]).
          apply before_lt in B; auto. lia. }
        assert (FC : filter (fun c => negb (c =? tid t)%Z) (f_current vec D f1) = map tid rest).
        { rewrite (fi_current _ _ F1), E1, map_app, filter_app. cbn [map filter]. rewrite Z.eqb_refl. cbn [negb]. rewrite app_nil_r.
          apply filter_all. intros c Cc. apply in_map_iff in Cc as (u & <- & U). apply negb_true_iff, Z.eqb_neq. auto. }
        rewrite FC.
        destruct (update_fold ts1 (map (fun c => (c, tid t)) (map tid rest)) SS1 (fi_ids _ _ F1)) with (f := f1) as (f2 & EU & C2 & S2 & G2).
        { intros p P. apply in_map_iff in P as (c & <- & Cc). apply in_map_iff in Cc as (u & <- & U). exists u, t. split; auto.
          rewrite E1. apply before_app_m; [auto|left; auto]. }
        { apply (fi_storage _ _ F1). }
        rewrite EU. cbn [rbind].
        assert (F2 : finv f2 ts1).
        { constructor; [rewrite C2; apply F1|auto|rewrite S2; apply F1|apply F1|rewrite S2; apply F1]. }
        assert (D2 : dinv f2 ts1).
        { intros u1 u2 B. destruct (G2 u1 u2 B) as [Gin Gout]. rewrite E1 in B. apply before_app_inv in B as [B|[B|[U1 [<-|[]]]]].
          - destruct (before_In _ _ _ B) as [U1 U2].
            rewrite Gout; [rewrite ED; apply DI|].
            + unfold rest in B. clear - B. apply before_app_inv in B as [B|[B|[A B]]].
              * apply before_app_l. auto.
              * apply before_app_r, before_cons. apply before_app_inv in B as [B|[B|[A B]]].
                -- apply before_app_l; auto.
                -- apply before_app_r, before_cons. auto.
                -- apply before_app_m; [auto|right; auto].
              * apply before_app_m; auto. apply in_app_or in B as [B|B]; right; apply in_or_app; [auto|right; right; auto].
            + intro Q. apply in_map_iff in Q as (c & Ec & _). injection Ec as _ Ec. apply (NT u2 U2). congruence.
          - exfalso. destruct B as (x1 & x2 & E0 & J). destruct x1 as [|? [|]]; try discriminate. injection E0 as _ E0. subst x2. destruct J.
          - apply Gin. apply in_map_iff. exists (tid u1). split; auto. apply in_map; auto. }
        destruct (IH f2 ts1 (S it) F2 D2) as (f' & ts' & it' & R & F' & NE' & Q & K).
        { rewrite E1. destruct rest; discriminate. }
        { rewrite E1. unfold rest. rewrite !app_length in *. cbn [length] in *. rewrite app_length in L. cbn [length] in L. lia. }
        exists f', ts', it'. split; [auto|]. split; [auto|]. split; [auto|]. split; [auto|]. intros root A. eapply ag_merge; eauto.
  Qed.

  (** ** The starting clusters *)
  Lemma add_leaf f ts component : finv f ts -> keys (f_storage vec D f) = map tid ts ->
    map tid ts = map Z.of_nat (seq 0 (length ts)) -> component <> [] -> incl component (ids m) ->
    exists f' t, add_by_members vec D mean vectors 0 f component = Ok f' /\ leaf_over mean vectors component t /\
      finv f' (ts ++ [t]) /\ keys (f_storage vec D f') = map tid (ts ++ [t]) /\
      map tid (ts ++ [t]) = map Z.of_nat (seq 0 (length (ts ++ [t]))).
  Proof.
    intros F K E NE IC. unfold add_by_members.
    set (new := match f_storage vec D f with [] => _ | _ => _ end).
    assert (EN : new = Ok (Z.of_nat (length ts))).
    { unfold new. destruct (f_storage vec D f) as [|e st] eqn:ES.
      - destruct ts; [reflexivity|discriminate].
      - rewrite <- ES in *. rewrite K, E. assert (LN : 0 < length ts).
        { assert (K' := K). rewrite ES in K'. destruct ts; [discriminate|simpl; lia]. }
        destruct (length ts) as [|n]; [lia|]. rewrite py_max_seq. cbn [rbind]. f_equal. lia. }
    rewrite EN. cbn [rbind].
    destruct (new_leaf (Z.of_nat (length ts)) 0 component NE IC) as (t & ET & Eid & Ech & Eit & Eme & Edp & Ece).
    rewrite ET. cbn [rbind]. exists (mkForest vec D (f_current vec D f ++ [tid t]) (dset (tid t) t (f_storage vec D f)) (f_distance vec D f)), t.
    assert (UP : forall u, In u ts -> (tid u < tid t)%Z).
    { intros u U. rewrite Eid. assert (J : In (tid u) (map tid ts)) by (apply in_map; auto). rewrite E in J.
      apply in_map_iff in J as (k & <- & J). apply in_seq in J. lia. }
    split; [rewrite Eid; auto|]. split; [repeat split; auto|]. split; [|split].
    - rewrite (fi_current _ _ F). apply (add_new f ts); auto.
      + apply (fi_sorted _ _ F).
      + unfold in_ids. rewrite Eme. auto.
    - cbn [f_storage]. rewrite keys_dset_out; [rewrite K, map_app; auto|]. rewrite K. intro J. apply in_map_iff in J as (u & EQ & U).
      specialize (UP u U). lia.
    - rewrite map_app, E, app_length. cbn [length map]. rewrite Nat.add_1_r, seq_S, map_app. cbn [map]. rewrite Eid. auto.
  Qed.

  Lemma add_leaves comps' : forall f ts, finv f ts -> keys (f_storage vec D f) = map tid ts ->
    map tid ts = map Z.of_nat (seq 0 (length ts)) -> (forall c, In c comps' -> c <> [] /\ incl c (ids m)) ->
    exists f' ts', rfold (add_by_members vec D mean vectors 0) comps' f = Ok f' /\ Forall2 (leaf_over mean vectors) comps' ts' /\
      finv f' (ts ++ ts') /\ map tid (ts ++ ts') = map Z.of_nat (seq 0 (length (ts ++ ts'))).
  Proof.
    induction comps' as [|c cs IH]; intros f ts F K E CC; cbn [rfold].
    - exists f, []. rewrite app_nil_r. auto.
    - destruct (CC c (or_introl eq_refl)) as [NE IC].
      destruct (add_leaf f ts c F K E NE IC) as (f1 & t & E1 & LO & F1 & K1 & S1). rewrite E1. cbn [rbind].
      destruct (IH f1 (ts ++ [t]) F1 K1 S1) as (f2 & ts2 & E2 & LO2 & F2 & S2); [intros; apply CC; right; auto|].
      exists f2, (t :: ts2). rewrite <- app_assoc in F2, S2. auto.
  Qed.

  Lemma comps_good c : In c (comps m) -> c <> [] /\ incl c (ids m).
  Proof.
    intro J. split.
    - apply comps_In in J as (x & X & ->). intro E. assert (S := self_comp m x I X). rewrite E in S. destruct S.
    - intros x X. apply (Permutation_in x (comps_permutation m I)). apply in_concat. eauto.
  Qed.

  (** ** The tree *)
  Lemma build_tree_agg : ids m <> [] -> exists root ts,
    build_tree vec D cdistance ltb dsum ddiv inf mean m linkage vectors table = Ok root /\
    start mean m vectors ts /\ Forall inids ts /\ agg 1 ts root.
  Proof.
    intro NEI. unfold build_tree. rewrite ask_components by auto. cbn [rbind].
    destruct (add_leaves (comps m) (mkForest vec D [] [] []) []) as (f & ts & E & LO & F & S); cbn [f_storage keys map length app seq] in *; auto.
    { constructor; cbn; auto; [constructor|tauto|tauto]. }
    { apply comps_good. }
    rewrite E. cbn [rbind]. rewrite (fi_current _ _ F).
    destruct (update_fold ts _ (fi_sorted _ _ F) (fi_ids _ _ F) (fun p P => proj1 (current_pairs ts (fi_sorted _ _ F) p) P) f (fi_storage _ _ F))
      as (f1 & EU & C1 & S1 & G1).
    rewrite EU. cbn [rbind].
    assert (F1 : finv f1 ts) by (constructor; [rewrite C1|..]; try rewrite S1; apply F).
    assert (D1 : dinv f1 ts).
    { intros t1 t2 B. apply (G1 t1 t2 B). apply current_pairs; [apply F|]. eauto. }
    assert (NE : ts <> []).
    { intros ->. inversion LO as [E0|]. destruct (ids m) as [|x l] eqn:EI; [congruence|].
      assert (Q : In (comp_of m x) (comps m)) by (apply comps_In; exists x; rewrite EI; split; [left|]; auto). rewrite <- E0 in Q. destruct Q. }
    rewrite (fi_current _ _ F1), map_length.
    destruct (merge_loop_run (length ts) f1 ts 1 F1 D1 NE) as (f2 & ts2 & it2 & R & F2 & NE2 & Q & K); [lia|].
    rewrite R. cbn [rbind].
    assert (ST : start mean m vectors ts).
    { exists (comps m). split; [apply ask_components; auto|]. split; auto. }
    rewrite (fi_current _ _ F2), map_length. destruct (Nat.ltb_spec 1 (length ts2)) as [L|L].
    - destruct Q as [Q|X]; [lia|].
      destruct (merge_all f2 it2 ts2 F2 NE2) as (f3 & t & EM & C3 & S3 & NO). rewrite (fi_current _ _ F2) in EM. rewrite EM. cbn [rbind fst].
      rewrite C3. exists t, ts. split; [unfold dlookup; rewrite S3; auto|]. split; auto. split; [apply F|]. apply K. apply ag_finished; auto.
    - cbn [rbind]. rewrite (fi_current _ _ F2). destruct ts2 as [|t [|]]; [congruence| |simpl in L; lia]. cbn [map].
      exists t, ts. split; [unfold dlookup; rewrite (fi_storage _ _ F2 t (or_introl eq_refl)); auto|]. split; auto. split; [apply F|].
      apply K. constructor.
  Qed.

  Lemma node_inids it ts trees t : node_over it ts trees t -> Forall inids trees -> trees <> [] -> inids t.
  Proof. intros (_ & _ & E & _) FI NE. unfold in_ids. rewrite E. apply members_flat; auto. Qed.

  (** Under a total order the merged pairs are the closest ones. *)
  Lemma agg_closest : strict_total_order ltb -> forall it ts root, Forall inids ts -> agg it ts root ->
    agglomerates mean vectors (closest pairwise cdistance ltb dsum ddiv inf linkage m vectors)
      (stopped pairwise cdistance ltb dsum ddiv inf linkage m vectors) it ts root.
  Proof.
    intros TO it ts root FI A.
    assert (TD : forall t1 t2 d, inids t1 -> inids t2 -> (tdist t1 t2 = Ok d <-> ldist t1 t2 d)).
    { intros t1 t2 d G1 G2. destruct (tree_distance_run pairwise cdistance ltb dsum ddiv inf linkage m vectors I LK table t1 t2 GT G1 G2) as (d0 & E & _ & LD).
      specialize (LD (proj1 TO)). split.
      - congruence.
      - intro L. rewrite (ldist_fun pairwise cdistance ltb dsum ddiv inf linkage m vectors I t1 t2 d d0 TO L LD). auto. }
    induction A as [it t|it l1 t1 l2 t2 l3 t root CH NO A IH|it ts root L EX NO].
    - constructor.
    - rewrite Forall_forall in FI. destruct CH as (B & d & Ed & Nd & OPT). destruct (before_In _ _ _ B) as [T1 T2].
      eapply ag_merge; eauto.
      + exists d. split; [apply TD; auto|]. split; auto. intros u1 u2 d' Bu Eu. destruct (before_In _ _ _ Bu) as [U1 U2].
        apply OPT; auto. apply TD; auto.
      + apply IH. apply Forall_forall. intros u U. rewrite !in_app_iff in U. destruct U as [U|[U|[U|[<-|[]]]]].
        * apply FI. apply in_or_app; auto.
        * apply FI. apply in_or_app; right; right; apply in_or_app; auto.
        * apply FI. apply in_or_app; right; right; apply in_or_app; right; right; auto.
        * apply (node_inids _ _ _ _ NO); [|discriminate]. constructor; [auto|]. constructor; auto.
    - apply ag_finished; auto. rewrite Forall_forall in FI. destruct EX as [EX (u1 & u2 & Bu & Eu)]. split.
      + intros t1 t2 d B Ed. destruct (before_In _ _ _ B). apply (EX TO t1 t2 d B). apply TD; auto.
      + exists u1, u2. destruct (before_In _ _ _ Bu). split; auto. apply TD; auto.
  Qed.

  (** ** Merged clusters are compatible, whatever the order *)
  Lemma chosen_compatible ts t1 t2 : Forall inids ts -> chosen ts t1 t2 -> before ts t1 t2 /\ ~ incompatible m t1 t2.
  Proof.
    intros FI (B & d & Ed & Nd & _). split; auto. rewrite Forall_forall in FI. destruct (before_In _ _ _ B) as [T1 T2].
    destruct (tree_distance_run pairwise cdistance ltb dsum ddiv inf linkage m vectors I LK table t1 t2 GT (FI _ T1) (FI _ T2)) as (d0 & E & IC & _).
    intro Q. apply IC in Q. congruence.
  Qed.
End Run.
