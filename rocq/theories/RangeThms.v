(** * How the range of cluster numbers moves during an annotation session *)

From Coq Require Import String List Bool Arith QArith Permutation Lia.
From Verif Require Import Base Manager Spec MinMax Closure ManagerProofs ManagerInv ManagerSem ManagerQueries ManagerThms MinMaxThms EffortSpec EffortThms RangeSpec.
Import ListNotations.
Open Scope nat_scope.

(*HEADER
(** * Properties of the range of cluster numbers during a session (C113) *)

From Coq Require Import String List Bool Arith QArith Lia.
From Verif Require Import Base Manager Spec MinMax ManagerThms RangeSpec RangeThms.
Import ListNotations.
Open Scope nat_scope.

Definition a := str "a". Definition b := str "b". Definition c := str "c". Definition d := str "d".
Definition node_order (i : nat) (g : graph) : list node := g_nodes g.
Definition ex : mgr := run [CallAddConstraint a b MUST_LINK 1%Q; CallAddConstraint b c CANNOT_LINK 1%Q] (init [a; b; c; d]).
HEADER*)

Lemma maximum_comps order m hi : valid_orders order -> Inv m -> maximum order m hi -> hi = length (comps m).
Proof.
  intros V I (lo & E). destruct (ids m) as [|x l] eqn:Q.
  - exfalso. unfold ask in E. rewrite run_minmax in E by auto. unfold tail_of, colors_used in E.
    assert (O : order 0 (the_graph m) = []).
    { apply Permutation_nil. apply Permutation_sym. assert (P := V 0 (the_graph m)).
      replace (g_nodes (the_graph m)) with (@nil node) in P; auto.
      unfold the_graph, edges, kept, heads, comps. rewrite Q. reflexivity. }
    unfold bind, lift in E. rewrite O in E. discriminate.
  - destruct (minmax_lo_le order m V I) as (lo' & col & E' & _); [congruence|]. unfold ask in E. rewrite E' in E. cbn [snd] in E. congruence.
Qed.

Lemma ask_managed m : ask get_list_of_managed_data_IDs m = Ok (ids m).
Proof. unfold ask. rewrite run_managed. reflexivity. Qed.

(** ** Counting components with labels *)
Lemma comps_mono m m' : Inv m -> Inv m' -> ids m' = ids m -> (forall x y, added_must m x y -> added_must m' x y) ->
  length (comps m') <= length (comps m).
Proof.
  intros I I' K H. rewrite <- (nb_comp_label m') by auto. rewrite K. apply nb_must; auto.
  intros x y A. apply (comp_label_satisfies m' I'). apply H, A.
Qed.

Lemma comps_one m m' a b : Inv m -> Inv m' -> ids m' = ids m ->
  (forall x y, added_must m' x y -> added_must m x y \/ same_unordered a b x y) ->
  length (comps m) <= S (length (comps m')).
Proof.
  intros I I' K H. rewrite <- (nb_comp_label m) by auto. etransitivity; [apply (merge_nb _ _ (a, b))|]. apply le_n_S.
  rewrite <- K. apply nb_must; auto. intros x y A. destruct (H x y A) as [B|[[-> ->]|[-> ->]]].
  - apply merge_keeps. apply (comp_label_satisfies m I). exact B.
  - apply (merge_same _ (a, b)).
  - symmetry. apply (merge_same _ (a, b)).
Qed.

Lemma comps_strict m m' a b : Inv m -> Inv m' -> ids m' = ids m -> (forall x y, added_must m x y -> added_must m' x y) ->
  In a (ids m) -> In b (ids m) -> added_must m' a b -> ~ linked (sml m) a b -> S (length (comps m')) <= length (comps m).
Proof.
  intros I I' K H Ia Ib A N. rewrite <- (nb_comp_label m') by auto. rewrite K.
  set (g := comp_label m'). set (z := fresh_label (ids m) g).
  set (h := fun x => if Nat.eqb (comp_label m x) (comp_label m b) then z else g x).
  assert (Hh : nb_of_clusters (ids m) h <= length (comps m)).
  { apply nb_must; auto. intros x y B. unfold h. rewrite (proj1 (comp_label_satisfies m I) x y B).
    destruct (Nat.eqb _ _); auto. apply (comp_label_satisfies m' I'), H, B. }
  etransitivity; [|exact Hh]. unfold nb_of_clusters. change (S (length ?l)) with (length (z :: l)). apply NoDup_incl_length.
  - constructor; [|apply NoDup_nodup]. intro X. apply nodup_In, in_map_iff in X. destruct X as (x & E & Ix).
    assert (F := fresh_label_gt (ids m) g x Ix). fold z in F. lia.
  - intros v [<-|Hv]; apply nodup_In, in_map_iff.
    + exists b. split; auto. unfold h. rewrite Nat.eqb_refl. auto.
    + apply nodup_In, in_map_iff in Hv. destruct Hv as (x & <- & Ix).
      destruct (Nat.eqb_spec (comp_label m x) (comp_label m b)) as [E|E].
      * exists a. split; auto. unfold h. destruct (Nat.eqb_spec (comp_label m a) (comp_label m b)) as [E2|E2].
        -- exfalso. apply N. apply comp_label_eq; auto.
        -- unfold g. rewrite (proj1 (comp_label_satisfies m' I') a b A). symmetry. apply comp_label_eq in E; auto.
           apply comp_label_eq; try (rewrite K); auto. apply added_linked; auto. apply added_linked in E; auto.
           eapply linked_mono; [|exact E]. intros p q B. left. apply H, B.
      * exists x. split; auto. unfold h. apply Nat.eqb_neq in E. rewrite E. auto.
Qed.

(*PROP C113: an accepted annotation lowers the largest number of clusters by one when it is a MUST_LINK that was not already known, and leaves it as it is otherwise; it never makes another number of clusters possible. *)
Lemma C113_annotation_proof :
  forall order m a b t v, valid_orders order -> reachable m ->
    let m' := fst (exec (CallAddConstraint a b t v) m) in
    snd (exec (CallAddConstraint a b t v) m) = Ok (VBool true) ->
    forall hi hi', maximum order m hi -> maximum order m' hi' ->
      (t = MUST_LINK -> inferred m a b None -> hi = S hi') /\
      (t = CANNOT_LINK \/ inferred m a b (Some t) -> hi' = hi) /\
      (forall k, feasible m' k -> feasible m k).
Proof.
  intros order m a b t v V R m' Acc hi hi' Hi Hi'. assert (I := reachable_inv _ R). assert (I' : Inv m') by apply exec_inv, I.
  apply maximum_comps in Hi; auto. apply maximum_comps in Hi'; auto. subst hi hi'.
  assert (A : accepts m a b t = true).
  { destruct (accepts m a b t) eqn:A; auto. exfalso. cbn [exec] in Acc. unfold bind in Acc.
    rewrite run_add_constraint_raise in Acc by auto. discriminate. }
  assert (AA := add_added m a b t v I A). fold m' in AA.
  assert (K : ids m' = ids m).
  { destruct (run_add_constraint m a b t v I A) as (m1 & Run & _ & K & _). unfold m'. cbn [exec]. unfold bind. rewrite Run. exact K. }
  assert (A' := A). unfold accepts in A'. rewrite !andb_true_iff in A'. destruct A' as [[B T] Inf]. apply both_true in B as B'. destruct B' as [Ia Ib].
  assert (Mono : forall u x y, added m u x y -> added m' u x y) by (intros u x y H; apply AA; auto).
  assert (Le : length (comps m') <= length (comps m)) by (apply comps_mono; auto; intros x y; apply Mono).
  split; [|split].
  - intros -> N. assert (N' : infer m a b = None). { unfold inferred, ask in N. rewrite run_inferred, B in N by auto. cbn [snd] in N. congruence. }
    apply Nat.le_antisymm.
    + apply (comps_one m m' a b); auto. intros x y H. apply AA in H. tauto.
    + apply (comps_strict m m' a b); auto.
      * intros x y. apply Mono.
      * apply AA. right. split; auto. left. auto.
      * apply infer_None in N'; tauto.
  - intro H. apply Nat.le_antisymm; auto. rewrite <- (nb_comp_label m) by auto. rewrite <- K. apply nb_must; auto.
    intros x y S. apply AA in S. destruct S as [S|[E S]]; [apply (comp_label_satisfies m I), S|]. subst t.
    destruct H as [H|H]; [discriminate|]. unfold inferred, ask in H. rewrite run_inferred, B in H by auto. cbn [snd] in H. injection H as H.
    apply infer_ML in H; auto. apply comp_label_eq in H; auto. destruct S as [[-> ->]|[-> ->]]; auto.
  - intros k (l & f & E & [S1 S2] & Nk). rewrite ask_managed in E. injection E as <-.
    exists (ids m), f. rewrite ask_managed, <- K. split; auto. split; auto. split; intros x y H; [apply S1|apply S2]; apply Mono, H.
Qed.

(*EX
(** A MUST_LINK that is new, one that is known, and a CANNOT_LINK. *)
Example C113_annotation_ex :
  maximum node_order ex 3 /\ maximum node_order (fst (exec (CallAddConstraint c d MUST_LINK 1%Q) ex)) 2 /\
  maximum node_order (fst (exec (CallAddConstraint b a MUST_LINK 1%Q) ex)) 3 /\ maximum node_order (fst (exec (CallAddConstraint c d CANNOT_LINK 1%Q) ex)) 3.
Proof. repeat split; eexists; vm_compute; reflexivity. Qed.
EX*)

(*PROP C113: deleting a constraint raises the largest number of clusters by at most one and never lowers it; what was possible remains so. *)
Lemma C113_retraction_proof :
  forall order m a b, valid_orders order -> reachable m -> managed m a -> managed m b ->
    let m' := fst (exec (CallDeleteConstraint a b) m) in
    forall hi hi', maximum order m hi -> maximum order m' hi' ->
      hi <= hi' <= S hi /\ (~ added_must m a b -> hi' = hi) /\ (forall k, feasible m k -> feasible m' k).
Proof.
  intros order m a b V R Ma Mb m' hi hi' Hi Hi'. assert (I := reachable_inv _ R). assert (I' : Inv m') by apply exec_inv, I.
  apply maximum_comps in Hi; auto. apply maximum_comps in Hi'; auto. subst hi hi'. apply managed_ids in Ma. apply managed_ids in Mb.
  assert (DA := delete_added m a b I Ma Mb). fold m' in DA.
  assert (K : ids m' = ids m).
  { assert (D := run_delete_constraint m a b I). assert (B : both m a b = true) by (apply both_true; auto). rewrite B in D.
    destruct D as (m1 & Run & _ & K & _). unfold m'. cbn [exec]. unfold bind. rewrite Run. exact K. }
  assert (Le : length (comps m) <= length (comps m')) by (apply comps_mono; auto; intros x y H; apply DA in H; tauto).
  split; [split; auto|split].
  - apply (comps_one m' m a b); auto. intros x y H.
    destruct (eqb_spec x a) as [Xa|Xa], (eqb_spec y b) as [Yb|Yb], (eqb_spec x b) as [Xb|Xb], (eqb_spec y a) as [Ya|Ya];
      try (right; unfold same_unordered; subst; tauto); left; apply DA; split; auto; unfold same_unordered; tauto.
  - intro N. apply Nat.le_antisymm; auto. apply comps_mono; auto. intros x y H. apply DA. split; auto.
    intros [[-> ->]|[-> ->]]; apply N; auto. apply added_sym; auto.
  - intros k (l & f & E & [S1 S2] & Nk). rewrite ask_managed in E. injection E as <-.
    exists (ids m'), f. rewrite ask_managed, K. split; auto. split; auto. split; intros x y H; [apply S1|apply S2]; apply DA in H; tauto.
Qed.

(*EX
Example C113_retraction_ex :
  maximum node_order (fst (exec (CallDeleteConstraint b a) ex)) 4 /\ maximum node_order (fst (exec (CallDeleteConstraint b c) ex)) 3.
Proof. repeat split; eexists; vm_compute; reflexivity. Qed.
EX*)

Lemma add_id_added m x : Inv m -> ~ In x (ids m) ->
  forall t p q, added (fst (exec (CallAddDataID x) m)) t p q <-> added m t p q \/ (t = MUST_LINK /\ p = x /\ q = x).
Proof.
  intros I Nx t p q. assert (K := run_add_data_ID m x I).
  assert (B : mem x (ids m) = false) by (destruct (mem x (ids m)) eqn:B; auto; apply mem_In in B; tauto). rewrite B in K.
  destruct K as (m' & Run & I' & K & SG). cbn [exec]. unfold bind. rewrite Run. simpl.
  rewrite !addf_added by auto. rewrite K, !in_app_iff. rewrite (addf_lo_hi m' p q), SG, (addf_lo_hi m p q). rewrite lo_hi_leb, andb_true_r.
  assert (Lo : forall u w, (lo u w = u /\ hi u w = w) \/ (lo u w = w /\ hi u w = u)) by (intros u w; unfold lo, hi; destruct (str_leb u w); auto).
  assert (MI : forall y, mem y (ids m ++ [x]) = true <-> In y (ids m) \/ y = x).
  { intro y. rewrite mem_In, in_app_iff. simpl. intuition. }
  cbn [In].
  destruct (eqb_spec p x) as [->|Np], (eqb_spec q x) as [->|Nq].
  - assert (E : lo x x = x /\ hi x x = x) by (destruct (Lo x x); tauto). destruct E as [-> ->]. rewrite eqb_refl.
    assert (mem x (ids m ++ [x]) = true) as -> by (apply MI; auto). cbn [andb orb]. split.
    + intros (_ & _ & E). right. split; auto. congruence.
    + intros [(? & _)|(-> & _)]; [tauto|]. split; [auto|]. split; [auto|]. eauto.
  - split; [|intros [(? & _)|(_ & _ & ?)]; tauto]. intros (_ & Q & E). exfalso. destruct Q as [Q|[Q|[]]]; [|congruence].
    assert (M1 : mem q (ids m ++ [x]) = true) by (apply MI; auto). assert (M2 : mem x (ids m ++ [x]) = true) by (apply MI; auto).
    assert (Z : eqb x q = false /\ eqb q x = false) by (split; apply eqb_neq; congruence). destruct Z as [Z1 Z2].
    destruct (Lo x q) as [[L1 L2]|[L1 L2]]; rewrite L1, L2, ?eqb_refl, ?M1, ?M2, ?Z1, ?Z2 in E; cbn [andb orb] in E; discriminate.
  - split; [|intros [(_ & ? & _)|(_ & ? & _)]; tauto]. intros (Q & _ & E). exfalso. destruct Q as [Q|[Q|[]]]; [|congruence].
    assert (M1 : mem p (ids m ++ [x]) = true) by (apply MI; auto). assert (M2 : mem x (ids m ++ [x]) = true) by (apply MI; auto).
    assert (Z : eqb x p = false /\ eqb p x = false) by (split; apply eqb_neq; congruence). destruct Z as [Z1 Z2].
    destruct (Lo p x) as [[L1 L2]|[L1 L2]]; rewrite L1, L2, ?eqb_refl, ?M1, ?M2, ?Z1, ?Z2 in E; cbn [andb orb] in E; discriminate.
  - assert (Z : eqb (lo p q) x = false /\ eqb (hi p q) x = false).
    { destruct (Lo p q) as [[-> ->]|[-> ->]]; split; apply eqb_neq; auto. }
    destruct Z as [-> ->]. cbn [andb orb]. intuition congruence.
Qed.

Lemma feasible_ids m k : feasible m k <-> exists f, satisfies (added_must m) (added_cannot m) f /\ nb_of_clusters (ids m) f = k.
Proof.
  split.
  - intros (l & f & E & S & N). rewrite ask_managed in E. injection E as <-. eauto.
  - intros (f & S & N). exists (ids m), f. rewrite ask_managed. auto.
Qed.

Lemma nb_app_one l x f : nb_of_clusters (l ++ [x]) f = if existsb (fun y => Nat.eqb (f y) (f x)) l then nb_of_clusters l f else S (nb_of_clusters l f).
Proof.
  assert (G : forall z, In z (nodup Nat.eq_dec (map f (l ++ [x]))) <-> In z (nodup Nat.eq_dec (map f l)) \/ z = f x).
  { intro z. rewrite !nodup_In, map_app, in_app_iff. simpl. intuition. }
  assert (Hx : In (f x) (nodup Nat.eq_dec (map f l)) <-> existsb (fun y => Nat.eqb (f y) (f x)) l = true).
  { rewrite nodup_In, in_map_iff, existsb_exists. split.
    - intros (y & E & Iy). exists y. split; auto. apply Nat.eqb_eq; auto.
    - intros (y & Iy & E). exists y. split; auto. apply Nat.eqb_eq; auto. }
  unfold nb_of_clusters. destruct (existsb _ l).
  - apply Nat.le_antisymm; apply NoDup_incl_length; try apply NoDup_nodup; intros z Hz; apply G in Hz || apply G; auto.
    destruct Hz as [Hz| ->]; auto. apply Hx; auto.
  - change (S (length ?l)) with (length (f x :: l)). apply Nat.le_antisymm; apply NoDup_incl_length.
    + apply NoDup_nodup.
    + intros z Hz. apply G in Hz. simpl. intuition.
    + constructor; [|apply NoDup_nodup]. rewrite Hx. discriminate.
    + intros z [<-|Hz]; apply G; auto.
Qed.

(*PROP C113: a data ID that is added comes as a component of its own: it joins a cluster or makes another one. *)
Lemma C113_new_data_proof :
  forall m x, reachable m -> ~ managed m x ->
    let m' := fst (exec (CallAddDataID x) m) in
    (forall n n', nb_components m n -> nb_components m' n' -> n' = S n) /\
    (forall k, feasible m' k <-> (has_ids m /\ feasible m k) \/ (exists j, k = S j /\ feasible m j)).
Proof.
  intros m x R Nx m'. assert (I := reachable_inv _ R). assert (I' : Inv m') by apply exec_inv, I. rewrite managed_ids in Nx.
  assert (AA := add_id_added m x I Nx). fold m' in AA.
  assert (K : ids m' = ids m ++ [x]).
  { assert (D := run_add_data_ID m x I). assert (B : mem x (ids m) = false) by (destruct (mem x (ids m)) eqn:B; auto; apply mem_In in B; tauto).
    rewrite B in D. destruct D as (m1 & Run & _ & K & _). unfold m'. cbn [exec]. unfold bind. rewrite Run. exact K. }
  assert (Out : forall u p q, added m u p q -> p <> x /\ q <> x).
  { intros u p q H. destruct (added_ids m u p q I H). split; intros ->; auto. }
  (* a labelling of the old IDs, and a label for the new one *)
  set (put := fun (f : pystr -> nat) (z : nat) (y : pystr) => if eqb y x then z else f y).
  assert (Put : forall f z, (forall p q, added_must m p q -> f p = f q) -> forall p q, added_must m' p q -> put f z p = put f z q).
  { intros f z S p q H. apply AA in H. unfold put. destruct H as [H|(_ & -> & ->)]; auto. destruct (Out _ _ _ H) as [N1 N2].
    apply eqb_neq in N1. apply eqb_neq in N2. rewrite N1, N2. auto. }
  assert (PutC : forall f z, (forall p q, added_cannot m p q -> f p <> f q) -> forall p q, added_cannot m' p q -> put f z p <> put f z q).
  { intros f z S p q H. apply AA in H. unfold put. destruct H as [H|(? & _)]; [|discriminate]. destruct (Out _ _ _ H) as [N1 N2].
    apply eqb_neq in N1. apply eqb_neq in N2. rewrite N1, N2. auto. }
  assert (Old : forall f z y, In y (ids m) -> put f z y = f y).
  { intros f z y Iy. unfold put. destruct (eqb_spec y x) as [->|]; tauto. }
  assert (New : forall f z, put f z x = z) by (intros; unfold put; rewrite eqb_refl; auto).
  assert (Cnt : forall f z, nb_of_clusters (ids m') (put f z) = if existsb (fun y => Nat.eqb (f y) z) (ids m) then nb_of_clusters (ids m) f else S (nb_of_clusters (ids m) f)).
  { intros f z. rewrite K, nb_app_one, New, (nb_ext (ids m) (put f z) f) by auto.
    replace (existsb (fun y => Nat.eqb (put f z y) z) (ids m)) with (existsb (fun y => Nat.eqb (f y) z) (ids m)); auto.
    apply eq_true_iff_eq. rewrite !existsb_exists. split; intros (y & Iy & E); exists y; split; auto; [rewrite Old|rewrite Old in E]; auto. }
  assert (Fresh : forall f, existsb (fun y => Nat.eqb (f y) (fresh_label (ids m) f)) (ids m) = false).
  { intro f. destruct (existsb _ (ids m)) eqn:Q; auto. apply existsb_exists in Q. destruct Q as (y & Iy & E).
    apply Nat.eqb_eq in E. assert (F := fresh_label_gt (ids m) f y Iy). lia. }
  split.
  - intros n n' Hn Hn'. apply nb_components_spec in Hn; auto. apply nb_components_spec in Hn'; auto. subst n n'. apply Nat.le_antisymm.
    + rewrite <- (nb_comp_label m') by auto. rewrite K, nb_app_one.
      assert (L : nb_of_clusters (ids m) (comp_label m') <= length (comps m)).
      { apply nb_must; auto. intros p q H. apply (comp_label_satisfies m' I'). apply AA; auto. }
      destruct (existsb _ (ids m)); lia.
    + rewrite <- (nb_comp_label m) by auto. assert (C := Cnt (comp_label m) (fresh_label (ids m) (comp_label m))). rewrite Fresh in C.
      rewrite <- C. apply nb_must; auto. apply Put. apply (comp_label_satisfies m I).
  - intro k. rewrite feasible_ids. split.
    + intros (f & [S1 S2] & E). assert (F : feasible m (nb_of_clusters (ids m) f)).
      { apply feasible_ids. exists f. split; auto. split; intros p q H; [apply S1|apply S2]; apply AA; auto. }
      rewrite K, nb_app_one in E. destruct (existsb _ (ids m)) eqn:Q; subst k; [left|right; eauto]. split; auto.
      apply existsb_exists in Q. destruct Q as (y & Iy & _). exists y. apply managed_ids. auto.
    + intros [[(y & My) F]|(j & -> & F)]; apply feasible_ids in F; destruct F as (f & [S1 S2] & E).
      * apply managed_ids in My. exists (put f (f y)). split; [split; auto|]. rewrite Cnt.
        assert (existsb (fun z => Nat.eqb (f z) (f y)) (ids m) = true) as ->; auto. apply existsb_exists. exists y. split; auto. apply Nat.eqb_refl.
      * exists (put f (fresh_label (ids m) f)). split; [split; auto|]. rewrite Cnt, Fresh. auto.
Qed.

(*EX
Example C113_new_data_ex : nb_components ex 3 /\ nb_components (fst (exec (CallAddDataID (str "e")) ex)) 4.
Proof. split; eexists; split; try (vm_compute; reflexivity); reflexivity. Qed.
EX*)

(*PROP C113: deleting a data ID loses at most one component and at most one cluster (and a component that it held together can fall into several). *)
Lemma C113_deleted_data_proof :
  forall m x, reachable m -> managed m x ->
    let m' := fst (exec (CallDeleteDataID x) m) in
    (forall n n', nb_components m n -> nb_components m' n' -> n <= S n') /\
    (forall k, feasible m k -> feasible m' k \/ exists j, k = S j /\ feasible m' j).
Proof.
  intros m x R Mx m'. assert (I := reachable_inv _ R). assert (I' : Inv m') by apply exec_inv, I. rewrite managed_ids in Mx.
  assert (DA := delete_id_added m x I Mx). fold m' in DA.
  assert (K : ids m' = filter (fun y => negb (eqb x y)) (ids m)).
  { assert (D := run_delete_data_ID m x I). assert (B : mem x (ids m) = true) by (apply mem_In; auto). rewrite B in D.
    destruct D as (m1 & Run & _ & K & _). unfold m'. cbn [exec]. unfold bind. rewrite Run. exact K. }
  assert (Sub : forall f, nb_of_clusters (ids m) f <= S (nb_of_clusters (ids m') f) /\ nb_of_clusters (ids m') f <= nb_of_clusters (ids m) f).
  { intro f. split.
    - unfold nb_of_clusters at 2. change (S (length ?l)) with (length (f x :: l)). apply nb_le. intros y Iy.
      destruct (eqb_spec x y) as [->|N]; [left; auto|right]. apply nodup_In, in_map. rewrite K. apply filter_In. split; auto.
      apply eqb_neq in N. rewrite N. auto.
    - apply nb_le. intros y Iy. apply nodup_In, in_map. rewrite K in Iy. apply filter_In in Iy. tauto. }
  split.
  - intros n n' Hn Hn'. apply nb_components_spec in Hn; auto. apply nb_components_spec in Hn'; auto. subst n n'.
    rewrite <- (nb_comp_label m) by auto. etransitivity; [apply Sub|]. apply le_n_S. apply nb_must; auto.
    intros p q H. apply DA in H. apply (comp_label_satisfies m I). apply H.
  - intros k F. apply feasible_ids in F. destruct F as (f & [S1 S2] & E).
    assert (F : feasible m' (nb_of_clusters (ids m') f)).
    { apply feasible_ids. exists f. split; auto. split; intros p q H; apply DA in H; [apply S1|apply S2]; tauto. }
    destruct (Sub f) as [L1 L2]. rewrite E in L1, L2.
    destruct (Nat.eq_dec (nb_of_clusters (ids m') f) k) as [Q|Q]; [left; rewrite Q in F; auto|right].
    exists (nb_of_clusters (ids m') f). split; auto. lia.
Qed.

(*EX
(** The middle of a chain of MUST_LINK constraints is deleted. *)
Definition chain : mgr := run [CallAddConstraint a b MUST_LINK 1%Q; CallAddConstraint b c MUST_LINK 1%Q] (init [a; b; c]).
Example C113_deleted_data_ex : nb_components ex 3 /\ nb_components (fst (exec (CallDeleteDataID c) ex)) 2 /\
  nb_components chain 1 /\ nb_components (fst (exec (CallDeleteDataID b) chain)) 2.
Proof. repeat split; eexists; split; try (vm_compute; reflexivity); reflexivity. Qed.
EX*)
