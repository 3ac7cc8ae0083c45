(** * Hierarchical clustering reads only the IDs, the inferred constraints and the vectors. *)

From Coq Require Import String List Bool Arith ZArith Permutation Lia.
From Verif Require Import Base Manager Spec Closure ManagerInv ManagerProofs ManagerSem ManagerQueries ManagerThms
  Sampling SamplingSpec SamplingProofs SamplingThms Rename ClusterSpec ClusterProofs KMeans KMeansSpec KMeansProofs
  Hierarchical HierSpec HierProofs SameSpec Same SameComps.
Import ListNotations.
Open Scope nat_scope.
Open Scope py_scope.

(** ** Related results *)
Inductive rrel {A B} (R : A -> B -> Prop) : res A -> res B -> Prop :=
| rrel_ok a b : R a b -> rrel R (Ok a) (Ok b)
| rrel_raise e : rrel R (Raise e) (Raise e).

Lemma rrel_eq {A} (r r' : res A) : r = r' -> rrel eq r r'.
Proof. intros <-. destruct r; constructor; auto. Qed.
Lemma rrel_bind {A B A' B'} (R : A -> B -> Prop) (S : A' -> B' -> Prop) r r' f g :
  rrel R r r' -> (forall a b, R a b -> rrel S (f a) (g b)) -> rrel S (rbind r f) (rbind r' g).
Proof. intros [a b X|e] F; simpl; [auto|constructor]. Qed.
Lemma rmap_rel {A B A' B'} (R : A -> B -> Prop) (S : A' -> B' -> Prop) f g l l' :
  Forall2 R l l' -> (forall a b, R a b -> rrel S (f a) (g b)) -> rrel (Forall2 S) (rmap f l) (rmap g l').
Proof.
  intros F E. induction F; simpl; [repeat constructor|]. eapply rrel_bind; [apply E; auto|]. intros a b X.
  eapply rrel_bind; [apply IHF|]. intros. constructor. constructor; auto.
Qed.
Lemma rfold_rel {A B A' B'} (R : A -> B -> Prop) (S : A' -> B' -> Prop) f g l l' :
  Forall2 R l l' -> (forall s s' a b, S s s' -> R a b -> rrel S (f s a) (g s' b)) ->
  forall s s', S s s' -> rrel S (rfold f l s) (rfold g l' s').
Proof.
  intros F E. induction F; intros s s' X; simpl; [constructor; auto|]. eapply rrel_bind; [apply E; eauto|]. auto.
Qed.
Lemma Forall2_same {A} (l : list A) : Forall2 eq l l.
Proof. induction l; constructor; auto. Qed.
Lemma Forall2_app' {A B} (R : A -> B -> Prop) l1 l1' l2 l2' : Forall2 R l1 l1' -> Forall2 R l2 l2' -> Forall2 R (l1 ++ l2) (l1' ++ l2').
Proof. intros F F'. induction F; simpl; auto. Qed.

(** ** Lists up to their order *)
Lemma rmap_pure {A B} (f : A -> res B) (g : A -> B) l : (forall x, In x l -> f x = Ok (g x)) -> rmap f l = Ok (map g l).
Proof.
  induction l as [|x l IH]; intro E; auto. simpl. rewrite (E x (or_introl eq_refl)). simpl. rewrite IH; auto. intros; apply E; right; auto.
Qed.
Lemma Permutation_prod {A B} (l1 l1' : list A) (l2 l2' : list B) : Permutation l1 l1' -> Permutation l2 l2' ->
  Permutation (list_prod l1 l2) (list_prod l1' l2').
Proof.
  intros P1 P2. induction P1; simpl.
  - auto.
  - apply Permutation_app; auto. apply Permutation_map; auto.
  - rewrite !app_assoc. apply Permutation_app.
    + rewrite Permutation_app_comm. apply Permutation_app; apply Permutation_map; auto.
    + clear -P2. induction l; simpl; auto. apply Permutation_app; auto. apply Permutation_map; auto.
  - eapply perm_trans; [exact IHP1_1|]. eapply perm_trans; [|exact IHP1_2].
    assert (Q : forall l : list A, Permutation (list_prod l l2') (list_prod l l2)).
    { clear -P2. induction l; simpl; auto. apply Permutation_app; auto. apply Permutation_map, Permutation_sym; auto. }
    apply Q.
Qed.
Lemma existsb_Permutation {A} (f : A -> bool) l l' : Permutation l l' -> existsb f l = existsb f l'.
Proof. induction 1; simpl; auto; [rewrite IHPermutation; auto| destruct (f x), (f y); auto|congruence]. Qed.
Lemma position_pairs_mem {A} (l : list A) a b : In (a, b) (position_pairs l) -> In a l /\ In b l.
Proof.
  induction l as [|x l IH]; simpl; [tauto|]. intro P. apply in_app_or in P as [P|P].
  - apply in_map_iff in P as (y & E & Y). injection E as <- <-. auto.
  - apply IH in P. tauto.
Qed.
Lemma pairs_Permutation {A B} (g : A * A -> B) l l' : (forall a b, In a l -> In b l -> g (a, b) = g (b, a)) ->
  Permutation l l' -> Permutation (map g (position_pairs l)) (map g (position_pairs l')).
Proof.
  intros S P. induction P; simpl.
  - auto.
  - rewrite !map_app. apply Permutation_app; [rewrite !map_map; apply Permutation_map; auto|]. apply IHP. intros; apply S; right; auto.
  - rewrite !map_app, !map_map. rewrite (S y x) by (simpl; auto). apply perm_skip. rewrite !app_assoc. apply Permutation_app_tail, Permutation_app_comm.
  - eapply perm_trans; [apply IHP1; auto|]. apply IHP2. intros a b A0 B0. apply S; eapply Permutation_in; try apply Permutation_sym; eauto.
Qed.
Lemma flat_map_Permutation {A B C} (R : A -> B -> Prop) (f : A -> list C) (g : B -> list C) l l' :
  Forall2 R l l' -> (forall a b, R a b -> Permutation (f a) (g b)) -> Permutation (flat_map f l) (flat_map g l').
Proof. intros F E. induction F; simpl; auto. apply Permutation_app; auto. Qed.
Lemma py_min_Permutation {A} (lt : A -> A -> bool) l l' : strict_total_order lt -> Permutation l l' -> py_min lt l = py_min lt l'.
Proof.
  intros [SW TO] P. destruct l as [|x l].
  - apply Permutation_nil in P. subst. auto.
  - destruct (py_min_In lt (x :: l)) as (k & E & K); [discriminate|].
    destruct (py_min_In lt l') as (k' & E' & K'). { intros ->. apply Permutation_sym, Permutation_nil in P. discriminate. }
    rewrite E, E'. f_equal. apply TO.
    + apply (py_min_least lt l' k' SW E'). eapply Permutation_in; eauto.
    + apply (py_min_least lt (x :: l) k SW E). eapply Permutation_in; [apply Permutation_sym|]; eauto.
Qed.
Lemma sto_flip {A} (lt : A -> A -> bool) : strict_total_order lt -> strict_total_order (fun a b => lt b a).
Proof. intros [SW TO]. split; [apply swo_flip; auto|]. auto. Qed.
Lemma py_max_Permutation {A} (lt : A -> A -> bool) l l' : strict_total_order lt -> Permutation l l' -> py_max lt l = py_max lt l'.
Proof. intros S P. rewrite !py_max_py_min. apply py_min_Permutation; auto. apply sto_flip; auto. Qed.

Section Hier.
  Variables vec D : Type.
  Context `{EqB D}.
  Variable pairwise : list vec -> nat -> nat -> D.
  Variable cdistance : vec -> vec -> D.
  Variable ltb : D -> D -> bool.
  Variable dsum : list D -> D.
  Variable ddiv : D -> nat -> D.
  Variable inf : D.
  Variable mean : list vec -> vec.
  Hypothesis STO : strict_total_order ltb.
  Hypothesis OFS : order_free dsum.
  Hypothesis OFM : order_free mean.
  Hypothesis SYM : forall rows i j, pairwise rows i j = pairwise rows j i.
  Variables m1 m2 : mgr.
  Hypothesis I1 : Inv m1.
  Hypothesis I2 : Inv m2.
  Hypothesis SK : same_knowledge m1 m2.
  Variables v1 v2 : dict pystr vec.
  Hypothesis SV : same_vectors m1 v1 v2.
  Variable linkage : pystr.
  Notation tree := (tree vec).
  Notation forest := (forest vec D).

  Definition in_managed (l : list pystr) : Prop := forall x, In x l -> In x (ids m1).

  (** Trees that differ in the order of the members. *)
  Inductive tsim : tree -> tree -> Prop :=
  | tsim_node i it ch ch' dp ms ms' c : Forall2 tsim ch ch' -> Permutation ms ms' -> in_managed ms ->
      tsim (Node vec i it ch dp ms c) (Node vec i it ch' dp ms' c).

  Lemma tsim_id t t' : tsim t t' -> t_id vec t = t_id vec t'.
  Proof. destruct 1; auto. Qed.
  Lemma tsim_iteration t t' : tsim t t' -> t_iteration vec t = t_iteration vec t'.
  Proof. destruct 1; auto. Qed.
  Lemma tsim_depth t t' : tsim t t' -> t_depth vec t = t_depth vec t'.
  Proof. destruct 1; auto. Qed.
  Lemma tsim_centroid t t' : tsim t t' -> t_centroid vec t = t_centroid vec t'.
  Proof. destruct 1; auto. Qed.
  Lemma tsim_members t t' : tsim t t' -> Permutation (t_members vec t) (t_members vec t').
  Proof. destruct 1; auto. Qed.
  Lemma tsim_managed t t' : tsim t t' -> in_managed (t_members vec t).
  Proof. destruct 1; auto. Qed.
  Lemma tsim_children t t' : tsim t t' -> Forall2 tsim (t_children vec t) (t_children vec t').
  Proof. destruct 1; auto. Qed.

  Lemma tsim_depths c c' : Forall2 tsim c c' -> map (t_depth vec) c = map (t_depth vec) c'.
  Proof. induction 1; simpl; auto. f_equal; auto. apply tsim_depth; auto. Qed.

  Lemma managed_ids x : In x (ids m1) -> managed m1 x.
  Proof. intro. exists (ids m1). auto. Qed.

  Lemma rows_rel ms ms' : Permutation ms ms' -> in_managed ms ->
    rrel (@Permutation vec) (rmap (fun x => dlookup x v1) ms) (rmap (fun x => dlookup x v2) ms').
  Proof.
    intros P J. rewrite (same_rows m1 v1 v2 SV ms) by (intros; apply managed_ids; auto). clear J SV.
    assert (KE : forall l, (exists r, rmap (fun x => dlookup x v2) l = Ok r) \/ rmap (fun x => dlookup x v2) l = Raise KeyError).
    { induction l as [|x l IH]; simpl; [left; eauto|]. unfold dlookup at 1 3. destruct (dget x v2); simpl; auto.
      destruct IH as [[r ->]| ->]; simpl; [left; eauto|auto]. }
    assert (OK : forall l l' r, Permutation l l' -> rmap (fun x => dlookup x v2) l = Ok r ->
      exists r', rmap (fun x => dlookup x v2) l' = Ok r' /\ Permutation r r').
    { intros l l' r Q. revert r. induction Q; simpl; intros r E.
      - eauto.
      - destruct (dlookup x v2) as [a|]; simpl in *; [|discriminate]. destruct (rmap _ l) as [r0|] eqn:E0; simpl in E; [|discriminate].
        injection E as <-. destruct (IHQ _ eq_refl) as (r' & -> & P'). simpl. eauto.
      - destruct (dlookup y v2) as [a|]; simpl in *; [|discriminate]. destruct (dlookup x v2) as [b|]; simpl in *; [|discriminate].
        destruct (rmap _ l) as [r0|] eqn:E0; simpl in *; [|discriminate]. injection E as <-. eexists. split; eauto. apply perm_swap.
      - destruct (IHQ1 _ E) as (r1 & E1 & P1). destruct (IHQ2 _ E1) as (r2 & E2 & P2). exists r2. split; auto. eapply perm_trans; eauto. }
    destruct (KE ms) as [[r E]|E].
    - destruct (OK _ _ _ P E) as (r' & E' & P'). rewrite E, E'. constructor; auto.
    - destruct (KE ms') as [[r E']|E'].
      + destruct (OK _ _ _ (Permutation_sym P) E') as (r' & E2 & _). congruence.
      + rewrite E, E'. constructor.
  Qed.

  Lemma new_cluster_rel i it ch ch' ms ms' :
    match ch, ch' with Some c, Some c' => Forall2 tsim c c' | None, None => True | _, _ => False end ->
    match ms, ms' with Some l, Some l' => Permutation l l' /\ in_managed l | None, None => True | _, _ => False end ->
    rrel tsim (new_cluster vec mean v1 i it ch ms) (new_cluster vec mean v2 i it ch' ms').
  Proof.
    intros C M. unfold new_cluster. destruct ch as [c|], ch' as [c'|]; try contradiction; destruct ms as [l|], ms' as [l'|]; try contradiction; try constructor.
    - assert (P : Permutation (flat_map (t_members vec) c) (flat_map (t_members vec) c')).
      { eapply flat_map_Permutation; [exact C|]. apply tsim_members. }
      assert (J : in_managed (flat_map (t_members vec) c)).
      { intros x X. apply in_flat_map in X as (t & T & X). destruct (Forall2_In_l _ _ _ t C T) as (t' & _ & S). apply (tsim_managed _ _ S); auto. }
      assert (DP := tsim_depths _ _ C).
      eapply rrel_bind; [apply rows_rel; auto|]. intros r r' Pr. rewrite (OFM r r' Pr).
      destruct r as [|a r]; [apply Permutation_nil in Pr as ->; constructor|].
      destruct r' as [|a' r']; [apply Permutation_sym, Permutation_nil in Pr; discriminate|]. 
      replace (match c' with [] => 0 | _ => list_max (map (t_depth vec) c') + 1 end) with (match c with [] => 0 | _ => list_max (map (t_depth vec) c) + 1 end)
        by (rewrite DP; destruct C; auto).
      constructor. constructor; auto.
    - destruct M as [P J]. eapply rrel_bind; [apply rows_rel; auto|]. intros r r' Pr. rewrite (OFM r r' Pr).
      destruct r as [|a r]; [apply Permutation_nil in Pr as ->; constructor|].
      destruct r' as [|a' r']; [apply Permutation_sym, Permutation_nil in Pr; discriminate|]. constructor. constructor; auto.
  Qed.

  (** ** Forests *)
  Definition esim (e e' : Z * tree) : Prop := fst e = fst e' /\ tsim (snd e) (snd e').
  Definition fsim (f f' : forest) : Prop :=
    f_current vec D f = f_current vec D f' /\ Forall2 esim (f_storage vec D f) (f_storage vec D f') /\ f_distance vec D f = f_distance vec D f'.

  Lemma storage_keys s s' : Forall2 esim s s' -> keys s = keys s'.
  Proof. induction 1 as [|[k t] [k' t'] s s' [E _] F IH]; auto. unfold keys in *. simpl in *. congruence. Qed.
  Lemma storage_set s s' i t t' : Forall2 esim s s' -> tsim t t' -> Forall2 esim (dset i t s) (dset i t' s').
  Proof.
    intros F T. induction F as [|[k u] [k' u'] s s' [E S] F IH]; simpl; [constructor; [split; auto|constructor]|].
    simpl in E. subst k'. destruct (eqb i k); constructor; auto; split; auto.
  Qed.
  Lemma storage_get s s' i : Forall2 esim s s' -> rrel tsim (dlookup i s) (dlookup i s').
  Proof.
    intro F. unfold dlookup. induction F as [|[k u] [k' u'] s s' [E S] F IH]; simpl; [constructor|].
    simpl in E. subst k'. destruct (eqb i k); auto. constructor. auto.
  Qed.

  Lemma add_by_members_rel it f f' ms ms' : fsim f f' -> Permutation ms ms' /\ in_managed ms ->
    rrel fsim (add_by_members vec D mean v1 it f ms) (add_by_members vec D mean v2 it f' ms').
  Proof.
    intros (C & S & Dd) P. unfold add_by_members. eapply (rrel_bind eq).
    { apply rrel_eq. rewrite (storage_keys _ _ S). destruct S; auto. }
    intros i _ <-. eapply rrel_bind; [apply new_cluster_rel; [exact Logic.I|exact P]|]. intros t t' T. constructor. split; [|split]; simpl; auto.
    - congruence.
    - apply storage_set; auto.
  Qed.
  Lemma add_by_merging_rel it f f' l : fsim f f' ->
    rrel (fun r r' => fsim (fst r) (fst r') /\ snd r = snd r') (add_by_merging vec D mean v1 it f l) (add_by_merging vec D mean v2 it f' l).
  Proof.
    intros (C & S & Dd). unfold add_by_merging. eapply (rrel_bind eq); [apply rrel_eq; congruence|]. intros cur _ <-.
    eapply (rrel_bind eq); [apply rrel_eq; rewrite (storage_keys _ _ S); auto|]. intros mx _ <-. cbv zeta.
    eapply rrel_bind; [eapply rmap_rel; [apply Forall2_same|intros c _ <-; apply storage_get; exact S]|]. intros ts ts' T.
    eapply rrel_bind; [apply new_cluster_rel; [exact T|exact Logic.I]|]. intros t t' Tt. constructor. simpl. split; auto. split; [|split]; simpl; auto.
    apply storage_set; auto.
  Qed.

  (** ** Distances *)
  Variable table : dict pystr (dict pystr D).
  Hypothesis TB : pairwise_table vec D pairwise m1 v1 = Ok table.
  Lemma covered : ids m1 <> [] /\ forall x, In x (ids m1) -> In x (keys v1).
  Proof.
    unfold pairwise_table in TB. rewrite ask_managed in TB. cbn [rbind] in TB.
    destruct (rmap (fun x => dlookup x v1) (ids m1)) as [rows|] eqn:R; simpl in TB; [|discriminate]. split.
    - intros E. rewrite E in R. simpl in R. injection R as <-. discriminate.
    - clear TB. revert rows R. induction (ids m1) as [|y l IH]; simpl; intros rows R x [ ].
      + subst. unfold dlookup in R. destruct (dget x v1) eqn:G; [|discriminate]. eapply dget_Some_key; eauto.
      + destruct (dlookup y v1); simpl in R; [|discriminate]. destruct (rmap _ l); simpl in R; [|discriminate]. eapply IH; eauto.
  Qed.
  Lemma table_good : good_ptable pairwise m1 v1 table.
  Proof.
    destruct covered as [NE COV]. destruct (pairwise_table_run pairwise m1 v1 I1 COV NE) as (t & E & G). rewrite TB in E. injection E as <-. auto.
  Qed.
  Definition tget (p : pystr * pystr) : D := match table_get D table p with Ok d => d | Raise _ => inf end.
  Lemma tget_ok a b : In a (ids m1) -> In b (ids m1) -> table_get D table (a, b) = Ok (tget (a, b)).
  Proof. intros A B. unfold tget. destruct (table_good a b A B) as (d & -> & _). auto. Qed.
  Lemma tget_sym a b : In a (ids m1) -> In b (ids m1) -> tget (a, b) = tget (b, a).
  Proof.
    intros A B. unfold tget. destruct (table_good a b A B) as (d & -> & Dd). destruct (table_good b a B A) as (d' & -> & Dd').
    eapply distance_unique; [exact I1|exact Dd|]. destruct Dd' as (l & rows & i & j & E & R & Ei & Ej & ->).
    exists l, rows, j, i. rewrite (SYM rows j i). auto.
  Qed.

  Lemma tree_distance_same t1 t1' t2 t2' : tsim t1 t1' -> tsim t2 t2' ->
    tree_distance vec D cdistance ltb dsum ddiv inf m1 linkage table t1 t2 =
    tree_distance vec D cdistance ltb dsum ddiv inf m2 linkage table t1' t2'.
  Proof.
    intros S1 S2. unfold tree_distance. assert (P1 := tsim_members _ _ S1). assert (P2 := tsim_members _ _ S2).
    assert (J1 := tsim_managed _ _ S1). assert (J2 := tsim_managed _ _ S2).
    rewrite <- (tsim_centroid _ _ S1), <- (tsim_centroid _ _ S2).
    set (l1 := t_members vec t1) in *. set (l1' := t_members vec t1') in *. set (l2 := t_members vec t2) in *. set (l2' := t_members vec t2') in *.
    assert (J1' : in_managed l1') by (intros x X; apply J1; eapply Permutation_in; [apply Permutation_sym|]; eauto).
    assert (J2' : in_managed l2') by (intros x X; apply J2; eapply Permutation_in; [apply Permutation_sym|]; eauto).
    assert (PP := Permutation_prod _ _ _ _ P1 P2).
    assert (RM : forall l l', Permutation (map tget l) (map tget l') -> (forall a b, In (a, b) l -> In a (ids m1) /\ In b (ids m1)) ->
      (forall a b, In (a, b) l' -> In a (ids m1) /\ In b (ids m1)) ->
      exists ds ds', rmap (table_get D table) l = Ok ds /\ rmap (table_get D table) l' = Ok ds' /\ Permutation ds ds').
    { intros l l' P J J'. exists (map tget l), (map tget l'). split; [|split; auto].
      - apply rmap_pure. intros [a b] Q. destruct (J a b Q). apply tget_ok; auto.
      - apply rmap_pure. intros [a b] Q. destruct (J' a b Q). apply tget_ok; auto. }
    assert (IP : forall a b, In (a, b) (list_prod l1 l2) -> In a (ids m1) /\ In b (ids m1)) by (intros a b Q; apply in_prod_iff in Q as [A B]; auto).
    assert (IP' : forall a b, In (a, b) (list_prod l1' l2') -> In a (ids m1) /\ In b (ids m1)) by (intros a b Q; apply in_prod_iff in Q as [A B]; auto).
    rewrite (rexists_pure _ (cl_pair m1)).
    2:{ intros [a b] Q. apply in_prod_iff in Q as [A B]. unfold cl_pair. cbn [fst snd]. apply inferred_is_cl; auto. }
    assert (RX : rexists (fun p => inferred_is m2 (fst p) (snd p) CANNOT_LINK) (list_prod l1' l2') = Ok (existsb (cl_pair m1) (list_prod l1' l2'))).
    { rewrite (rexists_pure _ (cl_pair m1)); auto.
      intros [a b] Q. apply in_prod_iff in Q as [A B]. unfold cl_pair. cbn [fst snd]. rewrite <- (same_inferred_is m1 m2 SK). apply inferred_is_cl; auto. }
    rewrite RX. clear RX. rewrite (existsb_Permutation _ _ _ PP). cbn [rbind]. destruct (existsb _ _); auto.
    destruct (RM _ _ (Permutation_map tget PP) IP IP') as (ds & ds' & E & E' & Pd). rewrite E, E'. cbn [rbind].
    destruct (eqb linkage (str "complete")); [apply py_max_Permutation; auto|].
    destruct (eqb linkage (str "average")); auto.
    destruct (eqb linkage (str "single")); [apply py_min_Permutation; auto|].
    rewrite !pairs_below_eq. rewrite (Permutation_length P1), (Permutation_length P2).
    assert (P12 : Permutation (l1 ++ l2) (l1' ++ l2')) by (apply Permutation_app; auto).
    assert (J12 : in_managed (l1 ++ l2)) by (intros x X; apply in_app_or in X as [X|X]; auto).
    assert (J12' : in_managed (l1' ++ l2')) by (intros x X; apply in_app_or in X as [X|X]; auto).
    destruct (RM (position_pairs (l1 ++ l2)) (position_pairs (l1' ++ l2'))) as (es & es' & F & F' & Pe).
    - apply pairs_Permutation; auto. intros a b A B. apply tget_sym; auto.
    - intros a b Q. apply position_pairs_mem in Q as [A B]. auto.
    - intros a b Q. apply position_pairs_mem in Q as [A B]. auto.
    - rewrite F, F'. cbn [rbind]. rewrite (OFS _ _ Pe). auto.
  Qed.

  Notation upd m := (update_distance vec D cdistance ltb dsum ddiv inf m linkage table).
  Lemma update_distance_rel f f' p : fsim f f' -> rrel fsim (upd m1 f p) (upd m2 f' p).
  Proof.
    intros (C & S & Dd). unfold update_distance. eapply (rrel_bind eq).
    { unfold compute_distance. eapply rrel_bind; [apply storage_get; exact S|]. intros a b T. eapply rrel_bind; [apply storage_get; exact S|].
      intros a' b' T'. apply rrel_eq, tree_distance_same; auto. }
    intros d _ <-. constructor. split; [|split]; simpl; auto. congruence.
  Qed.
  Lemma two_closest_same f f' : fsim f f' -> two_closest vec D ltb inf f = two_closest vec D ltb inf f'.
  Proof.
    intros (C & S & Dd). unfold two_closest. rewrite C, Dd. f_equal. apply rmap_ext. intros p _. apply rbind_ext. intros d _.
    destruct (storage_get _ _ (fst p) S) as [a b T|]; auto. destruct (storage_get _ _ (snd p) S) as [a' b' T'|]; auto. simpl.
    rewrite (Permutation_length (tsim_members _ _ T)), (Permutation_length (tsim_members _ _ T')). auto.
  Qed.
  Lemma merge_loop_rel fuel : forall it f f', fsim f f' ->
    rrel (fun r r' => fsim (fst r) (fst r') /\ snd r = snd r')
      (merge_loop vec D cdistance ltb dsum ddiv inf mean fuel m1 linkage table v1 it f)
      (merge_loop vec D cdistance ltb dsum ddiv inf mean fuel m2 linkage table v2 it f').
  Proof.
    induction fuel as [|fuel IH]; intros it f f' F; cbn [merge_loop]; rewrite <- (proj1 F).
    - destruct (Nat.leb _ 1); constructor; auto.
    - destruct (Nat.leb _ 1); [constructor; auto|]. rewrite <- (two_closest_same _ _ F).
      destruct (two_closest vec D ltb inf f) as [[[c1 c2]|]|]; cbn [rbind]; try (constructor; auto).
      eapply rrel_bind; [apply add_by_merging_rel; auto|]. intros [f1 z] [f2 z'] [F1 E]. simpl in F1, E. subst z'.
      rewrite <- (proj1 F1). eapply rrel_bind.
      + eapply (rfold_rel eq fsim); [apply Forall2_same| |exact F1]. intros s s' a _ S <-. apply update_distance_rel; auto.
      + intros f3 f4 F3. apply IH; auto.
  Qed.
  Lemma build_tree_rel :
    rrel tsim (build_tree vec D cdistance ltb dsum ddiv inf mean m1 linkage v1 table)
      (build_tree vec D cdistance ltb dsum ddiv inf mean m2 linkage v2 table).
  Proof.
    unfold build_tree. rewrite !ask_components by auto. cbn [rbind].
    assert (SC : Forall2 (fun l l' => Permutation l l' /\ in_managed l) (comps m1) (comps m2)).
    { eapply Forall2_imp; [|apply same_comps; auto]. intros l l' L P. split; auto. apply comps_In in L as (x & X & ->).
      intros y Y. eapply comp_of_ids; eauto. }
    eapply rrel_bind.
    { eapply (rfold_rel _ fsim); [exact SC| |]. { intros s s' a b F P. apply add_by_members_rel; auto. }
      split; [|split]; simpl; auto. }
    intros f f' F. rewrite <- (proj1 F). eapply rrel_bind.
    { eapply (rfold_rel eq fsim); [apply Forall2_same| |exact F]. intros s s' a _ S <-. apply update_distance_rel; auto. }
    intros g g' G. rewrite <- (proj1 G). eapply rrel_bind; [apply merge_loop_rel; auto|]. intros [h it] [h' it'] [Fh E]. simpl in Fh, E. subst it'.
    rewrite <- (proj1 Fh). eapply (rrel_bind fsim).
    { destruct (1 <? _); [|constructor; auto]. eapply rrel_bind; [apply add_by_merging_rel; auto|]. intros a b [X _]. constructor. auto. }
    intros k k' K. rewrite <- (proj1 K). destruct (f_current vec D k); [constructor|]. apply storage_get. apply K.
  Qed.

  (** ** Cuts *)
  Lemma py_max_rel {A} (R : A -> A -> Prop) (lt lt' : A -> A -> bool) l l' : Forall2 R l l' ->
    (forall a a' b b', R a a' -> R b b' -> lt a b = lt' a' b') -> rrel R (py_max lt l) (py_max lt' l').
  Proof.
    intros F E. unfold py_max. destruct F as [|a a' l l' X F]; constructor. revert a a' X.
    induction F as [|b b' l l' Y F IH]; intros a a' X; simpl; auto. rewrite (E a a' b b') by auto. destruct (lt' a' b'); auto.
  Qed.
  Lemma to_split_rel by_ l l' : Forall2 tsim l l' -> rrel tsim (to_split vec by_ l) (to_split vec by_ l').
  Proof.
    intro F. unfold to_split. destruct (eqb by_ _); apply py_max_rel; auto; intros a a' b b' A B.
    - rewrite (Permutation_length (tsim_members _ _ A)), (Permutation_length (tsim_members _ _ B)). auto.
    - rewrite (tsim_iteration _ _ A), (tsim_iteration _ _ B). auto.
  Qed.
  Lemma remove_rel t t' l l' : tsim t t' -> Forall2 tsim l l' -> Forall2 tsim (remove_tree vec t l) (remove_tree vec t' l').
  Proof.
    intros T F. induction F as [|u u' l l' U F IH]; simpl; auto. rewrite <- (tsim_id _ _ T), <- (tsim_id _ _ U). destruct (Z.eqb _ _); auto.
  Qed.
  Lemma explore_rel fuel : forall by_ nb l l', Forall2 tsim l l' -> rrel (Forall2 tsim) (explore vec fuel by_ nb l) (explore vec fuel by_ nb l').
  Proof.
    induction fuel as [|fuel IH]; intros by_ nb l l' F; cbn [explore]; rewrite <- (Forall2_len _ _ _ F);
      (destruct (_ <? nb)%Z; [|constructor; auto]); (eapply rrel_bind; [apply to_split_rel; exact F|]); intros t t' T;
      assert (C := tsim_children _ _ T); destruct C as [|c c' ch ch' C0 C]; try (constructor; auto; fail).
    apply IH. apply Forall2_app'; [apply remove_rel; auto|]. constructor; auto.
  Qed.
  Fixpoint tsize_eq t : forall t', tsim t t' -> tree_size vec t = tree_size vec t'.
  Proof.
    destruct t as [i it ch dp ms c]. intros t' T. inversion T as [? ? ? ch' ? ? ? ? F ? ?]; subst. simpl. f_equal. f_equal. clear T.
    revert ch' F. induction ch as [|x ch IH]; intros ch' F; inversion F; subst; simpl; auto. f_equal; [apply tsize_eq; auto|apply IH; auto].
  Qed.

  Lemma dset_comm (x y : pystr) (k : Z) d : In x (keys d) -> In y (keys d) -> dset x k (dset y k d) = dset y k (dset x k d).
  Proof.
    unfold keys. induction d as [|[j v] d IH]; simpl; intros X Y; [contradiction|].
    destruct (eqb_spec x j) as [->|NX], (eqb_spec y j) as [->|NY]; simpl; rewrite ?eqb_refl; auto;
      repeat (match goal with |- context [eqb ?a ?b] => destruct (eqb_spec a b); [congruence|] end); auto.
    f_equal. apply IH; [destruct X; congruence|destruct Y; congruence].
  Qed.
  Lemma labels_perm (k : Z) (l l' : list pystr) : Permutation l l' -> forall d, (forall x, In x l -> In x (keys d)) ->
    fold_left (fun d x => dset x k d) l d = fold_left (fun d x => dset x k d) l' d.
  Proof.
    induction 1; cbn [fold_left]; intros d J; auto.
    - apply IHPermutation. intros y Y. rewrite keys_dset_in; apply J; simpl; auto.
    - rewrite (dset_comm x y k d); auto; apply J; simpl; auto.
    - rewrite IHPermutation1 by auto. apply IHPermutation2. intros x X. apply J. eapply Permutation_in; [apply Permutation_sym|]; eauto.
  Qed.
  Lemma labels_keys (k : Z) (l : list pystr) : forall d, (forall x, In x l -> In x (keys d)) -> keys (fold_left (fun d x => dset x k d) l d) = keys d.
  Proof.
    induction l as [|y l IH]; simpl; intros d J; auto. rewrite IH.
    - apply keys_dset_in; auto.
    - intros x X. rewrite keys_dset_in; auto.
  Qed.
  Lemma labels_same l l' : Forall2 tsim l l' -> labels_of vec (ids m1) l = labels_of vec (ids m1) l'.
  Proof.
    intro F. unfold labels_of.
    assert (K : keys (dcomp (fun _ : pystr => (-1)%Z) (ids m1)) = ids m1) by (rewrite keys_dcomp; apply dedup_id, inv_nodup; auto).
    revert K. generalize (dcomp (fun _ : pystr => (-1)%Z) (ids m1)). induction F as [|t t' l l' T F IH]; intros d K; simpl; auto.
    rewrite <- (tsim_id _ _ T). assert (J : forall x, In x (t_members vec t) -> In x (keys d)) by (rewrite K; apply (tsim_managed _ _ T)).
    rewrite <- (labels_perm _ _ _ (tsim_members _ _ T)) by auto. apply IH. rewrite labels_keys; auto.
  Qed.
End Hier.

(** States of two clustering objects that differ in the order of the members of the clusters. *)
Definition hsim {vec} (m1 : mgr) (h h' : hier vec) : Prop :=
  h_ids vec h = Some (ids m1) /\ h_ids vec h' = Some (ids m1) /\
  match h_root vec h, h_root vec h' with Some t, Some t' => tsim vec m1 t t' | None, None => True | _, _ => False end.

Lemma predicted_same vec m1 (h h' : hier vec) nb by_ : Inv m1 -> hsim m1 h h' ->
  result (compute_predicted_clusters vec nb by_) h = result (compute_predicted_clusters vec nb by_) h' /\
  compute_predicted_clusters vec nb by_ h = (h, result (compute_predicted_clusters vec nb by_) h) /\
  compute_predicted_clusters vec nb by_ h' = (h', result (compute_predicted_clusters vec nb by_) h').
Proof.
  intros I1 (E & E' & R). unfold result, compute_predicted_clusters, bind, gets, lift, raise.
  destruct h as [o [t|] q], h' as [o' [t'|] q']; cbn [h_ids h_root] in *; subst; try contradiction; cbn [snd fst]; auto.
  rewrite <- (tsize_eq vec m1 t t' R). assert (X := explore_rel vec m1 (tree_size vec t) by_ nb [t] [t'] (Forall2_cons _ _ R (Forall2_nil _))).
  destruct X as [l l' F|e]; cbn [snd fst h_ids]; auto. rewrite (labels_same vec m1 I1 l l' F). auto.
Qed.

Section Final.
  Variables vec D : Type.
  Context `{EqB D}.
  Variable pairwise : list vec -> nat -> nat -> D.
  Variable cdistance : vec -> vec -> D.
  Variable ltb : D -> D -> bool.
  Variable dsum : list D -> D.
  Variable ddiv : D -> nat -> D.
  Variable inf : D.
  Variable mean : list vec -> vec.
  Lemma same_hier linkage m1 m2 v1 v2 nb s : Inv m1 -> Inv m2 -> same_knowledge m1 m2 -> same_vectors m1 v1 v2 ->
    strict_total_order ltb -> order_free dsum -> order_free mean -> (forall rows i j, pairwise rows i j = pairwise rows j i) ->
    let c1 := Hierarchical.cluster vec D pairwise cdistance ltb dsum ddiv inf mean linkage m1 v1 nb s in
    let c2 := Hierarchical.cluster vec D pairwise cdistance ltb dsum ddiv inf mean linkage m2 v2 nb s in
    snd c1 = snd c2 /\ (fst c1 = fst c2 \/ hsim m1 (fst c1) (fst c2)).
  Proof.
    intros I1 I2 SK SV STO OFS OFM SYM. cbv zeta. unfold Hierarchical.cluster.
    assert (ID := same_ids_eq _ _ SK). rewrite !ask_managed. rewrite <- ID. unfold bind, lift, modify. cbn [fst snd].
    destruct nb as [nb|]; [|unfold raise; auto]. destruct (nb <? 2)%Z; [unfold raise; auto|].
    rewrite <- (same_table m1 m2 SK vec D pairwise v1 v2 SV). destruct (pairwise_table vec D pairwise m1 v1) as [table|e] eqn:TB; [|auto].
    cbn [h_ids h_root h_predicted].
    assert (X := build_tree_rel vec D pairwise cdistance ltb dsum ddiv inf mean STO OFS OFM SYM m1 m2 I1 I2 SK v1 v2 SV linkage table TB).
    destruct X as [t t' T|e]; [|auto]. cbn [h_ids h_root h_predicted].
    set (h := mkHier vec (Some (ids m1)) (Some t) None). set (h' := mkHier vec (Some (ids m1)) (Some t') None).
    assert (HS : hsim m1 h h') by (split; [|split]; simpl; auto).
    destruct (predicted_same vec m1 h h' (Z.min nb (Z.of_nat (length (ids m1)))) (str "size") I1 HS) as (P & P1 & P2).
    rewrite P1, P2, P. destruct (result _ h') as [d|e]; cbn [fst snd ret]; auto.
  Qed.
End Final.
