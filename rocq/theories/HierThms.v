(** * Properties of hierarchical clustering (C37-C41, C61-C66). *)

From Coq Require Import String List Bool Arith ZArith QArith Lia Permutation Sorted.
From Verif Require Import Base Manager Spec Closure ManagerProofs ManagerInv ManagerQueries ManagerThms
  Sampling SamplingSpec SamplingProofs SamplingThms Rename ClusterSpec RenameThms ClusterProofs KMeans KMeansSpec KMeansProofs KMeansThms
  Hierarchical HierSpec HierProofs HierRun HierTree.
Import ListNotations.
Open Scope nat_scope.
Open Scope py_scope.

(*HEADER
From Coq Require Import String List Bool Arith ZArith QArith Permutation Lia.
From Verif Require Import Base Manager Spec ManagerThms SamplingSpec ClusterSpec KMeansSpec Hierarchical HierSpec HierThms.
Import ListNotations.
Open Scope nat_scope.

(** An instance for the examples: points on a line. *)
Definition pw (X : list Z) (i j : nat) : Z := Z.abs (nth i X 0 - nth j X 0)%Z.
Definition zmean (l : list Z) : Z := (fold_right Z.add 0 l / Z.of_nat (length l))%Z.
Definition zsum (l : list Z) : Z := fold_right Z.add 0%Z l.
Definition hier_Z := cluster Z Z pw (fun x y => Z.abs (x - y)%Z) Z.ltb zsum (fun d n => (d / Z.of_nat n)%Z) 1000000%Z zmean.
Definition ward := str "ward". Definition single := str "single". Definition complete_linkage := str "complete". Definition average := str "average".
Definition A := str "a". Definition B := str "b". Definition C := str "c". Definition E := str "d".
Definition ex : mgr := run [CallAddConstraint A C MUST_LINK 1%Q; CallAddConstraint A B CANNOT_LINK 1%Q] (init [A; B; C; E]).
Lemma ex_reachable : reachable ex.
Proof. apply run_reachable. Qed.
Definition vecs : dict pystr Z := [(A, 0); (B, 1); (C, 10); (E, 12)]%Z.

HEADER*)

Lemma make_linkage name linkage : make_hierarchical name = Ok linkage -> make_hierarchical linkage = Ok linkage.
Proof. unfold make_hierarchical. destruct (mem name _) eqn:E; [|discriminate]. intro Q. injection Q as <-. rewrite E. auto. Qed.

Section Cutting.
  Context {vec : Type}.
  Notation tree := (tree vec).
  Notation members := (t_members vec).
  Notation children := (t_children vec).
  Notation tid := (t_id vec).

  Lemma cut_tid_inj (root : tree) l : tree_ok root -> cut root l -> forall t u, In t l -> In u l -> tid t = tid u -> t = u.
  Proof.
    intros OK C t u T U E. destruct (cut_facts root l OK C) as (_ & _ & ND & _ & _).
    assert (G : forall l : list tree, NoDup (map tid (flat_map nodes l)) -> In t l -> In u l -> t = u).
    { clear - E. induction l as [|y l IH]; intros ND T U; [destruct T|]. cbn [flat_map] in ND. rewrite map_app in ND.
      destruct (NoDup_app_inv _ _ ND) as (_ & ND2 & DJ).
      assert (Q : forall v, In v l -> In (tid v) (map tid (flat_map nodes l))).
      { intros v V. apply in_map, in_flat_map. exists v. split; auto. rewrite nodes_eq. left; auto. }
      assert (Qy : In (tid y) (map tid (nodes y))) by (rewrite nodes_eq; left; auto).
      destruct T as [->|T], U as [->|U]; auto.
      - exfalso. apply (DJ (tid t)); auto. rewrite E. auto.
      - exfalso. apply (DJ (tid u)); auto. rewrite <- E. auto. }
    exact (G l ND T U).
  Qed.

  Lemma split_end by_ k (l l' : list tree) : split_run by_ k l l' -> (k <= Z.of_nat (length l'))%Z \/
    exists l1 t l2, l' = l1 ++ t :: l2 /\ first_biggest by_ l1 t l2 /\ children t = [].
  Proof. induction 1; eauto. right. exists l1, t, l2. auto. Qed.

  Lemma first_biggest_all by_ l1 (t : tree) l2 : first_biggest by_ l1 t l2 -> forall u, In u (l1 ++ t :: l2) -> key_of by_ u <= key_of by_ t.
  Proof. intros [F1 F2] u U. apply in_app_or in U as [U|[<-|U]]; auto. apply F1 in U. lia. Qed.

  (** At most as many clusters as requested, or as the root has children. *)
  Lemma split_upper_aux root by_ k (l l' : list tree) : tree_ok root ->
    (forall u, In u (nodes root) -> u <> root -> children u = [] \/ length (children u) = 2) ->
    cut root l -> split_run by_ k l l' -> length l' <= Nat.max (Nat.max (Z.to_nat k) (length l)) (length (children root)).
  Proof.
    intros OK BI C S. induction S as [l Q|l1 t l2 FB EC|l1 t l2 final Lt FB EC S IH]; [lia|lia|].
    assert (C' : cut root (l1 ++ l2 ++ children t)) by (apply cut_split; auto). specialize (IH C').
    destruct (cut_root_in root _ OK C) as [E|[_ NR]].
    - destruct l1 as [|? [|]]; try discriminate. injection E as -> ->. cbn [app] in IH. lia.
    - destruct (cut_facts root _ OK C) as (_ & IN & _).
      assert (T : In t (l1 ++ t :: l2)) by apply in_elt.
      destruct (BI t) as [Q|Q]; [|auto|congruence|].
      + apply IN, in_flat_map. exists t. split; auto. rewrite nodes_eq; left; auto.
      + rewrite !app_length in *. cbn [length] in *. rewrite Q in IH. lia.
  Qed.

  (** What [compute_predicted_clusters] answers. *)
  Lemma compute_run (s : hier vec) root l0 by_ k : h_root vec s = Some root -> h_ids vec s = Some l0 -> tree_ok root ->
    exists l d, compute_predicted_clusters vec k by_ s = (s, Ok d) /\ split_run by_ k [root] l /\ cut root l /\ canonical d /\
      (forall x, In x (keys d) <-> In x l0 \/ In x (members root)) /\
      forall x y, In x (keys d) -> In y (keys d) ->
        (dget x d = dget y d <-> (exists t, In t l /\ In x (members t) /\ In y (members t)) \/ (~ In x (members root) /\ ~ In y (members root))).
  Proof.
    intros ER EI OK. unfold compute_predicted_clusters, bind, gets, lift. rewrite ER, EI.
    destruct (explore_run by_ k (tree_size vec root) [root]) as (l & E & SR).
    { discriminate. }
    { cbn [flat_map]. rewrite app_nil_r. apply OK. }
    { cbn. lia. }
    rewrite E. assert (C : cut root l) by (eapply split_cut; eauto; constructor).
    destruct (cut_facts root l OK C) as (NE & IN & ND & PM & PL).
    assert (NM : NoDup (flat_map members l)) by (apply (Permutation_NoDup (Permutation_sym PM)); apply OK).
    destruct (labels_fold l NM (dcomp (fun _ => (-1)%Z) l0)) as (A & B & Ck & K). fold (labels_of vec l0 l) in *.
    rewrite keys_dcomp in Ck. specialize (Ck (dedup_NoDup _)).
    assert (K' : forall x, In x (keys (labels_of vec l0 l)) <-> In x l0 \/ In x (flat_map members l)) by (intro x; rewrite K, keys_dcomp, dedup_In; tauto).
    clear K. rename K' into K.
    destruct (rename_run (labels_of vec l0 l) Ck) as (d & R & Kd & Can & [SK SP]). rewrite R. exists l, d.
    split; auto. split; auto. split; auto. split; auto.
    assert (IM : forall x, In x (flat_map members l) <-> In x (members root)).
    { intro x. split; apply Permutation_in; auto. symmetry; auto. }
    split.
    - intro x. rewrite <- SK, K, IM. tauto.
    - intros x y X Y. rewrite <- SP by (apply SK; auto). apply SK in X, Y.
      assert (LB : forall z, In z (keys (labels_of vec l0 l)) ->
        (exists t, In t l /\ In z (members t) /\ dget z (labels_of vec l0 l) = Some (tid t)) \/
        (~ In z (members root) /\ dget z (labels_of vec l0 l) = Some (-1)%Z)).
      { intros z Zk. destruct (in_dec eq_dec_of z (flat_map members l)) as [J|J].
        - left. apply in_flat_map in J as (t & T & Zt). exists t. auto.
        - right. rewrite IM in J. split; auto. rewrite B by (rewrite IM; auto). apply K in Zk as [Zk|Zk]; [|rewrite IM in Zk; tauto].
          rewrite dget_dcomp. apply mem_In in Zk. rewrite Zk. auto. }
      assert (POS : forall t, In t l -> (0 <= tid t)%Z).
      { intros t T. apply (to_pos _ OK). apply IN. apply in_flat_map. exists t. split; auto. rewrite nodes_eq. left; auto. }
      destruct (LB x X) as [(t & T & Xt & Ex)|[Nx Ex]], (LB y Y) as [(u & U & Yu & Ey)|[Ny Ey]]; rewrite Ex, Ey.
      + split.
        * intro Q. injection Q as Q. left. exists t. assert (t = u) by (eapply (cut_tid_inj root l); eauto). subst. auto.
        * intros [(v & V & Xv & Yv)|[N _]]; [|exfalso; apply N, IM; apply in_flat_map; eauto].
          rewrite (A v x V Xv) in Ex. rewrite (A v y V Yv) in Ey. congruence.
      + split.
        * intro Q. injection Q as Q. specialize (POS t T). lia.
        * intros [(v & V & Xv & Yv)|[N _]]; exfalso; [apply Ny|apply N]; apply IM; apply in_flat_map; eauto.
      + split.
        * intro Q. injection Q as Q. specialize (POS u U). lia.
        * intros [(v & V & Xv & Yv)|[_ N]]; exfalso; [apply Nx|apply N]; apply IM; apply in_flat_map; eauto.
      + split; auto.
  Qed.

  (** The number of clusters is the number of trees. *)
  Lemma groups_count (root : tree) l (d : dict pystr Z) : tree_ok root -> cut root l -> NoDup (keys d) -> groups_as l d ->
    nb_clusters_of d = length l.
  Proof.
    intros OK C NK [K G]. destruct (cut_facts root l OK C) as (_ & IN & NDi & PM & _).
    assert (NM : NoDup (flat_map members l)) by (apply (Permutation_NoDup (Permutation_sym PM)); apply OK).
    set (f := fun t : tree => match members t with x :: _ => match dget x d with Some c => c | None => 0%Z end | [] => 0%Z end).
    assert (F : forall t, In t l -> exists x, In x (members t) /\ dget x d = Some (f t)).
    { intros t T. assert (N : members t <> []).
      { apply (to_nonempty _ OK). apply IN. apply in_flat_map. exists t. split; auto. rewrite nodes_eq. left; auto. }
      unfold f. destruct (members t) as [|x ms] eqn:E; [congruence|]. exists x. split; [left; auto|].
      destruct (dget x d) eqn:Ed; auto. exfalso. apply dget_None in Ed. apply Ed, K. exists t. rewrite E. split; [auto|left; auto]. }
    unfold nb_clusters_of. rewrite <- (map_length f l). apply Permutation_length. apply NoDup_Permutation.
    - apply NoDup_nodup.
    - assert (GF : forall l' , incl l' l -> NoDup (flat_map members l') -> NoDup (map f l')).
      { induction l' as [|t l' IH]; intros SUB NM'; cbn [map]; [constructor|]. cbn [flat_map] in NM'.
        destruct (NoDup_app_inv _ _ NM') as (_ & N2 & DJ). constructor; [|apply IH; auto; intros u U; apply SUB; right; auto].
        intro J. apply in_map_iff in J as (u & E & U). assert (T : In t l) by (apply SUB; left; auto). assert (U' : In u l) by (apply SUB; right; auto).
        destruct (F t T) as (x & X & Ex), (F u U') as (y & Y & Ey). rewrite <- E, <- Ey in Ex.
        apply G in Ex; [|apply K; eauto|apply K; eauto]. destruct Ex as (v & V & Xv & Yv).
        assert (UQ : forall z a b, In a l -> In b l -> In z (members a) -> In z (members b) -> a = b).
        { clear - NM. induction l as [|c l IH]; intros z a b A0 B0 ZA ZB; [destruct A0|]. cbn [flat_map] in NM.
          destruct (NoDup_app_inv _ _ NM) as (_ & N2 & DJ). destruct A0 as [->|A0], B0 as [->|B0]; auto.
          - exfalso. apply (DJ z ZA). apply in_flat_map; eauto.
          - exfalso. apply (DJ z ZB). apply in_flat_map; eauto.
          - eapply IH; eauto. }
        assert (Etu : t = u) by (rewrite <- (UQ x v t V T Xv X); exact (UQ y v u V U' Yv Y)). subst u.
        apply (DJ x); auto. apply in_flat_map. exists t. auto. }
      apply GF; auto. apply incl_refl.
    - intro v. rewrite nodup_In. split.
      + intro V. apply vals_dget in V as [x Ex]; auto. assert (X : In x (keys d)) by (eapply dget_Some_key; eauto).
        destruct (proj1 (K x) X) as (t & T & Xt). destruct (F t T) as (y & Y & Ey). apply in_map_iff. exists t. split; auto.
        assert (Q : dget y d = dget x d) by (apply G; [apply K; eauto|auto|eauto]). congruence.
      + intro V. apply in_map_iff in V as (t & <- & T). destruct (F t T) as (x & X & Ex). eapply dget_vals; eauto.
  Qed.
End Cutting.

Section Clustering.
  Context {vec D : Type} `{EqB D}.
  Variable pairwise : list vec -> nat -> nat -> D.
  Variable cdistance : vec -> vec -> D.
  Variable ltb : D -> D -> bool.
  Variable dsum : list D -> D.
  Variable ddiv : D -> nat -> D.
  Variable inf : D.
  Variable mean : list vec -> vec.
  Variable linkage : pystr.
  Notation members := (t_members vec).
  Notation children := (t_children vec).
  Notation cluster := (Hierarchical.cluster vec D pairwise cdistance ltb dsum ddiv inf mean linkage).
  Notation ldist := (linkage_distance pairwise cdistance ltb dsum ddiv inf linkage).
  Notation none_left := (none_left pairwise cdistance ltb dsum ddiv inf linkage).

  Lemma root_tree_ok m vectors root : Inv m -> root_ok mean m vectors root -> tree_ok root.
  Proof.
    intros I [RN RS RI RD RL RM]. constructor; auto.
    - intros u U. apply (RN u U).
    - intros u U. apply (RN u U).
    - apply (Permutation_NoDup (Permutation_sym RM)). apply inv_nodup; auto.
    - intros u U. apply (RN u U).
  Qed.

  Lemma split_upper m vectors root by_ k l : Inv m -> root_ok mean m vectors root -> split_run by_ k [root] l ->
    length l <= Nat.max (Nat.max (Z.to_nat k) 1) (length (children root)).
  Proof.
    intros I RO SR. apply (split_upper_aux root by_ k [root] l); auto.
    - eapply root_tree_ok; eauto.
    - intros u U N. apply (ro_inner _ _ _ _ RO u U N).
    - constructor.
  Qed.

  (** A tree built for a manager. *)
  Definition built m vectors root : Prop :=
    root_ok mean m vectors root /\
    (no_cl m root \/ (2 <= length (children root) /\ (strict_total_order ltb -> none_left m vectors (children root)))) /\
    (strict_total_order ltb -> agglomerative pairwise cdistance ltb dsum ddiv inf mean linkage m vectors root).

  Lemma build_run m vectors table : Inv m -> make_hierarchical linkage = Ok linkage ->
    (forall x, In x (ids m) -> In x (keys vectors)) -> ids m <> [] -> good_ptable pairwise m vectors table ->
    exists root, build_tree vec D cdistance ltb dsum ddiv inf mean m linkage vectors table = Ok root /\ built m vectors root.
  Proof.
    intros I LK COV NE GT.
    destruct (build_tree_agg pairwise cdistance ltb dsum ddiv inf mean linkage m vectors I COV LK table GT NE) as (root & ts & E & ST & FI & A).
    exists root. split; auto.
    assert (FO := start_ok mean m vectors I ts ST).
    destruct (agg_root mean m vectors I _ _ (fun ts t1 t2 FI CH => proj2 (chosen_compatible pairwise cdistance ltb dsum ddiv inf linkage m vectors I LK table GT ts t1 t2 FI CH)) 1 ts root FO A)
      as [RO Q].
    split; auto. split.
    - destruct Q as [Q|[L X]]; [left; auto|right]. split; auto. intro TO.
      intros t1 t2 d B Ld. destruct (before_In _ _ _ B) as [T1 T2].
      assert (G : forall c, In c (children root) -> in_ids m c).
      { intros c Cc. apply (ro_nodes _ _ _ _ RO). apply child_node; auto. }
      destruct (tree_distance_run pairwise cdistance ltb dsum ddiv inf linkage m vectors I LK table t1 t2 GT (G _ T1) (G _ T2)) as (d0 & E0 & _ & LD).
      specialize (LD (proj1 TO)). rewrite (ldist_fun pairwise cdistance ltb dsum ddiv inf linkage m vectors I t1 t2 d d0 TO Ld LD).
      exact (proj1 X TO t1 t2 d0 B E0).
    - intro TO. exists ts. split; auto. eapply agg_closest; eauto.
  Qed.

  Lemma compute_groups m vectors root l d : Inv m -> built m vectors root -> cut root l ->
    (forall x, In x (keys d) <-> In x (ids m) \/ In x (members root)) ->
    (forall x y, In x (keys d) -> In y (keys d) ->
       (dget x d = dget y d <-> (exists t, In t l /\ In x (members t) /\ In y (members t)) \/ (~ In x (members root) /\ ~ In y (members root)))) ->
    groups_as l d /\ covers_exactly m d.
  Proof.
    intros I BU C K G. assert (OK := root_tree_ok m vectors root I (proj1 BU)).
    assert (PM := ro_members _ _ _ _ (proj1 BU)).
    assert (IM : forall x, In x (members root) <-> In x (ids m)).
    { intro x. split; apply Permutation_in; auto. symmetry; auto. }
    assert (KI : forall x, In x (keys d) <-> In x (ids m)) by (intro x; rewrite K, IM; tauto).
    destruct (cut_facts root l OK C) as (_ & _ & _ & PL & _).
    split; [split|].
    - intro x. rewrite KI, <- IM. split.
      + intro X. apply (Permutation_in x (Permutation_sym PL)) in X. apply in_flat_map in X. auto.
      + intro X. apply in_flat_map in X. apply (Permutation_in x PL) in X. auto.
    - intros x y X Y. rewrite G by auto. split; auto. intros [Q|[Q _]]; auto. exfalso. apply Q, IM, KI. auto.
    - intro x. rewrite KI. symmetry. apply managed_ids.
  Qed.

  (** A valid call. *)
  Lemma cluster_run m vectors nb s : Inv m -> make_hierarchical linkage = Ok linkage ->
    (forall x, In x (ids m) -> In x (keys vectors)) -> ids m <> [] -> (2 <= nb)%Z ->
    exists root l d, cluster m vectors (Some nb) s = (mkHier vec (Some (ids m)) (Some root) (Some d), Ok d) /\
      built m vectors root /\ split_run (str "size") (Z.min nb (Z.of_nat (length (ids m)))) [root] l /\ cut root l /\
      canonical d /\ groups_as l d /\ covers_exactly m d.
  Proof.
    intros I LK COV NE N. unfold Hierarchical.cluster. unfold bind at 1, lift at 1. rewrite ask_managed by auto.
    unfold bind at 1, modify at 1. destruct (Z.ltb_spec nb 2); [lia|].
    destruct (pairwise_table_run pairwise m vectors I COV NE) as (table & ET & GT).
    unfold bind at 1, lift at 1. rewrite ET. unfold bind at 1, modify at 1. cbn [h_ids].
    destruct (build_run m vectors table I LK COV NE GT) as (root & EB & BU).
    unfold bind at 1, lift at 1. rewrite EB. unfold bind at 1, modify at 1. cbn [h_ids h_predicted].
    assert (OK := root_tree_ok m vectors root I (proj1 BU)).
    destruct (compute_run (mkHier vec (Some (ids m)) (Some root) None) root (ids m) (str "size") (Z.min nb (Z.of_nat (length (ids m)))))
      as (l & d & EC & SR & C & Can & K & G); auto.
    unfold bind at 1. rewrite EC. cbn [modify bind ret h_ids h_root]. exists root, l, d. split; auto. split; auto. split; auto. split; auto. split; auto.
    apply (compute_groups m vectors root l); auto.
  Qed.

  (** Failing calls replace the list of IDs, nothing else. *)
  Lemma cluster_fails m vectors nb s : Inv m ->
    let failed e := cluster m vectors nb s = (mkHier vec (Some (ids m)) (h_root vec s) (h_predicted vec s), Raise e) in
    (match nb with None => True | Some n => (n < 2)%Z end -> failed ValueError) /\
    (forall n, nb = Some n -> (2 <= n)%Z ->
       (ids m = [] -> failed ValueError) /\
       ((exists x, In x (ids m) /\ ~ In x (keys vectors)) -> failed KeyError)).
  Proof.
    intros I failed. unfold failed. unfold Hierarchical.cluster. unfold bind at 1 2 3, lift at 1 2 3. rewrite ask_managed by auto.
    unfold bind at 1 2 3, modify at 1 2 3. split.
    - intro N. destruct nb as [n|]; [|reflexivity]. destruct (Z.ltb_spec n 2); [reflexivity|lia].
    - intros n -> N. destruct (Z.ltb_spec n 2); [lia|]. unfold bind at 1 2, lift at 1 2, pairwise_table at 1 2. rewrite ask_managed by auto. cbn [rbind].
      split.
      + intros ->. reflexivity.
      + intro Mi. rewrite rmap_missing by auto. reflexivity.
  Qed.

  Lemma returned_run m vectors nb s d : Inv m -> make_hierarchical linkage = Ok linkage ->
    result (cluster m vectors nb) s = Ok d ->
    exists n root l, nb = Some n /\ (2 <= n)%Z /\ ids m <> [] /\
      cluster m vectors nb s = (mkHier vec (Some (ids m)) (Some root) (Some d), Ok d) /\
      built m vectors root /\ split_run (str "size") (Z.min n (Z.of_nat (length (ids m)))) [root] l /\ cut root l /\
      canonical d /\ groups_as l d /\ covers_exactly m d.
  Proof.
    intros I LK E. destruct (cluster_fails m vectors nb s I) as [C1 C2]. unfold result in E.
    destruct nb as [n|]; [|rewrite C1 in E; [discriminate|exact Logic.I]].
    destruct (Z.ltb_spec n 2); [rewrite C1 in E; [discriminate|auto]|].
    destruct (C2 n eq_refl H0) as [C3 C4].
    destruct (list_eq_dec (fun x y : pystr => eq_dec_of x y) (ids m) []) as [E0|NE]; [rewrite C3 in E; [discriminate|auto]|].
    destruct (missing_dec vectors (ids m)) as [COV|M0]; [|rewrite C4 in E; [discriminate|auto]].
    destruct (cluster_run m vectors n s I LK COV NE H0) as (root & l & d' & R & Rest). rewrite R in E. injection E as ->.
    exists n, root, l. auto.
  Qed.

  (** Cuts into at least two clusters respect the constraints. *)
  Lemma cut_respects m vectors root by_ k l d : Inv m -> built m vectors root -> split_run by_ k [root] l -> groups_as l d ->
    respects_must_links m d /\ ((2 <= k)%Z \/ length (ids m) = 1 -> respects_cannot_links m d).
  Proof.
    intros I BU SR [K G]. assert (RO := proj1 BU). assert (OK := root_tree_ok m vectors root I RO).
    assert (C : cut root l) by (eapply split_cut; eauto; constructor).
    destruct (cut_facts root l OK C) as (_ & IN & _ & PM & PL).
    assert (KI : forall x, In x (keys d) <-> In x (ids m)).
    { intro x. rewrite K. split.
      - intro X. apply (Permutation_in x (ro_members _ _ _ _ RO)). apply (Permutation_in x PM). apply in_flat_map. auto.
      - intro X. apply (Permutation_in x (Permutation_sym (ro_members _ _ _ _ RO))) in X. apply (Permutation_in x (Permutation_sym PM)) in X.
        apply in_flat_map in X. auto. }
    split.
    - intros a b Ma Mb Q. apply managed_ids in Ma, Mb. apply G; [apply KI; auto|apply KI; auto|].
      apply inferred_ml in Q; auto. apply (ml_linked m I) in Q; auto. apply (comps_common m a b I) in Q as (c & Cc & Ac & Bc); auto.
      apply (Permutation_in c (ro_leaves _ _ _ _ RO)) in Cc. apply in_map_iff in Cc as (lf & <- & Lf).
      apply (Permutation_in lf (Permutation_sym PL)) in Lf. apply in_flat_map in Lf as (t & T & Lf). exists t. split; auto.
      assert (TN : In t (nodes root)) by (apply IN, in_flat_map; exists t; split; auto; rewrite nodes_eq; left; auto).
      apply filter_In in Lf as [Lf _]. assert (S := sub_members root lf t OK TN Lf). auto.
    - intros Hk a b Ma Mb Q Eq. apply managed_ids in Ma, Mb.
      apply G in Eq; [|apply KI; auto|apply KI; auto]. destruct Eq as (t & T & At & Bt).
      assert (TN : In t (nodes root)) by (apply IN, in_flat_map; exists t; split; auto; rewrite nodes_eq; left; auto).
      destruct (cut_root_in root l OK C) as [E|[_ NR]].
      2:{ exact (proj2 (ro_inner _ _ _ _ RO t TN (NR t T)) a b At Bt Q). }
      subst l. destruct T as [<-|[]].
      assert (NC : children root = [] -> no_cl m root).
      { intros E. assert (P := ro_leaves _ _ _ _ RO). rewrite leaves_eq, E in P. cbn [map] in P. apply Permutation_sym, Permutation_length_1_inv in P.
        intros x y X Y Qxy. assert (X' : In x (ids m)) by (apply (Permutation_in x (ro_members _ _ _ _ RO)); auto).
        assert (Y' : In y (ids m)) by (apply (Permutation_in y (ro_members _ _ _ _ RO)); auto).
        assert (Lk : linked (sml m) x y) by (apply (comps_common m x y I); auto; exists (members root); rewrite P; simpl; auto).
        apply (ml_linked m I) in Lk; auto. apply inferred_cl in Qxy; auto. exact (ml_cl m x y Lk Qxy). }
      destruct Hk as [Hk|Hk].
      + inversion SR as [l0 Q' E1 E2|l1 t l2 FB EC E1 E2|l1 t l2 f' Lt FB EC SR' E1 E2]; subst.
        * simpl in Q'. lia.
        * destruct l1 as [|? [|]]; try discriminate. injection E1 as -> ->. exact (NC EC a b At Bt Q).
        * destruct l1 as [|? [|]]; try discriminate. injection E1 as -> ->. cbn [app] in SR'.
          assert (J : In root [root]) by (left; auto). destruct (split_refines _ _ _ _ SR' root J) as (c & Cc & Sc).
          apply (cut_root_in root [root]) in OK as [E|[_ N]]; auto; [|exact (N root (or_introl eq_refl) eq_refl)].
          assert (Z1 : tree_size vec root <= tree_size vec c).
          { clear - Sc. induction Sc as [|v c Cc S IH]; auto. rewrite (tree_size_eq v).
            clear S. induction (children v) as [|x l IHl]; [destruct Cc|]. cbn [map list_sum fold_right].
            destruct Cc as [->|Cc]; [lia|]. specialize (IHl Cc). unfold list_sum in IHl. lia. }
          assert (Z2 : tree_size vec c < tree_size vec root).
          { rewrite (tree_size_eq root). clear - Cc. induction (children root) as [|x l IH]; [destruct Cc|].
            cbn [map list_sum fold_right]. destruct Cc as [->|Cc]; [lia|]. specialize (IH Cc). unfold list_sum in IH. lia. }
          lia.
      + destruct (ids m) as [|x [|]] eqn:EI; simpl in Hk; try lia. destruct Ma as [<-|[]], Mb as [<-|[]].
        apply inferred_cl in Q; auto; try (rewrite EI; left; auto). rewrite cl_irrefl in Q; auto; [discriminate|]. rewrite EI; left; auto.
  Qed.

  Lemma count_cut m vectors root l d : Inv m -> built m vectors root -> cut root l -> NoDup (keys d) -> groups_as l d ->
    nb_clusters_of d = length l.
  Proof. intros I BU C NK G. eapply groups_count; eauto. eapply root_tree_ok; eauto. apply BU. Qed.

  (** A cut after a call. *)
  Lemma recut m vectors nb s s' d k by_ : Inv m -> make_hierarchical linkage = Ok linkage ->
    cluster m vectors nb s = (s', Ok d) ->
    exists root l d', s' = mkHier vec (Some (ids m)) (Some root) (Some d) /\ compute_predicted_clusters vec k by_ s' = (s', Ok d') /\
      built m vectors root /\ split_run by_ k [root] l /\ cut root l /\ canonical d' /\ groups_as l d' /\ covers_exactly m d'.
  Proof.
    intros I LK E. assert (Er : result (cluster m vectors nb) s = Ok d) by (unfold result; rewrite E; auto).
    destruct (returned_run m vectors nb s d I LK Er) as (n & root & l0 & _ & _ & _ & Ru & BU & _). rewrite E in Ru. injection Ru as ->.
    destruct (compute_run (mkHier vec (Some (ids m)) (Some root) (Some d)) root (ids m) by_ k eq_refl eq_refl (root_tree_ok m vectors root I (proj1 BU)))
      as (l & d' & Ec & SR & C & Can & K & G).
    exists root, l, d'. split; auto. split; auto. split; auto. split; auto. split; auto. split; auto.
    apply (compute_groups m vectors root l); auto.
  Qed.

  (** Any history. *)
  Definition hist_ok (s : hier vec) : Prop :=
    forall root, h_root vec s = Some root -> tree_ok root /\ h_ids vec s <> None.

  Lemma compute_state s k by_ : fst (compute_predicted_clusters vec k by_ s) = s.
  Proof.
    unfold compute_predicted_clusters, bind, gets, lift. destruct (h_root vec s) as [root|]; auto.
    destruct (explore vec (tree_size vec root) by_ k [root]); auto. destruct (h_ids vec s); auto.
  Qed.

  Lemma history_ok s : make_hierarchical linkage = Ok linkage -> history pairwise cdistance ltb dsum ddiv inf mean linkage s -> hist_ok s.
  Proof.
    intros LK Hi. induction Hi as [|s m vectors nb Hi IH R|s nb by_ Hi IH].
    - intros root E. discriminate.
    - apply reachable_inv in R. destruct (cluster m vectors nb s) as [s' r] eqn:E. cbn [fst].
      destruct (cluster_fails m vectors nb s R) as [C1 C2].
      assert (FA : forall e, cluster m vectors nb s = (mkHier vec (Some (ids m)) (h_root vec s) (h_predicted vec s), Raise e) -> hist_ok s').
      { intros e Ee. rewrite Ee in E. injection E as <- _. intros root Er. cbn in *. split; [|discriminate]. apply IH; auto. }
      destruct nb as [n|]; [|exact (FA _ (C1 Logic.I))]. destruct (Z.ltb_spec n 2) as [L|L]; [exact (FA _ (C1 L))|].
      destruct (C2 n eq_refl L) as [C3 C4].
      destruct (list_eq_dec (fun x y : pystr => eq_dec_of x y) (ids m) []) as [E0|NE]; [exact (FA _ (C3 E0))|].
      destruct (missing_dec vectors (ids m)) as [COV|M0]; [|exact (FA _ (C4 M0))].
      destruct (cluster_run m vectors n s R LK COV NE L) as (root & l & d' & Ru & BU & _). rewrite Ru in E. injection E as <- _.
      intros root' Er. cbn in Er. injection Er as <-. split; [|discriminate]. eapply root_tree_ok; eauto. apply BU.
    - rewrite compute_state. auto.
  Qed.
End Clustering.

(*PROP C37: whatever the vectors, distances and linkage, a clustering returned by hierarchical clustering respects every known constraint. *)
Lemma C37_hierarchical_respects_proof :
  forall vec D (eqD : EqB D) pairwise cdistance ltb dsum ddiv inf mean name linkage m vectors nb s d,
    reachable m -> make_hierarchical name = Ok linkage ->
    result (cluster vec D pairwise cdistance ltb dsum ddiv inf mean linkage m vectors nb) s = Ok d ->
    respects m d.
Proof.
  intros vec D eqD pairwise cdistance ltb dsum ddiv inf mean name linkage m vectors nb s d R MK E.
  apply reachable_inv in R. apply make_linkage in MK.
  destruct (returned_run pairwise cdistance ltb dsum ddiv inf mean linkage m vectors nb s d R MK E)
    as (n & root & l & -> & N & NE & _ & BU & SR & C & Can & G & Co).
  destruct (cut_respects pairwise cdistance ltb dsum ddiv inf mean linkage m vectors root _ _ l d R BU SR G) as [M0 CL].
  split; auto. apply CL. destruct (ids m) as [|x [|y l']]; [congruence|right; auto|left; simpl; lia].
Qed.

(*EX
(** "a" and "b" are nearest to each other, "c" is nearest to "d": the constraints decide. *)
Example C37_ex :
  inferred ex B C (Some CANNOT_LINK) /\
  result (hier_Z single ex vecs (Some 2%Z)) (fresh_hier Z) = Ok [(A, 0); (B, 1); (C, 0); (E, 0)]%Z.
Proof. split; vm_compute; reflexivity. Qed.
EX*)

(*PROP C37: cutting the tree again, by either criterion, also respects the constraints (CANNOT_LINKs for at least two clusters). *)
Lemma C37_hierarchical_cuts_respect_proof :
  forall vec D (eqD : EqB D) pairwise cdistance ltb dsum ddiv inf mean name linkage m vectors nb s s' d k by_ d',
    reachable m -> make_hierarchical name = Ok linkage ->
    cluster vec D pairwise cdistance ltb dsum ddiv inf mean linkage m vectors nb s = (s', Ok d) ->
    result (compute_predicted_clusters vec k by_) s' = Ok d' ->
    respects_must_links m d' /\ ((2 <= k)%Z -> respects_cannot_links m d').
Proof.
  intros vec D eqD pairwise cdistance ltb dsum ddiv inf mean name linkage m vectors nb s s' d k by_ d' R MK E E'.
  apply reachable_inv in R. apply make_linkage in MK.
  destruct (recut pairwise cdistance ltb dsum ddiv inf mean linkage m vectors nb s s' d k by_ R MK E)
    as (root & l & d0 & -> & Ec & BU & SR & C & Can & G & Co).
  unfold result in E'. rewrite Ec in E'. injection E' as ->.
  destruct (cut_respects pairwise cdistance ltb dsum ddiv inf mean linkage m vectors root _ _ l d' R BU SR G) as [M0 CL]. auto.
Qed.

(*EX
Example C37_cuts_ex :
  result (compute_predicted_clusters Z 3 (str "iteration")) (fst (hier_Z ward ex vecs (Some 2%Z) (fresh_hier Z))) = Ok [(A, 0); (B, 1); (C, 0); (E, 2)]%Z.
Proof. vm_compute; reflexivity. Qed.
EX*)

(*PROP C38: the tree kept by a call is a well-formed dendrogram; a CANNOT_LINK pair can only be found in its root, and then no two children of the root could be merged. *)
Lemma C38_dendrogram_proof :
  forall vec D (eqD : EqB D) pairwise cdistance ltb dsum ddiv inf mean name linkage m vectors nb s s' d,
    reachable m -> make_hierarchical name = Ok linkage ->
    cluster vec D pairwise cdistance ltb dsum ddiv inf mean linkage m vectors nb s = (s', Ok d) ->
    exists root, h_root vec s' = Some root /\ dendrogram mean m vectors root /\
      forall a b, inferred m a b (Some CANNOT_LINK) ->
        2 <= length (t_children vec root) /\
        (strict_total_order ltb -> none_left pairwise cdistance ltb dsum ddiv inf linkage m vectors (t_children vec root)).
Proof.
  intros vec D eqD pairwise cdistance ltb dsum ddiv inf mean name linkage m vectors nb s s' d R MK E.
  apply reachable_inv in R. apply make_linkage in MK.
  destruct (recut pairwise cdistance ltb dsum ddiv inf mean linkage m vectors nb s s' d 1%Z (str "size") R MK E)
    as (root & l & d0 & -> & _ & BU & _). exists root. split; auto. destruct BU as (RO & Q & _).
  split; [apply root_dendrogram; auto|]. intros a b Qab. destruct Q as [Q|Q]; auto. exfalso.
  destruct (inferred_inI m R a b _ Qab) as [A B].
  apply (Q a b); auto; apply (Permutation_in _ (Permutation_sym (ro_members _ _ _ _ RO))); auto.
Qed.

(*EX
(** [ex] has a CANNOT_LINK: the root has two children. *)
Example C38_ex : option_map (fun t => (t_members Z t, map (t_members Z) (t_children Z t), map (t_iteration Z) (nodes t), map (t_id Z) (nodes t)))
    (h_root Z (fst (hier_Z average ex vecs (Some 2%Z) (fresh_hier Z)))) =
  Some ([B; A; C; E], [[B]; [A; C; E]], [2; 0; 1; 0; 0], [4; 1; 3; 0; 2]%Z).
Proof. vm_compute; reflexivity. Qed.
EX*)

(*PROP C39: after any history of calls, asking for more clusters refines the clustering, by either criterion. *)
Lemma C39_cuts_nested_proof :
  forall vec D (eqD : EqB D) pairwise cdistance ltb dsum ddiv inf mean name linkage s k k' by_ d d',
    make_hierarchical name = Ok linkage ->
    history pairwise cdistance ltb dsum ddiv inf mean linkage s -> (k <= k')%Z ->
    result (compute_predicted_clusters vec k by_) s = Ok d ->
    result (compute_predicted_clusters vec k' by_) s = Ok d' ->
    refines d' d.
Proof.
  intros vec D eqD pairwise cdistance ltb dsum ddiv inf mean name linkage s k k' by_ d d' MK Hi LE E E'.
  apply make_linkage in MK. assert (HO := history_ok pairwise cdistance ltb dsum ddiv inf mean linkage s MK Hi).
  destruct (h_root vec s) as [root|] eqn:ER.
  2:{ exfalso. unfold result, compute_predicted_clusters, bind, gets in E. rewrite ER in E. discriminate. }
  destruct (HO root ER) as [OK NI]. destruct (h_ids vec s) as [l0|] eqn:EI; [|congruence].
  destruct (compute_run s root l0 by_ k ER EI OK) as (l & d0 & Ec & SR & C & _ & K & G).
  destruct (compute_run s root l0 by_ k' ER EI OK) as (l' & d0' & Ec' & SR' & C' & _ & K' & G').
  unfold result in E, E'. rewrite Ec in E. rewrite Ec' in E'. injection E as ->. injection E' as ->.
  split; [intro x; rewrite K, K'; tauto|]. intros x y X Y Q.
  assert (KK : forall z, In z (keys d') -> In z (keys d)) by (intros z; rewrite K, K'; tauto).
  apply G; auto. apply G' in Q; auto. destruct Q as [(t' & T' & Xt & Yt)|Q]; auto. left.
  destruct (split_refines _ _ _ _ (split_further by_ k k' [root] l l' LE SR SR') t' T') as (t & T & ST).
  exists t. split; auto. destruct (cut_facts root l OK C) as (_ & IN & _ & _ & _).
  assert (TN : In t (nodes root)) by (apply IN, in_flat_map; exists t; split; auto; rewrite nodes_eq; left; auto).
  apply nodes_subtree in ST. assert (S := sub_members root t' t OK TN ST). auto.
Qed.

(*EX
Example C39_ex : let s := fst (hier_Z single (init [A; B; C; E]) vecs (Some 2%Z) (fresh_hier Z)) in
  history pw (fun x y => Z.abs (x - y)%Z) Z.ltb zsum (fun d n => (d / Z.of_nat n)%Z) 1000000%Z zmean single s /\
  result (compute_predicted_clusters Z 2 (str "size")) s = Ok [(A, 0); (B, 0); (C, 1); (E, 1)]%Z /\
  result (compute_predicted_clusters Z 3 (str "size")) s = Ok [(A, 0); (B, 1); (C, 2); (E, 2)]%Z.
Proof. split; [apply history_cluster; [constructor|apply (run_reachable _ [])]|]. split; vm_compute; reflexivity. Qed.
EX*)

(*PROP C40 is wrong for [cluster], which cuts by size: it stops at a big component although smaller clusters could be split. *)
Lemma C40_requested_number_refuted_proof :
  exists m vectors comps d, reachable m /\ ask get_connected_components m = Ok comps /\ length comps = 3 /\
    result (cluster Z Z (fun X i j => Z.abs (nth i X 0 - nth j X 0)%Z) (fun x y => Z.abs (x - y)%Z) Z.ltb (fold_right Z.add 0%Z)
              (fun d n => d / Z.of_nat n)%Z 1000000%Z (fun l => fold_right Z.add 0 l / Z.of_nat (length l))%Z (str "single")
              m vectors (Some 3%Z)) (fresh_hier Z) = Ok d /\
    nb_clusters_of d = 2%nat.
Proof.
  exists (run [CallAddConstraint (str "a") (str "b") MUST_LINK 1%Q; CallAddConstraint (str "b") (str "c") MUST_LINK 1%Q]
           (init [str "a"; str "b"; str "c"; str "d"; str "e"])).
  exists [(str "a", 0); (str "b", 1); (str "c", 2); (str "d", 100); (str "e", 101)]%Z.
  exists [[str "a"; str "b"; str "c"]; [str "d"]; [str "e"]].
  exists [(str "a", 0); (str "b", 0); (str "c", 0); (str "d", 1); (str "e", 1)]%Z.
  split; [apply run_reachable|]. repeat split; vm_compute; reflexivity.
Qed.

(*PROP C40, what holds of [cluster]: the number requested is reached, or a biggest cluster is a single component. At most the number requested, or the number of children of the root. *)
Lemma C40_requested_number_partial_proof :
  forall vec D (eqD : EqB D) pairwise cdistance ltb dsum ddiv inf mean name linkage m vectors nb s s' d,
    reachable m -> make_hierarchical name = Ok linkage ->
    cluster vec D pairwise cdistance ltb dsum ddiv inf mean linkage m vectors (Some nb) s = (s', Ok d) ->
    exists ids root l, ask get_list_of_managed_data_IDs m = Ok ids /\ h_root vec s' = Some root /\ groups_as l d /\
      (nb_clusters_of d <= Nat.max (Nat.min (Z.to_nat nb) (length ids)) (length (t_children vec root))) /\
      (Nat.min (Z.to_nat nb) (length ids) <= nb_clusters_of d \/
       exists t comps, In t l /\ (forall u, In u l -> length (t_members vec u) <= length (t_members vec t)) /\
         ask get_connected_components m = Ok comps /\ In (t_members vec t) comps).
Proof.
  intros vec D eqD pairwise cdistance ltb dsum ddiv inf mean name linkage m vectors nb s s' d R MK E.
  apply reachable_inv in R. apply make_linkage in MK.
  assert (Er : result (cluster vec D pairwise cdistance ltb dsum ddiv inf mean linkage m vectors (Some nb)) s = Ok d) by (unfold result; rewrite E; auto).
  destruct (returned_run pairwise cdistance ltb dsum ddiv inf mean linkage m vectors (Some nb) s d R MK Er)
    as (n & root & l & En & N & NE & Ru & BU & SR & C & Can & G & Co). injection En as <-. rewrite E in Ru. injection Ru as ->.
  exists (ids m), root, l. split; [apply ask_managed; auto|]. split; auto. split; auto.
  assert (NK : NoDup (keys d)) by (apply sorted_NoDup, (proj1 Can)).
  rewrite (count_cut pairwise cdistance ltb dsum ddiv inf mean linkage m vectors root l d R BU C NK G).
  split.
  - assert (B := split_upper mean m vectors root (str "size") _ l R (proj1 BU) SR).
    assert (1 <= length (ids m)) by (destruct (ids m); [congruence|cbn; lia]). lia.
  - destruct (split_end _ _ _ _ SR) as [Q|(l1 & t & l2 & -> & FB & EC)]; [left; lia|right].
    exists t, (comps m). split; [apply in_elt|]. split.
    + intros u U. assert (K := first_biggest_all _ _ _ _ FB u U). exact K.
    + split; [apply ask_components; auto|]. assert (RO := proj1 BU). apply (Permutation_in _ (Permutation_sym (ro_leaves _ _ _ _ RO))).
      apply in_map. apply filter_In. rewrite EC. split; auto.
      destruct (cut_facts root _ (root_tree_ok mean m vectors root R RO) C) as (_ & IN & _).
      apply IN, in_flat_map. exists t. split; [apply in_elt|]. rewrite nodes_eq; left; auto.
Qed.

(*EX
(** Without constraints three clusters are reached; with [ex] the biggest cluster is the component of A and C. *)
Example C40_partial_ex : result (hier_Z ward (init [A; B; C; E]) vecs (Some 3%Z)) (fresh_hier Z) = Ok [(A, 0); (B, 1); (C, 2); (E, 2)]%Z /\
  result (hier_Z ward ex vecs (Some 3%Z)) (fresh_hier Z) = Ok [(A, 0); (B, 1); (C, 0); (E, 1)]%Z.
Proof. split; vm_compute; reflexivity. Qed.
EX*)

(*PROP C40 for cuts by iteration: the number requested is reached when there are that many components. *)
Lemma C40_requested_number_by_iteration_proof :
  forall vec D (eqD : EqB D) pairwise cdistance ltb dsum ddiv inf mean name linkage m vectors nb s s' d k comps,
    reachable m -> make_hierarchical name = Ok linkage ->
    cluster vec D pairwise cdistance ltb dsum ddiv inf mean linkage m vectors nb s = (s', Ok d) ->
    ask get_connected_components m = Ok comps ->
    exists root d', h_root vec s' = Some root /\
      result (compute_predicted_clusters vec k (str "iteration")) s' = Ok d' /\
      Nat.min (Z.to_nat k) (length comps) <= nb_clusters_of d' <= Nat.max (Z.to_nat k) (Nat.max 1 (length (t_children vec root))).
Proof.
  intros vec D eqD pairwise cdistance ltb dsum ddiv inf mean name linkage m vectors nb s s' d k cs R MK E EC.
  apply reachable_inv in R. apply make_linkage in MK. rewrite ask_components in EC by auto. injection EC as <-.
  destruct (recut pairwise cdistance ltb dsum ddiv inf mean linkage m vectors nb s s' d k (str "iteration") R MK E)
    as (root & l & d' & -> & Ec & BU & SR & C & Can & G & Co).
  exists root, d'. split; auto. split; [unfold result; rewrite Ec; auto|].
  assert (NK : NoDup (keys d')) by (apply sorted_NoDup, (proj1 Can)).
  rewrite (count_cut pairwise cdistance ltb dsum ddiv inf mean linkage m vectors root l d' R BU C NK G).
  assert (RO := proj1 BU). assert (OK := root_tree_ok mean m vectors root R RO).
  assert (UB := split_upper mean m vectors root (str "iteration") _ l R RO SR). split; [|lia].
  destruct (split_end _ _ _ _ SR) as [Q|(l1 & t & l2 & El & FB & EL)]; [lia|].
  destruct (cut_facts root l OK C) as (_ & IN & _ & _ & PL).
  assert (LN : forall u, In u l -> In u (nodes root)) by (intros u U; apply IN, in_flat_map; exists u; split; auto; rewrite nodes_eq; left; auto).
  assert (LV : forall u, In u l -> leaves u = [u]).
  { intros u U. assert (K := first_biggest_all _ _ _ _ FB u). rewrite <- El in K. specialize (K U). unfold key_of in K.
    change (eqb (str "iteration") (str "size")) with false in K. cbn iota in K.
    assert (Nt : In t (nodes root)) by (apply LN; rewrite El; apply in_elt).
    assert (T0 := ro_nodes _ _ _ _ RO t Nt). apply no_leaf in T0; auto.
    rewrite leaves_eq. destruct (t_children vec u) as [|c cs] eqn:Ech; auto.
    assert (O := ro_nodes _ _ _ _ RO u (LN u U)). pose proof (no_order _ _ _ _ O c) as O'. clear O. rename O' into O. rewrite Ech in O. specialize (O (or_introl eq_refl)). lia. }
  assert (FL : flat_map leaves l = l).
  { clear - LV. induction l as [|u l IH]; auto. cbn [flat_map]. rewrite LV by (left; auto). rewrite IH; auto. intros; apply LV; right; auto. }
  assert (LL : length l = length (comps m)).
  { rewrite (Permutation_length (ro_leaves _ _ _ _ RO)), map_length, <- (Permutation_length PL), FL. auto. }
  lia.
Qed.

(*EX
(** The tree of the counterexample, cut by iteration. *)
Example C40_iteration_ex :
  let m := run [CallAddConstraint A B MUST_LINK 1%Q; CallAddConstraint B C MUST_LINK 1%Q] (init [A; B; C; E; str "e"]) in
  let s := fst (hier_Z single m [(A, 0); (B, 1); (C, 2); (E, 100); (str "e", 101)]%Z (Some 3%Z) (fresh_hier Z)) in
  result (compute_predicted_clusters Z 3 (str "iteration")) s = Ok [(A, 0); (B, 0); (C, 0); (E, 1); (str "e", 2)]%Z.
Proof. vm_compute; reflexivity. Qed.
EX*)

(*PROP C41 is wrong: a call refused because of its parameters replaces the list of IDs, and the next cut of the old tree answers about IDs it never clustered. *)
Lemma C41_failed_call_refuted_proof :
  exists m1 m2 vectors s1 s2 d1 d2, reachable m1 /\ reachable m2 /\
    let run := cluster Z Z (fun X i j => Z.abs (nth i X 0 - nth j X 0)%Z) (fun x y => Z.abs (x - y)%Z) Z.ltb (fold_right Z.add 0%Z)
                 (fun d n => d / Z.of_nat n)%Z 1000000%Z (fun l => fold_right Z.add 0 l / Z.of_nat (length l))%Z (str "single") in
    run m1 vectors (Some 2%Z) (fresh_hier Z) = (s1, Ok d1) /\
    run m2 vectors (Some 1%Z) s1 = (s2, Raise ValueError) /\
    result (compute_predicted_clusters Z 2 (str "size")) s1 = Ok d1 /\
    result (compute_predicted_clusters Z 2 (str "size")) s2 = Ok d2 /\ d1 <> d2 /\ ~ covers_exactly m1 d2 /\ ~ covers_exactly m2 d2.
Proof.
  set (m1 := init [str "a"; str "b"]). set (m2 := init [str "x"; str "y"]).
  exists m1, m2, [(str "a", 0); (str "b", 1)]%Z.
  set (run := cluster Z Z (fun X i j => Z.abs (nth i X 0 - nth j X 0)%Z) (fun x y => Z.abs (x - y)%Z) Z.ltb (fold_right Z.add 0%Z)
                 (fun d n => d / Z.of_nat n)%Z 1000000%Z (fun l => fold_right Z.add 0 l / Z.of_nat (length l))%Z (str "single")).
  exists (fst (run m1 [(str "a", 0); (str "b", 1)]%Z (Some 2%Z) (fresh_hier Z))).
  exists (fst (run m2 [(str "a", 0); (str "b", 1)]%Z (Some 1%Z) (fst (run m1 [(str "a", 0); (str "b", 1)]%Z (Some 2%Z) (fresh_hier Z))))).
  exists [(str "a", 0); (str "b", 1)]%Z, [(str "a", 0); (str "b", 1); (str "x", 2); (str "y", 2)]%Z.
  split; [apply (run_reachable _ [])|]. split; [apply (run_reachable _ [])|].
  split; [vm_compute; reflexivity|]. split; [vm_compute; reflexivity|]. split; [vm_compute; reflexivity|]. split; [vm_compute; reflexivity|].
  split; [discriminate|]. split.
  - intro C. destruct (proj1 (C (str "x"))) as (l & El & J); [vm_compute; auto|]. vm_compute in El. injection El as <-. vm_compute in J.
    destruct J as [J|[J|[]]]; discriminate.
  - intro C. destruct (proj1 (C (str "a"))) as (l & El & J); [vm_compute; auto|]. vm_compute in El. injection El as <-. vm_compute in J.
    destruct J as [J|[J|[]]]; discriminate.
Qed.

(*PROP C41, what holds: a failed call keeps the tree and the last result; when its manager has the IDs of the kept list, cuts answer as before. *)
Lemma C41_failed_call_partial_proof :
  forall vec D (eqD : EqB D) pairwise cdistance ltb dsum ddiv inf mean name linkage s m vectors nb s' e,
    make_hierarchical name = Ok linkage ->
    history pairwise cdistance ltb dsum ddiv inf mean linkage s -> reachable m ->
    cluster vec D pairwise cdistance ltb dsum ddiv inf mean linkage m vectors nb s = (s', Raise e) ->
    h_root vec s' = h_root vec s /\ h_predicted vec s' = h_predicted vec s /\
    forall l k by_, h_ids vec s = Some l -> (forall x, In x l <-> managed m x) ->
      result (compute_predicted_clusters vec k by_) s' = result (compute_predicted_clusters vec k by_) s.
Proof.
  intros vec D eqD pairwise cdistance ltb dsum ddiv inf mean name linkage s m vectors nb s' e MK Hi R E.
  apply reachable_inv in R. apply make_linkage in MK. assert (HO := history_ok pairwise cdistance ltb dsum ddiv inf mean linkage s MK Hi).
  assert (Es : s' = mkHier vec (Some (ids m)) (h_root vec s) (h_predicted vec s)).
  { destruct (cluster_fails pairwise cdistance ltb dsum ddiv inf mean linkage m vectors nb s R) as [C1 C2].
    destruct nb as [n|]; [|rewrite C1 in E by exact Logic.I; injection E; auto].
    destruct (Z.ltb_spec n 2) as [L|L]; [rewrite C1 in E by auto; injection E; auto|].
    destruct (C2 n eq_refl L) as [C3 C4].
    destruct (list_eq_dec (fun x y : pystr => eq_dec_of x y) (ids m) []) as [E0|NE]; [rewrite C3 in E by auto; injection E; auto|].
    destruct (missing_dec vectors (ids m)) as [COV|M0]; [|rewrite C4 in E by auto; injection E; auto].
    destruct (cluster_run pairwise cdistance ltb dsum ddiv inf mean linkage m vectors n s R MK COV NE L) as (root & l & d' & Ru & _).
    rewrite Ru in E. discriminate. }
  subst s'. split; auto. split; auto. intros l k by_ El Hl.
  destruct (h_root vec s) as [root|] eqn:ER.
  2:{ unfold result, compute_predicted_clusters, bind, gets. rewrite ER. reflexivity. }
  destruct (HO root ER) as [OK _].
  destruct (compute_run s root l by_ k ER El OK) as (c & d & Ec & SR & C & Can & K & G).
  destruct (compute_run (mkHier vec (Some (ids m)) (Some root) (h_predicted vec s)) root (ids m) by_ k eq_refl eq_refl OK) as (c' & d' & Ec' & SR' & C' & Can' & K' & G').
  unfold result. rewrite Ec, Ec'. cbn [snd]. f_equal. symmetry. apply canonical_unique; auto.
  assert (Ecc : c = c') by (eapply split_unique; eauto). subst c'.
  assert (KK : forall x, In x (keys d) <-> In x (keys d')).
  { intro x. rewrite K, K'. rewrite Hl, managed_ids. tauto. }
  split; auto. intros x y X Y. rewrite G, G' by (auto; apply KK; auto). tauto.
Qed.

(*EX
Example C41_partial_ex : let s := fst (hier_Z single ex vecs (Some 2%Z) (fresh_hier Z)) in
  let s' := fst (hier_Z single ex vecs None s) in
  (snd (hier_Z single ex vecs None s), result (compute_predicted_clusters Z 2 (str "size")) s') = (Raise ValueError, Ok [(A, 0); (B, 1); (C, 0); (E, 0)]%Z).
Proof. vm_compute; reflexivity. Qed.
EX*)

(*PROP C61: on a non-empty manager whose IDs all have vectors, hierarchical clustering returns a canonical clustering of exactly the managed IDs. *)
Lemma C61_hierarchical_total_proof :
  forall vec D (eqD : EqB D) pairwise cdistance ltb dsum ddiv inf mean name linkage m vectors nb s,
    reachable m -> make_hierarchical name = Ok linkage ->
    has_ids m -> covers (Some vectors) m -> (2 <= nb)%Z ->
    exists d, result (cluster vec D pairwise cdistance ltb dsum ddiv inf mean linkage m vectors (Some nb)) s = Ok d /\
      canonical d /\ covers_exactly m d.
Proof.
  intros vec D eqD pairwise cdistance ltb dsum ddiv inf mean name linkage m vectors nb s R MK HI (v & Ev & C) N.
  injection Ev as <-. apply reachable_inv in R. apply make_linkage in MK. apply has_ids_spec in HI.
  assert (COV : forall x, In x (ids m) -> In x (keys vectors)) by (intros x X; apply C, managed_ids; auto).
  destruct (cluster_run pairwise cdistance ltb dsum ddiv inf mean linkage m vectors nb s R MK COV HI N)
    as (root & l & d & Ru & _ & _ & _ & Can & _ & Co).
  exists d. unfold result. rewrite Ru. auto.
Qed.

(*EX
Example C61_ex : make_hierarchical ward = Ok ward /\ has_ids ex /\ covers (Some vecs) ex.
Proof.
  split; [reflexivity|]. split; [exists A, [A; B; C; E]; split; [reflexivity|left; reflexivity]|].
  exists vecs. split; [reflexivity|]. intros x (l & El & J). injection El as <-. exact J.
Qed.
EX*)

(*PROP C61: hierarchical clustering raises exactly on a bad number of clusters, a manager without ID or a missing vector; never anything else. *)
Lemma C61_hierarchical_errors_proof :
  forall vec D (eqD : EqB D) pairwise cdistance ltb dsum ddiv inf mean name linkage m vectors nb s e,
    reachable m -> make_hierarchical name = Ok linkage ->
    (result (cluster vec D pairwise cdistance ltb dsum ddiv inf mean linkage m vectors nb) s = Raise e <->
     (e = ValueError /\ (nb = None \/ (exists n, nb = Some n /\ (n < 2)%Z) \/ ~ has_ids m)) \/
     (e = KeyError /\ (exists n, nb = Some n /\ (2 <= n)%Z) /\ exists x, managed m x /\ ~ In x (keys vectors))).
Proof.
  intros vec D eqD pairwise cdistance ltb dsum ddiv inf mean name linkage m vectors nb s e R MK.
  apply reachable_inv in R. apply make_linkage in MK.
  destruct (cluster_fails pairwise cdistance ltb dsum ddiv inf mean linkage m vectors nb s R) as [C1 C2]. unfold result.
  assert (Mi : (exists x, managed m x /\ ~ In x (keys vectors)) <-> exists x, In x (ids m) /\ ~ In x (keys vectors)).
  { split; intros (x & X & Y); exists x; split; auto; apply managed_ids; auto. }
  rewrite Mi. clear Mi. destruct nb as [n|].
  2:{ rewrite C1 by exact Logic.I. cbn [snd]. split.
      - intro E. injection E as <-. auto.
      - intros [[-> _]|(_ & (n & N & _) & _)]; [auto|discriminate]. }
  destruct (Z.ltb_spec n 2) as [L|L].
  { rewrite C1 by auto. cbn [snd]. split.
    - intro E. injection E as <-. left. split; auto. right; left. eauto.
    - intros [[-> _]|(_ & (n' & N & L') & _)]; [auto|]. injection N as <-. lia. }
  destruct (C2 n eq_refl L) as [C3 C4].
  destruct (list_eq_dec (fun x y : pystr => eq_dec_of x y) (ids m) []) as [E0|E0].
  { rewrite C3 by auto. cbn [snd]. split.
    - intro E. injection E as <-. left. split; auto. right; right. intro HI. apply has_ids_spec in HI. auto.
    - intros [[-> _]|(_ & _ & x & X & _)]; auto. rewrite E0 in X. destruct X. }
  destruct (missing_dec vectors (ids m)) as [COV|M0].
  - destruct (cluster_run pairwise cdistance ltb dsum ddiv inf mean linkage m vectors n s R MK COV E0 L)
      as (root & l & d & Ru & _). rewrite Ru. cbn [snd]. split; [discriminate|].
    intros [(_ & [N|[(n' & N & L')|N]])|(_ & _ & x & X & Nx)]; exfalso.
    + discriminate.
    + injection N as <-. lia.
    + apply N, has_ids_spec; auto.
    + apply Nx; auto.
  - rewrite C4 by auto. cbn [snd]. split.
    + intro E. injection E as <-. right. split; auto. split; eauto.
    + intros [(_ & [N|[(n' & N & L')|N]])|(-> & _)]; auto; exfalso.
      * discriminate.
      * injection N as <-. lia.
      * apply N, has_ids_spec; auto.
Qed.

(*EX
Example C61_errors_ex : result (hier_Z ward ex [(A, 0); (B, 1)]%Z (Some 2%Z)) (fresh_hier Z) = Raise KeyError /\
  result (hier_Z ward (init []) vecs (Some 2%Z)) (fresh_hier Z) = Raise ValueError /\
  make_hierarchical (str "other") = Raise ValueError.
Proof. repeat split; vm_compute; reflexivity. Qed.
EX*)

(** ** The agglomeration determines the tree *)
Lemma NoDup_split_unique {A} (a a' b b' : list A) x : NoDup (a ++ x :: b) -> a ++ x :: b = a' ++ x :: b' -> a = a' /\ b = b'.
Proof.
  revert a'. induction a as [|y a IH]; intros [|y' a'] ND E; cbn [app] in *.
  - injection E as ->. auto.
  - injection E as <- ->. apply NoDup_cons_iff in ND as [N _]. exfalso. apply N, in_elt.
  - injection E as -> <-. apply NoDup_cons_iff in ND as [N _]. exfalso. apply N, in_elt.
  - injection E as <- E. apply NoDup_cons_iff in ND as [_ ND]. destruct (IH a' ND E) as [<- <-]. auto.
Qed.
Lemma before_or_eq {A} (l : list A) x y : In x l -> In y l -> x = y \/ before l x y \/ before l y x.
Proof.
  induction l as [|z l IH]; intros [] []; subst; auto.
  - right. left. apply before_head; auto.
  - right. right. apply before_head; auto.
  - destruct IH as [|[Q|Q]]; auto using before_cons.
Qed.
Section Unique.
  Context {vec D : Type} `{EqB D}.
  Variable pairwise : list vec -> nat -> nat -> D.
  Variable cdistance : vec -> vec -> D.
  Variable ltb : D -> D -> bool.
  Variable dsum : list D -> D.
  Variable ddiv : D -> nat -> D.
  Variable inf : D.
  Variable mean : list vec -> vec.
  Variable linkage : pystr.
  Variable m : mgr.
  Variable vectors : dict pystr vec.
  Hypothesis I : Inv m.
  Hypothesis TO : strict_total_order ltb.
  Notation tid := (t_id vec).
  Notation closest := (closest pairwise cdistance ltb dsum ddiv inf linkage m vectors).
  Notation stopped := (stopped pairwise cdistance ltb dsum ddiv inf linkage m vectors).

  Lemma rows_unique l rows rows' : vectors_are vectors l rows -> vectors_are vectors l rows' -> rows = rows'.
  Proof.
    unfold vectors_are. intros -> E. clear - E. revert rows' E. induction rows as [|v rows IH]; intros [|v' rows'] E; try discriminate; auto.
    injection E as <- E. f_equal; auto.
  Qed.
  Lemma centroid_unique (t t' : tree vec) : centroid_ok mean vectors t -> centroid_ok mean vectors t' -> t_members vec t = t_members vec t' ->
    t_centroid vec t = t_centroid vec t'.
  Proof. intros (r & V & E) (r' & V' & E') M. rewrite <- M in V'. rewrite E, E', (rows_unique _ _ _ V V'). auto. Qed.

  Lemma node_unique it ts trees t t' : node_over mean vectors it ts trees t -> node_over mean vectors it ts trees t' -> t = t'.
  Proof.
    intros (C1 & I1 & M1 & D1 & Ce1 & (u1 & U1 & E1) & UP1) (C2 & I2 & M2 & D2 & Ce2 & (u2 & U2 & E2) & UP2).
    assert (Ec := centroid_unique t t' Ce1 Ce2 (eq_trans M1 (eq_sym M2))).
    assert (Ei : tid t = tid t') by (specialize (UP1 u2 U2); specialize (UP2 u1 U1); lia).
    destruct t, t'; simpl in *. congruence.
  Qed.

  Lemma start_unique ts ts' : start mean m vectors ts -> start mean m vectors ts' -> ts = ts'.
  Proof.
    intros (cs & E & F & K) (cs' & E' & F' & K'). rewrite E in E'. injection E' as <-.
    assert (L : length ts = length ts') by (rewrite <- (Forall2_len _ _ _ F), <- (Forall2_len _ _ _ F'); auto). rewrite <- L, <- K in K'. clear K L E.
    revert ts' F' K'. induction F as [|c t cs ts LO F IH]; intros ts' F' K'; inversion F' as [|? t' ? ts0 LO' F0]; subst; auto.
    cbn [map] in K'. injection K' as K1 K2. f_equal; [|auto].
    destruct LO as (C1 & I1 & M1 & D1 & Ce1). destruct LO' as (C2 & I2 & M2 & D2 & Ce2).
    assert (Ec := centroid_unique t t' Ce1 Ce2 (eq_trans M1 (eq_sym M2))). destruct t, t'; simpl in *. congruence.
  Qed.

  Lemma closest_unique ts t1 t2 u1 u2 : NoDup ts -> before ts t1 t2 -> before ts u1 u2 -> closest ts t1 t2 -> closest ts u1 u2 -> t1 = u1 /\ t2 = u2.
  Proof.
    intros ND Bt Bu (d & L & N & O) (d' & L' & N' & O').
    destruct (O u1 u2 d' Bu L') as (O1 & O2 & O3). destruct (O' t1 t2 d Bt L) as (P1 & P2 & P3).
    assert (E : d = d') by (apply (proj2 TO); auto). specialize (O2 (eq_sym E)). specialize (P2 E).
    destruct (before_In _ _ _ Bt) as [T1 T2]. destruct (before_In _ _ _ Bu) as [U1 U2].
    assert (E1 : t1 = u1).
    { destruct (before_or_eq ts t1 u1 T1 U1) as [|[Q|Q]]; auto; exfalso.
      - specialize (P3 (or_introl Q) E). lia.
      - specialize (O3 (or_introl Q) (eq_sym E)). lia. }
    split; auto. destruct (before_or_eq ts t2 u2 T2 U2) as [|[Q|Q]]; auto; exfalso.
    - specialize (P3 (or_intror (conj E1 Q)) E). lia.
    - specialize (O3 (or_intror (conj (eq_sym E1) Q)) (eq_sym E)). lia.
  Qed.

  Lemma ag_unique it ts root : agglomerates mean vectors closest stopped it ts root -> NoDup (map tid ts) ->
    forall root', agglomerates mean vectors closest stopped it ts root' -> root = root'.
  Proof.
    induction 1 as [it t|it l1 t1 l2 t2 l3 t root CL NO A IH|it ts root L ST NO]; intros ND root' A'.
    - inversion A' as [|? l1 t1 l2 t2 l3 ? ? ? ? ? Ei E|? ? ? L]; auto.
      + exfalso. destruct l1 as [|? [|? ?]]; try discriminate. injection E as _ E. destruct l2; discriminate.
      + simpl in L. lia.
    - remember (l1 ++ t1 :: l2 ++ t2 :: l3) as ts eqn:Ets. 
      assert (NDt : NoDup ts) by (eapply NoDup_map_inv; eauto).
      assert (B : before ts t1 t2) by (rewrite Ets; apply before_app_r, before_head, in_elt).
      destruct A' as [it' t'|it' l1' t1' l2' t2' l3' t' root' CL' NO' A'|it' ts root' L' ST' NO'].
      + exfalso. destruct l1 as [|? [|? ?]]; try discriminate. injection Ets as _ Ets. destruct l2; discriminate.
      + assert (B' : before (l1' ++ t1' :: l2' ++ t2' :: l3') t1' t2') by (apply before_app_r, before_head, in_elt).
        destruct (closest_unique _ t1 t2 t1' t2' NDt B B' CL CL') as [<- <-].
        destruct (NoDup_split_unique l1' l1 (l2' ++ t2 :: l3') (l2 ++ t2 :: l3) t1 NDt Ets) as [<- E2].
        assert (ND2 : NoDup (l2' ++ t2 :: l3')) by (apply NoDup_remove_1, NoDup_app_inv in NDt; tauto).
        destruct (NoDup_split_unique l2' l2 l3' l3 t2 ND2 E2) as [<- <-].
        rewrite (node_unique _ _ _ _ _ NO NO') in *. apply IH; auto.
        assert (UP := proj2 (proj2 (proj2 (proj2 (proj2 (proj2 NO')))))).
        assert (P : Permutation (map tid (l1' ++ l2' ++ l3' ++ [t'])) (tid t' :: map tid (l1' ++ l2' ++ l3'))).
        { etransitivity; [|apply Permutation_sym, Permutation_cons_append]. rewrite !map_app, <- !app_assoc. auto. }
        apply (Permutation_NoDup (Permutation_sym P)). rewrite map_app in ND. cbn [map] in ND. rewrite map_app in ND. cbn [map] in ND. constructor.
        * intro Q. apply in_map_iff in Q as (u & Eu & U). assert (Q : In u (l1' ++ t1 :: l2' ++ t2 :: l3')).
          { rewrite !in_app_iff in U. rewrite in_app_iff. cbn [In]. rewrite in_app_iff. cbn [In]. tauto. }
          specialize (UP u Q). lia.
        * rewrite !map_app. apply NoDup_remove_1 in ND. rewrite app_assoc in ND |- *. apply NoDup_remove_1 in ND. auto.
      + exfalso. destruct CL as (d & Ld & Nd & O). destruct ST' as [NL (u1 & u2 & Bu & Lu)].
        destruct (O u1 u2 inf Bu Lu) as (O1 & _). assert (O2 := NL t1 t2 d B Ld). apply Nd. apply (proj2 TO); auto.
    - destruct A' as [it' t'|it' l1' t1' l2' t2' l3' t' root' CL' NO' A'|it' ts root' L' ST' NO'].
      + simpl in L. lia.
      + exfalso. assert (B' : before (l1' ++ t1' :: l2' ++ t2' :: l3') t1' t2') by (apply before_app_r, before_head, in_elt).
        destruct CL' as (d & Ld & Nd & O). destruct ST as [NL (u1 & u2 & Bu & Lu)].
        destruct (O u1 u2 inf Bu Lu) as (O1 & _). assert (O2 := NL t1' t2' d B' Ld). apply Nd. apply (proj2 TO); auto.
      + exact (node_unique _ _ _ _ _ NO NO').
  Qed.

  Lemma agglomerative_unique root root' : agglomerative pairwise cdistance ltb dsum ddiv inf mean linkage m vectors root ->
    agglomerative pairwise cdistance ltb dsum ddiv inf mean linkage m vectors root' -> root = root'.
  Proof.
    intros (ts & S & A) (ts' & S' & A'). rewrite <- (start_unique _ _ S S') in A'. eapply ag_unique; eauto.
    destruct S as (cs & _ & _ & K). rewrite K. apply FinFun.Injective_map_NoDup; [|apply seq_NoDup]. intros a b Q. lia.
  Qed.
End Unique.

(*PROP C62: the tree is built by a constrained agglomeration: from the components, always merging the closest pair of clusters that may be merged (the smallest pair when several are equally close, the first of these in the order of creation when several have the same size), until nothing can be merged.  This determines the tree. *)
Lemma C62_agglomerative_proof :
  forall vec D (eqD : EqB D) pairwise cdistance ltb dsum ddiv inf mean name linkage m vectors nb s s' d,
    strict_total_order ltb -> reachable m -> make_hierarchical name = Ok linkage ->
    cluster vec D pairwise cdistance ltb dsum ddiv inf mean linkage m vectors nb s = (s', Ok d) ->
    exists root, h_root vec s' = Some root /\
      agglomerative pairwise cdistance ltb dsum ddiv inf mean linkage m vectors root /\
      forall root', agglomerative pairwise cdistance ltb dsum ddiv inf mean linkage m vectors root' -> root' = root.
Proof.
  intros vec D eqD pairwise cdistance ltb dsum ddiv inf mean name linkage m vectors nb s s' d TO R MK E.
  apply reachable_inv in R. apply make_linkage in MK.
  destruct (recut pairwise cdistance ltb dsum ddiv inf mean linkage m vectors nb s s' d 1%Z (str "size") R MK E)
    as (root & l & d0 & -> & _ & BU & _). exists root. split; auto. assert (A : agglomerative pairwise cdistance ltb dsum ddiv inf mean linkage m vectors root) by (apply BU; auto).
  split; auto. intros root' A'. apply (agglomerative_unique pairwise cdistance ltb dsum ddiv inf mean linkage m vectors TO root' root A' A).
Qed.

(*EX
Lemma ltb_total : strict_total_order Z.ltb.
Proof.
  split; [split; [|split]|]; intros; rewrite ?Z.ltb_lt, ?Z.ltb_ge in *; try lia; auto using Z.ltb_irrefl.
Qed.
(** Without constraints on points 0, 1, 10, 12: first 0 and 1, then 10 and 12, then everything, for each linkage. *)
Example C62_ex :
  map (fun k => option_map (fun t => map (t_members Z) (nodes t)) (h_root Z (fst (hier_Z k (init [A; B; C; E]) vecs (Some 2%Z) (fresh_hier Z)))))
      [single; average; complete_linkage] =
  repeat (Some [[A; B; C; E]; [A; B]; [A]; [B]; [C; E]; [C]; [E]]) 3.
Proof. vm_compute; reflexivity. Qed.
(** Points 0, 1, 2, 3: three pairs at the same distance; the first one is merged, then the only small pair left. *)
Example C62_ties_ex :
  option_map (fun t => map (t_members Z) (nodes t)) (h_root Z (fst (hier_Z single (init [A; B; C; E]) [(A, 0); (B, 1); (C, 2); (E, 3)]%Z (Some 2%Z) (fresh_hier Z)))) =
  Some [[A; B; C; E]; [A; B]; [A]; [B]; [C; E]; [C]; [E]].
Proof. vm_compute; reflexivity. Qed.
EX*)

(*PROP C63: with complete constraints the clusters are the connected components, whatever the number requested. *)
Lemma C63_hierarchical_complete_constraints_proof :
  forall vec D (eqD : EqB D) pairwise cdistance ltb dsum ddiv inf mean name linkage m vectors nb s d a b,
    reachable m -> make_hierarchical name = Ok linkage ->
    complete m -> managed m a -> managed m b ->
    result (cluster vec D pairwise cdistance ltb dsum ddiv inf mean linkage m vectors nb) s = Ok d ->
    (dget a d = dget b d <-> linked (added_must m) a b).
Proof.
  intros vec D eqD pairwise cdistance ltb dsum ddiv inf mean name linkage m vectors nb s d a b R MK Co Ma Mb E.
  assert (Re := C37_hierarchical_respects_proof _ _ _ _ _ _ _ _ _ _ _ _ _ _ _ _ _ R MK E).
  destruct (C14_completude_exact_proof m R) as (bb & Eb & Hb). unfold complete in Co. rewrite Co in Eb. injection Eb as <-.
  apply reachable_inv in R. rewrite added_linked by auto.
  apply managed_ids in Ma as Ia. apply managed_ids in Mb as Ib. rewrite <- ml_linked by auto.
  destruct (proj1 Hb eq_refl a b Ma Mb) as [L|L].
  - split; [intros _; apply inferred_ml; auto|]. intros _. apply (proj1 Re); auto.
  - assert (N := proj2 Re a b Ma Mb L). apply inferred_cl in L; auto. split; [tauto|]. intro M0. exfalso. eapply ml_cl; eauto.
Qed.

(*EX
Definition ex_complete : mgr := run [CallAddConstraint A E CANNOT_LINK 1%Q; CallAddConstraint B E CANNOT_LINK 1%Q] ex.
Example C63_ex : complete ex_complete /\
  result (hier_Z average ex_complete vecs (Some 2%Z)) (fresh_hier Z) = Ok [(A, 0); (B, 1); (C, 0); (E, 2)]%Z.
Proof. split; vm_compute; reflexivity. Qed.
EX*)

(*PROP C64: a hierarchical clustering object can be reused: result, and tree kept by a successful call, do not depend on earlier calls. *)
Lemma C64_hierarchical_no_memory_proof :
  forall vec D (eqD : EqB D) pairwise cdistance ltb dsum ddiv inf mean linkage m vectors nb s1 s2,
    result (cluster vec D pairwise cdistance ltb dsum ddiv inf mean linkage m vectors nb) s1 =
    result (cluster vec D pairwise cdistance ltb dsum ddiv inf mean linkage m vectors nb) s2 /\
    forall s1' s2' d1 d2,
      cluster vec D pairwise cdistance ltb dsum ddiv inf mean linkage m vectors nb s1 = (s1', Ok d1) ->
      cluster vec D pairwise cdistance ltb dsum ddiv inf mean linkage m vectors nb s2 = (s2', Ok d2) -> s1' = s2'.
Proof.
  intros vec D eqD pairwise cdistance ltb dsum ddiv inf mean linkage m vectors nb s1 s2.
  unfold result, cluster, bind, lift, modify.
  destruct (ask get_list_of_managed_data_IDs m) as [l|e]; [|split; [reflexivity|discriminate]].
  destruct nb as [n|]; [|split; [reflexivity|discriminate]].
  destruct (n <? 2)%Z; [split; [reflexivity|discriminate]|]. cbn [h_ids].
  destruct (pairwise_table vec D pairwise m vectors) as [t|e]; [|split; [reflexivity|discriminate]].
  destruct (build_tree vec D cdistance ltb dsum ddiv inf mean m linkage vectors t) as [root|e]; [|split; [reflexivity|discriminate]].
  cbn [h_ids h_predicted]. split; [reflexivity|]. intros s1' s2' d1 d2 E1 E2.
  assert (Q : (s1', Ok d1) = (s2', Ok d2)) by (etransitivity; [symmetry; exact E1|exact E2]). congruence.
Qed.

(*EX
Example C64_ex : forall s, result (hier_Z single ex vecs (Some 2%Z)) s = Ok [(A, 0); (B, 1); (C, 0); (E, 0)]%Z.
Proof. intro s. transitivity (result (hier_Z single ex vecs (Some 2%Z)) (fresh_hier Z)); [apply C64_hierarchical_no_memory|vm_compute; reflexivity]. Qed.
EX*)

(*PROP C65: the number of clusters returned is feasible for the constraints, and is at most the number of connected components. *)
Lemma C65_hierarchical_number_of_clusters_proof :
  forall vec D (eqD : EqB D) pairwise cdistance ltb dsum ddiv inf mean name linkage m vectors nb s d comps,
    reachable m -> make_hierarchical name = Ok linkage ->
    result (cluster vec D pairwise cdistance ltb dsum ddiv inf mean linkage m vectors nb) s = Ok d ->
    ask get_connected_components m = Ok comps ->
    feasible m (nb_clusters_of d) /\ nb_clusters_of d <= length comps.
Proof.
  intros vec D eqD pairwise cdistance ltb dsum ddiv inf mean name linkage m vectors nb s d cs R MK E EC.
  assert (Re := C37_hierarchical_respects_proof _ _ _ _ _ _ _ _ _ _ _ _ _ _ _ _ _ R MK E).
  apply reachable_inv in R. apply make_linkage in MK.
  destruct (returned_run pairwise cdistance ltb dsum ddiv inf mean linkage m vectors nb s d R MK E)
    as (n & root & l & _ & _ & _ & _ & _ & _ & _ & Can & _ & Co).
  rewrite ask_components in EC by auto. injection EC as <-.
  split; [apply respects_feasible; auto|apply respects_at_most_components; auto].
Qed.

(*EX
Example C65_ex : nb_clusters_of [(A, 0); (B, 1); (C, 0); (E, 0)]%Z = 2 /\ ask get_connected_components ex = Ok [[A; C]; [B]; [E]].
Proof. split; vm_compute; reflexivity. Qed.
EX*)

(*PROP C66: the result of a call, and of later cuts, comes from splitting again and again the biggest (or latest) cluster of the tree, starting from the root; a cut changes nothing. *)
Lemma C66_cuts_split_biggest_proof :
  forall vec D (eqD : EqB D) pairwise cdistance ltb dsum ddiv inf mean name linkage m vectors nb s s' d,
    reachable m -> make_hierarchical name = Ok linkage ->
    cluster vec D pairwise cdistance ltb dsum ddiv inf mean linkage m vectors (Some nb) s = (s', Ok d) ->
    h_predicted vec s' = Some d /\
    exists ids root l, ask get_list_of_managed_data_IDs m = Ok ids /\ h_root vec s' = Some root /\
      split_run (str "size") (Z.min nb (Z.of_nat (length ids))) [root] l /\ groups_as l d /\
      forall k by_, exists l' d', compute_predicted_clusters vec k by_ s' = (s', Ok d') /\
        split_run by_ k [root] l' /\ cut root l' /\ groups_as l' d' /\ canonical d' /\ covers_exactly m d'.
Proof.
  intros vec D eqD pairwise cdistance ltb dsum ddiv inf mean name linkage m vectors nb s s' d R MK E.
  apply reachable_inv in R. apply make_linkage in MK.
  assert (Er : result (cluster vec D pairwise cdistance ltb dsum ddiv inf mean linkage m vectors (Some nb)) s = Ok d) by (unfold result; rewrite E; auto).
  destruct (returned_run pairwise cdistance ltb dsum ddiv inf mean linkage m vectors (Some nb) s d R MK Er)
    as (n & root & l & En & N & NE & Ru & BU & SR & C & Can & G & Co). injection En as <-.
  assert (Es : s' = mkHier vec (Some (ids m)) (Some root) (Some d)) by (rewrite E in Ru; congruence).
  split; [rewrite Es; auto|]. exists (ids m), root, l. split; [apply ask_managed; auto|]. split; [rewrite Es; auto|]. split; auto. split; auto.
  intros k by_. destruct (recut pairwise cdistance ltb dsum ddiv inf mean linkage m vectors (Some nb) s s' d k by_ R MK E)
    as (root' & l' & d' & Es' & Ec & _ & SR' & C' & Can' & G' & Co'). rewrite Es in Es'. injection Es' as <-. rewrite Es in *. exists l', d'. auto 10.
Qed.

(*EX
(** Groups of 4 and 2 points: the group of 4 is split first by size, the last merged one by iteration. *)
Example C66_ex :
  let m := init [A; B; C; E; str "e"; str "f"] in
  let s := fst (hier_Z single m [(A, 0); (B, 1); (C, 2); (E, 3); (str "e", 100); (str "f", 104)]%Z (Some 3%Z) (fresh_hier Z)) in
  (result (compute_predicted_clusters Z 3 (str "size")) s, result (compute_predicted_clusters Z 3 (str "iteration")) s) =
  (Ok [(A, 0); (B, 0); (C, 1); (E, 1); (str "e", 2); (str "f", 2)], Ok [(A, 0); (B, 0); (C, 0); (E, 0); (str "e", 1); (str "f", 2)])%Z.
Proof. vm_compute; reflexivity. Qed.
EX*)
