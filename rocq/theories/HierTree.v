(** * Shape of the tree, and cuts of it. *)

From Coq Require Import String List Bool Arith ZArith Lia Permutation Sorted.
From Verif Require Import Base Manager Spec Closure ManagerProofs ManagerInv ManagerQueries ManagerThms
  Sampling SamplingSpec SamplingProofs SamplingThms Rename ClusterSpec RenameThms ClusterProofs KMeans KMeansSpec KMeansProofs
  Hierarchical HierSpec HierProofs HierRun.
Import ListNotations.
Open Scope nat_scope.
Open Scope py_scope.

Lemma perm_merge {A} (l1 l2 l3 : list A) x y z : Permutation (l1 ++ x :: l2 ++ y :: l3) (x :: y :: l1 ++ l2 ++ l3) /\
  Permutation (l1 ++ l2 ++ l3 ++ [z]) (z :: l1 ++ l2 ++ l3).
Proof.
  split.
  - etransitivity; [symmetry; apply Permutation_middle|]. constructor. rewrite !app_assoc. symmetry. apply Permutation_middle.
  - rewrite !app_assoc. symmetry. apply Permutation_cons_append.
Qed.

Lemma list_max_map_lt {A} (f : A -> nat) l n : (forall x, In x l -> f x < n) -> l <> [] -> list_max (map f l) < n.
Proof.
  intros Q NE. destruct l as [|x l]; [congruence|]. apply Nat.lt_le_trans with (S (list_max (map f (x :: l)))); [lia|].
  assert (G : list_max (map f (x :: l)) <= n - 1).
  { apply list_max_le. apply Forall_forall. intros y Y. apply in_map_iff in Y as (u & <- & U). specialize (Q u U). lia. }
  specialize (Q x (or_introl eq_refl)). lia.
Qed.

Section Shape.
  Context {vec D : Type} `{EqB D}.
  Variable mean : list vec -> vec.
  Variable m : mgr.
  Variable vectors : dict pystr vec.
  Hypothesis I : Inv m.
  Notation tree := (tree vec).
  Notation members := (t_members vec).
  Notation children := (t_children vec).
  Notation tid := (t_id vec).
  Notation iter := (t_iteration vec).
  Notation inids := (in_ids m).
  Notation node_over := (node_over mean vectors).
  Notation centroid_ok := (centroid_ok mean vectors).

  Definition no_cl (t : tree) : Prop := forall a b, In a (members t) -> In b (members t) -> ~ inferred m a b (Some CANNOT_LINK).

  (** What holds of a node and its children. *)
  Record node_ok (t : tree) : Prop := {
    no_ids : inids t;
    no_pos : (0 <= tid t)%Z;
    no_members : children t <> [] -> members t = flat_map members (children t);
    no_depth : t_depth vec t = match children t with [] => 0 | c => S (list_max (map (t_depth vec) c)) end;
    no_centroid : centroid_ok t;
    no_child_id : forall c, In c (children t) -> (tid c < tid t)%Z;
    no_order : forall c, In c (children t) -> iter c < iter t;
    no_leaf : children t = [] -> iter t = 0 }.
  Definition inner_ok (t : tree) : Prop := (children t = [] \/ length (children t) = 2) /\ no_cl t.

  Record forest_ok (it : nat) (ts : list tree) : Prop := {
    fo_nodes : forall u, In u (flat_map nodes ts) -> node_ok u /\ inner_ok u /\ iter u < it;
    fo_NoDup : NoDup (map tid (flat_map nodes ts));
    fo_leaves : Permutation (comps m) (map members (flat_map leaves ts));
    fo_members : Permutation (flat_map members ts) (ids m) }.

  Lemma in_nodes_self (t : tree) : In t (nodes t).
  Proof. rewrite nodes_eq. left; auto. Qed.

  Lemma start_ok ts : start mean m vectors ts -> forest_ok 1 ts.
  Proof.
    intros (cs & E & F & S). rewrite ask_components in E by auto. injection E as <-.
    assert (LF : forall u, In u ts -> exists c, In c (comps m) /\ leaf_over mean vectors c u).
    { intros u U. destruct (Forall2_In_r _ _ _ _ F U) as (c & Cc & L). eauto. }
    assert (NL : forall ts', (forall u, In u ts' -> children u = []) -> flat_map nodes ts' = ts' /\ flat_map leaves ts' = ts').
    { clear. induction ts' as [|t ts' IH]; intro Q; simpl; auto. destruct IH as [E1 E2]; [intros; apply Q; right; auto|].
      rewrite nodes_eq, leaves_eq, (Q t (or_introl eq_refl)), E1, E2. auto. }
    assert (CH : forall u, In u ts -> children u = []) by (intros u U; destruct (LF u U) as (c & _ & E & _); auto).
    destruct (NL ts CH) as [E1 E2].
    assert (EM : map members ts = comps m).
    { clear - F. induction F as [|c t cs ts (_ & _ & E & _) F IH]; simpl; auto. rewrite E, IH. auto. }
    constructor.
    - rewrite E1. intros u U. destruct (LF u U) as (c & Cc & Ech & Eit & Eme & Edp & Ece).
      destruct (comps_good m I c Cc) as [NE IC]. split; [|split; [|lia]].
      + constructor; auto.
        * unfold in_ids. rewrite Eme. auto.
        * assert (J : In (tid u) (map tid ts)) by (apply in_map; auto). rewrite S in J. apply in_map_iff in J as (k & <- & _). lia.
        * rewrite Ech. congruence.
        * rewrite Ech. auto.
        * rewrite Ech. intros ? [].
        * rewrite Ech. intros ? [].
      + split; auto. intros a b A B Q. rewrite Eme in A, B. apply inferred_cl in Q; auto.
        assert (Lk : linked (sml m) a b) by (apply (comps_common m a b I); auto; exists c; auto).
        apply (ml_linked m I) in Lk; auto. exact (ml_cl m a b Lk Q).
    - rewrite E1, S. apply FinFun.Injective_map_NoDup; [intros ? ?; apply Nat2Z.inj|apply seq_NoDup].
    - rewrite E2, EM. auto.
    - rewrite flat_map_concat_map, EM. apply comps_permutation; auto.
  Qed.

  Lemma trees_inids it ts : forest_ok it ts -> Forall inids ts.
  Proof.
    intro F. apply Forall_forall. intros u U. apply (fo_nodes _ _ F). apply in_flat_map. exists u. split; [auto|apply in_nodes_self].
  Qed.

  (** IDs of the nodes of a tree are at most that of its root. *)
  Lemma node_ids_below (t : tree) : (forall u, In u (nodes t) -> node_ok u) -> forall u, In u (nodes t) -> (tid u <= tid t)%Z.
  Proof.
    revert t. apply (tree_ind_strong (fun t => (forall u, In u (nodes t) -> node_ok u) -> forall u, In u (nodes t) -> (tid u <= tid t)%Z)).
    intros t IH NO u U. rewrite nodes_eq in U. destruct U as [<-|U]; [lia|]. apply in_flat_map in U as (c & Cc & U).
    assert (K : (tid c < tid t)%Z) by (apply (no_child_id _ (NO t (in_nodes_self t))); auto).
    assert (Q : (tid u <= tid c)%Z); [|lia]. apply IH; auto. intros v V. apply NO. rewrite nodes_eq. right. apply in_flat_map. eauto.
  Qed.

  Lemma new_id_above it ts trees t n : forest_ok it ts -> node_over n ts trees t ->
    forall u, In u (flat_map nodes ts) -> (tid u < tid t)%Z.
  Proof.
    intros F (_ & _ & _ & _ & _ & _ & UP) u U. apply in_flat_map in U as (t0 & T0 & U).
    assert (Q : (tid u <= tid t0)%Z).
    { apply node_ids_below; auto. intros v V. apply (fo_nodes _ _ F). apply in_flat_map. eauto. }
    specialize (UP t0 T0). lia.
  Qed.

  Lemma new_node_ok it ts trees t : forest_ok it ts -> node_over it ts trees t -> incl trees ts -> trees <> [] -> node_ok t.
  Proof.
    intros F NO SUB NE. assert (NO' := NO). destruct NO' as (Ech & Eit & Eme & Edp & Ece & _ & UP).
    assert (FI := trees_inids _ _ F). rewrite Forall_forall in FI.
    assert (FN : forall u, In u trees -> node_ok u /\ inner_ok u /\ iter u < it).
    { intros u U. apply (fo_nodes _ _ F). apply in_flat_map. exists u. split; [auto|apply in_nodes_self]. }
    constructor.
    - unfold in_ids. rewrite Eme. apply (members_flat m trees); auto. apply Forall_forall. auto.
    - destruct trees as [|c trees]; [congruence|]. assert (K := no_pos _ (proj1 (FN c (or_introl eq_refl)))).
      specialize (UP c (SUB c (or_introl eq_refl))). lia.
    - rewrite Ech. auto.
    - rewrite Ech, Edp. destruct trees; [congruence|auto].
    - auto.
    - rewrite Ech. intros c Cc. apply UP. auto.
    - rewrite Ech, Eit. intros c Cc. apply FN; auto.
    - rewrite Ech. congruence.
  Qed.

  Lemma compatible_no_cl t1 t2 t : inids t1 -> inids t2 -> no_cl t1 -> no_cl t2 -> ~ incompatible m t1 t2 ->
    members t = members t1 ++ members t2 -> no_cl t.
  Proof.
    intros [_ G1] [_ G2] N1 N2 NI E a b A B Q. rewrite E in A, B. apply in_app_or in A, B.
    destruct A as [A|A], B as [B|B].
    - exact (N1 a b A B Q).
    - apply NI. exists a, b. auto.
    - apply NI. exists b, a. split; auto. split; auto. apply inferred_cl; auto. rewrite cl_sym by auto. apply inferred_cl; auto.
    - exact (N2 a b A B Q).
  Qed.

  Lemma merge_ok it l1 t1 l2 t2 l3 t : forest_ok it (l1 ++ t1 :: l2 ++ t2 :: l3) ->
    node_over it (l1 ++ t1 :: l2 ++ t2 :: l3) [t1; t2] t -> ~ incompatible m t1 t2 ->
    forest_ok (S it) (l1 ++ l2 ++ l3 ++ [t]).
  Proof.
    intros F NO NI. set (ts := l1 ++ t1 :: l2 ++ t2 :: l3) in *.
    assert (T1 : In t1 ts) by (apply in_elt). assert (T2 : In t2 ts) by (apply in_or_app; right; right; apply in_elt).
    assert (SUB : incl [t1; t2] ts) by (intros x [<-|[<-|[]]]; auto).
    assert (OK := new_node_ok it ts _ t F NO SUB ltac:(discriminate)).
    assert (AB := new_id_above it ts _ t it F NO).
    assert (FI := trees_inids _ _ F). rewrite Forall_forall in FI.
    assert (FN : forall u, In u ts -> node_ok u /\ inner_ok u /\ iter u < it).
    { intros u U. apply (fo_nodes _ _ F). apply in_flat_map. exists u. split; [auto|apply in_nodes_self]. }
    destruct NO as (Ech & Eit & Eme & Edp & Ece & _ & UP). cbn [flat_map] in Eme. rewrite app_nil_r in Eme.
    destruct (perm_merge l1 l2 l3 t1 t2 t) as [P1 P2]. fold ts in P1.
    assert (PN : Permutation (flat_map nodes (l1 ++ l2 ++ l3 ++ [t])) (t :: flat_map nodes ts)).
    { etransitivity; [apply Permutation_flat_map; exact P2|]. cbn [flat_map]. rewrite nodes_eq, Ech. cbn [flat_map app]. constructor.
      etransitivity; [|symmetry; apply Permutation_flat_map; exact P1]. cbn [flat_map]. rewrite app_nil_r, <- app_assoc. auto. }
    constructor.
    - intros u U. apply (Permutation_in _ PN) in U as [<-|U].
      + split; auto. split; [|lia]. split; [rewrite Ech; auto|].
        apply (compatible_no_cl t1 t2); auto; apply FN; auto.
      + destruct (fo_nodes _ _ F u U) as (A & B & C). split; auto.
    - apply (Permutation_NoDup (Permutation_map tid (Permutation_sym PN))). cbn [map]. constructor; [|apply F].
      intro J. apply in_map_iff in J as (u & E & U). apply AB in U. lia.
    - rewrite (fo_leaves _ _ F). apply Permutation_map. etransitivity; [apply Permutation_flat_map; exact P1|].
      etransitivity; [|symmetry; apply Permutation_flat_map; exact P2]. cbn [flat_map].
      rewrite (leaves_eq t), Ech. cbn [flat_map]. rewrite app_nil_r, <- app_assoc. auto.
    - rewrite <- (fo_members _ _ F). etransitivity; [apply Permutation_flat_map; exact P2|].
      etransitivity; [|symmetry; apply Permutation_flat_map; exact P1]. cbn [flat_map]. rewrite Eme, <- app_assoc. auto.
  Qed.

  (** ** The root *)
  Record root_ok (root : tree) : Prop := {
    ro_nodes : forall u, In u (nodes root) -> node_ok u;
    ro_shape : children root = [] \/ 2 <= length (children root);
    ro_inner : forall u, In u (nodes root) -> u <> root -> inner_ok u;
    ro_NoDup : NoDup (map tid (nodes root));
    ro_leaves : Permutation (comps m) (map members (leaves root));
    ro_members : Permutation (members root) (ids m) }.

  Lemma agg_root (mergeable : list tree -> tree -> tree -> Prop) finished :
    (forall ts t1 t2, Forall inids ts -> mergeable ts t1 t2 -> ~ incompatible m t1 t2) ->
    forall it ts root, forest_ok it ts -> agglomerates mean vectors mergeable finished it ts root ->
    root_ok root /\ (no_cl root \/ (2 <= length (children root) /\ finished (children root))).
  Proof.
    intros MC it ts root F A. induction A as [it t|it l1 t1 l2 t2 l3 t root CH NO A IH|it ts root L FIN NO].
    - destruct F as [FN FD FL FM]. cbn [flat_map] in *. rewrite app_nil_r in *. split.
      + constructor; auto; try (intros u U; apply FN; auto; fail); try (intros u U; intros _; apply FN; auto).
        destruct (FN t (in_nodes_self t)) as (_ & [[E|E] _] & _); [left; auto|right; lia].
      + left. apply FN. apply in_nodes_self.
    - apply IH. eapply merge_ok; eauto. exact (MC _ _ _ (trees_inids _ _ F) CH).
    - assert (NE : ts <> []) by (intros ->; simpl in L; lia).
      assert (OK := new_node_ok it ts ts root F NO (incl_refl _) NE).
      assert (AB := new_id_above it ts ts root it F NO).
      destruct NO as (Ech & Eit & Eme & Edp & Ece & _ & UP). split; [|right; rewrite Ech; auto].
      constructor; rewrite ?nodes_eq, ?Ech.
      + intros u [<-|U]; auto. apply (fo_nodes _ _ F u U).
      + right; auto.
      + intros u [<-|U] N; [congruence|]. apply (fo_nodes _ _ F u U).
      + cbn [map]. constructor; [|apply F]. intro J. apply in_map_iff in J as (u & E & U). apply AB in U. lia.
      + rewrite leaves_eq, Ech. destruct ts; [congruence|]. apply (fo_leaves _ _ F).
      + rewrite Eme. apply (fo_members _ _ F).
  Qed.

  Lemma root_dendrogram root : root_ok root -> dendrogram mean m vectors root.
  Proof.
    intros [RN RS RI RD RL RM]. constructor.
    - auto.
    - exists (comps m). split; [apply ask_components; auto|auto].
    - intros t T. apply nodes_subtree in T. apply (RN t T).
    - intros t T. apply nodes_subtree in T. apply (RN t T).
    - intros t T. apply nodes_subtree in T. apply (RN t T).
    - intros t c T. apply nodes_subtree in T. apply (RN t T).
    - intros t T. apply nodes_subtree in T. apply (RN t T).
    - split.
      + apply (Permutation_NoDup (Permutation_sym RM)). apply inv_nodup; auto.
      + intro x. rewrite managed_ids by auto. split; apply Permutation_in; auto. symmetry; auto.
    - auto.
    - intros t T N. apply nodes_subtree in T. apply (RI t T N).
    - intros t T N. apply nodes_subtree in T. apply (RI t T N).
  Qed.
End Shape.

(** ** Cuts *)
Section Cuts.
  Context {vec : Type}.
  Notation tree := (tree vec).
  Notation members := (t_members vec).
  Notation children := (t_children vec).
  Notation tid := (t_id vec).
  Notation iter := (t_iteration vec).

  Lemma to_split_run by_ l : l <> [] -> exists l1 t l2, l = l1 ++ t :: l2 /\ to_split vec by_ l = Ok t /\ first_biggest by_ l1 t l2.
  Proof.
    intro NE. unfold to_split, first_biggest, key_of. destruct (eqb by_ (str "size")).
    - destruct (py_max_nat (fun t : tree => length (members t)) l NE) as (l1 & t & l2 & E & R & A & B). exists l1, t, l2. auto.
    - destruct (py_max_nat (fun t : tree => iter t) l NE) as (l1 & t & l2 & E & R & A & B). exists l1, t, l2. auto.
  Qed.

  Lemma remove_tree_mid l1 (t : tree) l2 : ~ In (tid t) (map tid l1) -> remove_tree vec t (l1 ++ t :: l2) = l1 ++ l2.
  Proof.
    induction l1 as [|u l1 IH]; simpl; intro N.
    - rewrite Z.eqb_refl. auto.
    - destruct (Z.eqb_spec (tid t) (tid u)) as [E|_]; [exfalso; apply N; auto|]. rewrite IH; auto.
  Qed.

  Lemma nodes_perm l1 (t : tree) l2 : Permutation (flat_map nodes (l1 ++ t :: l2)) (t :: flat_map nodes (l1 ++ l2 ++ children t)).
  Proof.
    rewrite !flat_map_app. cbn [flat_map]. rewrite nodes_eq. cbn [app].
    symmetry. etransitivity; [apply Permutation_middle|]. apply Permutation_app_head. constructor. apply Permutation_app_comm.
  Qed.

  Lemma sizes_split l1 (t : tree) l2 : list_sum (map (tree_size vec) (l1 ++ t :: l2)) =
    S (list_sum (map (tree_size vec) (l1 ++ l2 ++ children t))).
  Proof.
    rewrite !map_app, !list_sum_app. cbn [map]. change (list_sum (tree_size vec t :: map (tree_size vec) l2)) with (tree_size vec t + list_sum (map (tree_size vec) l2)).
    rewrite tree_size_eq. lia.
  Qed.

  Lemma explore_run by_ k fuel : forall l, l <> [] -> NoDup (map tid (flat_map nodes l)) -> list_sum (map (tree_size vec) l) <= fuel ->
    exists l', explore vec fuel by_ k l = Ok l' /\ split_run by_ k l l'.
  Proof.
    induction fuel as [|fuel IH]; intros l NE ND L.
    - destruct l as [|t l]; [congruence|]. cbn [map list_sum fold_right] in L. rewrite tree_size_eq in L. lia.
    - cbn [explore]. destruct (Z.ltb_spec (Z.of_nat (length l)) k) as [Lk|Lk].
      + destruct (to_split_run by_ l NE) as (l1 & t & l2 & -> & R & FB). rewrite R. cbn [rbind].
        destruct (children t) as [|c cs] eqn:Ech.
        * eexists. split; [reflexivity|]. apply split_leaf; auto.
        * rewrite <- Ech.
          assert (N1 : ~ In (tid t) (map tid l1)).
          { rewrite flat_map_app in ND. cbn [flat_map] in ND. rewrite nodes_eq, map_app in ND. cbn [map app] in ND.
            apply NoDup_remove_2 in ND. intro J. apply ND. apply in_or_app; left. apply in_map_iff in J as (u & E & U).
            apply in_map_iff. exists u. split; auto. apply in_flat_map. exists u. split; auto. rewrite nodes_eq; left; auto. }
          rewrite remove_tree_mid by auto. rewrite <- app_assoc.
          destruct (IH (l1 ++ l2 ++ children t)) as (l' & E & SR).
          { rewrite Ech. destruct l1; [destruct l2|]; discriminate. }
          { assert (P := Permutation_map tid (nodes_perm l1 t l2)). apply (Permutation_NoDup P) in ND. cbn [map] in ND. inversion ND; auto. }
          { rewrite sizes_split in L. lia. }
          exists l'. split; [auto|]. eapply split_step; eauto. rewrite Ech. discriminate.
      + eexists. split; [reflexivity|]. apply split_enough. lia.
  Qed.

  Lemma split_cut (root : tree) by_ k l l' : cut root l -> split_run by_ k l l' -> cut root l'.
  Proof. intros C S. induction S; auto. apply IHS. apply cut_split; auto. Qed.

  Lemma list_split_unique {A} (key : A -> nat) (l1 l1' l2 l2' : list A) t t' : l1 ++ t :: l2 = l1' ++ t' :: l2' ->
    (forall u, In u l1 -> key u < key t) -> (forall u, In u l2 -> key u <= key t) ->
    (forall u, In u l1' -> key u < key t') -> (forall u, In u l2' -> key u <= key t') -> l1 = l1' /\ t = t' /\ l2 = l2'.
  Proof.
    revert l1'. induction l1 as [|x l1 IH]; intros [|x' l1'] E F B F' B'; simpl in E; injection E as E0 E.
    - auto.
    - exfalso. subst x' l2. assert (K1 := F' t (or_introl eq_refl)). assert (K2 := B t' (in_elt _ _ _)). lia.
    - exfalso. subst x l2'. assert (K1 := F t' (or_introl eq_refl)). assert (K2 := B' t (in_elt _ _ _)). lia.
    - subst x'. destruct (IH l1' E) as (-> & -> & ->); auto; intros; [apply F|apply F']; right; auto.
  Qed.

  Lemma first_biggest_unique by_ l1 (t : tree) l2 l1' t' l2' : l1 ++ t :: l2 = l1' ++ t' :: l2' ->
    first_biggest by_ l1 t l2 -> first_biggest by_ l1' t' l2' -> l1 = l1' /\ t = t' /\ l2 = l2'.
  Proof. intros E [A B] [A' B']. eapply (list_split_unique (key_of by_)); eauto. Qed.

  (** Cutting further goes through the coarser cut. *)
  Lemma split_further by_ k k' (l final final' : list tree) : (k <= k')%Z -> split_run by_ k l final -> split_run by_ k' l final' ->
    split_run by_ k' final final'.
  Proof.
    intros LE S. revert final'. induction S as [l Q|l1 t l2 FB EC|l1 t l2 final Lt FB EC S IH]; intros final' S'; auto.
    inversion S' as [l0 Q E1 E2|l1' t' l2' FB' EC' E1 E2|l1' t' l2' f' Lt' FB' EC' S'' E1 E2]; subst.
    - exfalso. lia.
    - destruct (first_biggest_unique by_ l1' t' l2' l1 t l2 E1 FB' FB) as (-> & -> & ->). congruence.
    - destruct (first_biggest_unique by_ l1' t' l2' l1 t l2 E1 FB' FB) as (-> & -> & ->). auto.
  Qed.

  Lemma split_unique by_ k (l a b : list tree) : split_run by_ k l a -> split_run by_ k l b -> a = b.
  Proof.
    intros S. revert b. induction S as [l Q|l1 t l2 FB EC|l1 t l2 final Lt FB EC S IH]; intros b S';
    inversion S' as [l0 Q' E1 E2|l1' t' l2' FB' EC' E1 E2|l1' t' l2' f' Lt' FB' EC' S'' E1 E2]; subst; auto; try lia.
    - destruct (first_biggest_unique by_ l1' t' l2' l1 t l2 E1 FB' FB) as (-> & -> & ->). congruence.
    - destruct (first_biggest_unique by_ l1' t' l2' l1 t l2 E1 FB' FB) as (-> & -> & ->). congruence.
    - destruct (first_biggest_unique by_ l1' t' l2' l1 t l2 E1 FB' FB) as (-> & -> & ->). auto.
  Qed.

  Lemma split_refines by_ k (l l' : list tree) : split_run by_ k l l' -> forall t', In t' l' -> exists t, In t l /\ subtree t' t.
  Proof.
    induction 1 as [l Q|l1 t l2 FB EC|l1 t l2 final Lt FB EC S IH]; intros t' T'.
    - exists t'. split; [auto|constructor].
    - exists t'. split; [auto|constructor].
    - destruct (IH t' T') as (u & U & SU). rewrite !in_app_iff in U. destruct U as [U|[U|U]].
      + exists u. split; auto. apply in_or_app; auto.
      + exists u. split; auto. apply in_or_app; right; right; auto.
      + exists t. split; [apply in_elt|]. eapply subtree_child; eauto.
  Qed.

  (** A tree as built by a run: what cutting needs. *)
  Record tree_ok (root : tree) : Prop := {
    to_NoDup : NoDup (map tid (nodes root));
    to_pos : forall u, In u (nodes root) -> (0 <= tid u)%Z;
    to_members : forall u, In u (nodes root) -> children u <> [] -> members u = flat_map members (children u);
    to_root : NoDup (members root);
    to_nonempty : forall u, In u (nodes root) -> members u <> [] }.

  Lemma in_nodes_trans (u v t : tree) : In u (nodes v) -> In v (nodes t) -> In u (nodes t).
  Proof. rewrite !nodes_subtree. apply subtree_trans. Qed.

  Lemma child_node (t c : tree) : In c (children t) -> In c (nodes t).
  Proof. intro Cc. rewrite nodes_eq. right. apply in_flat_map. exists c. split; auto. rewrite nodes_eq. left; auto. Qed.

  Lemma cut_facts root l : tree_ok root -> cut root l ->
    l <> [] /\ incl (flat_map nodes l) (nodes root) /\ NoDup (map tid (flat_map nodes l)) /\
    Permutation (flat_map members l) (members root) /\ Permutation (flat_map leaves l) (leaves root).
  Proof.
    intros OK C. induction C as [|l1 t l2 C (NE & IN & ND & PM & PL) Ch].
    - cbn [flat_map]. rewrite !app_nil_r. split; [discriminate|]. split; [apply incl_refl|]. split; [apply OK|]. auto.
    - assert (P := nodes_perm l1 t l2).
      assert (T : In t (nodes root)).
      { apply IN. apply in_flat_map. exists t. split; [apply in_elt|]. rewrite nodes_eq. left; auto. }
      split; [|split; [|split; [|split]]].
      + destruct (children t); [congruence|]. destruct l1; [destruct l2|]; discriminate.
      + intros u U. apply IN. apply (Permutation_in u (Permutation_sym P)). right; auto.
      + apply (Permutation_NoDup (Permutation_map tid P)) in ND. cbn [map] in ND. inversion ND; auto.
      + rewrite <- PM, !flat_map_app. cbn [flat_map]. rewrite (to_members _ OK t T Ch).
        apply Permutation_app_head. apply Permutation_app_comm.
      + rewrite <- PL, !flat_map_app. cbn [flat_map]. rewrite (leaves_eq t). destruct (children t) as [|c cs]; [congruence|].
        apply Permutation_app_head. apply Permutation_app_comm.
  Qed.

  (** Only the trivial cut contains the root. *)
  Lemma cut_root_in root l : tree_ok root -> cut root l -> l = [root] \/ (children root <> [] /\ forall u, In u l -> u <> root).
  Proof.
    intros OK C. induction C as [|l1 t l2 C [E|[Ch IH]] Ct].
    - auto.
    - right. destruct l1 as [|x l1]; [|destruct l1; discriminate]. injection E as -> ->. split; auto. cbn [app].
      intros u U ->. assert (ND := to_NoDup _ OK). rewrite nodes_eq in ND. cbn [map] in ND. inversion ND as [|? ? N _]; subst.
      apply N. apply in_map. apply in_flat_map. exists root. split; auto. rewrite nodes_eq; left; auto.
    - right. split; auto. intros u U ->. rewrite !in_app_iff in U. destruct U as [U|[U|U]].
      + apply (IH root); auto. apply in_or_app; auto.
      + apply (IH root); auto. apply in_or_app; right; right; auto.
      + destruct (cut_facts root _ OK C) as (_ & IN & _ & _).
        assert (T : In t (nodes root)).
        { apply IN. apply in_flat_map. exists t. split; [apply in_elt|]. rewrite nodes_eq. left; auto. }
        assert (S1 : tree_size vec root < tree_size vec t).
        { rewrite (tree_size_eq t). clear - U. induction (children t) as [|c l IH]; [destruct U|].
          cbn [map list_sum fold_right]. destruct U as [->|U]; [lia|]. specialize (IH U). unfold list_sum in IH. lia. }
        assert (S2 : tree_size vec t <= tree_size vec root).
        { apply nodes_subtree in T. clear - T. induction T as [|v c Cc S IH]; auto. rewrite (tree_size_eq v).
          clear S. induction (children v) as [|x l IHl]; [destruct Cc|]. cbn [map list_sum fold_right].
          destruct Cc as [->|Cc]; [lia|]. specialize (IHl Cc). unfold list_sum in IHl. lia. }
        lia.
  Qed.

  (** Members of a tree are those of its leaves. *)
  Lemma members_leaves (t : tree) : (forall u, In u (nodes t) -> children u <> [] -> members u = flat_map members (children u)) ->
    members t = flat_map members (leaves t).
  Proof.
    revert t. apply (tree_ind_strong (fun t => (forall u, In u (nodes t) -> children u <> [] -> members u = flat_map members (children u)) ->
      members t = flat_map members (leaves t))).
    intros t IH MM. rewrite leaves_eq. destruct (children t) as [|c cs] eqn:E.
    - cbn [flat_map]. rewrite app_nil_r. auto.
    - rewrite (MM t) by (rewrite ?E; try discriminate; rewrite nodes_eq; left; auto). rewrite E.
      assert (IH' : forall u, In u (c :: cs) -> members u = flat_map members (leaves u)).
      { intros u U. apply IH; [rewrite <- E in U; rewrite <- E; auto|]. intros v V. apply MM. rewrite nodes_eq, E. right. apply in_flat_map. eauto. }
      clear - IH'. induction (c :: cs) as [|x l IHl]; auto. cbn [flat_map]. rewrite flat_map_app, <- IHl by (intros; apply IH'; right; auto).
      rewrite <- (IH' x) by (left; auto). auto.
  Qed.

  Lemma sub_members root (u t : tree) : tree_ok root -> In t (nodes root) -> In u (nodes t) -> incl (members u) (members t).
  Proof.
    intros OK T U. apply nodes_subtree in U. induction U as [|v c Cc S IH]; [apply incl_refl|].
    intros x X. apply IH in X; [|apply in_nodes_trans with v; auto; apply child_node; auto].
    rewrite (to_members _ OK v T) by (intro E; rewrite E in Cc; destruct Cc). apply in_flat_map. eauto.
  Qed.

  (** ** Labels *)
  Lemma labels_fold (l : list tree) : NoDup (flat_map members l) -> forall d : dict pystr Z,
    let d' := fold_left (fun d t => fold_left (fun d x => dset x (tid t) d) (members t) d) l d in
    (forall t x, In t l -> In x (members t) -> dget x d' = Some (tid t)) /\
    (forall x, ~ In x (flat_map members l) -> dget x d' = dget x d) /\
    (NoDup (keys d) -> NoDup (keys d')) /\
    (forall x, In x (keys d') <-> In x (keys d) \/ In x (flat_map members l)).
  Proof.
    assert (G : forall c ms (d : dict pystr Z), let d' := fold_left (fun d x => dset x c d) ms d in
      (forall x, In x ms -> dget x d' = Some c) /\ (forall x, ~ In x ms -> dget x d' = dget x d) /\
      (NoDup (keys d) -> NoDup (keys d')) /\ (forall x, In x (keys d') <-> In x (keys d) \/ In x ms)).
    { intros c. induction ms as [|y ms IH]; intro d; cbn [fold_left].
      - repeat split; auto; simpl; tauto.
      - destruct (IH (dset y c d)) as (A & B & C & E). split; [|split; [|split]].
        + intros x [<-|X]; auto. destruct (in_dec eq_dec_of y ms); auto. rewrite B by auto. apply dget_dset_same.
        + intros x N. cbn [In] in N. rewrite B by tauto. apply dget_dset_other. intros ->. tauto.
        + intro Nd. apply C. apply NoDup_keys_dset; auto.
        + intro x. rewrite E, In_keys_dset. cbn [In]. intuition congruence. }
    induction l as [|t l IH]; intros ND d; cbn [fold_left flat_map].
    - repeat split; auto; simpl; tauto.
    - cbn [flat_map] in ND. destruct (G (tid t) (members t) d) as (A & B & C & E).
      destruct (IH (proj1 (proj2 (NoDup_app_inv _ _ ND))) (fold_left (fun d x => dset x (tid t) d) (members t) d)) as (A' & B' & C' & E').
      split; [|split; [|split]].
      + intros u x [<-|U] X; [|apply A'; auto]. rewrite B'; auto. intro Y. exact (proj2 (proj2 (NoDup_app_inv _ _ ND)) x X Y).
      + intros x N. rewrite in_app_iff in N. rewrite B' by tauto. apply B. tauto.
      + auto.
      + intro x. rewrite E', E, in_app_iff. tauto.
  Qed.
End Cuts.
