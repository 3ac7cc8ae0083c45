(** * The steps of hierarchical clustering. *)

From Coq Require Import String List Bool Arith ZArith Lia Permutation Sorted.
From Verif Require Import Base Manager Spec Closure ManagerProofs ManagerInv ManagerQueries ManagerThms
  Sampling SamplingSpec SamplingProofs SamplingThms Rename ClusterSpec RenameThms ClusterProofs KMeans KMeansSpec KMeansProofs Hierarchical HierSpec.
Import ListNotations.
Open Scope nat_scope.
Open Scope py_scope.

(** ** Lists *)
Lemma rmap_total2 {A B} (f : A -> res B) l : (forall x, In x l -> exists y, f x = Ok y) ->
  exists r, rmap f l = Ok r /\ Forall2 (fun x y => f x = Ok y) l r.
Proof.
  induction l as [|x l IH]; intro T; simpl; [exists []; auto|].
  destruct (T x (or_introl eq_refl)) as [y Y]. destruct IH as (r & R & F); [intros z Z; apply T; right; auto|].
  exists (y :: r). rewrite Y. cbn [rbind]. rewrite R. auto.
Qed.

Lemma Forall2_In_r {A B} (R : A -> B -> Prop) l l' y : Forall2 R l l' -> In y l' -> exists x, In x l /\ R x y.
Proof. induction 1; simpl; [tauto|]. intros [<-|I]; [eauto|]. destruct IHForall2 as (z & ? & ?); eauto. Qed.
Lemma Forall2_In_l {A B} (R : A -> B -> Prop) l l' x : Forall2 R l l' -> In x l -> exists y, In y l' /\ R x y.
Proof. induction 1; simpl; [tauto|]. intros [<-|I]; [eauto|]. destruct IHForall2 as (z & ? & ?); eauto. Qed.
Lemma Forall2_imp {A B} (R S : A -> B -> Prop) l l' : (forall x y, In x l -> R x y -> S x y) -> Forall2 R l l' -> Forall2 S l l'.
Proof. intros RS F. induction F; constructor; [apply RS; simpl; auto|apply IHF; intros; apply RS; simpl; auto]. Qed.
Lemma Forall2_len {A B} (R : A -> B -> Prop) l l' : Forall2 R l l' -> length l = length l'.
Proof. induction 1; simpl; auto. Qed.

Lemma rexists_pure {A} (f : A -> res bool) (g : A -> bool) l : (forall x, In x l -> f x = Ok (g x)) -> rexists f l = Ok (existsb g l).
Proof.
  induction l as [|x l IH]; intro E; simpl; auto. rewrite (E x (or_introl eq_refl)). cbn [rbind].
  destruct (g x); auto. apply IH. intros; apply E; right; auto.
Qed.

Lemma py_max_In {A} (lt : A -> A -> bool) l : l <> [] -> exists k, py_max lt l = Ok k /\ In k l.
Proof.
  intro N. destruct l as [|x l]; [congruence|]. simpl. eexists. split; [reflexivity|]. clear N. revert x.
  induction l as [|y l IH]; intro x; simpl; auto. destruct (lt x y).
  - destruct (IH y) as [E|E]; [rewrite <- E at 2|]; auto.
  - destruct (IH x) as [E|E]; auto.
Qed.

Lemma py_max_py_min {A} (lt : A -> A -> bool) l : py_max lt l = py_min (fun a b => lt b a) l.
Proof. destruct l; reflexivity. Qed.

Lemma swo_flip {A} (lt : A -> A -> bool) : strict_weak_order lt -> strict_weak_order (fun a b => lt b a).
Proof.
  intros (I & T & W). split; [|split]; auto.
  - intros x y z H1 H2. eapply T; eauto.
  - intros x y z H. destruct (W z y x H); auto.
Qed.

Lemma py_max_greatest {A} (lt : A -> A -> bool) l k : strict_weak_order lt -> py_max lt l = Ok k -> forall y, In y l -> lt k y = false.
Proof.
  intros S E y Y. rewrite py_max_py_min in E. apply (py_min_least (fun a b => lt b a) l k (swo_flip lt S) E y Y).
Qed.

(** First maximum for a numeric key. *)
Lemma py_max_nat {A} (key : A -> nat) l : l <> [] -> exists l1 t l2,
  py_max (fun a b => Nat.ltb (key a) (key b)) l = Ok t /\ l = l1 ++ t :: l2 /\
  (forall u, In u l1 -> key u < key t) /\ (forall u, In u l2 -> key u <= key t).
Proof.
  intro N. destruct l as [|x l]; [congruence|]. unfold py_max. clear N.
  enough (G : forall l pre x mid, (forall u, In u pre -> key u < key x) -> (forall u, In u mid -> key u <= key x) ->
     exists l1 t l2, fold_left (fun best y => if Nat.ltb (key best) (key y) then y else best) l x = t /\
        pre ++ x :: mid ++ l = l1 ++ t :: l2 /\ (forall u, In u l1 -> key u < key t) /\ (forall u, In u l2 -> key u <= key t)).
  { destruct (G l [] x []) as (l1 & t & l2 & E & P & Q); [simpl; tauto|simpl; tauto|]. exists l1, t, l2. rewrite E. auto. }
  clear. induction l as [|y l IH]; intros pre x mid P Q; simpl.
  - exists pre, x, mid. rewrite app_nil_r. auto.
  - destruct (Nat.ltb_spec (key x) (key y)) as [L|L].
    + destruct (IH (pre ++ x :: mid) y []) as (l1 & t & l2 & E & P' & Q').
      * intros u U. apply in_app_or in U as [U|[<-|U]]; [specialize (P u U); lia|auto|specialize (Q u U); lia].
      * simpl; tauto.
      * exists l1, t, l2. split; auto. split; auto. rewrite <- P'. rewrite <- app_assoc. simpl. reflexivity.
    + destruct (IH pre x (mid ++ [y])) as (l1 & t & l2 & E & P' & Q').
      * auto.
      * intros u U. apply in_app_or in U as [U|[<-|[]]]; auto.
      * exists l1, t, l2. split; auto. split; auto. rewrite <- P'. rewrite <- app_assoc. reflexivity.
Qed.

Lemma pairs_below_eq l : pairs_below l = position_pairs l.
Proof.
  unfold pairs_below, enum. generalize 0 at 1 2. induction l as [|x l IH]; intro n; [reflexivity|].
  cbn [length seq combine list_prod position_pairs]. rewrite filter_app, map_app.
  cbn [map filter fst snd]. rewrite Nat.ltb_irrefl. f_equal.
  - clear IH. assert (G : forall k, n < k -> map (fun p : nat * pystr * (nat * pystr) => (snd (fst p), snd (snd p)))
       (filter (fun p => fst (fst p) <? fst (snd p)) (map (fun y => (n, x, y)) (combine (seq k (length l)) l))) = map (pair x) l).
    { induction l as [|y l IH]; intros k L; [reflexivity|]. simpl. destruct (Nat.ltb_spec n k); [|lia]. simpl. f_equal. apply IH. lia. }
    apply G. lia.
  - rewrite <- (IH (S n)). f_equal. set (L := combine (seq (S n) (length l)) l).
    assert (K : forall i y, In (i, y) L -> n < i).
    { intros i y I. apply in_combine_l in I. apply in_seq in I. lia. }
    assert (G : forall L', (forall i y, In (i, y) L' -> n < i) ->
       filter (fun p : nat * pystr * (nat * pystr) => fst (fst p) <? fst (snd p)) (list_prod L' ((n, x) :: L)) =
       filter (fun p => fst (fst p) <? fst (snd p)) (list_prod L' L)).
    { induction L' as [|[i y] L' IHL]; intro B; [reflexivity|]. cbn [list_prod]. simpl map.
      cbn [filter app]. simpl fst.
      destruct (Nat.ltb_spec i n) as [Q|Q]; [specialize (B i y (or_introl eq_refl)); lia|].
      cbn [app]. rewrite !filter_app. f_equal. apply IHL. intros; apply B with y0; right; auto. }
    apply G; auto.
Qed.

Lemma StronglySorted_app {A} (R : A -> A -> Prop) l x : StronglySorted R l -> (forall y, In y l -> R y x) -> StronglySorted R (l ++ [x]).
Proof.
  induction l as [|z l IH]; intros S F; simpl; [constructor; auto; constructor|].
  inversion S; subst. constructor; [apply IH; auto; intros; apply F; right; auto|].
  apply Forall_app. split; auto. constructor; auto. apply F. left; auto.
Qed.

Lemma StronglySorted_before_iff {A} (R : A -> A -> Prop) l : StronglySorted R l <-> forall x y, before l x y -> R x y.
Proof.
  split; [|apply StronglySorted_before]. induction 1; intros x y B.
  - destruct B as (l1 & l2 & E & _). destruct l1; discriminate.
  - apply before_cons_inv in B as [[-> I]|B]; auto. rewrite Forall_forall in H0. auto.
Qed.

Lemma before_app_inv {A} (l l' : list A) x y : before (l ++ l') x y -> before l x y \/ before l' x y \/ (In x l /\ In y l').
Proof.
  induction l as [|z l IH]; simpl; auto. intro B. apply before_cons_inv in B as [[-> I]|B].
  - apply in_app_or in I as [I|I]; [left; apply before_head; auto|right; right; auto].
  - destruct (IH B) as [|[|[]]]; auto. left. apply before_cons; auto.
Qed.

Lemma before_dec_split {A} (l : list A) x y : before l x y -> exists l1 l2 l3, l = l1 ++ x :: l2 ++ y :: l3.
Proof. intros (l1 & l2 & -> & I). apply in_split in I as (a & b & ->). eauto. Qed.

Lemma list_remove_mid l1 x l2 : ~ In x l1 -> list_remove x (l1 ++ x :: l2) = (l1 ++ l2 : list Z).
Proof.
  induction l1 as [|y l1 IH]; simpl; intro N; [rewrite eqb_refl; auto|].
  destruct (eqb_spec x y); [subst; tauto|]. f_equal. apply IH. tauto.
Qed.

(** ** Trees *)
Section TreeInd.
  Context {vec : Type}.
  Variable P : tree vec -> Prop.
  Hypothesis step : forall t, (forall c, In c (t_children vec t) -> P c) -> P t.
  Lemma tree_ind_strong : forall t, P t.
  Proof.
    fix IH 1. intro t. apply step. destruct t as [i it c dp ms ce]. simpl.
    induction c as [|u c IHc]; [intros ? []|]. intros v [<-|V]; [apply IH|apply IHc; auto].
  Qed.
End TreeInd.

Section Trees.
  Context {vec : Type}.
  Notation tree := (tree vec).
  Notation members := (t_members vec).
  Notation children := (t_children vec).
  Notation tid := (t_id vec).

  Lemma nodes_eq (t : tree) : nodes t = t :: flat_map nodes (children t).
  Proof. destruct t; reflexivity. Qed.
  Lemma tree_size_eq (t : tree) : tree_size vec t = S (list_sum (map (tree_size vec) (children t))).
  Proof. destruct t; reflexivity. Qed.

  Lemma nodes_subtree (u t : tree) : In u (nodes t) <-> subtree u t.
  Proof.
    split.
    - revert t. apply (tree_ind_strong (fun t => In u (nodes t) -> subtree u t)).
      intros t IH I. rewrite nodes_eq in I. destruct I as [->|I]; [constructor|].
      apply in_flat_map in I as (c & C & U). apply subtree_child with c; auto.
    - induction 1; rewrite nodes_eq; [left; auto|]. right. apply in_flat_map. eauto.
  Qed.

  Lemma subtree_trans (u v t : tree) : subtree u v -> subtree v t -> subtree u t.
  Proof. intros S1 S2. induction S2; auto. eapply subtree_child; eauto. Qed.

  Lemma leaves_eq (t : tree) : leaves t = match children t with [] => [t] | c => flat_map leaves c end.
  Proof.
    unfold leaves at 1. rewrite nodes_eq. cbn [filter].
    destruct (children t) as [|c l]; [reflexivity|].
    generalize (c :: l). intro L. induction L as [|x L IH]; [reflexivity|].
    cbn [flat_map]. rewrite filter_app. f_equal. exact IH.
  Qed.
End Trees.

(** ** Distances between clusters *)
Section Distances.
  Context {vec D : Type} `{EqB D}.
  Variable pairwise : list vec -> nat -> nat -> D.
  Variable cdistance : vec -> vec -> D.
  Variable ltb : D -> D -> bool.
  Variable dsum : list D -> D.
  Variable ddiv : D -> nat -> D.
  Variable inf : D.
  Variable linkage : pystr.
  Variable m : mgr.
  Variable vectors : dict pystr vec.
  Hypothesis I : Inv m.
  Hypothesis COV : forall x, In x (ids m) -> In x (keys vectors).
  Hypothesis LK : make_hierarchical linkage = Ok linkage.
  Notation tree := (tree vec).
  Notation members := (t_members vec).
  Notation tdist := (tree_distance vec D cdistance ltb dsum ddiv inf m linkage).
  Notation ldist := (linkage_distance pairwise cdistance ltb dsum ddiv inf linkage m vectors).
  Notation dis := (distance_is pairwise m vectors).

  Definition good_ptable (table : dict pystr (dict pystr D)) : Prop :=
    forall x y, In x (ids m) -> In y (ids m) -> exists d, table_get D table (x, y) = Ok d /\ dis (x, y) d.

  Lemma pairwise_table_run : ids m <> [] -> exists table,
    pairwise_table vec D pairwise m vectors = Ok table /\ good_ptable table.
  Proof.
    intro NE. destruct (rmap_total (fun x => dlookup x vectors) (ids m)) as [rows R].
    { intros x X. apply dlookup_total; auto. }
    unfold pairwise_table. rewrite ask_managed. cbn [rbind]. rewrite R. cbn [rbind].
    assert (LR := rmap_length _ _ _ R). destruct rows as [|r0 rows]; [destruct (ids m); simpl in *; [congruence|discriminate]|].
    eexists. split; [reflexivity|]. intros x y X Y.
    destruct (distance_exists pairwise m vectors (r0 :: rows) (x, y) R X Y I) as (d & Dd & L). exists d. auto.
  Qed.

  Definition in_ids (t : tree) : Prop := members t <> [] /\ incl (members t) (ids m).

  Definition cl_pair (p : pystr * pystr) : bool := cl m (fst p) (snd p).

  Lemma incompatible_spec t1 t2 : in_ids t1 -> in_ids t2 ->
    existsb cl_pair (list_prod (members t1) (members t2)) = true <-> incompatible m t1 t2.
  Proof.
    intros [_ S1] [_ S2]. rewrite existsb_exists. split.
    - intros ([a b] & P & C). apply in_prod_iff in P as [A B]. exists a, b. split; auto. split; auto. apply inferred_cl; auto.
    - intros (a & b & A & B & C). exists (a, b). split; [apply in_prod; auto|]. apply inferred_cl in C; auto.
  Qed.

  Lemma position_pairs_In {A} (l : list A) a b : In (a, b) (position_pairs l) -> In a l /\ In b l.
  Proof.
    induction l as [|x l IH]; simpl; [tauto|]. intro P. apply in_app_or in P as [P|P].
    - apply in_map_iff in P as (y & E & Y). injection E as <- <-. auto.
    - apply IH in P. tauto.
  Qed.

  Lemma linkage_cases : linkage = str "ward" \/ linkage = str "average" \/ linkage = str "complete" \/ linkage = str "single".
  Proof.
    unfold make_hierarchical in LK. destruct (mem linkage _) eqn:E; [|discriminate]. apply mem_In in E. simpl in E.
    destruct E as [E|[E|[E|[E|[]]]]]; auto.
  Qed.

  Lemma table_pairs table l : good_ptable table -> (forall a b, In (a, b) l -> In a (ids m) /\ In b (ids m)) ->
    exists ds, rmap (table_get D table) l = Ok ds /\ Forall2 dis l ds.
  Proof.
    intros G P. destruct (rmap_total2 (table_get D table) l) as (ds & R & F).
    { intros [a b] Q. destruct (P a b Q) as [A B]. destruct (G a b A B) as (d & E & _). eauto. }
    exists ds. split; auto. eapply Forall2_imp; [|exact F]. intros [a b] d Q E. destruct (P a b Q) as [A B].
    destruct (G a b A B) as (d' & E' & Dd). congruence.
  Qed.

  Lemma tree_distance_run table t1 t2 : good_ptable table -> in_ids t1 -> in_ids t2 ->
    exists d, tdist table t1 t2 = Ok d /\ (incompatible m t1 t2 -> d = inf) /\ (strict_weak_order ltb -> ldist t1 t2 d).
  Proof.
    intros G G1 G2. unfold tree_distance.
    rewrite (rexists_pure _ cl_pair).
    2:{ intros [a b] P. apply in_prod_iff in P as [A B]. unfold cl_pair. cbn [fst snd]. apply inferred_is_cl; auto.
        - apply G1; auto.
        - apply G2; auto. }
    cbn [rbind]. assert (S := incompatible_spec t1 t2 G1 G2).
    destruct (existsb cl_pair _) eqn:EC.
    { exists inf. split; auto. split; auto. intro. left. split; auto. apply S; auto. }
    assert (NI : ~ incompatible m t1 t2) by (intro Q; apply S in Q; discriminate). clear S.
    destruct G1 as [N1 S1], G2 as [N2 S2].
    assert (PP : forall a b, In (a, b) (list_prod (members t1) (members t2)) -> In a (ids m) /\ In b (ids m)).
    { intros a b P. apply in_prod_iff in P as [A B]. split; auto. }
    destruct (table_pairs table _ G PP) as (ds & R & F).
    assert (NEd : ds <> []).
    { intros ->. inversion F as [E|]. destruct (members t1); [congruence|]. destruct (members t2); [congruence|]. discriminate. }
    assert (InD : forall d, In d ds -> exists a b, In a (members t1) /\ In b (members t2) /\ dis (a, b) d).
    { intros d Dd. destruct (Forall2_In_r _ _ _ _ F Dd) as ([a b] & P & Q). apply in_prod_iff in P as [A B]. eauto. }
    assert (AllD : forall a b d, In a (members t1) -> In b (members t2) -> dis (a, b) d -> In d ds).
    { intros a b d A B Dd. destruct (Forall2_In_l _ _ _ (a, b) F) as (d' & Id & Q); [apply in_prod; auto|].
      rewrite (distance_unique _ _ _ _ _ _ I Dd Q). auto. }
    destruct linkage_cases as [E|[E|[E|E]]]; subst linkage; cbn -[Nat.eqb ldist].
    - (* ward *)
      rewrite pairs_below_eq.
      destruct (table_pairs table (position_pairs (members t1 ++ members t2)) G) as (ds' & R' & F').
      { intros a b P. apply position_pairs_In in P as [A B]. apply in_app_or in A, B. destruct A, B; auto. }
      rewrite R'. cbn [rbind].
      destruct (Nat.eqb_spec (length (members t1) * length (members t2)) 0) as [Z0|_].
      { destruct (members t1); [congruence|]. destruct (members t2); [congruence|]. simpl in Z0. lia. }
      eexists. split; [reflexivity|]. split; [tauto|]. intro. right. split; auto. right; right; right. split; auto. exists ds'. auto.
    - (* average *)
      eexists. split; [reflexivity|]. split; [tauto|]. intro. right. split; auto.
    - (* complete *)
      rewrite R. cbn [rbind]. destruct (py_max_In ltb ds NEd) as (k & E & K). exists k. split; auto. split; [tauto|].
      intro SW. right. split; auto. left. split; auto. split; [apply InD; auto|].
      intros a b d' A B Dd. apply (py_max_greatest ltb ds k SW E). eauto.
    - (* single *)
      rewrite R. cbn [rbind]. destruct (py_min_In ltb ds NEd) as (k & E & K). exists k. split; auto. split; [tauto|].
      intro SW. right. split; auto. right; left. split; auto. split; [apply InD; auto|].
      intros a b d' A B Dd. apply (py_min_least ltb ds k SW E). eauto.
  Qed.

  Lemma Forall2_dis_unique l ds ds' : Forall2 dis l ds -> Forall2 dis l ds' -> ds = ds'.
  Proof.
    intro F. revert ds'. induction F; intros ds' F'; inversion F'; subst; auto. f_equal; auto.
    eapply distance_unique; eauto.
  Qed.

  Lemma ldist_fun t1 t2 d d' : strict_total_order ltb -> ldist t1 t2 d -> ldist t1 t2 d' -> d = d'.
  Proof.
    intros [SW TO] [[C ->]|[NC H1]] [[C' ->]|[NC' H2]]; try tauto; auto.
    destruct H1 as [(L1 & (a & b & A & B & Dd) & M1)|[(L1 & (a & b & A & B & Dd) & M1)|[(L1 & ->)|(L1 & ds & F & ->)]]];
    destruct H2 as [(L2 & (a' & b' & A' & B' & Dd') & M2)|[(L2 & (a' & b' & A' & B' & Dd') & M2)|[(L2 & ->)|(L2 & ds' & F' & ->)]]];
    try (exfalso; clear - L1 L2; subst linkage; discriminate); auto.
    - apply TO; eauto.
    - apply TO; eauto.
    - f_equal. f_equal. eapply Forall2_dis_unique; eauto.
  Qed.
End Distances.
