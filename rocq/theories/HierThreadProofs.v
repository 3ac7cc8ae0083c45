(** * Hierarchical clustering while another thread adds constraints: lemmas. *)

From Coq Require Import String List Bool Arith ZArith QArith Lia Permutation Sorted.
From Verif Require Import Base Manager Spec Closure ManagerProofs ManagerInv ManagerQueries ManagerSem ManagerThms Sampling SamplingSpec SamplingProofs SamplingThms
  Rename ClusterSpec RenameThms ClusterProofs KMeans KMeansSpec KMeansProofs Hierarchical HierSpec HierProofs HierRun HierTree
  Interrupt InterruptThms Threads ThreadSpec ThreadsThms Readers ReadersSpec ReadersThms Listing ListingSpec ListingThms SampleThread SampleThreadThms KMeansThread KMeansThreadThms HierThread.
Import ListNotations.
Open Scope nat_scope.

(** ** A tree in which data may be in several places *)
Section Loose.
  Context {vec : Type}.
  Variable mean : list vec -> vec.
  Variable m : mgr.
  Variable vectors : dict pystr vec.
  Hypothesis I : Inv m.
  Notation tree := (tree vec).
  Notation members := (t_members vec).
  Notation children := (t_children vec).
  Notation tid := (t_id vec).
  Notation inI x := (In x (ids m)).

  Definition closed (u : tree) : Prop := forall a b, inI a -> inI b -> ml m a b = true -> In a (members u) -> In b (members u).
  Record loose_node (u : tree) : Prop := {
    ln_ids : in_ids m u;
    ln_members : children u <> [] -> members u = flat_map members (children u);
    ln_child_id : forall c, In c (children u) -> (tid c < tid u)%Z;
    ln_closed : closed u }.
  Record loose_forest (ts : list tree) : Prop := {
    lf_nodes : forall u, In u (flat_map nodes ts) -> loose_node u /\ no_cl m u;
    lf_tids : NoDup (map tid (flat_map nodes ts));
    lf_all : forall x, inI x -> In x (flat_map members ts) }.
  Record loose_root (root : tree) : Prop := {
    lr_nodes : forall u, In u (nodes root) -> loose_node u;
    lr_inner : forall u, In u (nodes root) -> u <> root -> no_cl m u;
    lr_tids : NoDup (map tid (nodes root));
    lr_all : forall x, inI x -> In x (members root);
    lr_top : no_cl m root \/ children root <> [] }.

  Lemma loose_below (t : tree) : (forall u, In u (nodes t) -> loose_node u) -> forall u, In u (nodes t) -> (tid u <= tid t)%Z.
  Proof.
    revert t. apply (tree_ind_strong (fun t => (forall u, In u (nodes t) -> loose_node u) -> forall u, In u (nodes t) -> (tid u <= tid t)%Z)).
    intros t IH NO u U. rewrite nodes_eq in U. destruct U as [<-|U]; [lia|]. apply in_flat_map in U as (c & Cc & U).
    assert (K : (tid c < tid t)%Z) by (apply (ln_child_id _ (NO t (in_nodes_self t))); auto).
    assert (Q : (tid u <= tid c)%Z); [|lia]. apply IH; auto. intros v V. apply NO. rewrite nodes_eq. right. apply in_flat_map. eauto.
  Qed.
  Lemma loose_above ts trees t it : loose_forest ts -> node_over mean vectors it ts trees t -> forall u, In u (flat_map nodes ts) -> (tid u < tid t)%Z.
  Proof.
    intros F (_ & _ & _ & _ & _ & _ & UP) u U. apply in_flat_map in U as (t0 & T0 & U).
    assert (Q : (tid u <= tid t0)%Z). { apply loose_below; auto. intros v V. apply (lf_nodes _ F). apply in_flat_map. eauto. }
    specialize (UP t0 T0). lia.
  Qed.
  Lemma loose_new ts trees t it : loose_forest ts -> node_over mean vectors it ts trees t -> incl trees ts -> trees <> [] -> loose_node t.
  Proof.
    intros F (Ech & _ & Eme & _ & _ & _ & UP) SUB NE.
    assert (FN : forall u, In u trees -> loose_node u). { intros u U. apply (lf_nodes _ F). apply in_flat_map. exists u. split; [auto|apply in_nodes_self]. }
    constructor.
    - unfold in_ids. rewrite Eme. apply (members_flat m trees); auto. apply Forall_forall. intros u U. apply FN; auto.
    - rewrite Ech. auto.
    - rewrite Ech. auto.
    - intros a b A B M J. rewrite Eme in *. apply in_flat_map in J as (u & U & J). apply in_flat_map. exists u. split; auto. apply (ln_closed _ (FN u U) a b); auto.
  Qed.

  Lemma loose_merge it l1 t1 l2 t2 l3 t : loose_forest (l1 ++ t1 :: l2 ++ t2 :: l3) ->
    node_over mean vectors it (l1 ++ t1 :: l2 ++ t2 :: l3) [t1; t2] t -> ~ incompatible m t1 t2 -> loose_forest (l1 ++ l2 ++ l3 ++ [t]).
  Proof.
    intros F NO NI. set (ts := l1 ++ t1 :: l2 ++ t2 :: l3) in *.
    assert (T1 : In t1 ts) by (apply in_elt). assert (T2 : In t2 ts) by (apply in_or_app; right; right; apply in_elt).
    assert (SUB : incl [t1; t2] ts) by (intros x [<-|[<-|[]]]; auto).
    assert (OK := loose_new ts _ t it F NO SUB ltac:(discriminate)). assert (AB := loose_above ts _ t it F NO).
    assert (FN : forall u, In u ts -> loose_node u /\ no_cl m u). { intros u U. apply (lf_nodes _ F). apply in_flat_map. exists u. split; [auto|apply in_nodes_self]. }
    destruct NO as (Ech & _ & Eme & _). cbn [flat_map] in Eme. rewrite app_nil_r in Eme.
    destruct (perm_merge l1 l2 l3 t1 t2 t) as [P1 P2]. fold ts in P1.
    assert (PN : Permutation (flat_map nodes (l1 ++ l2 ++ l3 ++ [t])) (t :: flat_map nodes ts)).
    { etransitivity; [apply Permutation_flat_map; exact P2|]. cbn [flat_map]. rewrite nodes_eq, Ech. cbn [flat_map app]. constructor.
      etransitivity; [|symmetry; apply Permutation_flat_map; exact P1]. cbn [flat_map]. rewrite app_nil_r, <- app_assoc. auto. }
    constructor.
    - intros u U. apply (Permutation_in _ PN) in U as [<-|U]; [|apply (lf_nodes _ F); auto]. split; auto.
      apply (compatible_no_cl m I t1 t2); auto; apply FN; auto.
    - apply (Permutation_NoDup (Permutation_map tid (Permutation_sym PN))). cbn [map]. constructor; [|apply F].
      intro J. apply in_map_iff in J as (u & E & U). apply AB in U. lia.
    - intros x X. apply (lf_all _ F) in X. assert (PM : Permutation (flat_map members ts) (flat_map members (l1 ++ l2 ++ l3 ++ [t]))).
      { etransitivity; [apply Permutation_flat_map; exact P1|]. etransitivity; [|symmetry; apply Permutation_flat_map; exact P2]. cbn [flat_map]. rewrite Eme, <- app_assoc. auto. }
      apply (Permutation_in _ PM). auto.
  Qed.

  Definition free (ts : list tree) (t1 t2 : tree) : Prop := ~ incompatible m t1 t2.
  Definition whenever (ts : list tree) : Prop := True.
  Lemma loose_agglomerates it ts root : loose_forest ts -> agglomerates mean vectors free whenever it ts root -> loose_root root.
  Proof.
    intros F A. induction A as [it t|it l1 t1 l2 t2 l3 t root CH NO A IH|it ts root L _ NO].
    - destruct F as [FN FD FA]. cbn [flat_map] in *. rewrite app_nil_r in *. constructor; auto; try (intros; apply FN; auto).
      left. apply FN. apply in_nodes_self.
    - apply IH. eapply loose_merge; eauto.
    - assert (NE : ts <> []) by (intros ->; simpl in L; lia). assert (OK := loose_new ts ts root it F NO (incl_refl _) NE). assert (AB := loose_above ts ts root it F NO).
      destruct NO as (Ech & _ & Eme & _). constructor; rewrite ?nodes_eq, ?Ech; auto.
      + intros u [<-|U]; auto. apply (lf_nodes _ F u U).
      + intros u [<-|U] N; [congruence|]. apply (lf_nodes _ F u U).
      + cbn [map]. constructor; [|apply F]. intro J. apply in_map_iff in J as (u & E & U). apply AB in U. lia.
      + rewrite Eme. apply F.
  Qed.

  (** ** Cutting it *)
  Lemma loose_split root by_ k l : loose_root root -> (k = 1 \/ 2 <= k)%Z -> split_run by_ k [root] l -> (k = 1 -> forall a b, inI a -> inI b -> a = b)%Z ->
    incl l (nodes root) /\ (forall x, inI x -> In x (flat_map members l)) /\ NoDup (map tid l) /\ forall u, In u l -> no_cl m u.
  Proof.
    intros RT LK SR ONE.
    set (G := fun l => incl (flat_map nodes l) (nodes root) /\ NoDup (map tid (flat_map nodes l)) /\ (forall x, inI x -> In x (flat_map members l)) /\
                       (l = [root] \/ forall u, In u l -> no_cl m u)).
    assert (G0 : G [root]).
    { unfold G. cbn [flat_map]. rewrite !app_nil_r. split; [apply incl_refl|]. split; [apply RT|]. split; [apply RT|]. auto. }
    assert (GS : forall l1 t l2, G (l1 ++ t :: l2) -> children t <> [] -> G (l1 ++ l2 ++ children t)).
    { intros l1 t l2 (IN & ND & AL & NC) Ch. assert (P := nodes_perm l1 t l2).
      assert (T : In t (nodes root)). { apply IN. apply in_flat_map. exists t. split; [apply in_elt|apply in_nodes_self]. }
      split; [|split; [|split]].
      - intros u U. apply IN. apply (Permutation_in u (Permutation_sym P)). right; auto.
      - apply (Permutation_NoDup (Permutation_map tid P)) in ND. cbn [map] in ND. inversion ND; auto.
      - intros x X. apply AL in X. rewrite !flat_map_app in *. cbn [flat_map] in X. rewrite (ln_members _ (lr_nodes _ RT t T) Ch) in X. rewrite !in_app_iff in *. tauto.
      - right. intros u U.
        assert (CH : In u (children t) -> no_cl m u).
        { intro Cu. assert (Nu : In u (nodes root)) by (apply in_nodes_trans with t; auto; apply child_node; auto).
          apply (lr_inner _ RT); auto. intros ->. assert (K := ln_child_id _ (lr_nodes _ RT t T) root Cu). assert (K' := loose_below root (lr_nodes _ RT) t T). lia. }
        rewrite !in_app_iff in U. destruct NC as [E|NC].
        + destruct l1 as [|? [|]]; try discriminate. injection E as -> ->. destruct U as [[]|[[]|U]]. auto.
        + destruct U as [U|[U|U]]; auto; apply NC, in_or_app; [|right; right]; auto. }
    assert (FIN : forall l0, G l0 -> forall l, split_run by_ k l0 l -> G l /\ (l = [root] -> (k <= 1)%Z \/ children root = [])).
    { clear l SR. intros l0 Gl l SR. revert Gl. induction SR as [l Q|l1 t l2 FB EC|l1 t l2 final Lt FB EC S IH]; intro Gl.
      - split; auto. intros ->. cbn in Q. lia.
      - split; auto. intro E. destruct l1 as [|? [|]]; try discriminate. injection E as -> ->. auto.
      - apply IH. auto. }
    destruct (FIN [root] G0 l SR) as [(IN & ND & AL & NC) TOP].
    assert (IL : incl l (nodes root)) by (intros u U; apply IN, in_flat_map; exists u; split; auto; apply in_nodes_self).
    split; auto. split; auto. split.
    - clear - ND. induction l as [|t l IH]; cbn [map flat_map] in *; [constructor|]. rewrite map_app, nodes_eq in ND. cbn [map app] in ND. inversion ND as [|? ? N1 N2]; subst. constructor.
      + intro J. apply N1. apply in_map_iff in J as (u & E & U). apply in_or_app. right. apply in_map_iff. exists u. split; auto. apply in_flat_map. exists u. split; auto. apply in_nodes_self.
      + apply IH. apply NoDup_app_inv in N2. tauto.
    - destruct NC as [->|NC]; auto. intros u [<-|[]]. destruct (lr_top _ RT) as [|Ch]; auto. destruct (TOP eq_refl) as [K1|]; [|congruence].
      assert (K2 : k = 1%Z) by lia. intros a b A B Q. destruct (inferred_inI m I _ _ _ Q) as [Ia Ib]. rewrite (ONE K2 b a Ib Ia) in Q.
      apply inferred_cl in Q; auto. exact (ml_cl m a a (ml_refl m I a Ia) Q).
  Qed.

  (** ** Labels when data may be in several clusters *)
  Lemma labels_loose (l : list tree) : forall d : dict pystr Z,
    let d' := fold_left (fun d t => fold_left (fun d x => dset x (tid t) d) (members t) d) l d in
    (forall x, In x (flat_map members l) -> exists t, In t l /\ In x (members t) /\ dget x d' = Some (tid t)) /\
    (forall x, ~ In x (flat_map members l) -> dget x d' = dget x d) /\
    (forall x y, (forall t, In t l -> In x (members t) <-> In y (members t)) -> dget x d = dget y d -> dget x d' = dget y d') /\
    (NoDup (keys d) -> NoDup (keys d')) /\ (forall x, In x (keys d') <-> In x (keys d) \/ In x (flat_map members l)).
  Proof.
    assert (G : forall c ms (d : dict pystr Z), let d' := fold_left (fun d x => dset x c d) ms d in
      (forall x, In x ms -> dget x d' = Some c) /\ (forall x, ~ In x ms -> dget x d' = dget x d) /\
      (NoDup (keys d) -> NoDup (keys d')) /\ (forall x, In x (keys d') <-> In x (keys d) \/ In x ms)).
    { intros c. induction ms as [|y ms IH]; intro d; cbn [fold_left].
      - repeat split; auto; simpl; tauto.
      - destruct (IH (dset y c d)) as (A & B & C & E). split; [|split; [|split]].
        + intros x [<-|X]; auto. destruct (in_dec eq_dec_of y ms); auto. rewrite B by auto. apply dget_dset_same.
        + intros x N. cbn [In] in N. rewrite B by tauto. apply dget_dset_other. intros ->. tauto.
        + intro Nd. apply C. apply NoDup_keys_dset; auto.
        + intro x. rewrite E, In_keys_dset. cbn [In]. intuition congruence. }
    induction l as [|t l IH]; intro d; cbn [fold_left flat_map].
    - repeat split; auto; simpl; tauto.
    - destruct (G (tid t) (members t) d) as (A & B & C & E).
      destruct (IH (fold_left (fun d x => dset x (tid t) d) (members t) d)) as (A' & B' & S' & C' & E').
      split; [|split; [|split; [|split]]].
      + intros x X. destruct (in_dec eq_dec_of x (flat_map members l)) as [J|J].
        * destruct (A' x J) as (u & U & X' & Q). exists u. split; [right|]; auto.
        * apply in_app_iff in X as [X|X]; [|tauto]. exists t. split; [left; auto|]. split; auto. rewrite B' by auto. auto.
      + intros x N. rewrite in_app_iff in N. rewrite B' by tauto. apply B. tauto.
      + intros x y Q K. apply S'; [intros u U; apply Q; right; auto|]. assert (Qt := Q t (or_introl eq_refl)).
        destruct (in_dec eq_dec_of x (members t)) as [J|J]; [rewrite !A by tauto; auto|rewrite !B by tauto; auto].
      + auto.
      + intro x. rewrite E', E, in_app_iff. tauto.
  Qed.

  Lemma loose_labels root (l : list tree) : loose_root root -> incl l (nodes root) -> (forall x, inI x -> In x (flat_map members l)) -> NoDup (map tid l) -> (forall u, In u l -> no_cl m u) ->
    NoDup (keys (labels_of vec (ids m) l)) /\ covers_exactly m (labels_of vec (ids m) l) /\ respects m (labels_of vec (ids m) l).
  Proof.
    intros RT IL AL ND NC. unfold labels_of. set (d0 := dcomp (fun _ => (-1)%Z) (ids m)).
    assert (K0 : keys d0 = ids m). { unfold d0, dcomp. rewrite dedup_id by (apply inv_nodup; auto). unfold keys. rewrite map_map. cbn. apply map_id. }
    assert (D0 : forall x, inI x -> dget x d0 = Some (-1)%Z).
    { intros x X. unfold d0, dcomp. rewrite dedup_id by (apply inv_nodup; auto). clear - X. induction (ids m) as [|y k IH]; [destruct X|]. cbn. destruct (eqb_spec x y) as [->|N]; auto. destruct X; [congruence|auto]. }
    destruct (labels_loose l d0) as (A & B & S & C & E). set (d := fold_left _ l d0) in *. split; [apply C; rewrite K0; apply inv_nodup; auto|].
    assert (SUB : forall u, In u l -> incl (members u) (ids m)) by (intros u U; apply (ln_ids _ (lr_nodes _ RT u (IL u U)))).
    split; [|split].
    - intro x. rewrite E, K0, managed_ids. split; auto. intros [|J]; auto. apply in_flat_map in J as (u & U & J). apply (SUB u U); auto.
    - intros a b MA MB Q. apply managed_ids in MA. apply managed_ids in MB. apply inferred_ml in Q; auto. apply S; [|rewrite !D0; auto].
      intros t T. assert (CL := ln_closed _ (lr_nodes _ RT t (IL t T))). split; intro J; [apply (CL a b)|apply (CL b a)]; auto. rewrite ml_sym; auto.
    - intros a b MA MB Q EQ. apply managed_ids in MA. apply managed_ids in MB. destruct (A a (AL a MA)) as (t & T & Ja & Ea). destruct (A b (AL b MB)) as (u & U & Jb & Eb).
      rewrite Ea, Eb in EQ. injection EQ as EQ. assert (t = u).
      { clear - ND T U EQ. induction l as [|x l IH]; [destruct T|]. cbn [map] in ND. inversion ND as [|? ? N1 N2]; subst. destruct T as [<-|T], U as [<-|U]; auto.
        - destruct N1. rewrite EQ. apply in_map; auto.
        - destruct N1. rewrite <- EQ. apply in_map; auto. }
      subst u. exact (NC t T a b Ja Jb Q).
  Qed.
End Loose.

(** ** Watching the components and the inferred constraints *)
Section Watched.
  Variable m0 : mgr.
  Variable cs : list wcall.
  Hypothesis R0 : reachable m0.
  Hypothesis AC : Forall only_adds_constraints cs.
  Notation N := (ReadersThms.N m0 cs).
  Notation inI x := (In x (ids m0)).
  Notation stage := (stage m0 cs).
  Notation seen := (seen m0 cs).

  Definition both_seen (n : nat) (s : mgr) : Prop := stage n s /\ seen n s.
  Lemma both_start n : n <= length cs -> both_seen n (N n).
  Proof. intro L. split; [apply stage_start; auto|apply seen_end; auto; apply adds; auto]. Qed.
  Lemma both_call n c : nth_error cs n = Some c -> forall s, In s (states (p_wexec c) (N n)) -> both_seen n s.
  Proof.
    intros E s Js. split; [eapply stage_call; eauto|]. destruct (at_call cs AC n c E) as (a & b & t & v & ->).
    assert (L : n < length cs) by (apply nth_error_Some; congruence). assert (Rn := N_reachable m0 cs R0 n). assert (Iv := reachable_inv _ Rn). assert (St := N_step m0 cs n _ E).
    destruct (stage_call m0 cs R0 AC n _ E s Js) as (_ & S1 & S2 & _).
    assert (J : interrupted (CallAddConstraint a b t v) (N n) s). { destruct (follows_wexec (WAdd a b t v) (N n)) as [F _]. apply F in Js. exact Js. }
    assert (DD : s = N n \/ cdict s = cdict (N (S n))). { rewrite St. apply (pair_dictionary _ a b); auto. right. exists t, v. reflexivity. }
    split; [lia|]. split; auto. split; auto. split.
    - intros y Iy. apply (below_key _ _ _ S2) in Iy. rewrite (inv_keys _ (reachable_inv _ (N_reachable m0 cs R0 (S n)))), St in Iy. rewrite (inv_keys _ Iv). apply present_step in Iy; auto.
    - intros p q Ip Iq. assert (IG : forall k, In p (ids (N k))) by (intro k; apply (ids_grow m0 cs R0 (adds cs AC)); auto). destruct DD as [->|DD]; [auto|]. unfold entry. rewrite DD. auto.
  Qed.

  Lemma both_trail ds n : ds = skipn n cs -> n <= length cs -> exists e, trail both_seen n (p_wsession ds) (N n) e.
  Proof.
    revert n. induction ds as [|c ds IH]; intros n E L.
    - exists n. cbn. split; [|split]; auto; apply both_start; auto.
    - assert (X : nth_error cs n = Some c /\ ds = skipn (S n) cs).
      { clear - E. revert n E. induction cs as [|d l IH]; intros n E; [destruct n; discriminate|]. destruct n as [|n]; cbn in *; [injection E as -> ->; auto|apply IH; auto]. }
      destruct X as [X1 X2]. assert (L2 : S n <= length cs) by (apply nth_error_Some; congruence).
      assert (T : trail both_seen n (p_wexec c) (N n) n).
      { apply trail_const. intros x [<-|I]; [apply both_start; auto|]. eapply both_call; eauto. }
      destruct (IH (S n) X2 L2) as [e2 T2].
      exists e2. cbn [p_wsession]. apply (trail_bind both_seen _ _ n (N n) (S n)).
      + assert (G : forall p : prog value, forall k m, k <= S n -> trail both_seen k p m n -> fst (alone p m) = N (S n) -> trail both_seen k (pcatch p) m (S n)).
        { induction p as [r|f g IHp]; intros k m LK Tr EQ; cbn in *.
          - destruct Tr as (P1 & L3 & P2). subst m. split; auto. split; [lia|apply both_start; auto].
          - destruct Tr as (P1 & n' & L3 & Tr). split; auto. exists n'. split; auto. apply IHp; auto.
            clear - Tr. revert n' Tr. generalize (g m) (f m). intros p. revert m. induction p as [r|f' g' IHp]; intros m s n' Tr; cbn in Tr; [lia|].
            destruct Tr as (_ & n2 & L & Tr). specialize (IHp s m _ _ Tr). lia. }
        apply G; auto. rewrite C145_alone_proof. symmetry. apply N_step. auto.
      + rewrite alone_catch. cbn [fst snd]. rewrite C145_alone_proof, <- (N_step m0 cs n c X1).
        apply (trail_bind both_seen _ _ (S n) (N (S n)) e2); auto.
        destruct (alone (p_wsession ds) (N (S n))) as [m1 [rs|x]] eqn:AE; auto. cbn.
        assert (Pe := trail_end _ _ _ _ _ T2). rewrite AE in Pe. auto.
  Qed.

  Definition spot (n : nat) (s : mgr) : Prop := both_seen n s /\ keys (cdict s) = ids m0.
  Lemma spot_here n s : spot n s -> SampleThreadThms.here m0 cs n s.
  Proof. intros [[_ S] K]. split; auto. Qed.

  (** The lists of data that are read as the components. *)
  Lemma listed lo r hi : watch spot lo p_get_connected_components r hi -> exists l, r = Ok l /\
    (forall c, In c l -> c <> [] /\ incl c (ids m0) /\ (forall a b, inI a -> inI b -> ml m0 a b = true -> In a c -> In b c) /\
       forall a b, In a c -> In b c -> ~ inferred m0 a b (Some CANNOT_LINK)) /\
    forall x, inI x -> exists c, In c l /\ In x c.
  Proof.
    intro W. apply (watch_impl spot stage) in W; [|intros ? ? [[? _] _]; auto]. apply (components_right m0 cs R0 AC) in W as (l & n2 & -> & _ & _ & (_ & C1 & C2 & _)).
    assert (I0 := reachable_inv _ R0).
    assert (X : forall n x c, component_of (N n) x c -> inI x /\ In x c /\ forall y, In y c <-> inI y /\ ml (N n) x y = true).
    { intros n x c (Mx & _ & Q). assert (In_ : Inv (N n)) by (apply N_inv; auto). assert (MI : forall y, managed (N n) y <-> inI y) by (intro y; rewrite managed_ids, (N_ids m0 cs R0 AC); tauto).
      apply MI in Mx. assert (Q' : forall y, In y c <-> inI y /\ ml (N n) x y = true).
      { intro y. rewrite Q, MI. split; intros [Y K]; split; auto; apply (inferred_ml (N n) In_) in K || apply (inferred_ml (N n) In_); auto; rewrite (N_ids m0 cs R0 AC); auto. }
      split; auto. split; auto. apply Q'. split; auto. apply ml_refl; auto. rewrite (N_ids m0 cs R0 AC); auto. }
    exists l. split; auto. split.
    - intros c Jc. destruct (C1 c Jc) as (n & x & _ & Q). apply X in Q as (Ix & Jx & Q). assert (In_ : Inv (N n)) by (apply N_inv; auto).
      assert (UP : forall y, inI y -> In y (ids (N n))) by (intros; rewrite (N_ids m0 cs R0 AC); auto).
      split; [intros ->; destruct Jx|]. split; [intros y Y; apply Q in Y; tauto|]. split.
      + intros a b A B M Ja. apply Q. split; auto. apply (ml_trans (N n) In_ x a b); auto; [apply Q; auto|]. apply (ml_stays m0 cs R0 AC); auto.
      + intros a b Ja Jb Hc. apply Q in Ja as [A Ma]. apply Q in Jb as [B Mb]. apply inferred_cl in Hc; auto. apply (cl_stays m0 cs R0 AC n) in Hc; auto.
        apply (ml_cl (N n) a b); auto. apply (ml_trans (N n) In_ a x b); auto. rewrite (ml_sym (N n)); auto.
    - intros x Ix. destruct (C2 x) as (n & c & _ & Q & J); [apply managed_ids; auto|]. exists c. split; auto. apply X in Q. tauto.
  Qed.

  Context {vec D : Type} `{EqB D}.
  Variable pairwise : list vec -> nat -> nat -> D.
  Variable cdistance : vec -> vec -> D.
  Variable ltb : D -> D -> bool.
  Variable dsum : list D -> D.
  Variable ddiv : D -> nat -> D.
  Variable inf : D.
  Variable mean : list vec -> vec.
  Variable linkage : pystr.
  Variable vectors : dict pystr vec.
  Hypothesis NE : ids m0 <> [].
  Hypothesis COV : forall x, inI x -> In x (keys vectors).
  Hypothesis LK : make_hierarchical linkage = Ok linkage.
  Variable table : dict pystr (dict pystr D).
  Hypothesis GT : good_ptable pairwise m0 vectors table.
  Notation tree := (tree vec).
  Notation forest := (forest vec D).
  Notation members := (t_members vec).
  Notation tid := (t_id vec).
  Notation inids := (in_ids m0).
  Notation finv := (@finv vec D m0).
  Notation agg := (agglomerates mean vectors (free m0) whenever).

  Lemma blocked_right l lo r hi : (forall p, In p l -> inI (fst p) /\ inI (snd p)) ->
    watch spot lo (p_exists (fun p => p_inferred_is (fst p) (snd p) CANNOT_LINK) l) r hi ->
    exists b, r = Ok b /\ ((exists p, In p l /\ cl m0 (fst p) (snd p) = true) -> b = true).
  Proof.
    revert lo. induction l as [|p l IH]; intros lo S W; cbn [p_exists] in W.
    - apply watch_done_inv in W as [-> _]. exists false. split; auto. intros (p & [] & _).
    - destruct (S p (or_introl eq_refl)) as [P1 P2]. apply watch_bind in W as (u & n1 & W1 & W). apply (watch_impl spot (SampleThreadThms.here m0 cs)) in W1; [|apply spot_here].
      apply (inferred_is_answer m0 cs R0 AC) in W1 as [n ->]; auto. destruct (opt_is (infer (N n) (fst p) (snd p)) CANNOT_LINK) eqn:B.
      + apply watch_done_inv in W as [-> _]. exists true. auto.
      + apply IH in W as (b & -> & Q); [|intros; apply S; right; auto]. exists b. split; auto. intros (q & [<-|J] & C); [|apply Q; eauto].
        apply (cl_stays m0 cs R0 AC n) in C; auto. unfold cl in C. congruence.
  Qed.

  Lemma distance_right t1 t2 lo r hi : inids t1 -> inids t2 -> watch spot lo (p_tree_distance vec D cdistance ltb dsum ddiv inf linkage table t1 t2) r hi ->
    exists d, r = Ok d /\ (incompatible m0 t1 t2 -> d = inf).
  Proof.
    intros G1 G2 W. assert (I0 := reachable_inv _ R0). unfold p_tree_distance in W. apply watch_bind in W as (u & n1 & W1 & W).
    assert (PP : forall p, In p (list_prod (members t1) (members t2)) -> inI (fst p) /\ inI (snd p)).
    { intros [a b] P. apply in_prod_iff in P as [A B]. split; [apply G1|apply G2]; auto. }
    apply blocked_right in W1 as (b & -> & Q); auto. apply watch_done_inv in W as [-> _].
    assert (IN : incompatible m0 t1 t2 -> b = true).
    { intros (x & y & X & Y & C). apply Q. exists (x, y). split; [apply in_prod; auto|]. apply inferred_cl in C; auto; [apply G1|apply G2]; auto. }
    destruct b; [exists inf; auto|].
    destruct (tree_distance_run pairwise cdistance ltb dsum ddiv inf linkage m0 vectors I0 LK table t1 t2 GT G1 G2) as (d & E & _). exists d.
    split; [|intro X; discriminate (IN X)]. unfold tree_distance in E.
    rewrite (rexists_pure _ (fun p => cl m0 (fst p) (snd p))) in E by (intros p P; destruct (PP p P); apply inferred_is_cl; auto). cbn [rbind] in E.
    destruct (existsb _ _) eqn:X; [|exact E]. apply existsb_exists in X as (p & P & C). discriminate Q. eauto.
  Qed.

  Definition stored_ok (f : forest) (t1 t2 : tree) : Prop :=
    exists d, get_distance D (f_distance vec D f) (tid t1) (tid t2) = Ok d /\ (incompatible m0 t1 t2 -> d = inf).
  Definition dinv (f : forest) (ts : list tree) : Prop := forall t1 t2, before ts t1 t2 -> stored_ok f t1 t2.

  Lemma update_right ts pairs : StronglySorted Z.lt (map tid ts) -> Forall inids ts ->
    (forall p, In p pairs -> exists t1 t2, before ts t1 t2 /\ p = (tid t1, tid t2)) ->
    forall f lo r hi, (forall t, In t ts -> dget (tid t) (f_storage vec D f) = Some t) ->
    watch spot lo (pfold (p_update_distance vec D cdistance ltb dsum ddiv inf linkage table) pairs f) r hi ->
    exists f', r = Ok f' /\ f_current vec D f' = f_current vec D f /\ f_storage vec D f' = f_storage vec D f /\
      forall t1 t2, before ts t1 t2 -> (In (tid t1, tid t2) pairs -> stored_ok f' t1 t2) /\
        (~ In (tid t1, tid t2) pairs -> get_distance D (f_distance vec D f') (tid t1) (tid t2) = get_distance D (f_distance vec D f) (tid t1) (tid t2)).
  Proof.
    intros S FI. assert (FA := proj1 (Forall_forall _ _) FI). induction pairs as [|p pairs IH]; intros PP f lo r hi ST W; cbn [pfold] in W.
    - apply watch_done_inv in W as [-> _]. exists f. split; auto. split; auto. split; auto. intros t1 t2 _. split; [intros []|auto].
    - destruct (PP p (or_introl eq_refl)) as (u1 & u2 & B & ->). destruct (before_In _ _ _ B) as [U1 U2].
      apply watch_bind in W as (x & n1 & W1 & W). unfold p_update_distance at 1, p_compute_distance in W1. cbn [fst snd] in W1. unfold dlookup in W1. rewrite (ST u1 U1), (ST u2 U2) in W1. cbn [pbind] in W1.
      apply watch_bind in W1 as (y & n2 & W0 & W1). apply distance_right in W0 as (d & -> & Hd); auto. apply watch_done_inv in W1 as [-> _].
      set (f1 := mkForest vec D (f_current vec D f) (f_storage vec D f) (set_distance D (f_distance vec D f) (tid u1) (tid u2) d)) in W.
      apply (IH (fun p P => PP p (or_intror P)) f1) in W as (f' & -> & C & St & G); [|exact ST]. exists f'. split; auto. split; auto. split; auto.
      intros t1 t2 B12. destruct (G t1 t2 B12) as [G1 G2]. destruct (before_In _ _ _ B12) as [T1 T2].
      assert (GS : get_distance D (f_distance vec D f1) (tid t1) (tid t2) =
                   if (Z.eqb (tid t1) (tid u1) && Z.eqb (tid t2) (tid u2))%bool then Ok d else get_distance D (f_distance vec D f) (tid t1) (tid t2)).
      { apply get_set_distance; eapply before_lt; eauto. }
      destruct (in_dec ZZ_dec (tid t1, tid t2) pairs) as [J|J].
      + split; [auto|]. intro N. cbn [In] in N. tauto.
      + split.
        * intros [E|E]; [|tauto]. injection E as E1 E2. unfold stored_ok. rewrite G2, GS, <- E1, <- E2, !Z.eqb_refl by auto. cbn [andb].
          exists d. split; auto. rewrite (tid_inj ltb ddiv inf ts t1 u1 S T1 U1), (tid_inj ltb ddiv inf ts t2 u2 S T2 U2); auto.
        * intro N. rewrite G2, GS by auto. destruct (Z.eqb_spec (tid t1) (tid u1)) as [E1|]; auto. destruct (Z.eqb_spec (tid t2) (tid u2)) as [E2|]; auto.
          exfalso. apply N. left. congruence.
  Qed.

  Lemma closest_right f ts : finv f ts -> dinv f ts -> 2 <= length ts -> two_closest vec D ltb inf f = Ok None \/
    exists t1 t2, two_closest vec D ltb inf f = Ok (Some (tid t1, tid t2)) /\ before ts t1 t2 /\ ~ incompatible m0 t1 t2.
  Proof.
    intros F DI L. unfold two_closest. rewrite (fi_current _ _ _ F). assert (SS := fi_sorted _ _ _ F).
    set (pairs := filter (fun p => (fst p <? snd p)%Z) (list_prod (map tid ts) (map tid ts))).
    assert (PS := current_pairs ts SS : forall p, In p pairs <-> _).
    set (body := fun p : Z * Z => _ : res (Z * Z * D * nat)).
    assert (BD : forall t1 t2, before ts t1 t2 -> exists d n, (incompatible m0 t1 t2 -> d = inf) /\ body (tid t1, tid t2) = Ok (tid t1, tid t2, d, n)).
    { intros t1 t2 B. destruct (before_In _ _ _ B) as [T1 T2]. destruct (DI t1 t2 B) as (d & Ed & Hd). exists d. eexists. split; auto.
      unfold body. cbn [fst snd]. rewrite Ed. cbn [rbind]. unfold dlookup. rewrite (fi_storage _ _ _ F t1 T1), (fi_storage _ _ _ F t2 T2). reflexivity. }
    destruct (rmap_total2 body pairs) as (cs' & R & F2).
    { intros p P. apply PS in P as (t1 & t2 & B & ->). destruct (BD t1 t2 B) as (d & n & _ & E). eauto. }
    change (rmap _ pairs) with (rmap body pairs). rewrite R. cbn [rbind].
    destruct (py_min_In (closer D ltb) cs') as (best & EB & IB).
    { intro E0. destruct ts as [|t1 [|t2 ts']]; simpl in L; [lia|lia|]. assert (B : before (t1 :: t2 :: ts') t1 t2) by (apply before_head; left; auto).
      destruct (Forall2_In_l _ _ _ (tid t1, tid t2) F2) as (c & Cc & _); [apply PS; eauto|]. rewrite E0 in Cc. destruct Cc. }
    rewrite EB. cbn [rbind]. destruct (Forall2_In_r _ _ _ _ F2 IB) as (p & P & E). apply PS in P as (t1 & t2 & B & ->). destruct (BD t1 t2 B) as (d & n & Hd & E').
    rewrite E in E'. injection E' as ->. cbn [fst snd]. destruct (eqb_spec d inf) as [->|Nd]; auto. right. exists t1, t2. split; auto.
  Qed.

  Lemma merge_right fuel : forall f ts it lo r hi, finv f ts -> dinv f ts -> ts <> [] -> length ts <= S fuel ->
    watch spot lo (p_merge_loop vec D cdistance ltb dsum ddiv inf mean fuel linkage table vectors it f) r hi ->
    exists f' ts' it', r = Ok (f', it') /\ finv f' ts' /\ ts' <> [] /\ forall root, agg it' ts' root -> agg it ts root.
  Proof.
    induction fuel as [|fuel IH]; intros f ts it lo r hi F DI NT L W.
    - cbn [p_merge_loop] in W. rewrite (fi_current _ _ _ F), map_length in W. destruct ts as [|t [|]]; simpl in L; [congruence| |lia]. cbn in W.
      apply watch_done_inv in W as [-> _]. exists f, [t], it. split; auto.
    - cbn [p_merge_loop] in W. rewrite (fi_current _ _ _ F), map_length in W. destruct (Nat.leb_spec (length ts) 1) as [L1|L1].
      { apply watch_done_inv in W as [-> _]. exists f, ts, it. split; auto. }
      destruct (closest_right f ts F DI L1) as [E|(t1 & t2 & E & B & NI)]; rewrite E in W; cbn [pbind] in W.
      { apply watch_done_inv in W as [-> _]. exists f, ts, it. split; auto. }
      destruct (before_dec_split _ _ _ B) as (l1 & l2 & l3 & Ets). subst ts.
      destruct (merge_two ltb ddiv inf mean m0 vectors COV f it l1 t1 l2 t2 l3 F) as (f1 & t & EM & F1 & NO & ED). rewrite EM in W. cbn [pbind fst snd] in W.
      set (ts1 := l1 ++ l2 ++ l3 ++ [t]) in *.
      assert (SS1 := fi_sorted _ _ _ F1). assert (ND1 := sorted_lt_NoDup _ SS1).
      assert (E1 : ts1 = (l1 ++ l2 ++ l3) ++ [t]) by (unfold ts1; rewrite <- !app_assoc; auto).
      set (rest := l1 ++ l2 ++ l3) in *.
      assert (NT1 : forall u, In u rest -> tid u <> tid t).
      { intros u U EQ. assert (Bu : before ts1 u t) by (rewrite E1; apply before_app_m; [auto|left; auto]). apply before_lt in Bu; auto. lia. }
      assert (FC : filter (fun c => negb (c =? tid t)%Z) (f_current vec D f1) = map tid rest).
      { rewrite (fi_current _ _ _ F1), E1, map_app, filter_app. cbn [map filter]. rewrite Z.eqb_refl. cbn [negb]. rewrite app_nil_r.
        apply filter_all. intros c Cc. apply in_map_iff in Cc as (u & <- & U). apply negb_true_iff, Z.eqb_neq. auto. }
      rewrite FC in W. apply watch_bind in W as (x & n1 & W1 & W).
      apply (update_right ts1 (map (fun c => (c, tid t)) (map tid rest)) SS1 (fi_ids _ _ _ F1)) in W1 as (f2 & -> & C2 & S2 & G2).
      2:{ intros p P. apply in_map_iff in P as (c & <- & Cc). apply in_map_iff in Cc as (u & <- & U). exists u, t. split; auto.
          rewrite E1. apply before_app_m; [auto|left; auto]. }
      2:{ apply (fi_storage _ _ _ F1). }
      assert (F2 : finv f2 ts1). { constructor; [rewrite C2; apply F1|auto|rewrite S2; apply F1|apply F1|rewrite S2; apply F1]. }
      assert (D2 : dinv f2 ts1).
      { intros u1 u2 Bu. destruct (G2 u1 u2 Bu) as [Gin Gout]. rewrite E1 in Bu. apply before_app_inv in Bu as [Bu|[Bu|[U1 [<-|[]]]]].
        - destruct (before_In _ _ _ Bu) as [U1 U2]. unfold stored_ok.
          rewrite Gout; [rewrite ED; apply DI|].
          + unfold rest in Bu. clear - Bu. apply before_app_inv in Bu as [B|[B|[A B]]].
            * apply before_app_l. auto.
            * apply before_app_r, before_cons. apply before_app_inv in B as [B|[B|[A B]]].
              -- apply before_app_l; auto.
              -- apply before_app_r, before_cons. auto.
              -- apply before_app_m; [auto|right; auto].
            * apply before_app_m; auto. apply in_app_or in B as [B|B]; right; apply in_or_app; [auto|right; right; auto].
          + intro Q. apply in_map_iff in Q as (c & Ec & _). injection Ec as _ Ec. apply (NT1 u2 U2). congruence.
        - exfalso. destruct Bu as (x1 & x2 & E0 & J). destruct x1 as [|? [|]]; try discriminate. injection E0 as _ E0. subst x2. destruct J.
        - apply Gin. apply in_map_iff. exists (tid u1). split; auto. apply in_map; auto. }
      apply (IH f2 ts1 (S it)) in W as (f' & ts' & it' & -> & F' & NE' & K); auto.
      + exists f', ts', it'. split; auto. split; auto. split; auto. intros root A. eapply ag_merge; eauto.
      + rewrite E1. destruct rest; discriminate.
      + rewrite E1. unfold rest. rewrite !app_length in *. cbn [length] in *. rewrite app_length in L. cbn [length] in L. lia.
  Qed.

  Lemma tree_right lo r hi : watch spot lo (p_build_tree vec D cdistance ltb dsum ddiv inf mean linkage vectors table) r hi -> exists root, r = Ok root /\ loose_root m0 root.
  Proof.
    intro W. assert (I0 := reachable_inv _ R0). unfold p_build_tree in W. apply watch_bind in W as (x & n1 & W1 & W). apply listed in W1 as (l & -> & LC & LA).
    destruct (add_leaves mean m0 vectors COV l (mkForest vec D [] [] []) []) as (f & ts & E & LO & F & S); cbn [f_storage keys map length app seq] in *; auto.
    { constructor; cbn; auto; [constructor|tauto|tauto]. }
    { intros c Jc. destruct (LC c Jc) as (Q1 & Q2 & _). auto. }
    rewrite E in W. cbn [pbind] in W. rewrite (fi_current _ _ _ F) in W. apply watch_bind in W as (x & n2 & W1 & W).
    apply (update_right ts _ (fi_sorted _ _ _ F) (fi_ids _ _ _ F) (fun p P => proj1 (current_pairs ts (fi_sorted _ _ _ F) p) P)) in W1 as (f1 & -> & C1 & S1 & G1); [|apply F].
    assert (F1 : finv f1 ts) by (constructor; [rewrite C1|..]; try rewrite S1; apply F).
    assert (D1 : dinv f1 ts). { intros t1 t2 B. apply (G1 t1 t2 B). apply current_pairs; [apply F|]. eauto. }
    assert (NT : ts <> []).
    { intros ->. inversion LO as [E0|]. destruct (ids m0) as [|x k] eqn:EI; [congruence|]. destruct (LA x) as (c & J & _); [left; auto|]. rewrite <- E0 in J. destruct J. }
    apply watch_bind in W as (x & n3 & W1 & W). rewrite (fi_current _ _ _ F1), map_length in W1.
    apply (merge_right (length ts) f1 ts 1) in W1 as (f2 & ts2 & it2 & -> & F2 & NE2 & K); auto. cbn [fst snd] in W. apply watch_done_inv in W as [-> _].
    assert (LF : loose_forest m0 ts).
    { assert (LV : forall u, In u ts -> exists c, In c l /\ leaf_over mean vectors c u) by (intros u U; destruct (Forall2_In_r _ _ _ _ LO U) as (c & Cc & Q); eauto).
      assert (NL : forall ts', (forall u, In u ts' -> t_children vec u = []) -> flat_map nodes ts' = ts').
      { clear. induction ts' as [|t ts' IH]; intro Q; simpl; auto. rewrite IH by (intros; apply Q; right; auto). rewrite nodes_eq, (Q t (or_introl eq_refl)). auto. }
      assert (E1 : flat_map nodes ts = ts) by (apply NL; intros u U; destruct (LV u U) as (c & _ & Q & _); auto).
      constructor; rewrite ?E1.
      - intros u U. destruct (LV u U) as (c & Cc & Ech & _ & Eme & _). destruct (LC c Cc) as (Q1 & Q2 & Q3 & Q4). split.
        + constructor; [unfold in_ids; rewrite Eme; auto|rewrite Ech; congruence|rewrite Ech; intros ? []|]. unfold closed. rewrite Eme. auto.
        + unfold no_cl. rewrite Eme. auto.
      - rewrite S. apply FinFun.Injective_map_NoDup; [intros ? ?; apply Nat2Z.inj|apply seq_NoDup].
      - intros x X. destruct (LA x X) as (c & Jc & Jx). destruct (Forall2_In_l _ _ _ _ LO Jc) as (u & U & (_ & _ & Eme & _)). apply in_flat_map. exists u. rewrite Eme. auto. }
    assert (RT : forall root, agg it2 ts2 root -> loose_root m0 root) by (intros root A; eapply loose_agglomerates; eauto; exact I0).
    unfold take_root. rewrite (fi_current _ _ _ F2), map_length. destruct (Nat.ltb_spec 1 (length ts2)) as [L|L].
    - destruct (merge_all mean m0 vectors COV f2 it2 ts2 F2 NE2) as (f3 & t & EM & C3 & S3 & NO). rewrite (fi_current _ _ _ F2) in EM. rewrite EM. cbn [rbind fst].
      rewrite C3. exists t. split; [unfold dlookup; rewrite S3; auto|]. apply RT. apply ag_finished; auto. exact Logic.I.
    - cbn [rbind]. rewrite (fi_current _ _ _ F2). destruct ts2 as [|t [|]]; [congruence| |simpl in L; lia]. cbn [map].
      exists t. split; [unfold dlookup; rewrite (fi_storage _ _ _ F2 t (or_introl eq_refl)); auto|]. apply RT. constructor.
  Qed.
End Watched.
