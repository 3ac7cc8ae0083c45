(** * Invariant of the manager: the transitivity structure represents the
    closure of the stored constraints, after every history. *)

From Coq Require Import List Bool Arith NArith QArith Lia Permutation.
From Verif Require Import Base Manager Spec Closure.
Import ListNotations.
Open Scope py_scope.

Lemma ML_neq_CL : MUST_LINK <> CANNOT_LINK.
Proof. discriminate. Qed.

Lemma for_ext {S A} (l : list A) (f g : A -> M S unit) s :
  (forall x s, f x s = g x s) -> for_ l f s = for_ l g s.
Proof.
  intro E. revert s. induction l as [|x l IH]; simpl; intro s; auto.
  unfold bind. rewrite E. destruct (g x s) as [s' [a|e]]; auto.
Qed.

Lemma for_app {S A} (l1 l2 : list A) (f : A -> M S unit) s :
  for_ (l1 ++ l2) f s = bind (for_ l1 f) (fun _ => for_ l2 f) s.
Proof.
  revert s. induction l1 as [|x l IH]; simpl; intro s; auto.
  unfold bind at 1 2 3. destruct (f x s) as [s' [a|e]]; auto.
  rewrite IH. reflexivity.
Qed.

Lemma dset_dset {K V} `{EqB K} k (v1 v2 : V) d : dset k v2 (dset k v1 d) = dset k v2 d.
Proof.
  induction d as [|[k' v'] d IH]; simpl.
  - rewrite eqb_refl; auto.
  - destruct (eqb k k') eqn:E; simpl; rewrite E; auto. f_equal; auto.
Qed.

(** ** Loops that rewrite entries of the transitivity dictionary. *)
Definition set_entry (f : trans -> trans) (x : pystr) : M mgr unit :=
  t <- get_trans x ;;
  modify (fun m => mkMgr (cdict m) (dset x (f t) (ctrans m))).

Lemma get_trans_run x m t : dget x (ctrans m) = Some t -> get_trans x m = (m, Ok t).
Proof.
  intro E. unfold get_trans, bind, gets, lift. rewrite (dlookup_Some _ _ E). reflexivity.
Qed.

Lemma set_both_entry L C x m : (set_ml x L ;; set_cl x C) m = set_entry (fun _ => mkTrans L C) x m.
Proof.
  unfold set_entry, set_ml, set_cl, get_trans, bind, gets, lift, modify, dlookup; simpl.
  destruct (dget x (ctrans m)) as [t|] eqn:E; simpl; auto.
  rewrite dget_dset_same. simpl. rewrite dset_dset. reflexivity.
Qed.

Lemma set_cl_entry C x m : set_cl x C m = set_entry (fun t => mkTrans (t_ml t) C) x m.
Proof. reflexivity. Qed.

Lemma union_cl_entry L x m :
  (t <- get_trans x ;; set_cl x (ounion (t_cl t) L)) m
  = set_entry (fun t => mkTrans (t_ml t) (ounion (t_cl t) L)) x m.
Proof.
  unfold set_entry, set_cl, get_trans, bind, gets, lift, modify, dlookup; simpl.
  destruct (dget x (ctrans m)) as [t|] eqn:E; simpl; rewrite ?E; auto.
Qed.

Lemma for_set_entry f l : forall m,
  NoDup l -> incl l (keys (ctrans m)) ->
  exists T', for_ l (set_entry f) m = (mkMgr (cdict m) T', Ok tt)
    /\ keys T' = keys (ctrans m)
    /\ forall k, dget k T' = if mem k l then option_map f (dget k (ctrans m)) else dget k (ctrans m).
Proof.
  induction l as [|x l IH]; intros m N I; simpl.
  - exists (ctrans m). destruct m; auto.
  - inversion N; subst.
    destruct (dget_In_key x (ctrans m)) as [t Et]; [apply I; left; auto|].
    unfold bind at 1. unfold set_entry at 1. unfold bind at 1. rewrite (get_trans_run _ _ _ Et).
    unfold modify.
    set (m1 := mkMgr (cdict m) (dset x (f t) (ctrans m))).
    assert (K1 : keys (ctrans m1) = keys (ctrans m)).
    { simpl. apply keys_dset_in. apply I. left; auto. }
    destruct (IH m1) as (T' & R & K & G); auto.
    { rewrite K1. intros z Hz. apply I. right; auto. }
    exists T'. split; [exact R|]. split; [congruence|].
    intro k. rewrite G. simpl. rewrite dget_dset.
    destruct (eqb_spec k x); subst; simpl.
    + assert (E : mem x l = false) by (apply mem_nIn; auto). rewrite E, Et. reflexivity.
    + reflexivity.
Qed.

(** ** The representation invariant. *)
Record Rep (T : dict pystr trans) (must cannot : pystr -> pystr -> Prop) : Prop := {
  rep_nodup : NoDup (keys T);
  rep_must : forall a b, must a b -> In a (keys T) /\ In b (keys T);
  rep_cannot : forall a b, cannot a b -> In a (keys T) /\ In b (keys T);
  rep_cons : forall a, ~ separated must cannot a a;
  rep_ml_nodup : forall a t, dget a T = Some t -> NoDup (t_ml t);
  rep_cl_nodup : forall a t, dget a T = Some t -> NoDup (t_cl t);
  rep_ml : forall a t, dget a T = Some t -> forall b, In b (t_ml t) <-> linked must a b;
  rep_cl : forall a t, dget a T = Some t -> forall b, In b (t_cl t) <-> separated must cannot a b;
  rep_share : forall a b ta tb, dget a T = Some ta -> dget b T = Some tb ->
      In b (t_ml ta) -> t_ml tb = t_ml ta
}.

Lemma linked_equiv m1 m2 a b : (forall x y, m1 x y <-> m2 x y) -> linked m1 a b <-> linked m2 a b.
Proof. intro E. split; apply linked_mono; intros x y H; left; apply E; auto. Qed.

Lemma separated_equiv m1 m2 c1 c2 a b :
  (forall x y, m1 x y <-> m2 x y) -> (forall x y, c1 x y <-> c2 x y) ->
  separated m1 c1 a b <-> separated m2 c2 a b.
Proof.
  intros E1 E2. split; apply separated_mono; intros x y H; left; try apply E1; try apply E2; auto.
Qed.

Lemma Rep_equiv T m1 m2 c1 c2 :
  (forall x y, m1 x y <-> m2 x y) -> (forall x y, c1 x y <-> c2 x y) ->
  Rep T m1 c1 -> Rep T m2 c2.
Proof.
  intros E1 E2 R. destruct R. constructor; auto.
  - intros a b H. apply E1 in H. auto.
  - intros a b H. apply E2 in H. auto.
  - intros a H. apply (rep_cons0 a). eapply separated_equiv; eauto.
  - intros a t G b. rewrite (rep_ml0 a t G b). apply linked_equiv; auto.
  - intros a t G b. rewrite (rep_cl0 a t G b). apply separated_equiv; auto.
Qed.

Section RepFacts.
  Context {T : dict pystr trans} {must cannot : pystr -> pystr -> Prop}.
  Hypothesis R : Rep T must cannot.

  Lemma rep_linked_keys a b : In a (keys T) -> linked must a b -> In b (keys T).
  Proof. intros I L. eapply (linked_closed must (fun x => In x (keys T))); eauto. apply (rep_must _ _ _ R). Qed.

  Lemma rep_separated_keys a b : separated must cannot a b -> In b (keys T).
  Proof.
    intros S. eapply (separated_closed must cannot (fun x => In x (keys T))); eauto.
    apply (rep_must _ _ _ R). apply (rep_cannot _ _ _ R).
  Qed.

  Lemma rep_ml_incl a t : dget a T = Some t -> incl (t_ml t) (keys T).
  Proof.
    intros G b I. apply (rep_ml _ _ _ R a t G) in I. eapply rep_linked_keys; eauto.
    eapply dget_Some_key; eauto.
  Qed.

  Lemma rep_cl_incl a t : dget a T = Some t -> incl (t_cl t) (keys T).
  Proof. intros G b I. apply (rep_cl _ _ _ R a t G) in I. eapply rep_separated_keys; eauto. Qed.
End RepFacts.

Lemma option_map_Some {A B} (f : A -> B) o v : option_map f o = Some v -> exists u, o = Some u /\ v = f u.
Proof. destruct o; simpl; intro E; inversion E; eauto. Qed.

(** ** Adding a MUST_LINK to the transitivity structure. *)
Lemma add_ml_rep m must cannot x y :
  Rep (ctrans m) must cannot ->
  In x (keys (ctrans m)) -> In y (keys (ctrans m)) ->
  ~ separated must cannot x y ->
  exists T', add_constraint_transitivity x y MUST_LINK m = (mkMgr (cdict m) T', Ok true)
    /\ keys T' = keys (ctrans m) /\ Rep T' (plus must x y) cannot.
Proof.
  intros R Ix Iy NS.
  destruct (dget_In_key x _ Ix) as [tx Ex]. destruct (dget_In_key y _ Iy) as [ty Ey].
  set (nml := ounion (t_ml tx) (t_ml ty)). set (ncl := ounion (t_cl tx) (t_cl ty)).
  assert (Nml : NoDup nml) by (apply ounion_NoDup; eapply rep_ml_nodup; eauto).
  assert (Ncl : NoDup ncl) by (apply ounion_NoDup; eapply rep_cl_nodup; eauto).
  assert (Iml : incl nml (keys (ctrans m))).
  { intros z Hz. apply ounion_In in Hz. destruct Hz; [eapply (rep_ml_incl R x)|eapply (rep_ml_incl R y)]; eauto. }
  assert (Icl : incl ncl (keys (ctrans m))).
  { intros z Hz. apply ounion_In in Hz. destruct Hz; [eapply (rep_cl_incl R x)|eapply (rep_cl_incl R y)]; eauto. }
  assert (Hml : forall z, In z nml <-> joined must x y z).
  { intro z. unfold nml, joined. rewrite ounion_In, (rep_ml _ _ _ R x tx Ex), (rep_ml _ _ _ R y ty Ey).
    split; (intros [A|A]; [left|right]; apply linked_sym; auto). }
  assert (Hcl : forall z, In z ncl <-> separated must cannot x z \/ separated must cannot y z).
  { intro z. unfold ncl. rewrite ounion_In, (rep_cl _ _ _ R x tx Ex), (rep_cl _ _ _ R y ty Ey). tauto. }
  assert (Cons := rep_cons _ _ _ R).
  assert (Disj : forall z, In z nml -> In z ncl -> False).
  { intros z H1 H2. apply Hml in H1. apply Hcl in H2.
    assert (Jx : joined must x y x) by (left; apply linked_refl).
    assert (Jy : joined must x y y) by (right; apply linked_refl).
    destruct H2 as [H2|H2].
    - apply (joined_not_separated must x y cannot Cons NS x z Jx H1 H2).
    - apply (joined_not_separated must x y cannot Cons NS y z Jy H1 H2). }
  set (f1 := fun _ : trans => mkTrans nml ncl).
  set (f2 := fun t => mkTrans (t_ml t) (ounion (t_cl t) nml)).
  destruct (for_set_entry f1 nml m Nml Iml) as (T1 & R1 & K1 & G1).
  destruct (for_set_entry f2 ncl (mkMgr (cdict m) T1) Ncl) as (T2 & R2 & K2 & G2).
  { simpl. rewrite K1; auto. }
  simpl in K2, G2.
  exists T2. split; [|split; [congruence|]].
  - unfold add_constraint_transitivity. rewrite (eqb_refl MUST_LINK).
    unfold bind at 1. unfold bind at 1. rewrite (get_trans_run _ _ _ Ex).
    unfold bind at 1. rewrite (get_trans_run _ _ _ Ey).
    fold nml ncl. unfold bind at 1.
    rewrite (for_ext nml _ (set_entry f1)) by (intros; apply set_both_entry). rewrite R1.
    rewrite (for_ext ncl _ (set_entry f2)) by (intros; apply union_cl_entry). rewrite R2.
    reflexivity.
  - assert (G : forall a, dget a T2 =
        if mem a nml then option_map f1 (dget a (ctrans m))
        else if mem a ncl then option_map f2 (dget a (ctrans m)) else dget a (ctrans m)).
    { intro a. rewrite G2, G1. destruct (mem a nml) eqn:A, (mem a ncl) eqn:B; auto.
      apply mem_In in A. apply mem_In in B. exfalso. eauto. }
    clear G1 G2 R1 R2.
    constructor.
    + rewrite K2, K1. apply (rep_nodup _ _ _ R).
    + rewrite K2, K1. intros a b [H|[-> ->]]; auto. apply (rep_must _ _ _ R); auto.
    + rewrite K2, K1. apply (rep_cannot _ _ _ R).
    + intro a. apply plus_must_consistent; auto.
    + intros a t E. rewrite G in E. destruct (mem a nml).
      { apply option_map_Some in E. destruct E as (u & _ & ->). auto. }
      destruct (mem a ncl).
      { apply option_map_Some in E. destruct E as (u & E & ->). simpl. eapply rep_ml_nodup; eauto. }
      eapply rep_ml_nodup; eauto.
    + intros a t E. rewrite G in E. destruct (mem a nml).
      { apply option_map_Some in E. destruct E as (u & _ & ->). auto. }
      destruct (mem a ncl).
      { apply option_map_Some in E. destruct E as (u & E & ->). simpl.
        apply ounion_NoDup; auto. eapply rep_cl_nodup; eauto. }
      eapply rep_cl_nodup; eauto.
    + intros a t E b. rewrite G in E. rewrite linked_plus. destruct (mem a nml) eqn:A.
      { apply option_map_Some in E. destruct E as (u & _ & ->). simpl.
        apply mem_In, Hml in A. rewrite Hml. split; [tauto|].
        intros [L|L]; [|tauto]. eapply joined_linked; eauto. }
      apply mem_nIn in A. rewrite Hml in A.
      assert (E' : exists u, dget a (ctrans m) = Some u /\ t_ml t = t_ml u).
      { destruct (mem a ncl); [|eauto]. apply option_map_Some in E. destruct E as (u & E & ->). eauto. }
      destruct E' as (u & E' & ->). rewrite (rep_ml _ _ _ R a u E'). tauto.
    + intros a t E b. rewrite G in E. destruct (mem a nml) eqn:A.
      { apply option_map_Some in E. destruct E as (u & _ & ->). simpl.
        apply mem_In, Hml in A. rewrite Hcl. symmetry. apply separated_plus_joined; auto. }
      apply mem_nIn in A. rewrite Hml in A.
      rewrite separated_plus_other; auto.
      destruct (mem a ncl) eqn:B.
      * apply option_map_Some in E. destruct E as (u & E & ->). simpl.
        apply mem_In, Hcl in B. rewrite ounion_In, (rep_cl _ _ _ R a u E), Hml. tauto.
      * apply mem_nIn in B. rewrite Hcl in B. rewrite (rep_cl _ _ _ R a t E). tauto.
    + intros a b ta tb Ea Eb I. rewrite G in Ea, Eb. destruct (mem a nml) eqn:A.
      { apply option_map_Some in Ea. destruct Ea as (u & _ & ->). simpl in I.
        apply mem_In in I. rewrite I in Eb.
        apply option_map_Some in Eb. destruct Eb as (v & _ & ->). reflexivity. }
      assert (Ea' : exists u, dget a (ctrans m) = Some u /\ t_ml ta = t_ml u).
      { destruct (mem a ncl); [|eauto]. apply option_map_Some in Ea. destruct Ea as (u & Ea & ->). eauto. }
      destruct Ea' as (u & Ea' & Eta). rewrite Eta in *.
      assert (B : mem b nml = false).
      { apply mem_nIn. apply mem_nIn in A. rewrite Hml in *. intro J. apply A.
        apply (rep_ml _ _ _ R a u Ea') in I. eapply joined_linked; [|exact J]. apply linked_sym; auto. }
      rewrite B in Eb.
      assert (Eb' : exists v, dget b (ctrans m) = Some v /\ t_ml tb = t_ml v).
      { destruct (mem b ncl); [|eauto]. apply option_map_Some in Eb. destruct Eb as (v & Eb & ->). eauto. }
      destruct Eb' as (v & Eb' & ->).
      eapply (rep_share _ _ _ R a b); eauto.
Qed.

(** ** Adding a CANNOT_LINK to the transitivity structure. *)
Lemma add_cl_rep m must cannot x y :
  Rep (ctrans m) must cannot ->
  In x (keys (ctrans m)) -> In y (keys (ctrans m)) ->
  ~ linked must x y ->
  exists T', add_constraint_transitivity x y CANNOT_LINK m = (mkMgr (cdict m) T', Ok true)
    /\ keys T' = keys (ctrans m) /\ Rep T' must (plus cannot x y).
Proof.
  intros R Ix Iy NL.
  destruct (dget_In_key x _ Ix) as [tx Ex]. destruct (dget_In_key y _ Iy) as [ty Ey].
  set (ncl1 := ounion (t_cl tx) (t_ml ty)). set (ncl2 := ounion (t_cl ty) (t_ml tx)).
  assert (Hx := rep_ml _ _ _ R x tx Ex). assert (Hy := rep_ml _ _ _ R y ty Ey).
  assert (Cx := rep_cl _ _ _ R x tx Ex). assert (Cy := rep_cl _ _ _ R y ty Ey).
  set (f1 := fun t => mkTrans (t_ml t) ncl1).
  set (f2 := fun t => mkTrans (t_ml t) ncl2).
  assert (Disj : forall z, In z (t_ml tx) -> In z (t_ml ty) -> False).
  { intros z A B. apply Hx in A. apply Hy in B. apply NL. eapply linked_trans; [exact A|apply linked_sym; exact B]. }
  destruct (for_set_entry f1 (t_ml tx) m) as (T1 & R1 & K1 & G1).
  { eapply rep_ml_nodup; eauto. } { eapply rep_ml_incl; eauto. }
  assert (Ey1 : dget y T1 = Some ty).
  { rewrite G1. destruct (mem y (t_ml tx)) eqn:A; auto. apply mem_In, Hx in A. tauto. }
  destruct (for_set_entry f2 (t_ml ty) (mkMgr (cdict m) T1)) as (T2 & R2 & K2 & G2).
  { eapply rep_ml_nodup; eauto. } { simpl. rewrite K1. eapply rep_ml_incl; eauto. }
  simpl in K2, G2.
  exists T2. split; [|split; [congruence|]].
  - unfold add_constraint_transitivity.
    assert (E : eqb CANNOT_LINK MUST_LINK = false) by reflexivity. rewrite E.
    unfold bind at 1. unfold bind at 1. rewrite (get_trans_run _ _ _ Ex).
    unfold bind at 1. rewrite (get_trans_run _ _ _ Ey).
    fold ncl1 ncl2. unfold bind at 1. rewrite (get_trans_run _ _ _ Ex). unfold bind at 1.
    rewrite (for_ext (t_ml tx) _ (set_entry f1)) by (intros; apply set_cl_entry). rewrite R1.
    unfold bind at 1. rewrite (get_trans_run y (mkMgr (cdict m) T1) ty Ey1).
    rewrite (for_ext (t_ml ty) _ (set_entry f2)) by (intros; apply set_cl_entry). rewrite R2.
    reflexivity.
  - assert (G : forall a, dget a T2 =
        if mem a (t_ml tx) then option_map f1 (dget a (ctrans m))
        else if mem a (t_ml ty) then option_map f2 (dget a (ctrans m)) else dget a (ctrans m)).
    { intro a. rewrite G2, G1. destruct (mem a (t_ml tx)) eqn:A, (mem a (t_ml ty)) eqn:B; auto.
      apply mem_In in A. apply mem_In in B. exfalso. eauto. }
    clear G1 G2 R1 R2.
    assert (GM : forall a t, dget a T2 = Some t -> exists u, dget a (ctrans m) = Some u /\ t_ml t = t_ml u).
    { intros a t E. rewrite G in E. destruct (mem a (t_ml tx)); [|destruct (mem a (t_ml ty)); [|eauto]];
        apply option_map_Some in E; destruct E as (u & E & ->); eauto. }
    constructor.
    + rewrite K2, K1. apply (rep_nodup _ _ _ R).
    + rewrite K2, K1. apply (rep_must _ _ _ R).
    + rewrite K2, K1. intros a b [H|[-> ->]]; auto. apply (rep_cannot _ _ _ R); auto.
    + intro a. apply plus_cannot_consistent; auto. apply (rep_cons _ _ _ R).
    + intros a t E. apply GM in E. destruct E as (u & E & ->). eapply rep_ml_nodup; eauto.
    + intros a t E. rewrite G in E.
      destruct (mem a (t_ml tx)); [|destruct (mem a (t_ml ty))].
      * apply option_map_Some in E. destruct E as (u & _ & ->). simpl. apply ounion_NoDup.
        eapply rep_cl_nodup; eauto. eapply rep_ml_nodup; eauto.
      * apply option_map_Some in E. destruct E as (u & _ & ->). simpl. apply ounion_NoDup.
        eapply rep_cl_nodup; eauto. eapply rep_ml_nodup; eauto.
      * eapply rep_cl_nodup; eauto.
    + intros a t E b. apply GM in E. destruct E as (u & E & ->). apply (rep_ml _ _ _ R a u E).
    + intros a t E b. rewrite G in E. rewrite separated_plus_cannot.
      destruct (mem a (t_ml tx)) eqn:A; [|destruct (mem a (t_ml ty)) eqn:B].
      * apply mem_In, Hx in A. apply option_map_Some in E. destruct E as (u & _ & ->). simpl.
        unfold ncl1. rewrite ounion_In, Cx, Hy.
        assert (NB : ~ linked must y a).
        { intro B. apply NL. eapply linked_trans; [exact A|apply linked_sym; exact B]. }
        split.
        -- intros [S|L]; [left|right; left; auto]. eapply separated_linked_l; eauto.
        -- intros [S|[[_ L]|[L _]]]; auto. left. eapply separated_linked_l; [apply linked_sym; exact A|auto]. tauto.
      * apply mem_In, Hy in B. apply option_map_Some in E. destruct E as (u & _ & ->). simpl.
        unfold ncl2. rewrite ounion_In, Cy, Hx.
        assert (NA : ~ linked must x a).
        { intro C. apply mem_nIn in A. apply A, Hx; auto. }
        split.
        -- intros [S|L]; [left|right; right; auto]. eapply separated_linked_l; eauto.
        -- intros [S|[[L _]|[_ L]]]; auto. left. eapply separated_linked_l; [apply linked_sym; exact B|auto]. tauto.
      * apply mem_nIn in A. apply mem_nIn in B. rewrite Hx in A. rewrite Hy in B.
        rewrite (rep_cl _ _ _ R a t E). tauto.
    + intros a b ta tb Ea Eb I. apply GM in Ea. apply GM in Eb.
      destruct Ea as (u & Ea & EU). destruct Eb as (v & Eb & EV). rewrite EU in *. rewrite EV.
      eapply (rep_share _ _ _ R a b); eauto.
Qed.

(** ** The stored constraints. *)
Definition sget (D : dict pystr (dict pystr (option constr))) (a b : pystr) : option (option constr) :=
  match dget a D with Some row => dget b row | None => None end.

Definition stored D (t a b : pystr) : Prop := exists v, sget D a b = Some (Some (t, v)).

Record WFD (D : dict pystr (dict pystr (option constr))) : Prop := {
  wf_nodup : NoDup (keys D);
  wf_row_nodup : forall a row, dget a D = Some row -> NoDup (keys row);
  wf_row : forall a row, dget a D = Some row ->
      forall b, In b (keys row) <-> In b (keys D) /\ str_leb a b = true;
  wf_val : forall a b t v, sget D a b = Some (Some (t, v)) ->
      (t = MUST_LINK \/ t = CANNOT_LINK) /\ v = 1%Q
}.

Definition Inv (m : mgr) : Prop :=
  WFD (cdict m) /\ keys (ctrans m) = keys (cdict m) /\
  Rep (ctrans m) (stored (cdict m) MUST_LINK) (stored (cdict m) CANNOT_LINK).

Lemma sget_keys D a b o : WFD D -> sget D a b = Some o -> In a (keys D) /\ In b (keys D) /\ str_leb a b = true.
Proof.
  intros W E. unfold sget in E. destruct (dget a D) as [row|] eqn:Er; try discriminate.
  split; [eapply dget_Some_key; eauto|]. apply (wf_row _ W a row Er). eapply dget_Some_key; eauto.
Qed.

Lemma sget_total D a b : WFD D -> In a (keys D) -> In b (keys D) -> str_leb a b = true -> exists o, sget D a b = Some o.
Proof.
  intros W Ia Ib L. destruct (dget_In_key a D Ia) as [row Er]. unfold sget. rewrite Er.
  apply dget_In_key. apply (wf_row _ W a row Er). auto.
Qed.

Lemma stored_keys D t a b : WFD D -> stored D t a b -> In a (keys D) /\ In b (keys D) /\ str_leb a b = true.
Proof. intros W [v E]. eapply sget_keys; eauto. Qed.

Lemma get_constraint_run a b m : WFD (cdict m) -> In a (keys (cdict m)) -> In b (keys (cdict m)) ->
  str_leb a b = true -> exists o, sget (cdict m) a b = Some o /\ get_constraint a b m = (m, Ok o).
Proof.
  intros W Ia Ib L. destruct (sget_total _ _ _ W Ia Ib L) as [o E]. exists o. split; auto.
  unfold sget in E. unfold get_constraint, bind, gets, lift, dlookup.
  destruct (dget a (cdict m)) as [row|]; try discriminate. rewrite E. reflexivity.
Qed.

Lemma set_constraint_run a b v m : In a (keys (cdict m)) ->
  exists row, dget a (cdict m) = Some row /\
    set_constraint a b v m = (mkMgr (dset a (dset b v row) (cdict m)) (ctrans m), Ok tt).
Proof.
  intro I. destruct (dget_In_key a _ I) as [row E]. exists row. split; auto.
  unfold set_constraint, bind, gets, lift, dlookup. rewrite E. reflexivity.
Qed.

(** Overwriting one stored entry. *)
Lemma sget_dset D a b (v : option constr) row p q :
  dget a D = Some row ->
  sget (dset a (dset b v row) D) p q = if eqb p a && eqb q b then Some v else sget D p q.
Proof.
  intro E. unfold sget. rewrite dget_dset. destruct (eqb_spec p a); subst; simpl; auto.
  rewrite dget_dset, E. auto.
Qed.

Lemma WFD_set D a b (v : option constr) row :
  WFD D -> In a (keys D) -> In b (keys D) -> str_leb a b = true -> dget a D = Some row ->
  (forall t q, v = Some (t, q) -> (t = MUST_LINK \/ t = CANNOT_LINK) /\ q = 1%Q) ->
  WFD (dset a (dset b v row) D) /\ keys (dset a (dset b v row) D) = keys D.
Proof.
  intros W Ia Ib L Er HV.
  assert (KD : keys (dset a (dset b v row) D) = keys D) by (apply keys_dset_in; auto).
  assert (KR : keys (dset b v row) = keys row).
  { apply keys_dset_in. apply (wf_row _ W a row Er). auto. }
  split; auto. constructor.
  - rewrite KD. apply (wf_nodup _ W).
  - intros a' r E. rewrite dget_dset in E. destruct (eqb_spec a' a); subst.
    + inversion E; subst. rewrite KR. eapply wf_row_nodup; eauto.
    + eapply wf_row_nodup; eauto.
  - intros a' r E. rewrite KD. rewrite dget_dset in E. destruct (eqb_spec a' a); subst.
    + inversion E; subst. rewrite KR. eapply wf_row; eauto.
    + eapply wf_row; eauto.
  - intros p q t u E. rewrite (sget_dset _ _ _ _ _ _ _ Er) in E.
    destruct (eqb p a && eqb q b); [inversion E; subst; eapply HV; eauto|eapply wf_val; eauto].
Qed.

(** ** Regeneration. *)
Definition upto (P : pystr -> pystr -> Prop) (r : pystr -> pystr -> Prop) : pystr -> pystr -> Prop :=
  fun a b => P a b /\ r a b.

Lemma fresh_linked (must : pystr -> pystr -> Prop) a b :
  (forall x y, must x y -> x = y) -> linked must a b <-> a = b.
Proof.
  intro D. split.
  - induction 1 as [|x y z _ IH S]; auto. destruct S as [S|S]; apply D in S; congruence.
  - intros ->. apply linked_refl.
Qed.

Lemma Rep_fresh ids (must cannot : pystr -> pystr -> Prop) :
  (forall a b, must a b -> a = b /\ In a ids) -> (forall a b, ~ cannot a b) ->
  Rep (dcomp fresh_trans ids) must cannot.
Proof.
  intros HM HC.
  assert (NS : forall a b, ~ separated must cannot a b).
  { intros a b (x & y & _ & _ & C). destruct C as [C|C]; eapply HC; eauto. }
  assert (G : forall a t, dget a (dcomp fresh_trans ids) = Some t -> t = fresh_trans a).
  { intros a t E. rewrite dget_dcomp in E. destruct (mem a ids); inversion E; auto. }
  constructor.
  - rewrite keys_dcomp. apply dedup_NoDup.
  - intros a b H. apply HM in H. destruct H as [-> H]. rewrite keys_dcomp, dedup_In. auto.
  - intros a b H. exfalso. eapply HC; eauto.
  - intro a. apply NS.
  - intros a t E. rewrite (G a t E). simpl. constructor; auto. constructor.
  - intros a t E. rewrite (G a t E). simpl. constructor.
  - intros a t E b. rewrite (G a t E). simpl. rewrite fresh_linked. tauto. intros; apply HM; auto.
  - intros a t E b. rewrite (G a t E). simpl. split; [tauto|]. intro; eapply NS; eauto.
  - intros a b ta tb Ea Eb I. rewrite (G _ _ Ea) in *. rewrite (G _ _ Eb). simpl in *.
    destruct I as [->|[]]; auto.
Qed.

Definition gen_body (data_ID1 data_ID2 : pystr) : M mgr unit :=
  constraint <- get_constraint data_ID1 data_ID2 ;;
  match constraint with
  | Some c => add_constraint_transitivity data_ID1 data_ID2 (fst c) ;; ret tt
  | None => ret tt
  end.

Section Generate.
  Variable D : dict pystr (dict pystr (option constr)).
  Hypothesis W : WFD D.
  Hypothesis Cons : forall a, ~ separated (stored D MUST_LINK) (stored D CANNOT_LINK) a a.
  Notation sml := (stored D MUST_LINK).
  Notation scl := (stored D CANNOT_LINK).

  (** One step of the regeneration: one stored pair. *)
  Lemma gen_step (P : pystr -> pystr -> Prop) T a b :
    keys T = keys D -> Rep T (upto P sml) (upto P scl) ->
    In a (keys D) -> In b (keys D) -> str_leb a b = true ->
    exists T', gen_body a b (mkMgr D T) = (mkMgr D T', Ok tt) /\ keys T' = keys D /\
      Rep T' (upto (fun p q => P p q \/ (p = a /\ q = b)) sml) (upto (fun p q => P p q \/ (p = a /\ q = b)) scl).
  Proof.
    intros K R Ia Ib L. unfold gen_body.
    destruct (get_constraint_run a b (mkMgr D T) W Ia Ib L) as (o & E & Run). simpl in E.
    unfold bind at 1. rewrite Run.
    assert (NoSep : forall p q, sml p q -> separated (upto P sml) (upto P scl) p q -> False).
    { intros p q H S. apply (Cons p). eapply separated_linked_r; [apply linked_sym, linked_one; exact H|].
      eapply separated_mono; [| |exact S]; intros u v [_ Q]; auto. }
    assert (NoLink : forall p q, scl p q -> linked (upto P sml) p q -> False).
    { intros p q H S. apply (Cons p). exists p, q. split; [apply linked_refl|]. split; [|auto].
      eapply linked_mono; [|exact S]. intros u v [_ Q]; auto. }
    destruct o as [[t v]|].
    - assert (TV : t = MUST_LINK \/ t = CANNOT_LINK) by (eapply wf_val; eauto).
      assert (St : stored D t a b) by (exists v; auto).
      assert (Uniq : forall t', stored D t' a b -> t' = t).
      { intros t' [v' E']. congruence. }
      destruct TV as [-> | ->]; simpl.
      + destruct (add_ml_rep (mkMgr D T) _ _ a b R) as (T' & Run' & K' & R').
        { simpl. rewrite K; auto. } { simpl. rewrite K; auto. }
        { intro S. eapply NoSep; eauto. }
        exists T'. unfold bind. rewrite Run'. simpl in *. split; [reflexivity|]. split; [congruence|].
        eapply Rep_equiv; [| |exact R'].
        * intros p q. unfold plus, upto. split.
          -- intros [H|[-> ->]]; tauto.
          -- intros [[H|[-> ->]] H2]; tauto.
        * intros p q. unfold upto. split; [tauto|]. intros [[H|[-> ->]] H2]; auto.
          apply Uniq in H2. discriminate.
      + destruct (add_cl_rep (mkMgr D T) _ _ a b R) as (T' & Run' & K' & R').
        { simpl. rewrite K; auto. } { simpl. rewrite K; auto. }
        { intro S. eapply NoLink; eauto. }
        exists T'. unfold bind. rewrite Run'. simpl in *. split; [reflexivity|]. split; [congruence|].
        eapply Rep_equiv; [| |exact R'].
        * intros p q. unfold upto. split; [tauto|]. intros [[H|[-> ->]] H2]; auto.
          apply Uniq in H2. discriminate.
        * intros p q. unfold plus, upto. split.
          -- intros [H|[-> ->]]; tauto.
          -- intros [[H|[-> ->]] H2]; tauto.
    - exists T. split; [reflexivity|]. split; auto.
      eapply Rep_equiv; [| |exact R]; intros p q; unfold upto; (split; [tauto|]);
        (intros [[H|[-> ->]] [v E']]; [split; auto; exists v; auto|congruence]).
  Qed.

  Lemma gen_inner a l : forall (P : pystr -> pystr -> Prop) T,
    keys T = keys D -> Rep T (upto P sml) (upto P scl) ->
    In a (keys D) -> (forall b, In b l -> In b (keys D) /\ str_leb a b = true) ->
    exists T', for_ l (gen_body a) (mkMgr D T) = (mkMgr D T', Ok tt) /\ keys T' = keys D /\
      Rep T' (upto (fun p q => P p q \/ (p = a /\ In q l)) sml) (upto (fun p q => P p q \/ (p = a /\ In q l)) scl).
  Proof.
    induction l as [|b l IH]; intros P T K R Ia Hl.
    - exists T. split; [reflexivity|]. split; auto.
      eapply Rep_equiv; [| |exact R]; intros p q; unfold upto; simpl; tauto.
    - destruct (Hl b (or_introl eq_refl)) as [Ib L].
      destruct (gen_step P T a b K R Ia Ib L) as (T1 & Run1 & K1 & R1).
      destruct (IH _ T1 K1 R1 Ia) as (T2 & Run2 & K2 & R2). { intros; apply Hl; right; auto. }
      exists T2. split; [|split; [auto|]].
      + simpl. unfold bind. rewrite Run1. exact Run2.
      + eapply Rep_equiv; [| |exact R2]; intros p q; unfold upto; simpl; intuition; subst; auto.
  Qed.

  Definition gen_outer_body (data_ID1 : pystr) : M mgr unit :=
    row <- gets (fun m => dlookup data_ID1 (cdict m)) ;;
    row <- lift row ;;
    for_ (keys row) (gen_body data_ID1).

  Lemma gen_outer l : forall (P : pystr -> pystr -> Prop) T,
    keys T = keys D -> Rep T (upto P sml) (upto P scl) -> incl l (keys D) ->
    exists T', for_ l gen_outer_body (mkMgr D T) = (mkMgr D T', Ok tt) /\ keys T' = keys D /\
      Rep T' (upto (fun p q => P p q \/ In p l) sml) (upto (fun p q => P p q \/ In p l) scl).
  Proof.
    induction l as [|a l IH]; intros P T K R Hl.
    - exists T. split; [reflexivity|]. split; auto.
      eapply Rep_equiv; [| |exact R]; intros p q; unfold upto; simpl; tauto.
    - assert (Ia : In a (keys D)) by (apply Hl; left; auto).
      destruct (dget_In_key a D Ia) as [row Er].
      destruct (gen_inner a (keys row) P T K R Ia) as (T1 & Run1 & K1 & R1).
      { intros b Hb. apply (wf_row _ W a row Er); auto. }
      destruct (IH _ T1 K1 R1) as (T2 & Run2 & K2 & R2). { intros z Hz; apply Hl; right; auto. }
      exists T2. split; [|split; [auto|]].
      + cbn [for_]. unfold bind at 1. unfold gen_outer_body at 1.
        unfold bind at 1. unfold gets at 1. cbn [cdict].
        rewrite (dlookup_Some _ _ Er). unfold bind at 1. unfold lift at 1. rewrite Run1. exact Run2.
      + assert (RowIn : forall t p q, stored D t p q -> p = a -> In q (keys row)).
        { intros t p q [v E] ->. unfold sget in E. rewrite Er in E. eapply dget_Some_key; eauto. }
        eapply Rep_equiv; [| |exact R2]; intros p q; unfold upto; simpl; split.
        * intros [[[H|[-> H]]|H] H2]; auto.
        * intros [[H|[H|H]] H2]; auto. split; auto. left; right. split; [congruence|]. eapply RowIn; eauto.
        * intros [[[H|[-> H]]|H] H2]; auto.
        * intros [[H|[H|H]] H2]; auto. split; auto. left; right. split; [congruence|]. eapply RowIn; eauto.
  Qed.

  Lemma generate_rep T0 :
    exists T', generate_constraints_transitivity (mkMgr D T0) = (mkMgr D T', Ok tt) /\
      keys T' = keys D /\ Rep T' sml scl.
  Proof.
    destruct (gen_outer (keys D) (fun _ _ => False) (dcomp fresh_trans (keys D))) as (T' & Run & K & R).
    - rewrite keys_dcomp. apply dedup_id. apply (wf_nodup _ W).
    - apply Rep_fresh; unfold upto; tauto.
    - apply incl_refl.
    - exists T'. split; [|split; auto].
      + unfold generate_constraints_transitivity, bind at 1, modify. cbn [cdict].
        unfold bind at 1, gets at 1. cbn [cdict]. exact Run.
      + eapply Rep_equiv; [| |exact R]; intros p q; unfold upto; (split; [tauto|]);
          intro H; (split; [right; destruct (stored_keys D _ _ _ W H); auto|auto]).
  Qed.
End Generate.
