(** * Every method preserves the invariant; exact effect of every method. *)

From Coq Require Import List Bool Arith NArith QArith Lia Permutation.
From Verif Require Import Base Manager Spec Closure ManagerProofs.
Import ListNotations.
Open Scope py_scope.

(** ** Loops over the rows of the constraints dictionary. *)
Definition set_row (f : dict pystr (option constr) -> dict pystr (option constr)) (x : pystr) : M mgr unit :=
  row <- gets (fun m => dlookup x (cdict m)) ;;
  row <- lift row ;;
  modify (fun m => mkMgr (dset x (f row) (cdict m)) (ctrans m)).

Lemma for_set_row f l : forall m,
  NoDup l -> incl l (keys (cdict m)) ->
  exists D', for_ l (set_row f) m = (mkMgr D' (ctrans m), Ok tt)
    /\ keys D' = keys (cdict m)
    /\ forall k, dget k D' = if mem k l then option_map f (dget k (cdict m)) else dget k (cdict m).
Proof.
  induction l as [|x l IH]; intros m N I; simpl.
  - exists (cdict m). destruct m; auto.
  - inversion N; subst.
    destruct (dget_In_key x (cdict m)) as [t Et]; [apply I; left; auto|].
    unfold bind at 1. unfold set_row at 1. unfold bind, gets, lift at 1.
    rewrite (dlookup_Some _ _ Et). unfold modify.
    set (m1 := mkMgr (dset x (f t) (cdict m)) (ctrans m)).
    assert (K1 : keys (cdict m1) = keys (cdict m)).
    { simpl. apply keys_dset_in. apply I. left; auto. }
    destruct (IH m1) as (D' & R & K & G); auto.
    { rewrite K1. intros z Hz. apply I. right; auto. }
    exists D'. split; [exact R|]. split; [congruence|].
    intro k. rewrite G. simpl. rewrite dget_dset.
    destruct (eqb_spec k x); subst; simpl.
    + assert (E : mem x l = false) by (apply mem_nIn; auto). rewrite E, Et. reflexivity.
    + reflexivity.
Qed.

(** ** Pure readings of a state. *)
Definition infer (m : mgr) (a b : pystr) : option pystr :=
  match dget b (ctrans m) with
  | Some t => if mem a (t_ml t) then Some MUST_LINK else if mem a (t_cl t) then Some CANNOT_LINK else None
  | None => None
  end.

Definition addf (m : mgr) (a b : pystr) : option constr :=
  match (if str_leb a b then sget (cdict m) a b else sget (cdict m) b a) with
  | Some o => o
  | None => None
  end.

Notation ids m := (keys (cdict m)).
Notation sml m := (stored (cdict m) MUST_LINK).
Notation scl m := (stored (cdict m) CANNOT_LINK).

Lemma inv_keys m : Inv m -> keys (ctrans m) = ids m.
Proof. intros (_ & K & _); auto. Qed.

Lemma inv_rep m : Inv m -> Rep (ctrans m) (sml m) (scl m).
Proof. intros (_ & _ & R); auto. Qed.

Lemma inv_nodup m : Inv m -> NoDup (ids m).
Proof. intros (W & _). apply (wf_nodup _ W). Qed.

Lemma infer_ML m a b : Inv m -> In a (ids m) -> In b (ids m) ->
  infer m a b = Some MUST_LINK <-> linked (sml m) a b.
Proof.
  intros I Ia Ib. assert (R := inv_rep _ I). rewrite <- (inv_keys _ I) in Ib.
  destruct (dget_In_key _ _ Ib) as [t E]. unfold infer. rewrite E.
  assert (H := rep_ml _ _ _ R b t E a).
  destruct (mem a (t_ml t)) eqn:A.
  - apply mem_In, H in A. split; auto. intros _. apply linked_sym; auto.
  - apply mem_nIn in A. split.
    + destruct (mem a (t_cl t)); discriminate.
    + intro L. exfalso. apply A, H, linked_sym; auto.
Qed.

Lemma rep_excl m a b : Inv m -> linked (sml m) a b -> separated (sml m) (scl m) a b -> False.
Proof.
  intros I L S. apply (rep_cons _ _ _ (inv_rep _ I) a). eapply separated_linked_r; [apply linked_sym; exact L|exact S].
Qed.

Lemma infer_CL m a b : Inv m -> In a (ids m) -> In b (ids m) ->
  infer m a b = Some CANNOT_LINK <-> separated (sml m) (scl m) a b.
Proof.
  intros I Ia Ib. assert (R := inv_rep _ I). assert (Ib' := Ib). rewrite <- (inv_keys _ I) in Ib'.
  destruct (dget_In_key _ _ Ib') as [t E]. unfold infer. rewrite E.
  assert (H := rep_ml _ _ _ R b t E a). assert (H2 := rep_cl _ _ _ R b t E a).
  destruct (mem a (t_ml t)) eqn:A.
  - apply mem_In, H in A. split; [discriminate|]. intro S. exfalso. apply (rep_excl m a b); auto. apply linked_sym; auto.
  - destruct (mem a (t_cl t)) eqn:B.
    + apply mem_In, H2 in B. split; auto. intros _. apply separated_sym; auto.
    + apply mem_nIn in B. split; [discriminate|]. intro S. exfalso. apply B, H2, separated_sym; auto.
Qed.

Lemma infer_cases m a b : infer m a b = Some MUST_LINK \/ infer m a b = Some CANNOT_LINK \/ infer m a b = None.
Proof.
  unfold infer. destruct (dget b (ctrans m)); auto. destruct (mem a (t_ml t)); auto. destruct (mem a (t_cl t)); auto.
Qed.

Lemma infer_None m a b : Inv m -> In a (ids m) -> In b (ids m) ->
  infer m a b = None <-> ~ linked (sml m) a b /\ ~ separated (sml m) (scl m) a b.
Proof.
  intros I Ia Ib. rewrite <- (infer_ML m a b), <- (infer_CL m a b) by auto.
  destruct (infer_cases m a b) as [E|[E|E]]; rewrite E; split; try congruence; try (intros [? ?]; congruence).
  intros _. split; discriminate.
Qed.

Lemma infer_sym m a b : Inv m -> In a (ids m) -> In b (ids m) -> infer m a b = infer m b a.
Proof.
  intros I Ia Ib. destruct (infer_cases m a b) as [E|[E|E]]; rewrite E; symmetry.
  - apply infer_ML; auto. apply infer_ML in E; auto. apply linked_sym; auto.
  - apply infer_CL; auto. apply infer_CL in E; auto. apply separated_sym; auto.
  - apply infer_None; auto. apply infer_None in E; auto. destruct E as [E1 E2].
    split; intro H; [apply E1, linked_sym|apply E2, separated_sym]; auto.
Qed.

Lemma addf_sym m a b : addf m a b = addf m b a.
Proof.
  unfold addf. destruct (str_leb a b) eqn:E1, (str_leb b a) eqn:E2; auto.
  - rewrite (str_leb_antisym _ _ E1 E2); auto.
  - apply str_leb_false in E1. congruence.
Qed.

(** ** Runs of the getters. *)
Lemma run_managed m : get_list_of_managed_data_IDs m = (m, Ok (ids m)).
Proof. reflexivity. Qed.

Definition both (m : mgr) (a b : pystr) : bool := mem a (ids m) && mem b (ids m).

Lemma both_true m a b : both m a b = true <-> In a (ids m) /\ In b (ids m).
Proof. unfold both. rewrite andb_true_iff, !mem_In. tauto. Qed.

Lemma run_inferred m a b : Inv m ->
  get_inferred_constraint a b m = (m, if both m a b then Ok (infer m a b) else Raise ValueError).
Proof.
  intro I. unfold get_inferred_constraint, both.
  unfold bind at 1. unfold in_trans at 1. unfold gets. rewrite (inv_keys _ I).
  destruct (mem a (ids m)) eqn:A; [|reflexivity].
  unfold bind at 1. cbn [require]. unfold ret at 1. cbn [andb].
  unfold bind at 1. unfold in_trans, gets. rewrite (inv_keys _ I).
  destruct (mem b (ids m)) eqn:B; [|reflexivity].
  unfold bind at 1. cbn [require]. unfold ret at 1.
  assert (Ib : In b (keys (ctrans m))) by (rewrite (inv_keys _ I); apply mem_In; auto).
  destruct (dget_In_key _ _ Ib) as [t E]. unfold infer. rewrite E.
  unfold bind at 1. rewrite (get_trans_run _ _ _ E).
  destruct (mem a (t_ml t)); [reflexivity|].
  unfold bind. rewrite (get_trans_run _ _ _ E). destruct (mem a (t_cl t)); reflexivity.
Qed.

Lemma run_added m a b : Inv m ->
  get_added_constraint a b m = (m, if both m a b then Ok (addf m a b) else Raise ValueError).
Proof.
  intros (W & _ & _). unfold get_added_constraint, both.
  unfold bind at 1. unfold in_dict at 1. unfold gets.
  destruct (mem a (ids m)) eqn:A; [|reflexivity].
  unfold bind at 1. cbn [require]. unfold ret at 1. cbn [andb].
  unfold bind at 1. unfold in_dict, gets.
  destruct (mem b (ids m)) eqn:B; [|reflexivity].
  unfold bind at 1. cbn [require]. unfold ret at 1.
  apply mem_In in A. apply mem_In in B. unfold addf.
  destruct (str_leb a b) eqn:L.
  - destruct (get_constraint_run a b m W A B L) as (o & E & ->). rewrite E. auto.
  - apply str_leb_false in L. destruct (get_constraint_run b a m W B A L) as (o & E & ->). rewrite E. auto.
Qed.

(** Stored annotations and the ones seen through the API give the same chains. *)
Lemma managed_ids m x : managed m x <-> In x (ids m).
Proof.
  unfold managed, ask. rewrite run_managed. simpl. split.
  - intros (l & E & I). inversion E; subst; auto.
  - eauto.
Qed.

Lemma added_stored m t a b : Inv m -> added m t a b <-> stored (cdict m) t a b \/ stored (cdict m) t b a.
Proof.
  intro I. assert (W := proj1 I). unfold added, ask. rewrite run_added; auto. simpl.
  split.
  - intros (v & E). destruct (both m a b) eqn:B; try discriminate. inversion E as [E']. clear E.
    unfold addf in E'. unfold stored. destruct (str_leb a b); [left|right].
    + destruct (sget (cdict m) a b) eqn:S; try discriminate. subst. exists v; auto.
    + destruct (sget (cdict m) b a) eqn:S; try discriminate. subst. exists v; auto.
  - intros [S|S]; destruct (stored_keys _ _ _ _ W S) as (Ia & Ib & L).
    + assert (B : both m a b = true) by (apply both_true; auto). rewrite B.
      destruct S as [v E]. exists v. f_equal. unfold addf. rewrite L, E. auto.
    + assert (B : both m a b = true) by (apply both_true; auto). rewrite B.
      destruct S as [v E]. exists v. f_equal. rewrite addf_sym. unfold addf. rewrite L, E. auto.
Qed.

Lemma added_linked m a b : Inv m -> linked (added_must m) a b <-> linked (sml m) a b.
Proof.
  intro I. split; apply linked_mono; intros x y H; unfold added_must in *.
  - apply added_stored in H; auto.
  - left. apply added_stored; auto.
Qed.

Lemma added_separated m a b : Inv m ->
  separated (added_must m) (added_cannot m) a b <-> separated (sml m) (scl m) a b.
Proof.
  intro I. split; apply separated_mono; intros x y H; unfold added_must, added_cannot in *;
    try (apply added_stored in H; auto; fail); left; apply added_stored; auto.
Qed.

(** ** init *)
Lemma sget_init l a b :
  sget (cdict (init l)) a b =
  if mem a l && mem b l && str_leb a b then Some (if eqb a b then Some (MUST_LINK, 1%Q) else None) else None.
Proof.
  unfold sget, init; simpl. rewrite dget_dcomp. destruct (mem a l) eqn:A; simpl; auto.
  rewrite dget_dcomp.
  assert (E : mem b (filter (fun y => str_leb a y) l) = mem b l && str_leb a b).
  { destruct (mem b (filter (fun y => str_leb a y) l)) eqn:F.
    - apply mem_In, filter_In in F. destruct F as [F1 F2]. apply mem_In in F1. rewrite F1, F2; auto.
    - apply mem_nIn in F. rewrite filter_In in F. symmetry. apply andb_false_iff.
      destruct (mem b l) eqn:B; auto. right. apply mem_In in B. destruct (str_leb a b); auto. tauto. }
  rewrite E. reflexivity.
Qed.

Lemma init_ids l : ids (init l) = dedup l.
Proof. apply keys_dcomp. Qed.

Lemma init_inv l : Inv (init l).
Proof.
  assert (W : WFD (cdict (init l))).
  { constructor.
    - rewrite init_ids. apply dedup_NoDup.
    - intros a row E. simpl in E. rewrite dget_dcomp in E. destruct (mem a l); inversion E; subst.
      rewrite keys_dcomp. apply dedup_NoDup.
    - intros a row E b. rewrite init_ids. simpl in E. rewrite dget_dcomp in E.
      destruct (mem a l) eqn:A; inversion E; subst. rewrite keys_dcomp, !dedup_In, filter_In. tauto.
    - intros a b t v E. rewrite sget_init in E.
      destruct (mem a l && mem b l && str_leb a b); inversion E.
      destruct (eqb a b); inversion H0; subst; auto. }
  split; [exact W|]. split; [simpl; unfold init; simpl; rewrite !keys_dcomp; auto|].
  simpl ctrans. apply Rep_fresh.
  - intros a b [v E]. rewrite sget_init in E.
    destruct (mem a l) eqn:A; simpl in E; [|discriminate]. apply mem_In in A.
    destruct (mem b l && str_leb a b); inversion E. destruct (eqb_spec a b); try discriminate. auto.
  - intros a b [v E]. rewrite sget_init in E.
    destruct (mem a l && mem b l && str_leb a b); inversion E. destruct (eqb a b); discriminate.
Qed.

(** ** delete_constraint *)
Lemma stored_unset D (a b : pystr) row t p q :
  dget a D = Some row ->
  (stored (dset a (dset b None row) D) t p q <-> stored D t p q /\ ~ (p = a /\ q = b)).
Proof.
  intro E. unfold stored. setoid_rewrite (sget_dset D a b None row p q E).
  destruct (eqb_spec p a), (eqb_spec q b); subst; simpl;
    (split; [intros [v H]; split; [exists v; exact H|tauto]|intros [H _]; exact H]) || idtac.
  split; [intros [v H]; discriminate|tauto].
Qed.

Definition lo (a b : pystr) := if str_leb a b then a else b.
Definition hi (a b : pystr) := if str_leb a b then b else a.

Lemma lo_hi_leb a b : str_leb (lo a b) (hi a b) = true.
Proof. unfold lo, hi. destruct (str_leb a b) eqn:E; auto. apply str_leb_false; auto. Qed.

Lemma lo_hi_in m a b : both m a b = true -> In (lo a b) (ids m) /\ In (hi a b) (ids m).
Proof. rewrite both_true. unfold lo, hi. destruct (str_leb a b); tauto. Qed.

Lemma addf_lo_hi m a b : addf m a b = match sget (cdict m) (lo a b) (hi a b) with Some o => o | None => None end.
Proof. unfold addf, lo, hi. destruct (str_leb a b); auto. Qed.

(** Unordered pairs. *)
Definition same_pair (a b p q : pystr) : bool := eqb p (lo a b) && eqb q (hi a b).

Lemma same_pair_spec a b p q : same_pair a b (lo p q) (hi p q) = true <-> (p = a /\ q = b) \/ (p = b /\ q = a).
Proof.
  unfold same_pair. rewrite andb_true_iff, !eqb_eq. unfold lo, hi.
  destruct (str_leb a b) eqn:E1, (str_leb p q) eqn:E2; split; intro H;
    repeat match goal with
    | H : _ /\ _ |- _ => destruct H
    | H : _ \/ _ |- _ => destruct H
    end; subst; auto; try congruence;
    repeat match goal with H : str_leb _ _ = false |- _ => apply str_leb_false in H end;
    (split; try apply str_leb_antisym; auto; symmetry; try apply str_leb_antisym; auto) || auto.
Qed.

Lemma run_delete_constraint m a b : Inv m ->
  if both m a b then
    exists m', delete_constraint a b m = (m', Ok true) /\ Inv m' /\ ids m' = ids m /\
      (forall p q, sget (cdict m') p q = if same_pair a b p q then Some None else sget (cdict m) p q)
  else delete_constraint a b m = (m, Raise ValueError).
Proof.
  intros (W & K & R). unfold delete_constraint. destruct (both m a b) eqn:B.
  - assert (B' := B). apply both_true in B'. destruct B' as [Ia Ib].
    destruct (lo_hi_in _ _ _ B) as [Il Ih]. assert (L := lo_hi_leb a b).
    destruct (set_constraint_run (lo a b) (hi a b) None m Il) as (row & Er & Run).
    assert (RunS : (if str_leb a b then set_constraint a b None else set_constraint b a None) m
              = (mkMgr (dset (lo a b) (dset (hi a b) None row) (cdict m)) (ctrans m), Ok tt)).
    { transitivity (set_constraint (lo a b) (hi a b) None m); [|exact Run].
      unfold lo, hi. destruct (str_leb a b); auto. }
    set (D' := dset (lo a b) (dset (hi a b) None row) (cdict m)) in *.
    destruct (WFD_set (cdict m) (lo a b) (hi a b) None row W Il Ih L Er) as [W' K']; [discriminate|].
    fold D' in W', K'.
    destruct (generate_rep D' W') with (T0 := ctrans m) as (T' & Run' & KT & RT).
    { intros x S. apply (rep_cons _ _ _ R x).
      eapply separated_mono; [| |exact S]; intros u v H; left; (apply stored_unset in H; [tauto|auto]). }
    exists (mkMgr D' T'). split; [|split; [|split]].
    + unfold bind at 1, in_dict, gets. assert (E1 : mem a (ids m) = true) by (apply mem_In; auto). rewrite E1.
      unfold bind at 1. cbn [require]. unfold ret at 1.
      unfold bind at 1, in_dict, gets. assert (E2 : mem b (ids m) = true) by (apply mem_In; auto). rewrite E2.
      unfold bind at 1. cbn [require]. unfold ret at 1.
      unfold bind at 1. rewrite RunS. unfold bind at 1. rewrite Run'. reflexivity.
    + split; [exact W'|]. split; [exact KT|exact RT].
    + exact K'.
    + intros p q. simpl. unfold D'. rewrite (sget_dset _ _ _ _ _ _ _ Er). reflexivity.
  - unfold both in B. unfold bind at 1, in_dict, gets. destruct (mem a (ids m)); [|reflexivity].
    simpl in B. unfold bind at 1. cbn [require]. unfold ret at 1. unfold bind, in_dict, gets. rewrite B. reflexivity.
Qed.

(** ** add_constraint *)
Lemma linked_plus_sym must x y a b : linked (plus must x y) a b <-> linked (plus must y x) a b.
Proof. rewrite !linked_plus. unfold joined. tauto. Qed.

Lemma separated_orient (m1 m2 c1 c2 : pystr -> pystr -> Prop) a b :
  (forall x y, m1 x y -> m2 x y \/ m2 y x) -> (forall x y, m2 x y -> m1 x y \/ m1 y x) ->
  (forall x y, c1 x y -> c2 x y \/ c2 y x) -> (forall x y, c2 x y -> c1 x y \/ c1 y x) ->
  separated m1 c1 a b <-> separated m2 c2 a b.
Proof. intros; split; apply separated_mono; auto. Qed.

Lemma Rep_orient T (m1 m2 c1 c2 : pystr -> pystr -> Prop) :
  (forall x y, m1 x y -> m2 x y \/ m2 y x) -> (forall x y, m2 x y -> m1 x y \/ m1 y x) ->
  (forall x y, c1 x y -> c2 x y \/ c2 y x) -> (forall x y, c2 x y -> c1 x y \/ c1 y x) ->
  Rep T m1 c1 -> Rep T m2 c2.
Proof.
  intros A1 A2 B1 B2 R. destruct R as [R1 R2 R3 R4 R5 R6 R7 R8 R9]. constructor; auto.
  - intros a b H. apply A2 in H. destruct H as [H|H]; apply R2 in H; tauto.
  - intros a b H. apply B2 in H. destruct H as [H|H]; apply R3 in H; tauto.
  - intros a H. apply (R4 a). eapply separated_mono; eauto.
  - intros a t G b. rewrite (R7 a t G b). split; apply linked_mono; auto.
  - intros a t G b. rewrite (R8 a t G b). split; apply separated_mono; auto.
Qed.

Lemma stored_set D (a b : pystr) (c : constr) row t p q :
  dget a D = Some row -> sget D a b = Some None ->
  (stored (dset a (dset b (Some c) row) D) t p q <-> stored D t p q \/ (t = fst c /\ p = a /\ q = b)).
Proof.
  intros E N. unfold stored. setoid_rewrite (sget_dset D a b (Some c) row p q E).
  destruct c as [tc vc]; simpl.
  destruct (eqb_spec p a), (eqb_spec q b); subst; simpl; split; intro H;
    try (destruct H as [v H]; eauto; fail); try tauto;
    try (destruct H as [H|H]; [exact H|tauto]).
  - destruct H as [v H]. inversion H; subst. auto.
  - destruct H as [[v H]|[-> _]]; [congruence|eauto].
Qed.

(** Whether [add_constraint a b t] is accepted, in a good state. *)
Definition accepts (m : mgr) (a b t : pystr) : bool :=
  both m a b && mem t allowed_types && match infer m a b with Some u => eqb u t | None => true end.

Lemma allowed_spec t : mem t allowed_types = true <-> t = MUST_LINK \/ t = CANNOT_LINK.
Proof. rewrite mem_In. simpl. intuition. Qed.

Lemma run_add_constraint_raise m a b t v : Inv m -> accepts m a b t = false ->
  add_constraint a b t v m = (m, Raise ValueError).
Proof.
  intros I A. unfold add_constraint. unfold accepts, both in A.
  unfold bind at 1, in_dict, gets. destruct (mem a (ids m)) eqn:Ea; [|reflexivity].
  unfold bind at 1. cbn [require]. unfold ret at 1. unfold bind at 1, in_dict, gets.
  destruct (mem b (ids m)) eqn:Eb; [|reflexivity].
  unfold bind at 1. cbn [require]. unfold ret at 1. unfold bind at 1.
  destruct (mem t allowed_types) eqn:Et; [|reflexivity].
  cbn [require]. unfold ret at 1. unfold bind at 1. rewrite run_inferred by auto.
  assert (B : both m a b = true) by (unfold both; rewrite Ea, Eb; auto). rewrite B.
  simpl in A. destruct (infer m a b); [|discriminate]. unfold bind. rewrite A. reflexivity.
Qed.

Lemma addf_infer m a b c : Inv m -> both m a b = true -> addf m a b = Some c -> infer m a b = Some (fst c).
Proof.
  intros I B E. rewrite addf_lo_hi in E. apply both_true in B. destruct B as [Ia Ib].
  destruct (sget (cdict m) (lo a b) (hi a b)) as [o|] eqn:S; [|discriminate]. subst o.
  destruct c as [t v]. simpl.
  assert (St : stored (cdict m) t a b \/ stored (cdict m) t b a).
  { unfold lo, hi in S. destruct (str_leb a b); [left|right]; exists v; auto. }
  destruct (wf_val _ (proj1 I) _ _ _ _ S) as [[-> | ->] _].
  - apply infer_ML; auto. eapply linked_step; [apply linked_refl|exact St].
  - apply infer_CL; auto. exists a, b. split; [apply linked_refl|]. split; [apply linked_refl|exact St].
Qed.

Lemma run_add_constraint m a b t v : Inv m -> accepts m a b t = true ->
  exists m', add_constraint a b t v m = (m', Ok true) /\ Inv m' /\ ids m' = ids m /\
    (forall p q, sget (cdict m') p q =
       if same_pair a b p q then Some (match addf m a b with Some c => Some c | None => Some (t, 1%Q) end)
       else sget (cdict m) p q) /\
    (addf m a b <> None -> m' = m).
Proof.
  intros I A. assert (I' := I). destruct I' as (W & K & R).
  unfold accepts in A. rewrite !andb_true_iff in A. destruct A as [[B T] Inf].
  assert (B' := B). apply both_true in B'. destruct B' as [Ia Ib].
  destruct (lo_hi_in _ _ _ B) as [Il Ih]. assert (L := lo_hi_leb a b).
  destruct (sget_total _ _ _ W Il Ih L) as [o So].
  assert (Eaddf : addf m a b = o) by (rewrite addf_lo_hi, So; auto).
  assert (Prefix : forall k : bool -> M mgr bool,
     (add_constraint a b t v m) =
     match addf m a b with
     | Some _ => (m, Ok true)
     | None => ((if str_leb a b then set_constraint a b (Some (t, 1%Q)) else set_constraint b a (Some (t, 1%Q))) ;;
                add_constraint_transitivity a b t ;; ret true) m
     end).
  { intros _. unfold add_constraint.
    unfold bind at 1, in_dict, gets. assert (E1 : mem a (ids m) = true) by (apply mem_In; auto). rewrite E1.
    unfold bind at 1. cbn [require]. unfold ret at 1.
    unfold bind at 1, in_dict, gets. assert (E2 : mem b (ids m) = true) by (apply mem_In; auto). rewrite E2.
    unfold bind at 1. cbn [require]. unfold ret at 1.
    unfold bind at 1. rewrite T. cbn [require]. unfold ret at 1.
    unfold bind at 1. rewrite run_inferred, B by auto.
    unfold bind at 1.
    assert (E3 : match infer m a b with Some t0 => require (eqb t0 t) | None => ret tt end m = (m, Ok tt)).
    { destruct (infer m a b); auto. rewrite Inf. reflexivity. }
    rewrite E3. unfold bind at 1. rewrite run_added, B by auto.
    destruct (addf m a b); reflexivity. }
  rewrite (Prefix (fun _ => ret true)). clear Prefix. rewrite Eaddf.
  destruct o as [c|].
  - exists m. split; [reflexivity|]. split; [auto|]. split; auto. split; auto.
    intros p q. unfold same_pair. destruct (eqb_spec p (lo a b)), (eqb_spec q (hi a b)); subst; simpl; auto.
  - set (c := (t, 1%Q) : constr) in *.
    destruct (set_constraint_run (lo a b) (hi a b) (Some c) m Il) as (row & Er & Run).
    assert (RunS : (if str_leb a b then set_constraint a b (Some c) else set_constraint b a (Some c)) m
              = (mkMgr (dset (lo a b) (dset (hi a b) (Some c) row) (cdict m)) (ctrans m), Ok tt)).
    { transitivity (set_constraint (lo a b) (hi a b) (Some c) m); [|exact Run].
      unfold lo, hi. destruct (str_leb a b); auto. }
    set (D' := dset (lo a b) (dset (hi a b) (Some c) row) (cdict m)) in *.
    apply allowed_spec in T.
    destruct (WFD_set (cdict m) (lo a b) (hi a b) (Some c) row W Il Ih L Er) as [W' K'].
    { intros t' q E. unfold c in E. inversion E; subst; auto. }
    fold D' in W', K'.
    assert (St : forall t' p q, stored D' t' p q <-> stored (cdict m) t' p q \/ (t' = t /\ p = lo a b /\ q = hi a b)).
    { intros. unfold D'. rewrite stored_set; auto. simpl. tauto. }
    assert (LH : (lo a b = a /\ hi a b = b) \/ (lo a b = b /\ hi a b = a)).
    { unfold lo, hi. destruct (str_leb a b); auto. }
    assert (Ka : In a (keys (ctrans m))) by (rewrite K; auto).
    assert (Kb : In b (keys (ctrans m))) by (rewrite K; auto).
    assert (Step : exists T', add_constraint_transitivity a b t (mkMgr D' (ctrans m)) = (mkMgr D' T', Ok true)
              /\ keys T' = keys (ctrans m) /\ Rep T' (stored D' MUST_LINK) (stored D' CANNOT_LINK)).
    { destruct T as [-> | ->].
      - destruct (add_ml_rep (mkMgr D' (ctrans m)) _ _ a b R Ka Kb) as (T' & Run' & K1 & R1).
        { intro S. apply infer_CL in S; auto. rewrite S in Inf. discriminate. }
        exists T'. split; [exact Run'|]. split; [exact K1|].
        eapply Rep_orient; [| | | |exact R1].
        + intros x y [H|[-> ->]]; [left; apply St; auto|].
          destruct LH as [[E1 E2]|[E1 E2]]; [left|right]; apply St; rewrite E1, E2; auto.
        + intros x y H. apply St in H. destruct H as [H|(_ & -> & ->)]; [left; left; auto|].
          destruct LH as [[E1 E2]|[E1 E2]]; [left|right]; right; rewrite E1, E2; auto.
        + intros x y H. left. apply St. auto.
        + intros x y H. apply St in H. destruct H as [H|(H & _)]; [auto|discriminate].
      - destruct (add_cl_rep (mkMgr D' (ctrans m)) _ _ a b R Ka Kb) as (T' & Run' & K1 & R1).
        { intro S. apply infer_ML in S; auto. rewrite S in Inf. discriminate. }
        exists T'. split; [exact Run'|]. split; [exact K1|].
        eapply Rep_orient; [| | | |exact R1].
        + intros x y H. left. apply St. auto.
        + intros x y H. apply St in H. destruct H as [H|(H & _)]; [auto|discriminate].
        + intros x y [H|[-> ->]]; [left; apply St; auto|].
          destruct LH as [[E1 E2]|[E1 E2]]; [left|right]; apply St; rewrite E1, E2; auto.
        + intros x y H. apply St in H. destruct H as [H|(_ & -> & ->)]; [left; left; auto|].
          destruct LH as [[E1 E2]|[E1 E2]]; [left|right]; right; rewrite E1, E2; auto. }
    destruct Step as (T' & Run' & KT & RT).
    exists (mkMgr D' T'). split; [|split; [|split; [|split]]].
    + etransitivity.
      { unfold bind at 1. match goal with |- match ?X with _ => _ end = _ => replace X with (mkMgr D' (ctrans m), @Ok unit tt) end.
        unfold bind. rewrite Run'. reflexivity. }
      reflexivity.
    + split; [exact W'|]. split; [simpl; congruence|exact RT].
    + exact K'.
    + intros p q. simpl. unfold D'. rewrite (sget_dset _ _ _ _ _ _ _ Er). reflexivity.
    + congruence.
Qed.

(** ** delete_data_ID *)
Lemma run_delete_data_ID m x : Inv m ->
  if mem x (ids m) then
    exists m', delete_data_ID x m = (m', Ok true) /\ Inv m' /\
      ids m' = filter (fun y => negb (eqb x y)) (ids m) /\
      (forall p q, sget (cdict m') p q = if eqb p x || eqb q x then None else sget (cdict m) p q)
  else delete_data_ID x m = (m, Raise ValueError).
Proof.
  intros (W & K & R).
  destruct (mem x (ids m)) eqn:Ex;
    [|unfold delete_data_ID, bind at 1, in_dict, gets at 1; rewrite Ex; reflexivity].
  set (D1 := dpop x (cdict m)).
  assert (N := wf_nodup _ W).
  assert (K1 : keys D1 = filter (fun y => negb (eqb x y)) (ids m)) by (apply keys_dpop; auto).
  assert (N1 : NoDup (keys D1)) by (rewrite K1; apply NoDup_filter_list; auto).
  assert (G1 : forall a, dget a D1 = if eqb a x then None else dget a (cdict m)).
  { intro a. unfold D1. destruct (eqb_spec a x); subst. apply dget_dpop_same; auto. apply dget_dpop_other; auto. }
  destruct (for_set_row (dpop x) (keys D1) (mkMgr D1 (ctrans m)) N1 (incl_refl _)) as (D2 & Run & K2 & G2).
  simpl in K2, G2.
  assert (G : forall a, dget a D2 = if eqb a x then None else option_map (dpop x) (dget a (cdict m))).
  { intro a. rewrite G2, G1. destruct (eqb a x) eqn:Ea.
    - destruct (mem a (keys D1)); auto.
    - destruct (mem a (keys D1)) eqn:A; auto.
      apply mem_nIn in A. apply dget_None in A. rewrite G1, Ea in A. rewrite A. auto. }
  assert (SG : forall p q, sget D2 p q = if eqb p x || eqb q x then None else sget (cdict m) p q).
  { intros p q. unfold sget. rewrite G. destruct (eqb p x); simpl; auto.
    destruct (dget p (cdict m)) as [row|] eqn:Er; simpl.
    - destruct (eqb_spec q x); subst; [apply dget_dpop_same; eapply wf_row_nodup; eauto|].
      apply dget_dpop_other; auto.
    - destruct (eqb q x); auto. }
  assert (W2 : WFD D2).
  { constructor.
    - rewrite K2; auto.
    - intros a row E. rewrite G in E. destruct (eqb a x); try discriminate.
      apply option_map_Some in E. destruct E as (r & E & ->). rewrite keys_dpop.
      + apply NoDup_filter_list. eapply wf_row_nodup; eauto.
      + eapply wf_row_nodup; eauto.
    - intros a row E b. rewrite K2, K1. rewrite G in E. destruct (eqb a x); try discriminate.
      apply option_map_Some in E. destruct E as (r & E & ->). rewrite keys_dpop by (eapply wf_row_nodup; eauto).
      rewrite !filter_In. rewrite (wf_row _ W a r E b). tauto.
    - intros a b t v E. rewrite SG in E. destruct (eqb a x || eqb b x); try discriminate. eapply wf_val; eauto. }
  destruct (generate_rep D2 W2) with (T0 := ctrans m) as (T' & Run' & KT & RT).
  { intros z S. apply (rep_cons _ _ _ R z).
    eapply separated_mono; [| |exact S]; intros u w [v E]; left; exists v; rewrite SG in E;
      destruct (eqb u x || eqb w x); try discriminate; auto. }
  exists (mkMgr D2 T'). split; [|split; [|split]].
  - unfold delete_data_ID, bind at 1, in_dict, gets at 1. rewrite Ex.
    unfold bind at 1. cbn [require]. unfold ret at 1. unfold bind at 1, modify at 1.
    fold D1. unfold bind at 1, gets at 1. cbn [cdict]. unfold bind at 1.
    match goal with |- context [for_ (keys D1) ?f ?s] => assert (E : for_ (keys D1) f s = for_ (keys D1) (set_row (dpop x)) s) end.
    { reflexivity. }
    rewrite E, Run. unfold bind at 1. cbn [ctrans]. rewrite Run'. reflexivity.
  - split; [exact W2|]. split; [exact KT|exact RT].
  - simpl. congruence.
  - exact SG.
Qed.

(** ** add_data_ID *)
Section AddID.
  Variable x : pystr.
  Variable D : dict pystr (dict pystr (option constr)).
  Variable T : dict pystr trans.
  Hypothesis W : WFD D.
  Hypothesis Nx : ~ In x (keys D).

  Definition add_body (other_data_ID : pystr) : M mgr unit :=
    if eqb x other_data_ID then set_constraint x x (Some (MUST_LINK, 1%Q))
    else if str_ltb x other_data_ID then set_constraint x other_data_ID None
    else set_constraint other_data_ID x None.

  Record AddP (L : list pystr) (D' : dict pystr (dict pystr (option constr))) : Prop := {
    ap_keys : keys D' = keys D ++ [x];
    ap_x : exists rx, dget x D' = Some rx /\ NoDup (keys rx) /\
        forall b, dget b rx = if mem b L && str_leb x b then Some (if eqb x b then Some (MUST_LINK, 1%Q) else None) else None;
    ap_o : forall a, a <> x ->
        dget a D' = if mem a L && str_ltb a x then option_map (dset x None) (dget a D) else dget a D
  }.

  Lemma mem_snoc (b y : pystr) L : mem b (L ++ [y]) = mem b L || eqb b y.
  Proof. induction L; simpl; rewrite ?orb_false_r; auto. rewrite IHL, orb_assoc; auto. Qed.

  Lemma add_loop l : forall L D0,
    AddP L D0 -> incl l (keys D ++ [x]) ->
    exists D', for_ l add_body (mkMgr D0 T) = (mkMgr D' T, Ok tt) /\ AddP (L ++ l) D'.
  Proof.
    induction l as [|o l IH]; intros L D0 P Hl.
    - exists D0. rewrite app_nil_r. auto.
    - assert (Step : exists D1, add_body o (mkMgr D0 T) = (mkMgr D1 T, Ok tt) /\ AddP (L ++ [o]) D1).
      { assert (Io : In o (keys D0)) by (rewrite (ap_keys _ _ P); apply Hl; left; auto).
        assert (Ixx : In x (keys D0)) by (rewrite (ap_keys _ _ P), in_app_iff; simpl; auto).
        destruct (ap_x _ _ P) as (rx & Ex & Nrx & Grx).
        unfold add_body. destruct (eqb_spec x o) as [<-|Nxo].
        - destruct (set_constraint_run x x (Some (MUST_LINK, 1%Q)) (mkMgr D0 T) Ixx) as (row & Er & ->).
          cbn [cdict ctrans] in *. rewrite Ex in Er. inversion Er; subst row. clear Er.
          eexists. split; [reflexivity|]. constructor.
          + rewrite keys_dset_in; auto. apply (ap_keys _ _ P).
          + eexists. split; [apply dget_dset_same|]. split; [apply NoDup_keys_dset; auto|].
            intro b. rewrite dget_dset, mem_snoc. destruct (eqb_spec b x); subst.
            * rewrite orb_true_r, str_leb_refl, eqb_refl. reflexivity.
            * rewrite orb_false_r. apply Grx.
          + intros a Na. rewrite dget_dset_other by auto. rewrite (ap_o _ _ P a Na), mem_snoc.
            destruct (eqb_spec a x); [tauto|]. rewrite orb_false_r. auto.
        - destruct (str_ltb x o) eqn:Lt.
          + destruct (set_constraint_run x o None (mkMgr D0 T) Ixx) as (row & Er & ->).
            cbn [cdict ctrans] in *. rewrite Ex in Er. inversion Er; subst row. clear Er.
            eexists. split; [reflexivity|]. constructor.
            * rewrite keys_dset_in; auto. apply (ap_keys _ _ P).
            * eexists. split; [apply dget_dset_same|]. split; [apply NoDup_keys_dset; auto|].
              intro b. rewrite dget_dset, mem_snoc. destruct (eqb_spec b o); subst.
              -- apply str_ltb_spec in Lt. destruct Lt as [Lt _]. rewrite orb_true_r, Lt. simpl.
                 destruct (eqb_spec x o); [tauto|auto].
              -- rewrite orb_false_r. apply Grx.
            * intros a Na. rewrite dget_dset_other by auto. rewrite (ap_o _ _ P a Na), mem_snoc.
              destruct (eqb_spec a o); subst; [|rewrite orb_false_r; auto].
              rewrite orb_true_r. simpl.
              assert (E : str_ltb o x = false).
              { rewrite str_ltb_negb. apply str_ltb_spec in Lt. destruct Lt as [Lt _]. rewrite Lt. auto. }
              rewrite E, andb_false_r. auto.
          + destruct (set_constraint_run o x None (mkMgr D0 T) Io) as (row & Er & ->).
            cbn [cdict ctrans] in *.
            assert (Lt' : str_ltb o x = true).
            { rewrite str_ltb_negb in Lt. apply negb_false_iff in Lt. apply str_ltb_spec. auto. }
            eexists. split; [reflexivity|]. constructor.
            * rewrite keys_dset_in; auto. apply (ap_keys _ _ P).
            * exists rx. split; [rewrite dget_dset_other; auto|]. split; auto.
              intro b. rewrite Grx, mem_snoc. destruct (eqb_spec b o); subst; [|rewrite orb_false_r; auto].
              assert (E : str_leb x o = false).
              { rewrite str_ltb_negb in Lt'. apply negb_true_iff in Lt'. auto. }
              rewrite E, !andb_false_r. auto.
            * intros a Na. rewrite dget_dset, mem_snoc. rewrite (ap_o _ _ P o) in Er by auto.
              destruct (eqb_spec a o); subst.
              -- rewrite orb_true_r, Lt'. simpl. rewrite Lt', andb_true_r in Er.
                 destruct (mem o L); [|rewrite Er; reflexivity].
                 apply option_map_Some in Er. destruct Er as (u & Eu & ->). rewrite Eu. simpl.
                 rewrite dset_dset. auto.
              -- rewrite orb_false_r. apply (ap_o _ _ P a Na). }
      destruct Step as (D1 & Run1 & P1).
      destruct (IH _ D1 P1) as (D2 & Run2 & P2). { intros z Hz; apply Hl; right; auto. }
      exists D2. split.
      + cbn [for_]. unfold bind. rewrite Run1. exact Run2.
      + rewrite <- app_assoc in P2. exact P2.
  Qed.
End AddID.

Lemma linked_self must x a b : linked (plus must x x) a b <-> linked must a b.
Proof.
  rewrite linked_plus. unfold joined. split; [|auto]. intros [L|[[A|A] [B|B]]]; auto;
    (eapply linked_trans; [exact A|apply linked_sym; exact B]).
Qed.

Lemma run_add_data_ID m x : Inv m ->
  if mem x (ids m) then add_data_ID x m = (m, Raise ValueError)
  else
    exists m', add_data_ID x m = (m', Ok true) /\ Inv m' /\ ids m' = ids m ++ [x] /\
      (forall p q, sget (cdict m') p q =
         if (eqb p x && mem q (ids m ++ [x]) || eqb q x && mem p (ids m ++ [x])) && str_leb p q
         then Some (if eqb p q then Some (MUST_LINK, 1%Q) else None)
         else sget (cdict m) p q).
Proof.
  intros (W & K & R).
  destruct (mem x (ids m)) eqn:Ex0;
    [unfold add_data_ID, bind at 1, in_dict, gets at 1; rewrite Ex0; reflexivity|].
  assert (Ex := Ex0). apply mem_nIn in Ex.
  set (D1 := dset x [] (cdict m)).
  assert (K1 : keys D1 = ids m ++ [x]) by (apply keys_dset_out; auto).
  assert (P0 : AddP x (cdict m) [] D1).
  { constructor; auto.
    - exists []. split; [apply dget_dset_same|]. split; [constructor|]. reflexivity.
    - intros a Na. simpl. unfold D1. rewrite dget_dset_other; auto. }
  destruct (add_loop x (cdict m) (ctrans m) (keys D1) [] D1 P0) as (D2 & Run & P2).
  { rewrite K1. apply incl_refl. }
  simpl app in P2.
  assert (K2 := ap_keys _ _ _ _ P2). destruct (ap_x _ _ _ _ P2) as (rx & Erx & Nrx & Grx).
  assert (Go := ap_o _ _ _ _ P2).
  assert (SG : forall p q, sget D2 p q =
         if (eqb p x && mem q (ids m ++ [x]) || eqb q x && mem p (ids m ++ [x])) && str_leb p q
         then Some (if eqb p q then Some (MUST_LINK, 1%Q) else None)
         else sget (cdict m) p q).
  { intros p q. unfold sget. destruct (eqb_spec p x) as [->|Np].
    - rewrite Erx, Grx, K1. simpl.
      assert (E0 : dget x (cdict m) = None) by (apply dget_None; auto). rewrite E0.
      destruct (mem q (ids m ++ [x])) eqn:A; simpl.
      + destruct (str_leb x q); auto.
      + destruct (eqb_spec q x); simpl; auto. subst. exfalso. apply mem_nIn in A. apply A. rewrite in_app_iff; simpl; auto.
    - simpl. rewrite Go by auto. rewrite K1.
      destruct (eqb_spec q x) as [->|Nq]; simpl.
      + assert (LE : str_ltb p x = str_leb p x).
        { unfold str_ltb. destruct (eqb_spec p x); [tauto|]. rewrite andb_true_r; auto. }
        rewrite LE. destruct (mem p (ids m ++ [x])) eqn:A; simpl; auto.
        destruct (str_leb p x) eqn:L; simpl; auto.
        apply mem_In, in_app_iff in A. destruct A as [A|[A|[]]]; [|congruence].
        destruct (dget_In_key _ _ A) as [row Er]. rewrite Er. simpl. rewrite dget_dset_same.
        destruct (eqb_spec p x); [tauto|auto].
      + destruct (mem p (ids m ++ [x]) && str_ltb p x); auto.
        destruct (dget p (cdict m)) as [row|] eqn:Er; simpl; auto. rewrite dget_dset_other; auto. }
  assert (W2 : WFD D2).
  { constructor.
    - rewrite K2. apply NoDup_app_intro; [apply (wf_nodup _ W)|constructor; [simpl; tauto|constructor]|].
      intros z A [<-|[]]; tauto.
    - intros a row E. destruct (eqb_spec a x) as [->|Na].
      + congruence.
      + rewrite Go in E by auto. destruct (mem a (keys D1) && str_ltb a x).
        * apply option_map_Some in E. destruct E as (r & E & ->). apply NoDup_keys_dset. eapply wf_row_nodup; eauto.
        * eapply wf_row_nodup; eauto.
    - intros a row E b. rewrite K2.
      destruct (eqb_spec a x) as [->|Na].
      + rewrite Erx in E. inversion E; subst row. clear E. split.
        * intro I. destruct (dget_In_key _ _ I) as [v E]. rewrite Grx, K1 in E.
          destruct (mem b (ids m ++ [x])) eqn:A; simpl in E; try discriminate. apply mem_In in A.
          destruct (str_leb x b); try discriminate. auto.
        * intros [A L]. eapply dget_Some_key. rewrite Grx, K1. apply mem_In in A. rewrite A, L. reflexivity.
      + rewrite Go in E by auto. rewrite K1 in E. rewrite in_app_iff. simpl.
        destruct (mem a (ids m ++ [x])) eqn:A.
        2:{ simpl in E. apply mem_nIn in A. exfalso. apply A. rewrite in_app_iff. left. eapply dget_Some_key; eauto. }
        apply mem_In, in_app_iff in A. destruct A as [A|[A|[]]]; [|congruence]. simpl in E.
        destruct (str_ltb a x) eqn:L.
        * apply option_map_Some in E. destruct E as (r & E & ->). rewrite In_keys_dset.
          rewrite (wf_row _ W a r E b). apply str_ltb_spec in L. destruct L as [L _].
          split; [intros [->|H]; tauto|]. intros [[H|[H|[]]] H2]; [right; auto|left; auto].
        * rewrite (wf_row _ W a row E b). split; [tauto|]. intros [[H|[H|[]]] H2]; auto. subst b.
          exfalso. assert (str_ltb a x = true) by (apply str_ltb_spec; auto). congruence.
    - intros a b t v E. rewrite SG in E.
      destruct ((eqb a x && mem b (ids m ++ [x]) || eqb b x && mem a (ids m ++ [x])) && str_leb a b).
      + destruct (eqb a b); inversion E; auto.
      + eapply wf_val; eauto. }
  assert (St : forall t p q, stored D2 t p q <-> stored (cdict m) t p q \/ (t = MUST_LINK /\ p = x /\ q = x)).
  { intros t p q. unfold stored. setoid_rewrite SG.
    destruct (eqb_spec p x) as [->|Np]; simpl; [|destruct (eqb_spec q x) as [->|Nq]; simpl].
    - assert (E0 : forall q, sget (cdict m) x q = None).
      { intro. unfold sget. assert (E0 : dget x (cdict m) = None) by (apply dget_None; auto). rewrite E0; auto. }
      destruct (eqb_spec q x) as [->|Nq]; simpl.
      + assert (E1 : mem x (ids m ++ [x]) = true) by (apply mem_In; rewrite in_app_iff; simpl; auto).
        rewrite E1, str_leb_refl, eqb_refl. simpl. split.
        * intros [v E]; inversion E; auto.
        * intros [[v E]|(-> & _)]; [rewrite E0 in E; discriminate|eauto].
      + rewrite orb_false_r. destruct (mem q (ids m ++ [x]) && str_leb x q).
        * destruct (eqb_spec x q); [congruence|]. split.
          -- intros [v E]; discriminate.
          -- intros [[v E]|(_ & _ & ?)]; [rewrite E0 in E; discriminate|congruence].
        * split; [auto|]. intros [H|(_ & _ & ?)]; [auto|congruence].
    - assert (E0 : sget (cdict m) p x = None).
      { destruct (sget (cdict m) p x) eqn:E; auto. destruct (sget_keys _ _ _ _ W E) as (_ & H & _). tauto. }
      rewrite E0. destruct (mem p (ids m ++ [x]) && str_leb p x).
      + destruct (eqb_spec p x); [tauto|]. split.
        * intros [v E]; discriminate.
        * intros [[v E]|(_ & ? & _)]; [discriminate|tauto].
      + split; [intros [v E]; discriminate|]. intros [[v E]|(_ & ? & _)]; [discriminate|tauto].
    - split; [auto|]. intros [H|(_ & ? & _)]; [auto|tauto]. }
  exists (mkMgr D2 (dset x (fresh_trans x) (ctrans m))).
  split; [|split; [|split]].
  - unfold add_data_ID, bind at 1, in_dict, gets at 1. rewrite Ex0.
    unfold bind at 1. cbn [require negb]. unfold ret at 1. unfold bind at 1, modify at 1.
    fold D1. unfold bind at 1, gets at 1. cbn [cdict]. unfold bind at 1.
    match goal with |- match ?X with _ => _ end = _ =>
      replace X with (mkMgr D2 (ctrans m), @Ok unit tt) by (symmetry; exact Run) end.
    unfold bind at 1, modify. reflexivity.
  - split; [exact W2|]. cbn [cdict ctrans].
    assert (KT : keys (dset x (fresh_trans x) (ctrans m)) = ids m ++ [x]).
    { rewrite keys_dset_out; [|rewrite K; auto]. rewrite K; auto. }
    split; [congruence|].
    assert (LK : forall a b, linked (stored D2 MUST_LINK) a b <-> linked (sml m) a b).
    { intros a b. rewrite <- (linked_self (sml m) x a b). apply linked_equiv.
      intros p q. rewrite St. unfold plus. tauto. }
    assert (SP : forall a b, separated (stored D2 MUST_LINK) (stored D2 CANNOT_LINK) a b <-> separated (sml m) (scl m) a b).
    { intros a b. unfold separated.
      split; intros (p & q & A & B & C); exists p, q; rewrite ?LK in *; (split; [auto|split; [auto|]]).
      - rewrite !St in C. destruct C as [[C|(C & _)]|[C|(C & _)]]; auto; discriminate.
      - rewrite !St. tauto. }
    assert (Lx : forall b, linked (sml m) x b -> b = x).
    { intros b L. apply linked_sym in L. revert Ex. generalize dependent x. intros; clear - L R K Ex.
      remember x as y. induction L as [|u v w _ IH S]; auto.
      exfalso. subst w. destruct S as [S|S]; apply (rep_must _ _ _ R) in S; rewrite K in S; tauto. }
    assert (Sx : forall b, ~ separated (sml m) (scl m) x b).
    { intros b S. apply separated_sym in S. apply (rep_separated_keys R) in S. rewrite K in S. tauto. }
    constructor.
    + rewrite KT, <- K2. apply (wf_nodup _ W2).
    + rewrite KT. intros a b H. apply (stored_keys _ _ _ _ W2) in H. rewrite K2 in H. tauto.
    + rewrite KT. intros a b H. apply (stored_keys _ _ _ _ W2) in H. rewrite K2 in H. tauto.
    + intros a H. apply SP in H. apply (rep_cons _ _ _ R a H).
    + intros a t E. rewrite dget_dset in E. destruct (eqb_spec a x); subst.
      * inversion E; subst. simpl. constructor; [simpl; tauto|constructor].
      * eapply rep_ml_nodup; eauto.
    + intros a t E. rewrite dget_dset in E. destruct (eqb_spec a x); subst.
      * inversion E; subst. simpl. constructor.
      * eapply rep_cl_nodup; eauto.
    + intros a t E b. rewrite LK. rewrite dget_dset in E. destruct (eqb_spec a x); subst.
      * inversion E; subst. simpl. split; [intros [->|[]]; apply linked_refl|]. intro L. apply Lx in L. auto.
      * apply (rep_ml _ _ _ R a t E).
    + intros a t E b. rewrite SP. rewrite dget_dset in E. destruct (eqb_spec a x); subst.
      * inversion E; subst. simpl. split; [tauto|]. intro S. eapply Sx; eauto.
      * apply (rep_cl _ _ _ R a t E).
    + intros a b ta tb Ea Eb I. rewrite dget_dset in Ea, Eb.
      destruct (eqb_spec a x) as [->|Na].
      * inversion Ea; subst. simpl in I. destruct I as [<-|[]]. rewrite eqb_refl in Eb. congruence.
      * destruct (eqb_spec b x) as [->|Nb].
        -- exfalso. apply (rep_ml _ _ _ R a ta Ea) in I. apply linked_sym, Lx in I. congruence.
        -- eapply (rep_share _ _ _ R a b); eauto.
  - exact K2.
  - exact SG.
Qed.
