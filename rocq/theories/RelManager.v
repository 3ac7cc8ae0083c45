(** * Managers with other names, names in the same order: related calls give related answers
    and related states. *)

From Coq Require Import String List Bool Arith ZArith QArith Lia.
From Verif Require Import Base Manager Sampling Rename KMeans Rel NamesSpec.
Import ListNotations.
Open Scope nat_scope.
Open Scope py_scope.

(** [R] respects the order of strings, hence equality. *)
Definition same_order (R : pystr -> pystr -> Prop) : Prop := forall x x' y y', R x x' -> R y y' -> str_leb x y = str_leb x' y'.
Existing Class same_order.

Section Managers.
  Variable R : pystr -> pystr -> Prop.
  Context {SO : same_order R}.

  #[local] Instance R_eqb : RelEq R.
  Proof.
    intros x y x' y' E F. apply eq_true_iff_eq. rewrite !eqb_eq. split; intros ->.
    - apply str_leb_antisym; [rewrite <- (SO y x' y y')|rewrite <- (SO y y' y x')]; auto using str_leb_refl.
    - apply str_leb_antisym; [rewrite (SO x y' y y')|rewrite (SO y y' x y')]; auto using str_leb_refl.
  Qed.
  Lemma R_ltb x x' y y' : R x x' -> R y y' -> str_ltb x y = str_ltb x' y'.
  Proof. intros E F. unfold str_ltb. rewrite (SO x x' y y'), (releq x y x' y') by auto. auto. Qed.

  Inductive RT : trans -> trans -> Prop := RT_mk : forall a a' b b', RL R a a' -> RL R b b' -> RT (mkTrans a b) (mkTrans a' b').
  Inductive RMgr : mgr -> mgr -> Prop := RMgr_mk : forall c c' t t', RD R (RD R eq) c c' -> RD R RT t t' -> RMgr (mkMgr c t) (mkMgr c' t').

  Lemma RT_ml t t' : RT t t' -> RL R (t_ml t) (t_ml t').
  Proof. intros []; auto. Qed.
  Lemma RT_cl t t' : RT t t' -> RL R (t_cl t) (t_cl t').
  Proof. intros []; auto. Qed.
  Lemma RMgr_c m m' : RMgr m m' -> RD R (RD R eq) (cdict m) (cdict m').
  Proof. intros []; auto. Qed.
  Lemma RMgr_t m m' : RMgr m m' -> RD R RT (ctrans m) (ctrans m').
  Proof. intros []; auto. Qed.
  Lemma fresh_rel x x' : R x x' -> RT (fresh_trans x) (fresh_trans x').
  Proof. intro E. constructor; auto. Qed.

  Lemma init_rel l l' : RL R l l' -> RMgr (init l) (init l').
  Proof.
    intro F. constructor.
    - apply dcomp_rel; auto; try typeclasses eauto. intros x x' E. apply dcomp_rel; try typeclasses eauto.
      + intros y y' E'. rewrite (releq x y x' y') by auto. auto.
      + eapply RL_filter; eauto.
    - apply dcomp_rel; auto; try typeclasses eauto. apply fresh_rel.
  Qed.

  Ltac rel_auto := eauto using RT_ml, RT_cl, RMgr_c, RMgr_t, ounion_rel, keys_rel, dset_rel, dpop_rel, dlookup_rel, fresh_rel, R_eqb.

  Lemma set_constraint_rel a a' b b' v : R a a' -> R b b' -> RM RMgr eq (set_constraint a b v) (set_constraint a' b' v).
  Proof.
    intros Ea Eb. unfold set_constraint. eapply bind_rel with (R := RR (RD R eq)).
    - apply gets_rel. intros s s' Hs. apply (dlookup_rel R); rel_auto.
    - intros r r' Er. eapply bind_rel; [apply lift_rel; eauto|]. intros d d' Ed. apply modify_rel. intros s s' [].
      constructor; auto. cbn. apply dset_rel; auto using R_eqb. apply dset_rel; auto using R_eqb.
  Qed.
  Lemma get_constraint_rel a a' b b' : R a a' -> R b b' -> RM RMgr eq (get_constraint a b) (get_constraint a' b').
  Proof.
    intros Ea Eb. unfold get_constraint. eapply bind_rel with (R := RR (RD R eq)).
    - apply gets_rel. intros s s' Hs. apply (dlookup_rel R); rel_auto.
    - intros r r' Er. eapply bind_rel; [apply lift_rel; eauto|]. intros d d' Ed. apply lift_rel. apply (dlookup_rel R); auto using R_eqb.
  Qed.
  Lemma get_trans_rel a a' : R a a' -> RM RMgr RT (get_trans a) (get_trans a').
  Proof.
    intros Ea. unfold get_trans. eapply bind_rel with (R := RR RT).
    - apply gets_rel. intros s s' Hs. apply (dlookup_rel R); rel_auto.
    - intros r r' Er. apply lift_rel; auto.
  Qed.
  Lemma set_ml_rel a a' l l' : R a a' -> RL R l l' -> RM RMgr eq (set_ml a l) (set_ml a' l').
  Proof.
    intros Ea El. unfold set_ml. eapply bind_rel; [apply get_trans_rel; eauto|]. intros t t' Et. apply modify_rel.
    intros s s' []. constructor; auto. cbn. apply dset_rel; auto using R_eqb. constructor; auto. apply RT_cl; auto.
  Qed.
  Lemma set_cl_rel a a' l l' : R a a' -> RL R l l' -> RM RMgr eq (set_cl a l) (set_cl a' l').
  Proof.
    intros Ea El. unfold set_cl. eapply bind_rel; [apply get_trans_rel; eauto|]. intros t t' Et. apply modify_rel.
    intros s s' []. constructor; auto. cbn. apply dset_rel; auto using R_eqb. constructor; auto. apply RT_ml; auto.
  Qed.
  Lemma in_dict_rel a a' : R a a' -> RM RMgr eq (in_dict a) (in_dict a').
  Proof. intro E. apply gets_rel. intros s s' Hs. apply (mem_rel R); rel_auto. Qed.
  Lemma in_trans_rel a a' : R a a' -> RM RMgr eq (in_trans a) (in_trans a').
  Proof. intro E. apply gets_rel. intros s s' Hs. apply (mem_rel R); rel_auto. Qed.
  Lemma ids_rel : RM RMgr (RL R) get_list_of_managed_data_IDs get_list_of_managed_data_IDs.
  Proof. apply gets_rel. intros s s' Hs. rel_auto. Qed.
  Lemma bool_true_rel : RM RMgr eq (ret true) (ret true).
  Proof. apply ret_rel; auto. Qed.

  Lemma add_transitivity_rel a a' b b' t : R a a' -> R b b' -> RM RMgr eq (add_constraint_transitivity a b t) (add_constraint_transitivity a' b' t).
  Proof.
    intros Ea Eb. unfold add_constraint_transitivity. eapply bind_rel; [|intros; apply bool_true_rel]. destruct (eqb t MUST_LINK).
    - eapply bind_rel; [apply get_trans_rel; eauto|]. intros t1 t1' E1. eapply bind_rel; [apply get_trans_rel; eauto|]. intros t2 t2' E2. cbv zeta.
      assert (U := ounion_rel R _ _ _ _ (RT_ml _ _ E1) (RT_ml _ _ E2)). assert (V := ounion_rel R _ _ _ _ (RT_cl _ _ E1) (RT_cl _ _ E2)).
      eapply bind_rel.
      + eapply for_rel; [|exact U]. intros x x' Ex. eapply bind_rel; [apply set_ml_rel; eauto|]. intros. apply set_cl_rel; auto.
      + intros _ _ _. eapply for_rel; [|exact V]. intros x x' Ex. eapply bind_rel; [apply get_trans_rel; eauto|]. intros t3 t3' E3.
        apply set_cl_rel; auto. apply ounion_rel; auto using R_eqb. apply RT_cl; auto.
    - eapply bind_rel; [apply get_trans_rel; eauto|]. intros t1 t1' E1. eapply bind_rel; [apply get_trans_rel; eauto|]. intros t2 t2' E2. cbv zeta.
      assert (U := ounion_rel R _ _ _ _ (RT_cl _ _ E1) (RT_ml _ _ E2)). assert (V := ounion_rel R _ _ _ _ (RT_cl _ _ E2) (RT_ml _ _ E1)).
      eapply bind_rel; [apply get_trans_rel; eauto|]. intros t3 t3' E3. eapply bind_rel.
      + eapply for_rel; [|apply RT_ml; eauto]. intros x x' Ex. apply set_cl_rel; auto.
      + intros _ _ _. eapply bind_rel; [apply get_trans_rel; eauto|]. intros t4 t4' E4.
        eapply for_rel; [|apply RT_ml; eauto]. intros x x' Ex. apply set_cl_rel; auto.
  Qed.

  Lemma generate_rel : RM RMgr eq generate_constraints_transitivity generate_constraints_transitivity.
  Proof.
    unfold generate_constraints_transitivity. eapply bind_rel.
    - apply modify_rel. intros s s' []. constructor; auto. cbn. apply dcomp_rel; rel_auto.
    - intros _ _ _. eapply bind_rel; [apply ids_rel|]. intros l l' El. eapply for_rel; [|exact El]. intros x x' Ex.
      eapply bind_rel with (R := RR (RD R eq)).
      + apply gets_rel. intros s s' Hs. apply (dlookup_rel R); rel_auto.
      + intros r r' Er. eapply bind_rel; [apply lift_rel; eauto|]. intros d d' Ed. eapply for_rel; [|eapply keys_rel; eauto].
        intros y y' Ey. eapply bind_rel; [apply get_constraint_rel; eauto|]. intros [c|] ? <-; [|apply ret_rel; auto].
        eapply bind_rel; [apply add_transitivity_rel; eauto|]. intros. apply ret_rel. auto.
  Qed.

  Lemma add_data_ID_rel x x' : R x x' -> RM RMgr eq (add_data_ID x) (add_data_ID x').
  Proof.
    intro E. unfold add_data_ID. eapply bind_rel; [apply in_dict_rel; eauto|]. intros k ? <-.
    eapply bind_rel; [apply require_rel; auto|]. intros _ _ _. eapply bind_rel.
    { apply modify_rel. intros s s' []. constructor; auto. cbn. apply dset_rel; rel_auto. }
    intros _ _ _. eapply bind_rel; [apply ids_rel|]. intros l l' El. eapply bind_rel.
    { eapply for_rel; [|exact El]. intros y y' Ey. rewrite (releq x y x' y'), (R_ltb x x' y y') by auto.
      destruct (eqb x' y'); [apply set_constraint_rel; auto|]. destruct (str_ltb x' y'); apply set_constraint_rel; auto. }
    intros _ _ _. eapply bind_rel; [|intros; apply bool_true_rel]. apply modify_rel. intros s s' []. constructor; auto. cbn. apply dset_rel; rel_auto.
  Qed.

  Lemma delete_data_ID_rel x x' : R x x' -> RM RMgr eq (delete_data_ID x) (delete_data_ID x').
  Proof.
    intro E. unfold delete_data_ID. eapply bind_rel; [apply in_dict_rel; eauto|]. intros k ? <-.
    eapply bind_rel; [apply require_rel; auto|]. intros _ _ _. eapply bind_rel.
    { apply modify_rel. intros s s' []. constructor; auto. cbn. apply dpop_rel; rel_auto. }
    intros _ _ _. eapply bind_rel; [apply ids_rel|]. intros l l' El. eapply bind_rel.
    { eapply for_rel; [|exact El]. intros y y' Ey. eapply bind_rel with (R := RR (RD R eq)).
      - apply gets_rel. intros s s' Hs. apply (dlookup_rel R); rel_auto.
      - intros r r' Er. eapply bind_rel; [apply lift_rel; eauto|]. intros d d' Ed. apply modify_rel. intros s s' []. constructor; auto. cbn.
        apply dset_rel; rel_auto. }
    intros _ _ _. eapply bind_rel; [apply generate_rel|]. intros. apply bool_true_rel.
  Qed.

  Lemma get_inferred_rel a a' b b' : R a a' -> R b b' -> RM RMgr eq (get_inferred_constraint a b) (get_inferred_constraint a' b').
  Proof.
    intros Ea Eb. unfold get_inferred_constraint. eapply bind_rel; [apply in_trans_rel; eauto|]. intros k ? <-. eapply bind_rel; [apply require_rel; auto|]. intros _ _ _.
    eapply bind_rel; [apply in_trans_rel; eauto|]. intros k2 ? <-. eapply bind_rel; [apply require_rel; auto|]. intros _ _ _.
    eapply bind_rel; [apply get_trans_rel; eauto|]. intros t t' Et. rewrite (mem_rel R a a' (t_ml t) (t_ml t')) by rel_auto. destruct (mem a' (t_ml t')); [apply ret_rel; auto|].
    eapply bind_rel; [apply get_trans_rel; eauto|]. intros t2 t2' Et2. rewrite (mem_rel R a a' (t_cl t2) (t_cl t2')) by rel_auto. destruct (mem a' (t_cl t2')); apply ret_rel; auto.
  Qed.
  Lemma get_added_rel a a' b b' : R a a' -> R b b' -> RM RMgr eq (get_added_constraint a b) (get_added_constraint a' b').
  Proof.
    intros Ea Eb. unfold get_added_constraint. eapply bind_rel; [apply in_dict_rel; eauto|]. intros k ? <-. eapply bind_rel; [apply require_rel; auto|]. intros _ _ _.
    eapply bind_rel; [apply in_dict_rel; eauto|]. intros k2 ? <-. eapply bind_rel; [apply require_rel; auto|]. intros _ _ _.
    rewrite (SO a a' b b') by auto. destruct (str_leb a' b'); apply get_constraint_rel; auto.
  Qed.
  Lemma add_constraint_rel a a' b b' t v : R a a' -> R b b' -> RM RMgr eq (add_constraint a b t v) (add_constraint a' b' t v).
  Proof.
    intros Ea Eb. unfold add_constraint. eapply bind_rel; [apply in_dict_rel; eauto|]. intros k ? <-. eapply bind_rel; [apply require_rel; auto|]. intros _ _ _.
    eapply bind_rel; [apply in_dict_rel; eauto|]. intros k2 ? <-. eapply bind_rel; [apply require_rel; auto|]. intros _ _ _.
    eapply bind_rel; [apply require_rel; auto|]. intros _ _ _. eapply bind_rel; [apply get_inferred_rel; eauto|]. intros i ? <-.
    eapply bind_rel with (R := eq); [destruct i; [apply require_rel; auto|apply ret_rel; auto]|]. intros _ _ _.
    eapply bind_rel; [apply get_added_rel; eauto|]. intros [c|] ? <-; [apply bool_true_rel|].
    eapply bind_rel with (R := eq); [rewrite (SO a a' b b') by auto; destruct (str_leb a' b'); apply set_constraint_rel; auto|]. intros _ _ _.
    eapply bind_rel; [apply add_transitivity_rel; eauto|]. intros. apply bool_true_rel.
  Qed.
  Lemma delete_constraint_rel a a' b b' : R a a' -> R b b' -> RM RMgr eq (delete_constraint a b) (delete_constraint a' b').
  Proof.
    intros Ea Eb. unfold delete_constraint. eapply bind_rel; [apply in_dict_rel; eauto|]. intros k ? <-. eapply bind_rel; [apply require_rel; auto|]. intros _ _ _.
    eapply bind_rel; [apply in_dict_rel; eauto|]. intros k2 ? <-. eapply bind_rel; [apply require_rel; auto|]. intros _ _ _.
    eapply bind_rel with (R := eq); [rewrite (SO a a' b b') by auto; destruct (str_leb a' b'); apply set_constraint_rel; auto|]. intros _ _ _.
    eapply bind_rel; [apply generate_rel|]. intros. apply bool_true_rel.
  Qed.
  Lemma components_rel : RM RMgr (RL (RL R)) get_connected_components get_connected_components.
  Proof.
    unfold get_connected_components. eapply bind_rel with (R := RR (RL (RL R))); [|intros; apply lift_rel; auto].
    apply gets_rel. intros s s' Hs. assert (T := RMgr_t _ _ Hs). assert (F := keys_rel R RT _ _ T).
    enough (G : forall acc acc', RL (RL R) acc acc' -> RR (RL (RL R)) (collect_components (ctrans s) (keys (ctrans s)) acc) (collect_components (ctrans s') (keys (ctrans s')) acc')) by (apply G; constructor).
    induction F as [|x x' l l' E F IH]; intros acc acc' A; cbn [collect_components]; [constructor; auto|].
    eapply rbind_rel; [apply (dlookup_rel R); [exact E|exact T]|]. intros t t' Et. apply IH.
    rewrite (mem_rel (RL R) (t_ml t) (t_ml t') acc acc') by rel_auto. destruct (mem (t_ml t') acc'); auto. apply RL_app; auto. constructor; auto. apply RT_ml; auto.
  Qed.
  Lemma completude_rel : RM RMgr eq check_completude_of_constraints check_completude_of_constraints.
  Proof.
    unfold check_completude_of_constraints. eapply bind_rel with (R := RR eq); [|intros; apply lift_rel; auto].
    apply gets_rel. intros s s' Hs. assert (T := RMgr_t _ _ Hs). assert (F := keys_rel R RT _ _ T). assert (L := RL_length _ _ _ F).
    enough (G : forall l l', RL R l l' -> RR eq (all_complete (ctrans s) l) (all_complete (ctrans s') l')) by (apply G; auto). clear F.
    induction 1 as [|x x' l l' E F IH]; cbn [all_complete]; [constructor; auto|].
    eapply rbind_rel; [apply (dlookup_rel R); [exact E|exact T]|]. intros t t' Et.
    rewrite (RL_length _ _ _ (RT_ml _ _ Et)), (RL_length _ _ _ (RT_cl _ _ Et)), L. destruct (Nat.eqb _ _); [auto|constructor; auto].
  Qed.
  Lemma conflict_rel a a' b b' t : R a a' -> R b b' ->
    RM RMgr (RO (RL R)) (get_list_of_involved_data_IDs_in_a_constraint_conflict a b t) (get_list_of_involved_data_IDs_in_a_constraint_conflict a' b' t).
  Proof.
    intros Ea Eb. unfold get_list_of_involved_data_IDs_in_a_constraint_conflict.
    eapply bind_rel; [apply in_dict_rel; eauto|]. intros k ? <-. eapply bind_rel; [apply require_rel; auto|]. intros _ _ _.
    eapply bind_rel; [apply in_dict_rel; eauto|]. intros k2 ? <-. eapply bind_rel; [apply require_rel; auto|]. intros _ _ _.
    eapply bind_rel; [apply require_rel; auto|]. intros _ _ _. eapply bind_rel; [apply get_inferred_rel; eauto|]. intros i ? <-.
    destruct (match i with Some t0 => negb (eqb t t0) | None => false end); [|apply ret_rel; constructor].
    eapply bind_rel; [apply components_rel|]. intros l l' El. apply ret_rel. constructor. eapply RL_flat_map; [|exact El].
    intros c c' Ec. rewrite (mem_rel R a a' c c'), (mem_rel R b b' c c') by rel_auto. destruct (mem a' c' || mem b' c'); auto.
  Qed.

  Inductive RV : value -> value -> Prop :=
  | RV_bool b : RV (VBool b) (VBool b)
  | RV_ids l l' : RL R l l' -> RV (VIds l) (VIds l')
  | RV_added c : RV (VAdded c) (VAdded c)
  | RV_inferred c : RV (VInferred c) (VInferred c)
  | RV_components l l' : RL (RL R) l l' -> RV (VComponents l) (VComponents l')
  | RV_conflict o o' : RO (RL R) o o' -> RV (VConflict o) (VConflict o').
  Inductive RC : call -> call -> Prop :=
  | RC_add x x' : R x x' -> RC (CallAddDataID x) (CallAddDataID x')
  | RC_del x x' : R x x' -> RC (CallDeleteDataID x) (CallDeleteDataID x')
  | RC_ids : RC CallManagedIDs CallManagedIDs
  | RC_addc a a' b b' t v : R a a' -> R b b' -> RC (CallAddConstraint a b t v) (CallAddConstraint a' b' t v)
  | RC_delc a a' b b' : R a a' -> R b b' -> RC (CallDeleteConstraint a b) (CallDeleteConstraint a' b')
  | RC_get a a' b b' : R a a' -> R b b' -> RC (CallGetAdded a b) (CallGetAdded a' b')
  | RC_inf a a' b b' : R a a' -> R b b' -> RC (CallGetInferred a b) (CallGetInferred a' b')
  | RC_comp : RC CallComponents CallComponents
  | RC_complete : RC CallCompletude CallCompletude
  | RC_conf a a' b b' t : R a a' -> R b b' -> RC (CallConflict a b t) (CallConflict a' b' t).

  Lemma exec_rel c c' : RC c c' -> RM RMgr RV (exec c) (exec c').
  Proof.
    intros []; cbn [exec]; eapply bind_rel;
      try (apply add_data_ID_rel || apply delete_data_ID_rel || apply ids_rel || apply add_constraint_rel || apply delete_constraint_rel || apply get_added_rel
           || apply get_inferred_rel || apply components_rel || apply completude_rel || apply conflict_rel); auto;
      intros; apply ret_rel; subst; constructor; auto.
  Qed.
End Managers.
