(** * Proofs of the manager properties (C01-C14, C19-C21). *)

From Coq Require Import List Bool Arith NArith QArith Lia Permutation.
From Verif Require Import Base Manager Spec Closure ManagerProofs ManagerInv ManagerQueries ManagerSem.
Import ListNotations.
Open Scope nat_scope.
Open Scope py_scope.

(*HEADER
From Coq Require Import String List Bool QArith Permutation.
From Verif Require Import Base Manager Spec ManagerThms.
Import ListNotations.
Open Scope nat_scope.

(** Running example: a must-link b, b cannot-link c, d unconstrained. *)
Definition a : pystr := str "a".
Definition b : pystr := str "b".
Definition c : pystr := str "c".
Definition d : pystr := str "d".
Definition ex_history : list call :=
  [CallAddConstraint a b MUST_LINK 1%Q; CallAddConstraint c b CANNOT_LINK 1%Q].
Definition ex : mgr := run ex_history (init [a; b; c; d]).
Lemma ex_reachable : reachable ex.
Proof. apply run_reachable. Qed.

HEADER*)

Lemma run_reachable_from l : forall m, reachable m -> reachable (run l m).
Proof.
  induction l as [|c l IH]; intros m R; simpl; auto. apply IH. apply reach_call; auto.
Qed.

Lemma run_reachable ids l : reachable (run l (init ids)).
Proof. apply run_reachable_from. apply reach_init. Qed.

Lemma inferred_spec m a b t : Inv m -> In a (ids m) -> In b (ids m) -> inferred m a b t <-> infer m a b = t.
Proof.
  intros I Ia Ib. unfold inferred, ask. rewrite run_inferred by auto.
  assert (B : both m a b = true) by (apply both_true; auto). rewrite B. simpl.
  split; intro H; [inversion H; auto|subst; auto].
Qed.

(** ** C01 *)
(*PROP C01: get_inferred_constraint is exactly the closure of the added constraints, in every reachable manager. *)
Lemma C01_inferred_is_closure_proof :
  forall m, reachable m -> forall a b, managed m a -> managed m b ->
    (inferred m a b (Some MUST_LINK) <-> linked (added_must m) a b) /\
    (inferred m a b (Some CANNOT_LINK) <-> separated (added_must m) (added_cannot m) a b) /\
    (inferred m a b None <-> ~ linked (added_must m) a b /\ ~ separated (added_must m) (added_cannot m) a b) /\
    (forall t, inferred m a b t -> t = Some MUST_LINK \/ t = Some CANNOT_LINK \/ t = None).
Proof.
  intros m R a b Ma Mb. apply reachable_inv in R. apply managed_ids in Ma. apply managed_ids in Mb.
  rewrite !inferred_spec, !added_linked, !added_separated by auto.
  split; [apply infer_ML; auto|]. split; [apply infer_CL; auto|]. split; [apply infer_None; auto|].
  intros t H. apply inferred_spec in H; auto. subst t. apply infer_cases.
Qed.

(*EX
Example C01_ex1 : inferred ex a c (Some CANNOT_LINK) /\ ~ added ex CANNOT_LINK a c.
Proof.
  split; [vm_compute; reflexivity|]. intros [v E]. vm_compute in E. discriminate.
Qed.
Example C01_ex2 : inferred ex a d None /\ managed ex a /\ managed ex d.
Proof.
  split; [vm_compute; reflexivity|].
  split; eexists; (split; [vm_compute; reflexivity|simpl; tauto]).
Qed.
EX*)

(** ** C02 *)
(*PROP C02: inference is sound and complete for entailment over all labellings. *)
Lemma C02_inference_is_entailment_proof :
  forall m, reachable m -> forall a b, managed m a -> managed m b ->
    (inferred m a b (Some MUST_LINK) <->
       forall label, satisfies (added_must m) (added_cannot m) label -> label a = label b) /\
    (inferred m a b (Some CANNOT_LINK) <->
       forall label, satisfies (added_must m) (added_cannot m) label -> label a <> label b) /\
    (inferred m a b None <->
       (exists label, satisfies (added_must m) (added_cannot m) label /\ label a = label b) /\
       (exists label, satisfies (added_must m) (added_cannot m) label /\ label a <> label b)).
Proof.
  intros m R a b Ma Mb. apply reachable_inv in R. apply managed_ids in Ma. apply managed_ids in Mb.
  rewrite !inferred_spec by auto.
  assert (SatEq : ~ separated (sml m) (scl m) a b ->
     exists label, satisfies (added_must m) (added_cannot m) label /\ label a = label b).
  { intro NS. exists (merged_label m a b). split; [apply merged_label_satisfies; auto|apply merged_label_same]. }
  assert (SatNe : ~ linked (sml m) a b ->
     exists label, satisfies (added_must m) (added_cannot m) label /\ label a <> label b).
  { intro NL. exists (comp_label m). split; [apply comp_label_satisfies; auto|].
    intro E. apply NL. apply comp_label_eq; auto. }
  assert (H := infer_cases m a b).
  assert (HML := infer_ML m a b R Ma Mb). assert (HCL := infer_CL m a b R Ma Mb). assert (HN := infer_None m a b R Ma Mb).
  repeat split.
  - intros E label S. eapply sat_linked; eauto. apply HML; auto.
  - intro E. destruct H as [H|[H|H]]; auto; exfalso.
    + apply (sat_separated m (comp_label m) a b R (comp_label_satisfies m R)); [apply HCL; auto|].
      apply E. apply comp_label_satisfies; auto.
    + apply HN in H. destruct H as [H _]. destruct (SatNe H) as (l & S & N). auto.
  - intros E label S. eapply sat_separated; eauto. apply HCL; auto.
  - intro E. destruct H as [H|[H|H]]; auto; exfalso.
    + apply (E (comp_label m)); [apply comp_label_satisfies; auto|]. apply comp_label_eq; auto. apply HML; auto.
    + apply HN in H. destruct H as [_ H]. destruct (SatEq H) as (l & S & N). apply (E l); auto.
  - apply HN in H0. tauto.
  - apply HN in H0. tauto.
  - intros [(l1 & S1 & E1) (l2 & S2 & E2)]. destruct H as [H|[H|H]]; auto; exfalso.
    + apply E2. eapply sat_linked; eauto. apply HML; auto.
    + eapply (sat_separated m l1 a b); eauto. apply HCL; auto.
Qed.

(*EX
(** a and d may or may not be together, a and c may not. *)
Example C02_ex : inferred ex a d None /\ inferred ex a c (Some CANNOT_LINK) /\ inferred ex b a (Some MUST_LINK)
  /\ satisfiable (added_must ex) (added_cannot ex).
Proof.
  split; [reflexivity|]. split; [reflexivity|]. split; [reflexivity|].
  apply C03_always_satisfiable_proof. apply ex_reachable.
Qed.
EX*)

(** ** C03 *)
(*PROP C03: the added constraints are always satisfiable; nothing is inferred both ways; an ID is always MUST_LINKed with itself. *)
Lemma C03_always_satisfiable_proof :
  forall m, reachable m ->
    satisfiable (added_must m) (added_cannot m) /\
    (forall a b, ~ (linked (added_must m) a b /\ separated (added_must m) (added_cannot m) a b)) /\
    (forall x, managed m x -> inferred m x x (Some MUST_LINK)).
Proof.
  intros m R. apply reachable_inv in R. split; [apply inv_satisfiable; auto|]. split.
  - intros a b [L S]. eapply satisfiable_consistent; eauto. apply inv_satisfiable; auto.
  - intros x Mx. apply managed_ids in Mx. apply inferred_spec; auto. apply infer_ML; auto. apply linked_refl.
Qed.

(*EX
Example C03_ex : let m := fst (exec (CallDeleteConstraint a a) ex) in
  ~ added m MUST_LINK a a /\ inferred m a a (Some MUST_LINK).
Proof. split; [intros [v E]; vm_compute in E; discriminate|vm_compute; reflexivity]. Qed.
EX*)

(** ** C04 *)
(*PROP C04: add_constraint accepts a constraint iff some labelling satisfies it together with the added ones. *)
Lemma C04_add_constraint_exact_proof :
  forall m, reachable m -> forall a b t v,
    (managed m a -> managed m b -> allowed t ->
       (ask (add_constraint a b t v) m = Ok true <-> satisfiable (must_with m t a b) (cannot_with m t a b)) /\
       (ask (add_constraint a b t v) m = Raise ValueError <-> ~ satisfiable (must_with m t a b) (cannot_with m t a b))) /\
    (~ managed m a \/ ~ managed m b \/ ~ allowed t -> ask (add_constraint a b t v) m = Raise ValueError).
Proof.
  intros m R a b t v. apply reachable_inv in R. rewrite !managed_ids. unfold ask. split.
  - intros Ma Mb T. rewrite <- (accepts_satisfiable m a b t) by auto.
    destruct (accepts m a b t) eqn:A.
    + destruct (run_add_constraint m a b t v R A) as (m' & -> & _). simpl. split; split; congruence.
    + rewrite run_add_constraint_raise by auto. simpl. split; split; congruence.
  - intro H. rewrite run_add_constraint_raise; auto. unfold accepts, both.
    destruct H as [H|[H|H]].
    + apply mem_nIn in H. rewrite H. auto.
    + apply mem_nIn in H. rewrite H, andb_false_r. auto.
    + assert (E : mem t allowed_types = false).
      { destruct (mem t allowed_types) eqn:E; auto. exfalso. apply H. apply allowed_spec; auto. }
      rewrite E, andb_false_r. auto.
Qed.

(*EX
Example C04_ex : ask (add_constraint a c MUST_LINK 1%Q) ex = Raise ValueError
              /\ ask (add_constraint a d MUST_LINK 1%Q) ex = Ok true
              /\ ask (add_constraint a (str "zz") MUST_LINK 1%Q) ex = Raise ValueError.
Proof. repeat split. Qed.
EX*)

(** ** C05, C06 *)
Lemma exec_result m c : Inv m ->
  (exists v, snd (exec c m) = Ok v) \/ (fst (exec c m) = m /\ snd (exec c m) = Raise ValueError).
Proof.
  intro I. destruct c; simpl; unfold bind.
  - assert (H := run_add_data_ID m x I). destruct (mem x (ids m)).
    + rewrite H; auto.
    + destruct H as (m' & -> & I' & _). left; eexists; reflexivity.
  - assert (H := run_delete_data_ID m x I). destruct (mem x (ids m)).
    + destruct H as (m' & -> & I' & _). left; eexists; reflexivity.
    + rewrite H; auto.
  - left; eexists; reflexivity.
  - destruct (accepts m a b t) eqn:A.
    + destruct (run_add_constraint m a b t v I A) as (m' & -> & I' & _). left; eexists; reflexivity.
    + rewrite run_add_constraint_raise; auto.
  - assert (H := run_delete_constraint m a b I). destruct (both m a b).
    + destruct H as (m' & -> & I' & _). left; eexists; reflexivity.
    + rewrite H; auto.
  - rewrite run_added by auto. destruct (both m a b); simpl; eauto.
  - rewrite run_inferred by auto. destruct (both m a b); simpl; eauto.
  - rewrite run_components by auto. simpl; eauto.
  - destruct (run_completude m I) as (b & -> & _). simpl; eauto.
  - rewrite run_conflict by auto. destruct (both m a b && mem t allowed_types); simpl; eauto.
Qed.

(*PROP C05: a call that raises leaves the manager (the whole object state) unchanged. *)
Lemma C05_failed_calls_change_nothing_proof :
  forall m, reachable m -> forall c e, snd (exec c m) = Raise e -> fst (exec c m) = m.
Proof.
  intros m R c e E. apply reachable_inv in R. destruct (exec_result m c R) as [[v H]|[H _]]; auto. congruence.
Qed.

(*EX
Example C05_ex : snd (exec (CallAddConstraint a c MUST_LINK 1%Q) ex) = Raise ValueError.
Proof. reflexivity. Qed.
EX*)

Lemma not_both m a b : both m a b = false <-> ~ managed m a \/ ~ managed m b.
Proof.
  rewrite !managed_ids. unfold both. rewrite andb_false_iff, !mem_nIn. tauto.
Qed.

(*PROP C06: the only exception ever raised is ValueError, and exactly in the documented cases; modifying calls return True. *)
Lemma C06_only_documented_errors_proof :
  forall m, reachable m -> forall c,
    (forall e, snd (exec c m) = Raise e -> e = ValueError) /\
    (snd (exec c m) = Raise ValueError <-> documented_error m c) /\
    (forall v, snd (exec c m) = Ok v ->
       match c with
       | CallAddDataID _ | CallDeleteDataID _ | CallAddConstraint _ _ _ _ | CallDeleteConstraint _ _ => v = VBool true
       | _ => True
       end).
Proof.
  intros m R c. apply reachable_inv in R. split; [|split].
  - intros e E. destruct (exec_result m c R) as [[v H]|[_ H]]; congruence.
  - destruct c; simpl; unfold bind.
    + rewrite managed_ids. assert (H := run_add_data_ID m x R). destruct (mem x (ids m)) eqn:E.
      * rewrite H. apply mem_In in E. simpl. tauto.
      * destruct H as (m' & -> & _). apply mem_nIn in E. simpl. split; [discriminate|tauto].
    + rewrite managed_ids. assert (H := run_delete_data_ID m x R). destruct (mem x (ids m)) eqn:E.
      * destruct H as (m' & -> & _). apply mem_In in E. simpl. split; [discriminate|tauto].
      * rewrite H. apply mem_nIn in E. simpl. tauto.
    + split; [discriminate|tauto].
    + destruct (accepts m a b t) eqn:A.
      * destruct (run_add_constraint m a b t v R A) as (m' & -> & _). simpl. split; [discriminate|].
        unfold accepts in A. rewrite !andb_true_iff in A. destruct A as [[B T] Inf].
        rewrite !managed_ids. apply both_true in B. apply allowed_spec in T.
        intros [H|[H|[H|(u & H & N)]]]; try (unfold allowed in H; tauto).
        apply inferred_spec in H; try tauto. rewrite H in Inf. apply eqb_eq in Inf. congruence.
      * rewrite run_add_constraint_raise by auto. simpl. split; auto. intros _.
        unfold accepts in A. destruct (both m a b) eqn:B.
        2:{ apply not_both in B. tauto. }
        destruct (mem t allowed_types) eqn:T.
        2:{ right; right; left. intro H. apply allowed_spec in H. congruence. }
        right; right; right. simpl in A. apply both_true in B.
        destruct (infer m a b) as [u|] eqn:E; [|discriminate]. exists u. split.
        -- apply inferred_spec; tauto.
        -- apply eqb_neq; auto.
    + rewrite <- not_both. assert (H := run_delete_constraint m a b R). destruct (both m a b).
      * destruct H as (m' & -> & _). simpl. split; discriminate.
      * rewrite H. simpl. tauto.
    + rewrite <- not_both, run_added by auto. destruct (both m a b); simpl; split; congruence.
    + rewrite <- not_both, run_inferred by auto. destruct (both m a b); simpl; split; congruence.
    + rewrite run_components by auto. simpl. split; [discriminate|tauto].
    + destruct (run_completude m R) as (b & -> & _). simpl. split; [discriminate|tauto].
    + rewrite run_conflict by auto. assert (NB := not_both m a b). destruct (both m a b); cbn [andb].
      * destruct (mem t allowed_types) eqn:T; simpl.
        -- apply allowed_spec in T. split; [intro Q; discriminate Q|]. unfold allowed.
           destruct NB as [_ NB]. intros [H|[H|H]]; [| |tauto]; exfalso; assert (X : true = false) by (apply NB; auto); discriminate X.
        -- split; auto. intros _. right; right. intro H. apply allowed_spec in H. congruence.
      * split; auto. intros _. destruct NB as [NB _]. specialize (NB eq_refl). tauto.
  - destruct c; auto; simpl; unfold bind; intros w.
    + assert (H := run_add_data_ID m x R). destruct (mem x (ids m)).
      * rewrite H. discriminate.
      * destruct H as (m' & -> & _). simpl. congruence.
    + assert (H := run_delete_data_ID m x R). destruct (mem x (ids m)).
      * destruct H as (m' & -> & _). simpl. congruence.
      * rewrite H. discriminate.
    + destruct (accepts m a b t) eqn:A.
      * destruct (run_add_constraint m a b t v R A) as (m' & -> & _). simpl. congruence.
      * rewrite run_add_constraint_raise by auto. discriminate.
    + assert (H := run_delete_constraint m a b R). destruct (both m a b).
      * destruct H as (m' & -> & _). simpl. congruence.
      * rewrite H. discriminate.
Qed.

(*EX
Example C06_ex : documented_error ex (CallAddDataID a)
  /\ snd (exec (CallAddDataID a) ex) = Raise ValueError
  /\ snd (exec (CallAddDataID (str "e")) ex) = Ok (VBool true).
Proof.
  split; [eexists; split; [vm_compute; reflexivity|simpl; auto]|]. split; reflexivity.
Qed.
EX*)

(** ** C07 *)
(*PROP C07: getters do not depend on the order of their arguments, errors included. *)
Lemma C07_getters_symmetric_proof :
  forall m, reachable m -> forall a b,
    ask (get_added_constraint a b) m = ask (get_added_constraint b a) m /\
    ask (get_inferred_constraint a b) m = ask (get_inferred_constraint b a) m.
Proof.
  intros m R a b. apply reachable_inv in R. unfold ask.
  rewrite !run_added, !run_inferred by auto. simpl.
  assert (B : both m a b = both m b a) by (unfold both; apply andb_comm). rewrite B.
  destruct (both m b a) eqn:E; auto. apply both_true in E.
  rewrite (addf_sym m a b), (infer_sym m a b) by tauto. auto.
Qed.

(*EX
Example C07_ex : ask (get_inferred_constraint c a) ex = Ok (Some CANNOT_LINK)
  /\ ask (get_added_constraint b c) ex = Ok (Some (CANNOT_LINK, 1%Q)).
Proof. split; reflexivity. Qed.
EX*)

(** ** C08, C09 *)
Lemma shows_ids m s : shows m s -> a_ids s = ids m.
Proof. intros [H _]. unfold ask in H. rewrite run_managed in H. simpl in H. congruence. Qed.

Lemma shows_con m s p q : Inv m -> shows m s -> In p (ids m) -> In q (ids m) ->
  addf m p q = match a_con s p q with Some t => Some (t, 1%Q) | None => None end.
Proof.
  intros I H Ip Iq. assert (E := shows_ids _ _ H). destruct H as [_ H]. specialize (H p q).
  unfold ask in H. rewrite run_added in H by auto. rewrite E in H. fold (both m p q) in H.
  assert (B : both m p q = true) by (apply both_true; auto). rewrite B in H. simpl in H.
  injection H. auto.
Qed.

Lemma shows_intro m s : Inv m -> a_ids s = ids m ->
  (forall p q, In p (ids m) -> In q (ids m) ->
     addf m p q = match a_con s p q with Some t => Some (t, 1%Q) | None => None end) -> shows m s.
Proof.
  intros I E H. split.
  - unfold ask. rewrite run_managed, E. reflexivity.
  - intros p q. unfold ask. rewrite run_added by auto. rewrite E. fold (both m p q). simpl.
    destruct (both m p q) eqn:B; auto. apply both_true in B. f_equal. apply H; tauto.
Qed.

Lemma addf_added m t a b : Inv m -> (added m t a b <-> In a (ids m) /\ In b (ids m) /\ addf m a b = Some (t, 1%Q)).
Proof.
  intro I. unfold added, ask. rewrite run_added by auto. simpl. split.
  - intros (v & E). destruct (both m a b) eqn:B; [|discriminate]. apply both_true in B. inversion E as [E'].
    split; [tauto|]. split; [tauto|]. rewrite addf_lo_hi in *.
    destruct (sget (cdict m) (lo a b) (hi a b)) as [o|] eqn:S; [|discriminate]. subst o.
    destruct (wf_val _ (proj1 I) _ _ _ _ S) as [_ ->]. auto.
  - intros (Ia & Ib & E). exists 1%Q. assert (B : both m a b = true) by (apply both_true; auto). rewrite B, E. auto.
Qed.

Lemma shows_added m s t p q : Inv m -> shows m s -> a_closed s -> (added m t p q <-> a_con s p q = Some t).
Proof.
  intros I H C. rewrite addf_added by auto. split.
  - intros (Ip & Iq & E). rewrite (shows_con m s) in E by auto. destruct (a_con s p q); congruence.
  - intro E. destruct (C p q) as [Ip Iq]; [congruence|]. rewrite (shows_ids _ _ H) in *.
    split; auto. split; auto. rewrite (shows_con m s) by auto. rewrite E. auto.
Qed.

Lemma satisfiable_equiv m1 m2 c1 c2 :
  (forall x y, m1 x y <-> m2 x y) -> (forall x y, c1 x y <-> c2 x y) ->
  satisfiable m1 c1 <-> satisfiable m2 c2.
Proof.
  intros E1 E2. split; intros (f & S1 & S2); exists f; split; intros x y H; try apply S1; try apply S2;
    (apply E1 || apply E2); auto.
Qed.

Lemma pair_eqb_same a b p q : pair_eqb a b p q = same_pair a b (lo p q) (hi p q).
Proof.
  destruct (same_pair a b (lo p q) (hi p q)) eqn:E.
  - apply same_pair_spec in E. unfold pair_eqb.
    destruct E as [[-> ->]|[-> ->]]; rewrite !eqb_refl; simpl; auto. apply orb_true_r.
  - unfold pair_eqb. destruct (eqb_spec p a), (eqb_spec q b), (eqb_spec p b), (eqb_spec q a); simpl; auto;
      exfalso; assert (X : same_pair a b (lo p q) (hi p q) = true) by (apply same_pair_spec; auto); congruence.
Qed.

Lemma a_ok_exec m s c : Inv m -> shows m s -> a_closed s ->
  (a_ok s c <-> exists v, snd (exec c m) = Ok v).
Proof.
  intros I H C. assert (E := shows_ids _ _ H).
  destruct c; simpl; unfold bind; rewrite ?E.
  - assert (K := run_add_data_ID m x I). destruct (mem x (ids m)) eqn:M0.
    + rewrite K. apply mem_In in M0. split; [tauto|]. intros (v & Q); discriminate.
    + destruct K as (m' & -> & _). apply mem_nIn in M0. split; [eexists; reflexivity|auto].
  - assert (K := run_delete_data_ID m x I). destruct (mem x (ids m)) eqn:M0.
    + destruct K as (m' & -> & _). apply mem_In in M0. split; [eexists; reflexivity|auto].
    + rewrite K. apply mem_nIn in M0. split; [tauto|]. intros (v & Q); discriminate.
  - split; [eexists; reflexivity|auto].
  - assert (Sat : satisfiable (fun x y => a_con s x y = Some MUST_LINK \/ (t = MUST_LINK /\ x = a /\ y = b))
                  (fun x y => a_con s x y = Some CANNOT_LINK \/ (t = CANNOT_LINK /\ x = a /\ y = b))
            <-> satisfiable (must_with m t a b) (cannot_with m t a b)).
    { apply satisfiable_equiv; intros x y; unfold must_with, cannot_with, added_must, added_cannot;
        rewrite (shows_added m s) by auto; tauto. }
    rewrite Sat. split.
    + intros (Ia & Ib & T & S). apply accepts_satisfiable in S; auto.
      destruct (run_add_constraint m a b t v I S) as (m' & -> & _). eexists; reflexivity.
    + destruct (accepts m a b t) eqn:A.
      * intros _. assert (A' := A). unfold accepts in A'. rewrite !andb_true_iff in A'. destruct A' as [[B T] _].
        apply both_true in B. apply allowed_spec in T.
        split; [tauto|]. split; [tauto|]. split; auto. apply accepts_satisfiable; tauto.
      * rewrite run_add_constraint_raise by auto. intros (w & Q); discriminate.
  - assert (K := run_delete_constraint m a b I). rewrite <- both_true. destruct (both m a b).
    + destruct K as (m' & -> & _). split; [eexists; reflexivity|auto].
    + rewrite K. split; [discriminate|]. intros (v & Q); discriminate.
  - rewrite run_added, <- both_true by auto. destruct (both m a b); simpl; split; eauto; try discriminate. intros (v & Q); discriminate.
  - rewrite run_inferred, <- both_true by auto. destruct (both m a b); simpl; split; eauto; try discriminate. intros (v & Q); discriminate.
  - rewrite run_components by auto. simpl. split; eauto.
  - destruct (run_completude m I) as (b & -> & _). simpl. split; eauto.
  - rewrite run_conflict by auto.
    assert (X : In a (ids m) /\ In b (ids m) /\ allowed t <-> both m a b && mem t allowed_types = true).
    { rewrite andb_true_iff, both_true, allowed_spec. unfold allowed. tauto. }
    rewrite X. destruct (both m a b && mem t allowed_types); simpl; split; eauto; try discriminate. intros (v & Q); discriminate.
Qed.

Lemma a_effect_shows m s c : Inv m -> shows m s -> a_closed s -> a_ok s c ->
  shows (fst (exec c m)) (a_effect s c) /\ a_closed (a_effect s c).
Proof.
  intros I H C OK. assert (OKE := OK). apply (a_ok_exec m s c I H C) in OKE. destruct OKE as (v & EV).
  assert (E := shows_ids _ _ H).
  assert (AddfC : forall p q, addf m p q = match a_con s p q with Some t => Some (t, 1%Q) | None => None end).
  { intros p q. destruct (both m p q) eqn:B.
    - apply both_true in B. apply shows_con; tauto.
    - assert (E1 : addf m p q = None).
      { rewrite addf_lo_hi. destruct (sget (cdict m) (lo p q) (hi p q)) eqn:S; auto.
        destruct (sget_keys _ _ _ _ (proj1 I) S) as (K1 & K2 & _).
        exfalso. assert (both m p q = true); [|congruence]. apply both_true.
        unfold lo, hi in *. destruct (str_leb p q); auto. }
      rewrite E1. destruct (a_con s p q) eqn:A; auto. exfalso.
      destruct (C p q) as [K1 K2]; [congruence|]. rewrite E in *.
      assert (both m p q = true); [|congruence]. apply both_true; auto. }
  destruct c; simpl in *; unfold bind in *; try (split; auto; fail).
  - assert (K := run_add_data_ID m x I). rewrite E in OK. apply mem_nIn in OK. rewrite OK in K.
    destruct K as (m' & Run & I' & K & SG). rewrite Run in *. simpl in *. split.
    + apply shows_intro; simpl; auto. { rewrite K, E; auto. }
      rewrite K. intros p q Ip Iq. rewrite addf_lo_hi, SG.
      apply mem_In in Ip. apply mem_In in Iq.
      assert (Il : mem (lo p q) (ids m ++ [x]) = true) by (unfold lo; destruct (str_leb p q); auto).
      assert (Ih : mem (hi p q) (ids m ++ [x]) = true) by (unfold hi; destruct (str_leb p q); auto).
      rewrite Il, Ih, !andb_true_r, lo_hi_leb, andb_true_r.
      assert (O : eqb (lo p q) x || eqb (hi p q) x = eqb p x || eqb q x).
      { unfold lo, hi. destruct (str_leb p q); auto. apply orb_comm. }
      rewrite O.
      assert (O2 : eqb (lo p q) (hi p q) = eqb p q).
      { unfold lo, hi. destruct (str_leb p q); auto. apply eqb_sym. }
      rewrite O2. destruct (eqb_spec p x), (eqb_spec q x); subst; simpl; rewrite ?eqb_refl; auto.
      * destruct (eqb_spec x q); [congruence|auto].
      * destruct (eqb_spec p x); [congruence|auto].
      * fold (addf m p q). rewrite <- addf_lo_hi. apply AddfC.
    + intros p q N. simpl in *. rewrite !in_app_iff. simpl.
      destruct (eqb_spec p x), (eqb_spec q x); subst; simpl in N; auto; try tauto.
      destruct (C p q N); auto.
  - assert (K := run_delete_data_ID m x I). rewrite E in OK. apply mem_In in OK. rewrite OK in K.
    destruct K as (m' & Run & I' & K & SG). rewrite Run in *. simpl in *. split.
    + apply shows_intro; simpl; auto. { rewrite K, E; auto. }
      intros p q Ip Iq. rewrite addf_lo_hi, SG.
      assert (O : eqb (lo p q) x || eqb (hi p q) x = eqb p x || eqb q x).
      { unfold lo, hi. destruct (str_leb p q); auto. apply orb_comm. }
      rewrite O. destruct (eqb p x || eqb q x); auto. rewrite <- addf_lo_hi. apply AddfC.
    + intros p q N. simpl in *. rewrite !filter_In, !negb_true_iff.
      destruct (eqb p x || eqb q x) eqn:O; [tauto|]. apply orb_false_iff in O. destruct O as [O1 O2].
      rewrite (eqb_sym x p), (eqb_sym x q). destruct (C p q N); auto.
  - destruct (accepts m a b t) eqn:A.
    2:{ rewrite run_add_constraint_raise in EV by auto. discriminate. }
    destruct (run_add_constraint m a b t v0 I A) as (m' & Run & I' & K & SG & _). rewrite Run in *. simpl in *. split.
    + apply shows_intro; simpl; auto. { rewrite K, E; auto. }
      intros p q Ip Iq. rewrite addf_lo_hi, SG, <- pair_eqb_same.
      destruct (pair_eqb a b p q) eqn:P.
      * assert (Eab : addf m p q = addf m a b).
        { unfold pair_eqb in P. apply orb_true_iff in P. rewrite !andb_true_iff, !eqb_eq in P.
          destruct P as [[-> ->]|[-> ->]]; auto. apply addf_sym. }
        rewrite <- Eab, AddfC. destruct (a_con s p q); auto.
      * rewrite <- addf_lo_hi, AddfC. destruct (a_con s p q); auto.
    + intros p q N. simpl in *. destruct (a_con s p q) eqn:Q; [apply C; congruence|].
      destruct (pair_eqb a b p q) eqn:P; [|tauto]. unfold pair_eqb in P.
      apply orb_true_iff in P. rewrite !andb_true_iff, !eqb_eq in P.
      destruct P as [[-> ->]|[-> ->]]; tauto.
  - assert (K := run_delete_constraint m a b I). rewrite E in OK. apply both_true in OK. rewrite OK in K.
    destruct K as (m' & Run & I' & K & SG). rewrite Run in *. simpl in *. split.
    + apply shows_intro; simpl; auto. { rewrite K, E; auto. }
      intros p q Ip Iq. rewrite addf_lo_hi, SG, <- pair_eqb_same.
      destruct (pair_eqb a b p q) eqn:P; auto. rewrite <- addf_lo_hi. apply AddfC.
    + intros p q N. simpl in *. destruct (pair_eqb a b p q); [tauto|auto].
  - rewrite run_added in * by auto. destruct (both m a b); auto.
  - rewrite run_inferred in * by auto. destruct (both m a b); auto.
  - rewrite run_components in * by auto. auto.
  - destruct (run_completude m I) as (b & R & _). rewrite R in *. auto.
  - rewrite run_conflict in * by auto. destruct (both m a b && mem t allowed_types); auto.
Qed.

Lemma a_init_shows l : shows (init l) (a_init l) /\ a_closed (a_init l).
Proof.
  split.
  - apply shows_intro; auto using init_inv. { rewrite init_ids. reflexivity. }
    intros p q Ip Iq. rewrite init_ids, dedup_In in Ip, Iq.
    rewrite addf_lo_hi, sget_init, lo_hi_leb.
    apply mem_In in Ip. apply mem_In in Iq.
    assert (Il : mem (lo p q) l = true) by (unfold lo; destruct (str_leb p q); auto).
    assert (Ih : mem (hi p q) l = true) by (unfold hi; destruct (str_leb p q); auto).
    unfold a_init; cbn [a_con]. rewrite Il, Ih, Ip. simpl.
    assert (O2 : eqb (lo p q) (hi p q) = eqb p q).
    { unfold lo, hi. destruct (str_leb p q); auto. apply eqb_sym. }
    rewrite O2. destruct (eqb p q); auto.
  - intros p q N. simpl in *. rewrite !dedup_In.
    destruct (mem p l) eqn:M0; simpl in N; [|tauto]. destruct (eqb_spec p q); [|tauto]. subst.
    apply mem_In in M0. auto.
Qed.

Lemma a_run_shows l : forall m s, Inv m -> shows m s -> a_closed s ->
  exists s', a_run s l s' /\ shows (run l m) s'.
Proof.
  induction l as [|c l IH]; intros m s I H C; simpl.
  - exists s. split; auto. constructor.
  - assert (I' := exec_inv m c I).
    destruct (exec_result m c I) as [OK|[Em ER]].
    + assert (OK' : a_ok s c) by (apply (a_ok_exec m s c I H C); auto).
      destruct (a_effect_shows m s c I H C OK') as [H' C'].
      destruct (IH _ _ I' H' C') as (s' & R & Sh). exists s'. split; auto.
      econstructor; [left; split; [exact OK'|reflexivity]|exact R].
    + assert (NOK : ~ a_ok s c).
      { intro OK. apply (a_ok_exec m s c I H C) in OK. destruct OK as (v & EV). congruence. }
      rewrite Em. destruct (IH _ _ I H C) as (s' & R & Sh). exists s'. split; auto.
      econstructor; [right; split; [exact NOK|reflexivity]|exact R].
Qed.

(*PROP C08: for every history, the managed IDs and the added constraints are those computed by the abstract map machine. *)
Lemma C08_added_constraints_refine_map_proof :
  forall ids history, exists s, a_run (a_init ids) history s /\ shows (run history (init ids)) s.
Proof.
  intros l h. destruct (a_init_shows l) as [H C]. apply a_run_shows; auto. apply init_inv.
Qed.

(*EX
Example C08_ex : ask (get_added_constraint b a) (run [CallDeleteDataID b; CallAddDataID b] ex) = Ok None
  /\ ask get_list_of_managed_data_IDs (run [CallDeleteDataID b; CallAddDataID b] ex) = Ok [a; c; d; b].
Proof. split; reflexivity. Qed.
EX*)

(*PROP C08 (one call): an accepted call has exactly the effect of the abstract machine, a refused one has none. *)
Lemma C08_one_call_proof :
  forall m s c, reachable m -> shows m s -> a_closed s ->
    (a_ok s c -> shows (fst (exec c m)) (a_effect s c)) /\
    (~ a_ok s c -> snd (exec c m) = Raise ValueError /\ shows (fst (exec c m)) s).
Proof.
  intros m s c R H C. apply reachable_inv in R. split.
  - intro OK. apply a_effect_shows; auto.
  - intro NOK. destruct (exec_result m c R) as [OK|[E1 E2]].
    + exfalso. apply NOK. apply (a_ok_exec m s c R H C); auto.
    + rewrite E1. auto.
Qed.

Lemma present_step m c x : Inv m ->
  (In x (ids (fst (exec c m))) <->
   match c with
   | CallAddDataID y => In x (ids m) \/ y = x
   | CallDeleteDataID y => In x (ids m) /\ y <> x
   | _ => In x (ids m)
   end).
Proof.
  intro I. destruct c as [y|y| |a b t v|a b|a b|a b| | |a b t]; simpl; unfold bind; try tauto.
  - assert (H := run_add_data_ID m y I). destruct (mem y (ids m)) eqn:E.
    + rewrite H. simpl. apply mem_In in E. split; auto. intros [K| ->]; auto.
    + destruct H as (m' & -> & I' & K & _). simpl. rewrite K, in_app_iff. simpl. intuition.
  - assert (H := run_delete_data_ID m y I). destruct (mem y (ids m)) eqn:E.
    + destruct H as (m' & -> & I' & K & _). simpl. rewrite K, filter_In, negb_true_iff, eqb_neq. tauto.
    + rewrite H. simpl. apply mem_nIn in E. split; [|tauto]. intro K. split; auto. congruence.
  - destruct (accepts m a b t) eqn:A.
    + destruct (run_add_constraint m a b t v I A) as (m' & -> & I' & K & _). simpl. rewrite K. tauto.
    + rewrite run_add_constraint_raise by auto. tauto.
  - assert (H := run_delete_constraint m a b I). destruct (both m a b) eqn:E.
    + destruct H as (m' & -> & I' & K & _). simpl. rewrite K. tauto.
    + rewrite H. simpl. tauto.
  - rewrite run_added by auto. destruct (both m a b); simpl; tauto.
  - rewrite run_inferred by auto. destruct (both m a b); simpl; tauto.
  - rewrite run_components by auto. simpl; tauto.
  - destruct (run_completude m I) as (b & -> & _). simpl; tauto.
  - rewrite run_conflict by auto. destruct (both m a b && mem t allowed_types); simpl; tauto.
Qed.

Lemma present_after_iff x l : forall p q : Prop, (p <-> q) -> (present_after x l p <-> present_after x l q).
Proof.
  induction l as [|c l IH]; intros p q E; simpl; auto. apply IH. destruct c; tauto.
Qed.

Lemma present_run x l : forall m, Inv m -> (In x (ids (run l m)) <-> present_after x l (In x (ids m))).
Proof.
  induction l as [|c l IH]; intros m I; simpl; [tauto|].
  rewrite IH by (apply exec_inv; auto). apply present_after_iff. rewrite present_step by auto.
  destruct c; tauto.
Qed.

(*PROP C09: managed IDs form an insertion-ordered set determined by the history; constructor duplicates are ignored. *)
Lemma C09_managed_ids_ordered_set_proof :
  forall ids0 history,
    let m := run history (init ids0) in
    ask get_list_of_managed_data_IDs (init ids0) = Ok (dedup ids0) /\
    (exists l, ask get_list_of_managed_data_IDs m = Ok l /\ NoDup l) /\
    (forall x, managed m x <-> present_after x history (In x ids0)) /\
    (forall x l, ask get_list_of_managed_data_IDs m = Ok l -> ~ In x l ->
       ask get_list_of_managed_data_IDs (fst (exec (CallAddDataID x) m)) = Ok (l ++ [x])) /\
    (forall x l, ask get_list_of_managed_data_IDs m = Ok l ->
       ask get_list_of_managed_data_IDs (fst (exec (CallDeleteDataID x) m)) = Ok (filter (fun y => negb (eqb x y)) l)) /\
    (forall c l, ask get_list_of_managed_data_IDs m = Ok l ->
       (forall x, c <> CallAddDataID x) -> (forall x, c <> CallDeleteDataID x) ->
       ask get_list_of_managed_data_IDs (fst (exec c m)) = Ok l).
Proof.
  intros l0 h m. assert (I : Inv m) by (apply reachable_inv, run_reachable).
  unfold ask. rewrite run_managed. simpl.
  split; [rewrite <- init_ids; reflexivity|]. split; [exists (ids m); split; auto; apply inv_nodup; auto|].
  split; [|split; [|split]].
  - intro x. rewrite managed_ids. unfold m. rewrite present_run by apply init_inv.
    apply present_after_iff. rewrite init_ids, dedup_In. tauto.
  - intros x l E N. inversion E; subst l. simpl. unfold bind.
    assert (H := run_add_data_ID m x I). apply mem_nIn in N. rewrite N in H.
    destruct H as (m' & -> & _ & K & _). simpl. rewrite K. auto.
  - intros x l E. inversion E; subst l. simpl. unfold bind.
    assert (H := run_delete_data_ID m x I). destruct (mem x (ids m)) eqn:M0.
    + destruct H as (m' & -> & _ & K & _). simpl. rewrite K. auto.
    + rewrite H. simpl. f_equal. apply mem_nIn in M0.
      clear - M0. induction (ids m) as [|y l IH]; simpl; auto. simpl in M0.
      destruct (eqb_spec x y); [subst; tauto|]. simpl. f_equal. apply IH. tauto.
  - intros c l E N1 N2. inversion E; subst l.
    destruct c as [y|y| |a b t v|a b|a b|a b| | |a b t]; simpl; unfold bind; try congruence.
    + exfalso. eapply N1; eauto.
    + exfalso. eapply N2; eauto.
    + destruct (accepts m a b t) eqn:A.
      * destruct (run_add_constraint m a b t v I A) as (m' & -> & I' & K & _). simpl. rewrite K. auto.
      * rewrite run_add_constraint_raise by auto. auto.
    + assert (H := run_delete_constraint m a b I). destruct (both m a b) eqn:Eb.
      * destruct H as (m' & -> & I' & K & _). simpl. rewrite K. auto.
      * rewrite H. auto.
    + rewrite run_added by auto. destruct (both m a b); simpl; auto.
    + rewrite run_inferred by auto. destruct (both m a b); simpl; auto.
    + rewrite run_components by auto. simpl; auto.
    + destruct (run_completude m I) as (b & -> & _). simpl; auto.
    + rewrite run_conflict by auto. destruct (both m a b && mem t allowed_types); simpl; auto.
Qed.

(*EX
Example C09_ex : ask get_list_of_managed_data_IDs (init [b; a; b]) = Ok [b; a]
  /\ present_after a [CallDeleteDataID a; CallAddDataID a] (In a [b]).
Proof. split; [reflexivity|]. simpl. auto. Qed.
EX*)

(** ** C10 *)
Lemma same_linked m1 m2 : Inv m1 -> Inv m2 -> (forall t a b, added m1 t a b <-> added m2 t a b) ->
  forall a b, linked (sml m1) a b <-> linked (sml m2) a b.
Proof.
  intros I1 I2 E a b. rewrite <- !added_linked by auto. apply linked_equiv. intros; apply E.
Qed.

Lemma same_separated m1 m2 : Inv m1 -> Inv m2 -> (forall t a b, added m1 t a b <-> added m2 t a b) ->
  forall a b, separated (sml m1) (scl m1) a b <-> separated (sml m2) (scl m2) a b.
Proof.
  intros I1 I2 E a b. rewrite <- !added_separated by auto. apply separated_equiv; intros; apply E.
Qed.

Lemma comps_length_le m1 m2 : Inv m1 -> Inv m2 ->
  (forall x, In x (ids m1) <-> In x (ids m2)) ->
  (forall a b, linked (sml m1) a b <-> linked (sml m2) a b) ->
  length (comps m1) <= length (comps m2).
Proof.
  intros I1 I2 EI EL.
  set (f := fun c : list pystr => match c with x :: _ => comp_of m2 x | [] => [] end).
  rewrite <- (map_length f). apply NoDup_incl_length.
  - assert (Inj : forall c1 c2, In c1 (comps m1) -> In c2 (comps m1) -> f c1 = f c2 -> c1 = c2).
    { intros c1 c2 H1 H2 E.
      assert (NE : forall c, In c (comps m1) -> exists x l, c = x :: l /\ In x (ids m1)).
      { intros c H. apply comps_In in H. destruct H as (y & Iy & ->).
        assert (S := self_comp m1 y I1 Iy). destruct (comp_of m1 y) as [|x l] eqn:Q; [destruct S|].
        exists x, l. split; auto. eapply linked_ids; eauto. apply comp_of_In; auto. rewrite Q. left; auto. }
      destruct (NE c1 H1) as (x1 & l1 & -> & J1). destruct (NE c2 H2) as (x2 & l2 & -> & J2). simpl in E.
      assert (L : linked (sml m1) x2 x1).
      { apply EL. apply comp_of_In; auto. apply EI; auto. rewrite <- E. apply self_comp; auto. apply EI; auto. }
      eapply (comps_disjoint m1 _ _ x1); auto; [left; auto|].
      apply comps_In in H2. destruct H2 as (y & Iy & Q). rewrite Q.
      apply comp_of_In; auto. eapply linked_trans; [|exact L]. apply comp_of_In; auto. rewrite <- Q. left; auto. }
    assert (N := comps_NoDup m1). revert N Inj. generalize (comps m1) as l. clear.
    induction l as [|c l IH]; simpl; intros N Inj. constructor. inversion N; subst. constructor.
    + intro H. apply in_map_iff in H. destruct H as (c' & E & H). assert (c' = c) by (apply Inj; auto). subst. tauto.
    + apply IH; auto.
  - intros c H. apply in_map_iff in H. destruct H as (c0 & <- & H). apply comps_In in H. destruct H as (y & Iy & ->).
    assert (S := self_comp m1 y I1 Iy). unfold f. destruct (comp_of m1 y) as [|x l] eqn:Q; [destruct S|].
    apply comps_In. exists x. split; auto. apply EI. eapply linked_ids; eauto. apply comp_of_In; auto. rewrite Q. left; auto.
Qed.

Lemma same_answers_from_relations m1 m2 : Inv m1 -> Inv m2 ->
  (forall x, In x (ids m1) <-> In x (ids m2)) ->
  (forall a b, linked (sml m1) a b <-> linked (sml m2) a b) ->
  (forall a b, separated (sml m1) (scl m1) a b <-> separated (sml m2) (scl m2) a b) ->
  same_answers m1 m2.
Proof.
  intros R1 R2 EI' EL ES.
  assert (EB : forall a b, both m1 a b = both m2 a b).
  { intros a b. unfold both. f_equal; apply mem_iff; auto. }
  assert (EInf : forall a b, both m1 a b = true -> infer m1 a b = infer m2 a b).
  { intros a b B. assert (B2 := B). rewrite EB in B2. apply both_true in B. apply both_true in B2.
    symmetry. destruct (infer_cases m1 a b) as [E|[E|E]]; rewrite E.
    - apply infer_ML; try tauto. apply EL. apply infer_ML; tauto.
    - apply infer_CL; try tauto. apply ES. apply infer_CL; tauto.
    - apply infer_None; try tauto. rewrite <- EL, <- ES. apply infer_None; tauto. }
  unfold same_answers, ask. split; [|split; [|split]].
  - intros a b. rewrite !run_inferred by auto. simpl. rewrite <- EB. destruct (both m1 a b) eqn:B; auto.
    f_equal. auto.
  - destruct (run_completude m1 R1) as (b1 & -> & H1). destruct (run_completude m2 R2) as (b2 & -> & H2). simpl.
    f_equal. destruct b1, b2; auto; exfalso.
    + assert (false = true); [|discriminate]. apply H2. intros x y Ix Iy.
      rewrite <- EInf by (apply both_true; rewrite !EI'; auto). apply H1; auto; apply EI'; auto.
    + assert (false = true); [|discriminate]. apply H1. intros x y Ix Iy.
      rewrite EInf by (apply both_true; auto). apply H2; auto; apply EI'; auto.
  - intros l1 l2. rewrite !run_components by auto. simpl. intros E1 E2. inversion E1; inversion E2; subst. split.
    + assert (Half : forall m m', Inv m -> Inv m' -> (forall x, In x (ids m) -> In x (ids m')) ->
          (forall a b, linked (sml m) a b -> linked (sml m') a b) ->
          forall a b, (exists c, In c (comps m) /\ In a c /\ In b c) -> (exists c, In c (comps m') /\ In a c /\ In b c)).
      { intros m m' I I' H1 H2 a b (c & Hc & A & B).
        assert (Hc' := Hc). apply comps_In in Hc'. destruct Hc' as (y & Iy & E).
        assert (La : linked (sml m) y a) by (apply comp_of_In; auto; rewrite <- E; auto).
        assert (Lb : linked (sml m) y b) by (apply comp_of_In; auto; rewrite <- E; auto).
        apply comps_common; auto.
        - apply H1. eapply linked_ids; eauto.
        - apply H1. eapply linked_ids; eauto.
        - apply H2. eapply linked_trans; [apply linked_sym; exact La|exact Lb]. }
      intros a b. split; apply Half; auto; intros; try apply EI'; try apply EL; auto.
    + apply Nat.le_antisymm; apply comps_length_le; auto.
      * intro x. symmetry. auto.
      * intros a b. symmetry. auto.
  - intros a b t T. rewrite !run_conflict by auto. cbn [snd]. rewrite <- EB.
    assert (T' : mem t allowed_types = true) by (apply allowed_spec; auto). rewrite T', andb_true_r.
    destruct (both m1 a b) eqn:B; auto.
    assert (EAcc : accepts m2 a b t = accepts m1 a b t).
    { unfold accepts. rewrite <- EB, B, T'. rewrite EInf; auto. }
    rewrite EAcc. destruct (accepts m1 a b t); auto.
    intro x. assert (B2 := B). rewrite EB in B2. apply both_true in B. apply both_true in B2.
    rewrite !conflict_members by tauto. rewrite !EL. tauto.
Qed.


(*PROP C10: answers depend only on the current IDs and constraints, not on the history that produced them. *)
Lemma C10_history_independence_proof :
  forall m1 m2, reachable m1 -> reachable m2 ->
    (forall x, managed m1 x <-> managed m2 x) ->
    (forall t a b, added m1 t a b <-> added m2 t a b) ->
    same_answers m1 m2.
Proof.
  intros m1 m2 R1 R2 EI EA. apply reachable_inv in R1. apply reachable_inv in R2.
  apply same_answers_from_relations; auto.
  - intro x. rewrite <- !managed_ids; auto.
  - apply same_linked; auto.
  - apply same_separated; auto.
Qed.

(*EX
Example C10_ex :
  let m1 := run [CallAddConstraint c b CANNOT_LINK 1%Q; CallAddConstraint a d MUST_LINK 1%Q;
                 CallDeleteConstraint d a; CallAddConstraint b a MUST_LINK 1%Q] (init [d; c; b; a]) in
  reachable m1 /\ (forall x y, In x [a; b; c; d] -> In y [a; b; c; d] ->
     ask (get_added_constraint x y) m1 = ask (get_added_constraint x y) ex)
  /\ ask get_connected_components m1 <> ask get_connected_components ex.
Proof.
  split; [apply run_reachable|]. split; [|vm_compute; discriminate].
  intros x y Hx Hy. simpl in Hx, Hy.
  repeat (destruct Hx as [<-|Hx]; [repeat (destruct Hy as [<-|Hy]; [vm_compute; reflexivity|]); destruct Hy|]); destruct Hx.
Qed.
EX*)

(** ** C11 *)
Lemma delete_added m a b : Inv m -> In a (ids m) -> In b (ids m) ->
  forall t p q, added (fst (exec (CallDeleteConstraint a b) m)) t p q <-> added m t p q /\ ~ same_unordered a b p q.
Proof.
  intros I Ia Ib t p q. assert (K := run_delete_constraint m a b I).
  assert (B : both m a b = true) by (apply both_true; auto). rewrite B in K.
  destruct K as (m' & Run & I' & K & SG). simpl. unfold bind. rewrite Run. simpl.
  rewrite !addf_added by auto. rewrite K. rewrite (addf_lo_hi m' p q), SG, <- pair_eqb_same.
  assert (PE : pair_eqb a b p q = true <-> same_unordered a b p q).
  { unfold pair_eqb, same_unordered. rewrite orb_true_iff, !andb_true_iff, !eqb_eq. tauto. }
  destruct (pair_eqb a b p q) eqn:P.
  - split; [intros (_ & _ & ?); discriminate|]. intros [_ N]. exfalso. apply N, PE; auto.
  - rewrite <- addf_lo_hi. split; [|tauto]. intro H. split; auto. intro S. apply PE in S. discriminate.
Qed.

(*PROP C11: after delete_constraint the manager answers as if that constraint had never been there. *)
Lemma C11_retraction_is_complete_proof :
  forall m, reachable m -> forall a b, managed m a -> managed m b ->
    let m' := fst (exec (CallDeleteConstraint a b) m) in
    let must' := fun p q => added_must m p q /\ ~ same_unordered a b p q in
    let cannot' := fun p q => added_cannot m p q /\ ~ same_unordered a b p q in
    snd (exec (CallDeleteConstraint a b) m) = Ok (VBool true) /\
    (forall x, managed m' x <-> managed m x) /\
    (forall t p q, added m' t p q <-> added m t p q /\ ~ same_unordered a b p q) /\
    (forall p q, managed m p -> managed m q ->
       (inferred m' p q (Some MUST_LINK) <-> linked must' p q) /\
       (inferred m' p q (Some CANNOT_LINK) <-> separated must' cannot' p q)) /\
    (forall m2, reachable m2 -> (forall x, managed m2 x <-> managed m x) ->
       (forall t p q, added m2 t p q <-> added m t p q /\ ~ same_unordered a b p q) -> same_answers m' m2).
Proof.
  intros m R a b Ma Mb m' must' cannot'. assert (I := reachable_inv _ R).
  assert (R' : reachable m') by (apply reach_call; auto). assert (I' := reachable_inv _ R').
  apply managed_ids in Ma. apply managed_ids in Mb.
  assert (DA : forall t p q, added m' t p q <-> added m t p q /\ ~ same_unordered a b p q) by (apply delete_added; auto).
  assert (DI : forall x, managed m' x <-> managed m x).
  { intro x. rewrite !managed_ids. unfold m'. apply (present_step m (CallDeleteConstraint a b) x I). }
  split; [|split; [|split; [|split]]]; auto.
  - assert (K := run_delete_constraint m a b I). assert (B : both m a b = true) by (apply both_true; auto).
    rewrite B in K. destruct K as (m1 & Run & _). simpl. unfold bind. rewrite Run. reflexivity.
  - intros p q Mp Mq. rewrite <- !DI in *.
    destruct (C01_inferred_is_closure_proof m' R' p q Mp Mq) as (H1 & H2 & _).
    rewrite H1, H2. split; [apply linked_equiv|apply separated_equiv]; intros x y; apply DA.
  - intros m2 R2 E2 A2. apply C10_history_independence_proof; auto.
    + intro x. rewrite DI, E2. tauto.
    + intros t p q. rewrite DA, A2. tauto.
Qed.

(*EX
Example C11_ex : let m' := fst (exec (CallDeleteConstraint b c) ex) in
  inferred ex a c (Some CANNOT_LINK) /\ inferred m' a c None
  /\ snd (exec (CallAddConstraint a c MUST_LINK 1%Q) m') = Ok (VBool true).
Proof. repeat split. Qed.
EX*)

(** ** C12 *)
Lemma delete_id_added m x : Inv m -> In x (ids m) ->
  forall t p q, added (fst (exec (CallDeleteDataID x) m)) t p q <-> added m t p q /\ p <> x /\ q <> x.
Proof.
  intros I Ix t p q. assert (K := run_delete_data_ID m x I).
  assert (B : mem x (ids m) = true) by (apply mem_In; auto). rewrite B in K.
  destruct K as (m' & Run & I' & K & SG). simpl. unfold bind. rewrite Run. simpl.
  rewrite !addf_added by auto. rewrite K, !filter_In, !negb_true_iff, !eqb_neq. rewrite (addf_lo_hi m' p q), SG.
  assert (O : eqb (lo p q) x || eqb (hi p q) x = eqb p x || eqb q x).
  { unfold lo, hi. destruct (str_leb p q); auto. apply orb_comm. }
  rewrite O. destruct (eqb_spec p x), (eqb_spec q x); subst; simpl; rewrite <- ?addf_lo_hi; intuition congruence.
Qed.

(*PROP C12: deleting an ID removes it and everything inferred through it; managing it again starts afresh. *)
Lemma C12_deleted_id_is_forgotten_proof :
  forall m, reachable m -> forall x, managed m x ->
    let m' := fst (exec (CallDeleteDataID x) m) in
    let must' := fun p q => added_must m p q /\ p <> x /\ q <> x in
    let cannot' := fun p q => added_cannot m p q /\ p <> x /\ q <> x in
    let m'' := fst (exec (CallAddDataID x) m') in
    snd (exec (CallDeleteDataID x) m) = Ok (VBool true) /\
    (forall y, managed m' y <-> managed m y /\ y <> x) /\
    (forall t p q, added m' t p q <-> added m t p q /\ p <> x /\ q <> x) /\
    (forall p q, managed m' p -> managed m' q ->
       (inferred m' p q (Some MUST_LINK) <-> linked must' p q) /\
       (inferred m' p q (Some CANNOT_LINK) <-> separated must' cannot' p q)) /\
    (forall m2, reachable m2 -> (forall y, managed m2 y <-> managed m y /\ y <> x) ->
       (forall t p q, added m2 t p q <-> added m t p q /\ p <> x /\ q <> x) -> same_answers m' m2) /\
    (forall y, managed m'' y <-> managed m y) /\
    (forall t p q, added m'' t p q <-> added m' t p q \/ (t = MUST_LINK /\ p = x /\ q = x)) /\
    (forall y, managed m'' y -> y <> x -> inferred m'' x y None).
Proof.
  intros m R x Mx m' must' cannot' m''. assert (I := reachable_inv _ R).
  assert (R' : reachable m') by (apply reach_call; auto). assert (I' := reachable_inv _ R').
  assert (R'' : reachable m'') by (apply reach_call; auto). assert (I'' := reachable_inv _ R'').
  apply managed_ids in Mx.
  assert (DA : forall t p q, added m' t p q <-> added m t p q /\ p <> x /\ q <> x) by (apply delete_id_added; auto).
  assert (DI : forall y, managed m' y <-> managed m y /\ y <> x).
  { intro y. rewrite !managed_ids. unfold m'. rewrite (present_step m (CallDeleteDataID x) y I). intuition. }
  assert (AI : forall y, managed m'' y <-> managed m y).
  { intro y. rewrite managed_ids. unfold m''. rewrite (present_step m' (CallAddDataID x) y I').
    rewrite <- !managed_ids, DI. destruct (eq_dec_of x y).
    - subst. rewrite managed_ids. tauto.
    - intuition. }
  assert (Nx : ~ In x (ids m')). { rewrite <- managed_ids, DI. tauto. }
  assert (AA : forall t p q, added m'' t p q <-> added m' t p q \/ (t = MUST_LINK /\ p = x /\ q = x)).
  { intros t p q. assert (Nx' := Nx). apply mem_nIn in Nx'.
    assert (K := run_add_data_ID m' x I'). rewrite Nx' in K. destruct K as (m1 & Run & I1 & K & SG).
    assert (E : m'' = m1). { unfold m''. simpl. unfold bind. rewrite Run. reflexivity. }
    rewrite E. rewrite !addf_added by auto. rewrite K, !in_app_iff. simpl.
    rewrite (addf_lo_hi m1 p q), SG, lo_hi_leb, andb_true_r.
    assert (O2 : eqb (lo p q) (hi p q) = eqb p q).
    { unfold lo, hi. destruct (str_leb p q); auto. apply eqb_sym. }
    rewrite O2.
    assert (O : eqb (lo p q) x && mem (hi p q) (ids m' ++ [x]) || eqb (hi p q) x && mem (lo p q) (ids m' ++ [x])
              = eqb p x && mem q (ids m' ++ [x]) || eqb q x && mem p (ids m' ++ [x])).
    { unfold lo, hi. destruct (str_leb p q); auto. apply orb_comm. }
    rewrite O. assert (Mx' : mem x (ids m' ++ [x]) = true) by (apply mem_In; rewrite in_app_iff; simpl; auto).
    destruct (eqb_spec p x) as [->|Np], (eqb_spec q x) as [->|Nq]; simpl.
    - rewrite Mx', eqb_refl. simpl. split; [intros (_ & _ & E1); inversion E1; auto|].
      intros [(H & _)|(-> & _)]; tauto.
    - rewrite orb_false_r. destruct (mem q (ids m' ++ [x])) eqn:Mq.
      + destruct (eqb_spec x q); [congruence|]. split; [intros (_ & _ & E1); discriminate|].
        intros [(H & _)|(_ & _ & ?)]; [tauto|congruence].
      + apply mem_nIn in Mq. rewrite in_app_iff in Mq. simpl in Mq. split.
        * intros (_ & [H|[H|[]]] & _); [tauto|congruence].
        * intros [(H & _)|(_ & _ & ?)]; [tauto|congruence].
    - destruct (mem p (ids m' ++ [x])) eqn:Mp.
      + destruct (eqb_spec p x); [congruence|]. split; [intros (_ & _ & E1); discriminate|].
        intros [(_ & H & _)|(_ & ? & _)]; [tauto|congruence].
      + apply mem_nIn in Mp. rewrite in_app_iff in Mp. simpl in Mp. split.
        * intros ([H|[H|[]]] & _); [tauto|congruence].
        * intros [(H & _)|(_ & ? & _)]; [tauto|congruence].
    - rewrite <- addf_lo_hi. split.
      + intros ([H1|[H1|[]]] & [H2|[H2|[]]] & E1); try congruence. auto.
      + intros [(H1 & H2 & E1)|(_ & ? & _)]; [auto|congruence]. }
  split; [|split; [|split; [|split; [|split; [|split; [|split]]]]]]; auto.
  - assert (K := run_delete_data_ID m x I). assert (B : mem x (ids m) = true) by (apply mem_In; auto).
    rewrite B in K. destruct K as (m1 & Run & _). simpl. unfold bind. rewrite Run. reflexivity.
  - intros p q Mp Mq. destruct (C01_inferred_is_closure_proof m' R' p q Mp Mq) as (H1 & H2 & _).
    rewrite H1, H2. split; [apply linked_equiv|apply separated_equiv]; intros u w; apply DA.
  - intros m2 R2 E2 A2. apply C10_history_independence_proof; auto.
    + intro y. rewrite DI, E2. tauto.
    + intros t p q. rewrite DA, A2. tauto.
  - intros y My Ny. assert (Mx2 : managed m'' x) by (rewrite AI, managed_ids; auto).
    apply (C01_inferred_is_closure_proof m'' R'' x y Mx2 My).
    assert (LX : forall u w, linked (added_must m'') u w -> u = x -> w = x).
    { induction 1 as [u|u w z H IH St]; intro; subst; auto. specialize (IH eq_refl). subst.
      destruct St as [St|St]; apply AA in St; destruct St as [St|St]; try tauto;
        apply DA in St; tauto. }
    split.
    + intro L. apply LX in L; auto.
    + intros (u & w & L1 & L2 & [C|C]); apply LX in L1; auto; subst u;
        apply AA in C; destruct C as [C|(C & _)]; try (apply DA in C; tauto); vm_compute in C; discriminate.
Qed.

(*EX
Example C12_ex : let m' := fst (exec (CallDeleteDataID b) ex) in let m'' := fst (exec (CallAddDataID b) m') in
  inferred ex a c (Some CANNOT_LINK) /\ inferred m' a c None /\ inferred m'' a b None.
Proof. repeat split. Qed.
EX*)

(** ** C13 *)
(*PROP C13: connected components are non-empty, repeat nothing, cover exactly the managed IDs, and group exactly the inferred MUST_LINKs. *)
Lemma C13_components_partition_proof :
  forall m, reachable m ->
    exists l ids, ask get_connected_components m = Ok l /\ ask get_list_of_managed_data_IDs m = Ok ids /\
      Permutation (concat l) ids /\ NoDup (concat l) /\
      (forall c, In c l -> c <> []) /\
      (forall a b, managed m a -> managed m b ->
         ((exists c, In c l /\ In a c /\ In b c) <-> inferred m a b (Some MUST_LINK))).
Proof.
  intros m R. apply reachable_inv in R. exists (comps m), (ids m). unfold ask.
  rewrite run_components, run_managed by auto. simpl.
  split; auto. split; auto. assert (P := comps_permutation m R). split; auto.
  split; [|split].
  - eapply Permutation_NoDup; [apply Permutation_sym; exact P|apply inv_nodup; auto].
  - intros c H E. subst. apply comps_In in H. destruct H as (x & Ix & E).
    assert (S := self_comp m x R Ix). rewrite <- E in S. destruct S.
  - intros a b Ma Mb. apply managed_ids in Ma. apply managed_ids in Mb.
    rewrite comps_common, inferred_spec, infer_ML by auto. tauto.
Qed.

(*EX
Example C13_ex : ask get_connected_components ex = Ok [[a; b]; [c]; [d]].
Proof. reflexivity. Qed.
EX*)

(** ** C14 *)
(*PROP C14: the completeness check is true exactly when every pair of managed IDs has an inferred constraint. *)
Lemma C14_completude_exact_proof :
  forall m, reachable m ->
    exists b, ask check_completude_of_constraints m = Ok b /\
      (b = true <-> forall x y, managed m x -> managed m y ->
                      inferred m x y (Some MUST_LINK) \/ inferred m x y (Some CANNOT_LINK)).
Proof.
  intros m R. apply reachable_inv in R. destruct (run_completude m R) as (b & Run & H).
  exists b. unfold ask. rewrite Run. split; auto. rewrite H. split.
  - intros K x y Mx My. apply managed_ids in Mx. apply managed_ids in My. rewrite !inferred_spec by auto.
    specialize (K x y Mx My). destruct (infer_cases m x y) as [E|[E|E]]; auto. congruence.
  - intros K x y Ix Iy E. apply managed_ids in Ix as Mx. apply managed_ids in Iy as My.
    destruct (K x y Mx My) as [Q|Q]; apply inferred_spec in Q; auto; congruence.
Qed.

(*EX
Example C14_ex : ask check_completude_of_constraints ex = Ok false
  /\ ask check_completude_of_constraints (run [CallAddConstraint d c MUST_LINK 1%Q] ex) = Ok true.
Proof. split; reflexivity. Qed.
EX*)

(** ** C19 *)
(*PROP C19: a conflict is reported exactly when the constraint would be refused, and lists exactly the two components involved. *)
Lemma C19_conflict_listing_exact_proof :
  forall m, reachable m -> forall a b t v, managed m a -> managed m b -> allowed t ->
    (ask (get_list_of_involved_data_IDs_in_a_constraint_conflict a b t) m = Ok None <->
       ask (add_constraint a b t v) m = Ok true) /\
    (ask (add_constraint a b t v) m = Raise ValueError ->
       exists l, ask (get_list_of_involved_data_IDs_in_a_constraint_conflict a b t) m = Ok (Some l) /\
         NoDup l /\
         forall x, In x l <-> managed m x /\ (inferred m a x (Some MUST_LINK) \/ inferred m b x (Some MUST_LINK))) /\
    fst (get_list_of_involved_data_IDs_in_a_constraint_conflict a b t m) = m.
Proof.
  intros m R a b t v Ma Mb T. apply reachable_inv in R. apply managed_ids in Ma. apply managed_ids in Mb.
  unfold ask. rewrite run_conflict by auto.
  assert (B : both m a b = true) by (apply both_true; auto).
  assert (T' : mem t allowed_types = true) by (apply allowed_spec; auto). rewrite B, T'. simpl.
  destruct (accepts m a b t) eqn:A.
  - destruct (run_add_constraint m a b t v R A) as (m' & -> & _). simpl. repeat split; auto. discriminate.
  - rewrite run_add_constraint_raise by auto. simpl. split; [split; discriminate|]. split; auto.
    intros _. eexists. split; [reflexivity|]. split; [apply conflict_NoDup; auto|].
    intro x. rewrite conflict_members, managed_ids by auto. split.
    + intro H. assert (Ix : In x (ids m)) by (destruct H as [H|H]; eapply linked_ids; try exact H; auto).
      split; auto. rewrite !inferred_spec, !infer_ML by auto. auto.
    + intros [Ix H]. rewrite !inferred_spec, !infer_ML in H by auto. auto.
Qed.

(*EX
Example C19_ex : ask (get_list_of_involved_data_IDs_in_a_constraint_conflict a c MUST_LINK) ex = Ok (Some [a; b; c])
  /\ ask (get_list_of_involved_data_IDs_in_a_constraint_conflict a d MUST_LINK) ex = Ok None.
Proof. split; reflexivity. Qed.
EX*)

(** ** C20 *)
Lemma add_added m a b t v : Inv m -> accepts m a b t = true ->
  forall u p q, added (fst (exec (CallAddConstraint a b t v) m)) u p q <->
    added m u p q \/ (u = t /\ same_unordered a b p q).
Proof.
  intros I A u p q. destruct (run_add_constraint m a b t v I A) as (m' & Run & I' & K & SG & _).
  simpl. unfold bind. rewrite Run. simpl. rewrite !addf_added by auto. rewrite K, (addf_lo_hi m' p q), SG, <- pair_eqb_same.
  assert (PE : pair_eqb a b p q = true <-> same_unordered a b p q).
  { unfold pair_eqb, same_unordered. rewrite orb_true_iff, !andb_true_iff, !eqb_eq. tauto. }
  assert (A' := A). unfold accepts in A'. rewrite !andb_true_iff in A'. destruct A' as [[B T] Inf].
  destruct (pair_eqb a b p q) eqn:P.
  - assert (S : same_unordered a b p q) by (apply PE; auto).
    assert (Eab : addf m p q = addf m a b).
    { destruct S as [[-> ->]|[-> ->]]; auto. apply addf_sym. }
    rewrite <- Eab.
    assert (Ipq : In p (ids m) /\ In q (ids m)).
    { apply both_true in B. destruct S as [[-> ->]|[-> ->]]; tauto. }
    destruct (addf m p q) as [[u0 v0]|] eqn:Q.
    + split; [intros (_ & _ & E); left; tauto|]. intros [H|[-> _]]; auto. split; [tauto|]. split; [tauto|].
      symmetry in Eab. assert (X := addf_infer m a b _ I B Eab). rewrite X in Inf. simpl in Inf. apply eqb_eq in Inf. subst u0.
      assert (Y : added m t a b). { unfold added, ask. rewrite run_added, B by auto. simpl. rewrite Eab. eauto. }
      apply addf_added in Y; auto. destruct Y as (_ & _ & Y). congruence.
    + split; [intros (_ & _ & E); inversion E; auto|]. intros [(_ & _ & ?)|[-> _]]; [discriminate|tauto].
  - rewrite <- addf_lo_hi. split; [tauto|]. intros [H|[_ S]]; auto. apply PE in S. congruence.
Qed.

(*PROP C20: adding an already inferred constraint succeeds and changes no inference; re-adding an added one changes nothing at all. *)
Lemma C20_redundant_add_proof :
  forall m, reachable m -> forall a b t v, managed m a -> managed m b -> inferred m a b (Some t) ->
    let m' := fst (exec (CallAddConstraint a b t v) m) in
    snd (exec (CallAddConstraint a b t v) m) = Ok (VBool true) /\
    same_answers m m' /\
    (forall x, managed m' x <-> managed m x) /\
    (added m t a b -> m' = m).
Proof.
  intros m R a b t v Ma Mb Inf m'. assert (I := reachable_inv _ R).
  assert (R' : reachable m') by (apply reach_call; auto). assert (I' := reachable_inv _ R').
  apply managed_ids in Ma as Ia. apply managed_ids in Mb as Ib.
  apply inferred_spec in Inf; auto.
  assert (T : t = MUST_LINK \/ t = CANNOT_LINK).
  { destruct (infer_cases m a b) as [E|[E|E]]; rewrite E in Inf; inversion Inf; auto. }
  assert (A : accepts m a b t = true).
  { unfold accepts. rewrite Inf, eqb_refl. assert (B : both m a b = true) by (apply both_true; auto).
    apply allowed_spec in T. rewrite B, T. auto. }
  assert (AA := add_added m a b t v I A). fold m' in AA.
  assert (K : ids m' = ids m).
  { destruct (run_add_constraint m a b t v I A) as (m1 & Run & _ & K & _).
    unfold m'. simpl. unfold bind. rewrite Run. auto. }
  assert (EI' : forall x, In x (ids m) <-> In x (ids m')) by (intro; rewrite K; tauto).
  assert (L : forall p q, linked (added_must m') p q <-> linked (added_must m) p q).
  { intros p q. split.
    - induction 1 as [x|x y z H IH St]; [apply linked_refl|].
      eapply linked_trans; [exact IH|].
      assert (St' : added m' MUST_LINK y z \/ added m' MUST_LINK z y) by exact St.
      rewrite !AA in St'.
      assert (Base : t = MUST_LINK -> linked (added_must m) a b).
      { intro; subst t. apply added_linked; auto. apply infer_ML; auto. }
      destruct St' as [[S|[E S]]|[S|[E S]]].
      + apply linked_one; auto.
      + destruct S as [[-> ->]|[-> ->]]; [auto|apply linked_sym; auto].
      + apply linked_sym, linked_one; auto.
      + destruct S as [[-> ->]|[-> ->]]; [apply linked_sym; auto|auto].
    - apply linked_mono. intros x y H. left. apply AA. auto. }
  assert (S : forall p q, separated (added_must m') (added_cannot m') p q <-> separated (added_must m) (added_cannot m) p q).
  { intros p q. split.
    - intros (x & y & L1 & L2 & C). apply L in L1. apply L in L2.
      assert (C' : added m' CANNOT_LINK x y \/ added m' CANNOT_LINK y x) by exact C. rewrite !AA in C'.
      assert (Base : t = CANNOT_LINK -> separated (added_must m) (added_cannot m) a b).
      { intro; subst t. apply added_separated; auto. apply infer_CL; auto. }
      assert (Goal0 : separated (added_must m) (added_cannot m) x y).
      { destruct C' as [[C'|[E C']]|[C'|[E C']]].
        - exists x, y. split; [apply linked_refl|]. split; [apply linked_refl|auto].
        - destruct C' as [[-> ->]|[-> ->]]; [auto|apply separated_sym; auto].
        - exists x, y. split; [apply linked_refl|]. split; [apply linked_refl|auto].
        - destruct C' as [[-> ->]|[-> ->]]; [apply separated_sym; auto|auto]. }
      destruct Goal0 as (u & w & M1 & M2 & C2). exists u, w.
      split; [eapply linked_trans; eauto|]. split; [eapply linked_trans; eauto|auto].
    - intros (x & y & L1 & L2 & C). exists x, y. rewrite !L. split; auto. split; auto.
      destruct C as [C|C]; [left|right]; apply AA; auto. }
  split; [|split; [|split]].
  - destruct (run_add_constraint m a b t v I A) as (m1 & Run & _). simpl. unfold bind. rewrite Run. reflexivity.
  - apply same_answers_from_relations; auto.
    + intros p q. rewrite <- !added_linked, L by auto. tauto.
    + intros p q. rewrite <- !added_separated, S by auto. tauto.
  - intro x. rewrite !managed_ids. symmetry. auto.
  - intro Ad. destruct (run_add_constraint m a b t v I A) as (m1 & Run & _ & _ & _ & Same).
    unfold m'. simpl. unfold bind. rewrite Run. simpl. apply Same.
    apply addf_added in Ad; auto. destruct Ad as (_ & _ & E). rewrite E. discriminate.
Qed.

(*EX
Example C20_ex : inferred ex a c (Some CANNOT_LINK) /\ ~ added ex CANNOT_LINK a c
  /\ fst (exec (CallAddConstraint a b MUST_LINK 1%Q) ex) = ex.
Proof.
  split; [reflexivity|]. split; [|reflexivity]. intros [v E]. vm_compute in E. discriminate.
Qed.
EX*)

(** ** C21 *)
Definition batch_added (l : list (pystr * pystr * pystr)) (t p q : pystr) : Prop :=
  exists a b, In (a, b, t) l /\ same_unordered a b p q.

Lemma add_all_ok l : forall m m', Inv m -> add_all l m = (m', Ok tt) ->
  Inv m' /\ ids m' = ids m /\ (forall t p q, added m' t p q <-> added m t p q \/ batch_added l t p q) /\
  (forall a b t, In (a, b, t) l -> In a (ids m) /\ In b (ids m) /\ allowed t).
Proof.
  induction l as [|[[a b] t] l IH]; intros m m' I; unfold add_all; simpl; unfold bind, ret.
  - intro E. inversion E; subst. split; auto. split; auto. split; [|intros ? ? ? []].
    intros t p q. split; auto. intros [H|(a & b & [] & _)]; auto.
  - destruct (accepts m a b t) eqn:A.
    2:{ rewrite run_add_constraint_raise by auto. discriminate. }
    assert (AA := add_added m a b t 1%Q I A).
    destruct (run_add_constraint m a b t 1%Q I A) as (m1 & Run & I1 & K & _).
    simpl in AA. unfold bind in AA. rewrite Run in *. simpl in AA.
    intro E. destruct (IH m1 m' I1 E) as (I' & K' & AA' & Al).
    split; auto. split; [congruence|]. split.
    + intros u p q. rewrite AA', AA. unfold batch_added. split.
      * intros [[H|[-> H]]|(x & y & H & S)]; auto.
        -- right. exists a, b. split; auto. left; auto.
        -- right. exists x, y. split; auto. right; auto.
      * intros [H|(x & y & [H|H] & S)]; auto.
        -- inversion H; subst. auto.
        -- right. exists x, y. auto.
    + rewrite K in Al. unfold accepts in A. rewrite !andb_true_iff in A. destruct A as [[B T] _].
      apply both_true in B. apply allowed_spec in T.
      intros x y u [H|H]; [inversion H; subst; unfold allowed; tauto|eauto].
Qed.

(** A batch is accepted iff it is well formed and consistent with what is there. *)
Lemma add_all_succeeds l : forall m, Inv m ->
  (forall a b t, In (a, b, t) l -> In a (ids m) /\ In b (ids m) /\ allowed t) ->
  (exists f, satisfies (added_must m) (added_cannot m) f /\
     satisfies (batch_added l MUST_LINK) (batch_added l CANNOT_LINK) f) ->
  exists m', add_all l m = (m', Ok tt).
Proof.
  induction l as [|[[a b] t] l IH]; intros m I W (f & Sm & Sb); unfold add_all; simpl; unfold bind, ret.
  - eauto.
  - destruct (W a b t (or_introl eq_refl)) as (Ia & Ib & T).
    assert (A : accepts m a b t = true).
    { apply accepts_satisfiable; auto. exists f. destruct Sm as [S1 S2], Sb as [B1 B2]. split.
      - intros x y [H|(-> & -> & ->)]; auto. apply B1. exists a, b. split; [left; auto|left; auto].
      - intros x y [H|(-> & -> & ->)]; auto. apply B2. exists a, b. split; [left; auto|left; auto]. }
    assert (AA := add_added m a b t 1%Q I A).
    destruct (run_add_constraint m a b t 1%Q I A) as (m1 & Run & I1 & K & _).
    simpl in AA. unfold bind in AA. rewrite Run in *. simpl in AA.
    apply IH; auto.
    + rewrite K. intros x y u H. apply W. right; auto.
    + exists f. destruct Sm as [S1 S2], Sb as [B1 B2]. split; split; intros x y H.
      * apply AA in H. destruct H as [H|[E S]]; [apply S1; auto|]. subst. apply B1. exists a, b. split; auto. left; auto.
      * apply AA in H. destruct H as [H|[E S]]; [apply S2; auto|]. subst. apply B2. exists a, b. split; auto. left; auto.
      * apply B1. destruct H as (u & w & H & S). exists u, w. split; auto. right; auto.
      * apply B2. destruct H as (u & w & H & S). exists u, w. split; auto. right; auto.
Qed.

(*PROP C21: a batch of annotations accepted in one order is accepted in every order, and the resulting managers give the same answers. *)
Lemma C21_batch_order_irrelevant_proof :
  forall m l1 l2 m1, reachable m -> Permutation l1 l2 ->
    add_all l1 m = (m1, Ok tt) ->
    exists m2, add_all l2 m = (m2, Ok tt) /\
      (forall x, managed m1 x <-> managed m2 x) /\
      (forall a b, ask (get_added_constraint a b) m1 = ask (get_added_constraint a b) m2) /\
      same_answers m1 m2.
Proof.
  intros m l1 l2 m1 R P E. assert (I := reachable_inv _ R).
  destruct (add_all_ok l1 m m1 I E) as (I1 & K1 & A1 & W1).
  assert (BE : forall t p q, batch_added l1 t p q <-> batch_added l2 t p q).
  { intros t p q. split; intros (x & y & H & S); exists x, y; split; auto.
    - eapply Permutation_in; eauto.
    - eapply Permutation_in; [apply Permutation_sym|]; eauto. }
  destruct (add_all_succeeds l2 m I) as (m2 & E2).
  { intros a b t H. apply W1. eapply Permutation_in; [apply Permutation_sym|]; eauto. }
  { destruct (inv_satisfiable m1 I1) as (f & S1 & S2). exists f. split; split; intros x y H.
    - apply S1, A1. left; auto.
    - apply S2, A1. left; auto.
    - apply S1, A1. right. apply BE; auto.
    - apply S2, A1. right. apply BE; auto. }
  exists m2. split; auto. destruct (add_all_ok l2 m m2 I E2) as (I2 & K2 & A2 & W2).
  assert (EI : forall x, In x (ids m1) <-> In x (ids m2)) by (intro; rewrite K1, K2; tauto).
  assert (EA : forall t a b, added m1 t a b <-> added m2 t a b).
  { intros t a b. rewrite A1, A2, BE. tauto. }
  split; [intro x; rewrite !managed_ids; auto|]. split.
  - intros a b. unfold ask. rewrite !run_added by auto. simpl.
    unfold both. rewrite K1, K2. fold (both m a b). destruct (both m a b) eqn:B; auto. f_equal.
    apply both_true in B.
    destruct (addf m1 a b) as [[t v]|] eqn:Q1.
    + assert (H : added m1 t a b).
      { unfold added, ask. rewrite run_added by auto. unfold both. rewrite K1. fold (both m a b).
        assert (B' : both m a b = true) by (apply both_true; auto). rewrite B'. simpl. rewrite Q1. eauto. }
      assert (H2 := H). apply EA in H2. apply addf_added in H; auto. apply addf_added in H2; auto.
      destruct H as (_ & _ & H), H2 as (_ & _ & H2). congruence.
    + destruct (addf m2 a b) as [[t v]|] eqn:Q2; auto.
      assert (H : added m2 t a b).
      { unfold added, ask. rewrite run_added by auto. unfold both. rewrite K2. fold (both m a b).
        assert (B' : both m a b = true) by (apply both_true; auto). rewrite B'. simpl. rewrite Q2. eauto. }
      apply EA in H. apply addf_added in H; auto. destruct H as (_ & _ & H). congruence.
  - apply same_answers_from_relations; auto.
    + apply same_linked; auto.
    + apply same_separated; auto.
Qed.

(*EX
Example C21_ex : exists m1 m2,
  add_all [(a, b, MUST_LINK); (b, c, MUST_LINK); (a, c, MUST_LINK); (c, d, CANNOT_LINK)] (init [a; b; c; d]) = (m1, Ok tt)
  /\ add_all [(c, d, CANNOT_LINK); (a, c, MUST_LINK); (b, c, MUST_LINK); (a, b, MUST_LINK)] (init [a; b; c; d]) = (m2, Ok tt)
  /\ m1 <> m2.
Proof. eexists. eexists. split; [vm_compute; reflexivity|]. split; [vm_compute; reflexivity|]. intro E. discriminate E. Qed.
EX*)
