(** * Taking changes back (C128) *)

From Coq Require Import String List Bool Arith ZArith QArith Lia.
(*HEADER
From Coq Require Import String List Bool Arith ZArith QArith.
From Verif Require Import Base Manager Spec ManagerThms Json ResumeSpec UndoSpec UndoThms.
Import ListNotations.
Open Scope nat_scope.

Definition a : pystr := str "a".
Definition b : pystr := str "b".
Definition c : pystr := str "c".
Definition d : pystr := str "d".
Definition ex : mgr := run [CallAddConstraint a b MUST_LINK 1%Q; CallAddConstraint c b CANNOT_LINK 1%Q] (init [d; c; b; a]).
(** Accepted, refused and useless calls, and constraints deleted. *)
Definition session : list call :=
  [CallDeleteConstraint b a; CallAddDataID (str "e"); CallAddConstraint a c MUST_LINK 1%Q; CallAddConstraint a b MUST_LINK 1%Q;
   CallAddConstraint c b CANNOT_LINK 1%Q; CallAddConstraint (str "e") d MUST_LINK 1%Q; CallDeleteConstraint a a; CallAddDataID a; CallComponents].
HEADER*)
From Verif Require Import Base Manager Spec Closure ManagerProofs ManagerInv ManagerQueries ManagerSem ManagerThms Json JsonSpec JsonThms SameSpec ResumeSpec ResumeThms EffortThms UndoSpec.
Import ListNotations.
Open Scope nat_scope.

Lemma managed_list m : ask get_list_of_managed_data_IDs m = Ok (ids m).
Proof. unfold ask. rewrite run_managed. reflexivity. Qed.

Lemma same_content_near m1 m2 : Inv m1 -> Inv m2 -> ids m1 = ids m2 ->
  (forall p q, In p (ids m1) -> In q (ids m1) -> str_leb p q = true -> sget (cdict m1) p q = sget (cdict m2) p q) -> same_content m1 m2.
Proof.
  intros I1 I2 E S. split. { rewrite !managed_list. congruence. }
  intros a b. unfold ask. rewrite !run_added by auto. rewrite (both_ids m1 m2 E). destruct (both m2 a b) eqn:B; auto. cbn [snd]. f_equal.
  rewrite !addf_lo_hi. rewrite S; auto.
  - rewrite E. apply (lo_hi_in _ _ _ B).
  - rewrite E. apply (lo_hi_in _ _ _ B).
  - apply lo_hi_leb.
Qed.

Lemma undo_one m c : reachable m -> (forall x, c <> CallDeleteDataID x) ->
  same_content (run (undo_call m c) (fst (exec c m))) m /\ Forall succeeds (outputs (undo_call m c) (fst (exec c m))).
Proof.
  intros R N. assert (I := reachable_inv _ R).
  assert (Z : forall m', m' = m -> same_content (run [] m') m /\ Forall succeeds (outputs [] m')).
  { intros m' ->. split; [|constructor]. split; auto. }
  destruct c; unfold undo_call; cbn [exec]; unfold bind.
  - assert (H := run_add_data_ID m x I). destruct (mem x (ids m)) eqn:X; [rewrite H; apply Z; auto|].
    destruct H as (m1 & -> & I1 & K1 & S1). cbn [ret fst snd run fold_left outputs exec]. unfold bind.
    assert (H := run_delete_data_ID m1 x I1). assert (M : mem x (ids m1) = true) by (apply mem_In; rewrite K1; apply in_or_app; simpl; auto). rewrite M in H.
    destruct H as (m2 & E2 & I2 & K2 & S2). unfold run. cbn [fold_left exec]. unfold bind. rewrite E2. cbn [ret fst snd].
    split; [|constructor; [eexists; reflexivity|constructor]].
    apply mem_nIn in X. assert (K : ids m2 = ids m).
    { rewrite K2, K1, filter_app. cbn [filter]. rewrite eqb_refl. cbn [negb]. rewrite app_nil_r.
      clear -X. induction (ids m) as [|y l IH]; simpl; auto. destruct (eqb_spec x y) as [->|]; simpl; [exfalso; apply X; left; auto|].
      f_equal. apply IH. intro. apply X. right; auto. }
    apply same_content_near; auto. intros p q P Q L. rewrite S2, S1. rewrite K in P, Q.
    assert (Np : eqb p x = false) by (destruct (eqb_spec p x) as [->|]; auto; contradiction).
    assert (Nq : eqb q x = false) by (destruct (eqb_spec q x) as [->|]; auto; contradiction).
    rewrite Np, Nq. reflexivity.
  - exfalso. apply (N x). reflexivity.
  - apply Z. reflexivity.
  - destruct (accepts m a b t) eqn:A; [|rewrite run_add_constraint_raise by auto; apply Z; auto].
    destruct (run_add_constraint m a b t v I A) as (m1 & -> & I1 & K1 & S1 & Same). cbn [ret fst snd].
    assert (B : both m a b = true) by (unfold accepts in A; rewrite !andb_true_iff in A; tauto).
    unfold ask. rewrite run_added by auto. rewrite B. cbn [snd]. destruct (addf m a b) as [c|] eqn:Ea; [apply Z, Same; discriminate|].
    assert (H := run_delete_constraint m1 a b I1). rewrite (both_ids m1 m K1), B in H. destruct H as (m2 & E2 & I2 & K2 & S2).
    unfold run. cbn [fold_left exec outputs]. unfold bind. rewrite E2. cbn [ret fst snd].
    split; [|constructor; [eexists; reflexivity|constructor]].
    apply same_content_near; auto; [congruence|]. intros p q P Q L. rewrite S2, S1. destruct (same_pair a b p q) eqn:SP; auto.
    rewrite addf_lo_hi in Ea. assert (PQ : p = lo a b /\ q = hi a b).
    { unfold same_pair in SP. rewrite andb_true_iff, !eqb_eq in SP. exact SP. }
    destruct PQ as [-> ->]. destruct (lo_hi_in _ _ _ B) as [Il Ih]. destruct (sget_total _ _ _ (proj1 I) Il Ih (lo_hi_leb a b)) as [o So].
    rewrite So in *. subst o. reflexivity.
  - assert (H := run_delete_constraint m a b I). destruct (both m a b) eqn:B; [|rewrite H; apply Z; auto].
    destruct H as (m1 & -> & I1 & K1 & S1). cbn [ret fst snd]. unfold ask. rewrite run_added by auto. rewrite B. cbn [snd].
    assert (PQ : forall p q, same_pair a b p q = true -> p = lo a b /\ q = hi a b).
    { intros p q SP. unfold same_pair in SP. rewrite andb_true_iff, !eqb_eq in SP. exact SP. }
    destruct (lo_hi_in _ _ _ B) as [Il Ih]. destruct (sget_total _ _ _ (proj1 I) Il Ih (lo_hi_leb a b)) as [o So].
    assert (Ea : addf m a b = o) by (rewrite addf_lo_hi, So; auto).
    assert (SP : same_pair a b (lo a b) (hi a b) = true) by (unfold same_pair; rewrite !eqb_refl; reflexivity).
    destruct (addf m a b) as [[t v]|] eqn:Ef.
    + subst o.
      assert (Et : allowed t /\ v = 1%Q). { apply (wf_val _ (proj1 I)) in So. unfold allowed. tauto. } destruct Et as [At ->].
      assert (A : accepts m1 a b t = true).
      { apply accepts_satisfiable; auto.
        - rewrite K1. apply both_true in B. tauto.
        - rewrite K1. apply both_true in B. tauto.
        - destruct (stored_labels m I) as (f & F1 & F2). exists f.
          assert (D : forall u p q, added m1 u p q -> added m u p q).
          { intros u p q. rewrite !addf_added by auto. rewrite K1, (addf_lo_hi m1), (addf_lo_hi m), S1.
            destruct (same_pair a b (lo p q) (hi p q)); [intros (_ & _ & ?); discriminate|auto]. }
          assert (T : added m t a b). { apply addf_added; auto. apply both_true in B. rewrite Ef. tauto. }
          split; intros p q [H|(-> & -> & ->)]; auto; [apply F1|apply F2]; apply D; exact H. }
      destruct (run_add_constraint m1 a b t 1%Q I1 A) as (m2 & E2 & I2 & K2 & S2 & _).
      unfold run. cbn [fold_left exec outputs]. unfold bind. rewrite E2. cbn [ret fst snd].
      split; [|constructor; [eexists; reflexivity|constructor]].
      apply same_content_near; auto; [congruence|]. intros p q P Q L. rewrite S2, S1. destruct (same_pair a b p q) eqn:S; auto.
      destruct (PQ p q S) as [-> ->]. rewrite So. f_equal. rewrite addf_lo_hi, S1, SP. reflexivity.
    + subst o. split; [|constructor]. apply same_content_near; auto. intros p q P Q L. cbn [run fold_left]. rewrite S1.
      destruct (same_pair a b p q) eqn:S; auto. destruct (PQ p q S) as [-> ->]. auto.
  - rewrite run_added by auto. destruct (both m a b); apply Z; auto.
  - rewrite run_inferred by auto. destruct (both m a b); apply Z; auto.
  - rewrite run_components by auto. apply Z; auto.
  - destruct (run_completude m I) as (? & -> & _). apply Z; auto.
  - rewrite run_conflict by auto. destruct (both m a b && _); apply Z; auto.
Qed.

Lemma run_app l1 l2 m : run (l1 ++ l2) m = run l2 (run l1 m).
Proof. unfold run. apply fold_left_app. Qed.

Lemma outputs_app l1 : forall l2 m, outputs (l1 ++ l2) m = outputs l1 m ++ outputs l2 (run l1 m).
Proof. induction l1 as [|c l1 IH]; intros l2 m; simpl; auto. rewrite IH. reflexivity. Qed.

Lemma same_succeeds r1 r2 : same_output r1 r2 -> succeeds r2 -> succeeds r1.
Proof.
  intros S [v ->]. destruct r1 as [v1|e]; [eexists; reflexivity|]. cbn in S. discriminate.
Qed.

Lemma run_from_reachable l : forall m, reachable m -> reachable (run l m).
Proof. induction l as [|c l IH]; intros m R; auto. apply (IH (fst (exec c m))). constructor. exact R. Qed.

(*PROP C128: after any history without deleted ID, refused and useless calls included, taking its effective calls back, the last one first, is never refused and restores the IDs, their order and all added constraints. *)
Lemma C128_undo_proof :
  forall m l, reachable m -> keeps_IDs l ->
    Forall succeeds (outputs (undo l m) (run l m)) /\ same_content (run (undo l m) (run l m)) m.
Proof.
  intros m l. revert m. induction l as [|c l IH]; intros m R K; [split; [constructor|split; auto]|].
  destruct (IH (fst (exec c m))) as [O C]. { constructor; auto. } { intros x X. apply (K x). right; auto. }
  destruct (undo_one m c R) as [C1 O1]. { intros x ->. apply (K x). left; auto. }
  change (run (c :: l) m) with (run l (fst (exec c m))). cbn [undo]. rewrite run_app, outputs_app.
  assert (R1 : reachable (fst (exec c m))) by (constructor; auto).
  assert (R2 : reachable (run (undo l (fst (exec c m))) (run l (fst (exec c m))))) by (apply run_from_reachable, run_from_reachable; auto).
  destruct (C96_indistinguishable_proof _ _ R2 R1) as [Q1 Q2]. specialize (Q2 C (undo_call m c)). specialize (proj1 Q1 C (undo_call m c)). intro Q3. split.
  - apply Forall_app. split; auto. clear -Q3 O1. revert O1. induction Q3; intro O; constructor; inversion O; subst; auto. eapply same_succeeds; eauto.
  - destruct Q2 as [A B], C1 as [A' B']. split; [congruence|]. intros a b. rewrite B. apply B'.
Qed.

(*EX
Example C128_undo_ex : reachable ex /\ keeps_IDs session /\
  undo session ex = [CallAddConstraint a a MUST_LINK 1%Q; CallDeleteConstraint (str "e") d; CallDeleteConstraint a c; CallDeleteDataID (str "e"); CallAddConstraint b a MUST_LINK 1%Q].
Proof.
  split; [apply run_reachable|]. split; [|vm_compute; reflexivity].
  intros x X. unfold session in X. simpl in X. repeat (destruct X as [X|X]; [discriminate|]). exact X.
Qed.
EX*)

Lemma added_addf_set m m' x y : Inv m -> Inv m' -> (forall z, In z (ids m) <-> In z (ids m')) ->
  (forall t, added m t x y <-> added m' t x y) ->
  ask (get_added_constraint x y) m = ask (get_added_constraint x y) m'.
Proof.
  intros I I' K H. unfold ask. rewrite !run_added by auto. simpl. unfold both. assert (KX : forall z, mem z (ids m) = mem z (ids m')) by (intro z; specialize (K z); rewrite <- !mem_In in K; destruct (mem z (ids m)), (mem z (ids m')); intuition congruence). rewrite !KX.
  destruct (mem x (ids m') && mem y (ids m')) eqn:B; auto. f_equal. apply andb_true_iff in B. rewrite !mem_In in B.
  assert (V : forall m0, Inv m0 -> addf m0 x y = None \/ exists t, addf m0 x y = Some (t, 1%Q)).
  { intros m0 I0. rewrite addf_lo_hi. destruct (sget (cdict m0) (lo x y) (hi x y)) as [[[t v]|]|] eqn:E; auto. right. exists t.
    apply (wf_val _ (proj1 I0)) in E as [_ ->]. reflexivity. }
  assert (H' : forall t, addf m x y = Some (t, 1%Q) <-> addf m' x y = Some (t, 1%Q)).
  { intro t. specialize (H t). rewrite !addf_added in H by auto. rewrite !K in H. tauto. }
  destruct (V m I) as [E|(t & E)].
  - destruct (V m' I') as [E'|(t & E')]; [congruence|]. apply H' in E'. congruence.
  - rewrite E. symmetry. apply H'. auto.
Qed.

(*PROP C128: an ID that was deleted by mistake can be put back: managing it again and adding its constraints again, in any order, is never refused, and gives the constraints and answers of before; only the position of the ID changes, and a deleted constraint of the ID with itself comes back. *)
Lemma C128_put_back_proof :
  forall m x l, reachable m -> managed m x -> lists_constraints_of m x l ->
    exists m', add_all l (run [CallDeleteDataID x; CallAddDataID x] m) = (m', Ok tt) /\ reachable m' /\
      (forall ids0, ask get_list_of_managed_data_IDs m = Ok ids0 ->
         ask get_list_of_managed_data_IDs m' = Ok (filter (fun y => negb (eqb x y)) ids0 ++ [x])) /\
      (forall a b, ~ (a = x /\ b = x) -> ask (get_added_constraint a b) m' = ask (get_added_constraint a b) m) /\
      added m' MUST_LINK x x /\ same_answers m' m.
Proof.
  intros m x l R X [L1 L2]. assert (I := reachable_inv _ R). apply managed_ids in X; auto.
  set (m0 := run [CallDeleteDataID x; CallAddDataID x] m).
  assert (R0 : reachable m0) by (apply run_from_reachable; auto). assert (I0 := reachable_inv _ R0).
  assert (D := run_delete_data_ID m x I). rewrite (proj2 (mem_In x (ids m)) X) in D. destruct D as (m1 & E1 & I1 & K1 & S1).
  assert (D := run_add_data_ID m1 x I1).
  assert (N1 : mem x (ids m1) = false). { apply mem_nIn. rewrite K1. intro J. apply filter_In in J as [_ J]. rewrite eqb_refl in J. discriminate. }
  rewrite N1 in D. destruct D as (m2 & E2 & I2 & K2 & S2).
  assert (E0 : m0 = m2). { unfold m0, run. cbn [fold_left exec]. unfold bind. rewrite E1. cbn [ret fst]. rewrite E2. reflexivity. }
  rewrite E0 in *. clear m0 E0.
  assert (M : forall y, In y (ids m2) <-> In y (ids m)).
  { intro y. rewrite K2, K1, in_app_iff, filter_In. simpl. destruct (eqb_spec x y) as [->|N]; simpl; [tauto|]. split; [|tauto]. intros [[H _]|[H|[]]]; auto; contradiction. }
  (* what m2 has *)
  assert (A2 : forall t a b, added m2 t a b <-> (added m t a b /\ a <> x /\ b <> x) \/ (a = x /\ b = x /\ t = MUST_LINK)).
  { intros t a b. rewrite !addf_added by auto. rewrite !M, (addf_lo_hi m2), (addf_lo_hi m), S2, S1.
    assert (LO : lo a b = a /\ hi a b = b \/ lo a b = b /\ hi a b = a) by (unfold lo, hi; destruct (str_leb a b); auto).
    assert (LB := lo_hi_leb a b).
    assert (Q : In a (ids m) -> In b (ids m) ->
      match (if (eqb (lo a b) x && mem (hi a b) (ids m1 ++ [x]) || eqb (hi a b) x && mem (lo a b) (ids m1 ++ [x])) && str_leb (lo a b) (hi a b)
             then Some (if eqb (lo a b) (hi a b) then Some (MUST_LINK, 1%Q) else None)
             else if eqb (lo a b) x || eqb (hi a b) x then None else sget (cdict m) (lo a b) (hi a b)) with Some o => o | None => None end
      = if eqb a x || eqb b x then (if eqb a b then Some (MUST_LINK, 1%Q) else None)
        else match sget (cdict m) (lo a b) (hi a b) with Some o => o | None => None end).
    { intros Ia Ib. rewrite LB, andb_true_r.
      assert (Ma : mem a (ids m1 ++ [x]) = true) by (apply mem_In; rewrite <- K2; apply M; auto).
      assert (Mb : mem b (ids m1 ++ [x]) = true) by (apply mem_In; rewrite <- K2; apply M; auto).
      destruct LO as [[-> ->]|[-> ->]]; rewrite Ma, Mb, !andb_true_r.
      - destruct (eqb a x || eqb b x); auto.
      - rewrite (orb_comm (eqb b x)). assert (EB : eqb b a = eqb a b) by (destruct (eqb_spec b a), (eqb_spec a b); congruence). rewrite EB.
        destruct (eqb a x || eqb b x); auto. }
    split.
    - intros (Ia & Ib & H).
      assert (H' := eq_trans (eq_sym (Q Ia Ib)) H). clear H. rename H' into H. destruct (eqb_spec a x) as [->|Na]; cbn [orb] in H.
      + destruct (eqb_spec x b) as [<-|]; [|discriminate]. injection H as <-. auto.
      + destruct (eqb_spec b x) as [->|Nb]; cbn [orb] in H; [destruct (eqb_spec a x); [contradiction|discriminate]|]. left. auto.
    - intros [((Ia & Ib & H) & Na & Nb)|(-> & -> & ->)].
      + split; auto. split; auto. refine (eq_trans (Q Ia Ib) _). destruct (eqb_spec a x); [contradiction|]. destruct (eqb_spec b x); [contradiction|]. exact H.
      + split; auto. split; auto. refine (eq_trans (Q X X) _). rewrite eqb_refl. reflexivity. }
  assert (LB : forall t p q, batch_added l t p q -> added m t p q).
  { intros t p q (a & b & H & SU). apply L1 in H as [H _]. destruct SU as [[-> ->]|[-> ->]]; auto. apply added_sym; auto. }
  destruct (stored_labels m I) as (f & F1 & F2).
  destruct (add_all_succeeds l m2 I2) as (m' & E').
  { intros a b t H. apply L1 in H as [H _]. apply addf_added in H; auto. rewrite !M. split; [tauto|]. split; [tauto|].
    destruct H as (_ & _ & H). rewrite addf_lo_hi in H. destruct (sget (cdict m) (lo a b) (hi a b)) as [o|] eqn:So; [|discriminate]. subst o.
    apply (wf_val _ (proj1 I)) in So. unfold allowed. tauto. }
  { exists f. split; split; intros a b H.
    - apply A2 in H as [[H _]|(-> & -> & _)]; auto.
    - apply A2 in H as [[H _]|(_ & _ & H)]; [apply F2; auto|discriminate].
    - apply F1, LB, H.
    - apply F2, LB, H. }
  exists m'. split; auto. split; [exact (add_all_reachable _ _ _ R0 E')|]. destruct (add_all_ok _ _ _ I2 E') as (I' & K' & A' & _).
  assert (AA : forall t a b, added m' t a b <-> added m t a b \/ (a = x /\ b = x /\ t = MUST_LINK)).
  { intros t a b. rewrite A', A2. split.
    - intros [[[H _]|H]|H]; auto.
    - intros [H|H]; auto. destruct (eqb_spec a x) as [->|Na].
      + destruct (eqb_spec b x) as [->|Nb].
        * left. right. split; auto. split; auto. apply addf_added in H; auto. destruct H as (_ & _ & H).
          destruct (eqb_spec t MUST_LINK) as [|Nt]; auto. exfalso. apply (no_self_cannot m x I). apply addf_added; auto.
          assert (H2 := H). rewrite addf_lo_hi in H2. destruct (sget (cdict m) (lo x x) (hi x x)) as [o|] eqn:So; [|discriminate]. subst o.
          apply (wf_val _ (proj1 I)) in So as [[T|T] _]; [contradiction|]. subst t. auto.
        * right. destruct (L2 b t Nb H) as [J|J]; do 2 eexists; (split; [exact J|]); red; auto.
      + destruct (eqb_spec b x) as [->|Nb]; [|left; left; auto]. right. apply added_sym in H; auto.
        destruct (L2 a t Na H) as [J|J]; do 2 eexists; (split; [exact J|]); red; auto. }
  assert (MM : forall y, In y (ids m') <-> In y (ids m)) by (intro y; rewrite K'; apply M).
  assert (EL : forall p q, linked (added_must m') p q <-> linked (added_must m) p q).
  { intros p q. split; apply self_linked; intros u v H; unfold added_must in *.
    - apply AA in H as [H|(-> & -> & _)]; auto.
    - left. apply AA. auto. }
  split; [|split; [|split]].
  - intros l0 L0. rewrite managed_list in *. injection L0 as <-. rewrite K', K2, K1. reflexivity.
  - intros a b N. apply added_addf_set; auto. intro t. rewrite AA. tauto.
  - apply AA. auto.
  - apply same_answers_from_relations; auto.
    + intros p q. rewrite <- !added_linked by auto. apply EL.
    + intros p q. rewrite <- !added_separated by auto. unfold separated.
      split; intros (u & v & H1 & H2 & C); exists u, v.
      * split; [apply EL; auto|]. split; [apply EL; auto|]. unfold added_cannot in *. rewrite !AA in C.
        destruct C as [[C|(_ & _ & C)]|[C|(_ & _ & C)]]; auto; discriminate.
      * split; [apply EL; auto|]. split; [apply EL; auto|]. unfold added_cannot in *. rewrite !AA. tauto.
Qed.

(*EX
Example C128_put_back_ex : managed ex b /\ lists_constraints_of ex b [(b, c, CANNOT_LINK); (a, b, MUST_LINK)].
Proof.
  assert (I := ManagerQueries.reachable_inv ex (run_reachable _ _)). split; [apply ManagerInv.managed_ids; vm_compute; auto|]. split.
  - intros u v t [E|[E|[]]]; injection E as <- <- <-; (split; [exists 1%Q; vm_compute; reflexivity|auto]).
  - intros u t N H. assert (Iu := H). apply addf_added in Iu; auto. destruct Iu as (_ & Iu & E). vm_compute in Iu.
    destruct Iu as [<-|[<-|[<-|[<-|[]]]]]; vm_compute in E; try discriminate; injection E as <-; simpl; auto; exfalso; apply N; reflexivity.
Qed.
EX*)
