(** * Resolving a conflict with the list of involved IDs *)

From Coq Require Import String List Bool Arith QArith Lia.
From Verif Require Import Base Manager Spec Closure ManagerProofs ManagerInv ManagerSem ManagerQueries ManagerThms RepairSpec.
Import ListNotations.
Open Scope nat_scope.

(*HEADER
(** * Properties of the list of IDs involved in a conflict (C99) *)

From Coq Require Import String List Bool Arith QArith.
From Verif Require Import Base Manager Spec RepairSpec ManagerThms RepairThms.
Import ListNotations.
Open Scope nat_scope.

Definition a := str "a". Definition b := str "b". Definition c := str "c". Definition d := str "d".
Definition ex : mgr := run [CallAddConstraint a b MUST_LINK 1%Q; CallAddConstraint b c CANNOT_LINK 1%Q] (init [a; b; c; d]).
HEADER*)

(** ** The abstract state of a manager *)
Definition abstract (m : mgr) : amap := mkAmap (ids m) (fun p q => if both m p q then option_map fst (addf m p q) else None).

Lemma abstract_shows m : Inv m -> shows m (abstract m) /\ a_closed (abstract m).
Proof.
  intro I. split.
  - apply shows_intro; auto. intros p q Ip Iq. cbn [abstract a_con].
    assert (both m p q = true) as -> by (apply both_true; auto).
    destruct (addf m p q) as [c|] eqn:E; auto. cbn [option_map].
    assert (V : exists t, added m t p q).
    { exists (fst c). exists (snd c). unfold ask. rewrite run_added by auto.
      assert (both m p q = true) as -> by (apply both_true; auto). cbn [snd]. rewrite E. destruct c; auto. }
    destruct V as (t & V). apply addf_added in V; auto. destruct V as (_ & _ & V). assert (c = (t, 1%Q)) as -> by congruence. auto.
  - intros p q. cbn [abstract a_con a_ids]. destruct (both m p q) eqn:B; [|congruence]. intros _. apply both_true. auto.
Qed.

Lemma abstract_added m t p q : Inv m -> added m t p q <-> a_con (abstract m) p q = Some t.
Proof. intro I. destruct (abstract_shows m I). apply shows_added; auto. Qed.

(** What a call does to the added constraints. *)
Lemma added_step m c t p q : Inv m ->
  added (fst (exec c m)) t p q <->
  (a_ok (abstract m) c /\ a_con (a_effect (abstract m) c) p q = Some t) \/ (~ a_ok (abstract m) c /\ added m t p q).
Proof.
  intro I. destruct (abstract_shows m I) as [S C]. destruct (exec_result m c I) as [OK|[E ER]].
  - assert (OK' : a_ok (abstract m) c) by (apply (a_ok_exec m _ c I S C); auto).
    destruct (a_effect_shows m _ c I S C OK') as [S' C']. rewrite (shows_added _ _ t p q (exec_inv m c I) S' C'). tauto.
  - assert (N : ~ a_ok (abstract m) c). { intro OK. apply (a_ok_exec m _ c I S C) in OK. destruct OK as (v & EV). congruence. }
    rewrite E. tauto.
Qed.

Lemma pair_eqb_spec a b p q : pair_eqb a b p q = true <-> same_unordered a b p q.
Proof. unfold pair_eqb, same_unordered. rewrite orb_true_iff, !andb_true_iff, !eqb_eq. tauto. Qed.

(** ** Calls outside of the list *)
Definition keeps (l : list pystr) (m m' : mgr) : Prop :=
  (forall x, In x l -> In x (ids m')) /\ forall t p q, p <> q -> In p l -> In q l -> added m t p q -> added m' t p q.

Lemma keeps_step l m m' c : Inv m' -> outside l c -> keeps l m m' -> keeps l m (fst (exec c m')).
Proof.
  intros I O [K1 K2]. split.
  - intros x Ix. apply present_step; auto. specialize (K1 x Ix). destruct c; auto. split; auto. intros ->. apply O. auto.
  - intros t p q N Ip Iq A. specialize (K2 t p q N Ip Iq A). apply added_step; auto.
    destruct (abstract_shows m' I) as [S C]. assert (D : a_ok (abstract m') c \/ ~ a_ok (abstract m') c).
    { destruct (exec_result m' c I) as [OK|[E ER]].
      - left. apply (a_ok_exec m' _ c I S C); auto.
      - right. intro OK. apply (a_ok_exec m' _ c I S C) in OK. destruct OK as (v & EV). congruence. }
    destruct D as [D|D]; [left|right; auto]. split; auto.
    assert (B : a_con (abstract m') p q = Some t) by (apply abstract_added; auto).
    destruct c as [x|x| |x y u v|x y| | | | | ]; cbn [a_effect a_con]; auto.
    + simpl in D. assert (p <> x /\ q <> x) as [Np Nq].
      { split; intros ->; apply D; cbn [abstract a_ids]; apply K1; auto. }
      apply eqb_neq in Np. apply eqb_neq in Nq. rewrite Np, Nq. auto.
    + simpl in O. assert (p <> x /\ q <> x) as [Np Nq] by (split; intros ->; auto).
      apply eqb_neq in Np. apply eqb_neq in Nq. rewrite Np, Nq. auto.
    + rewrite B. auto.
    + simpl in O. destruct (pair_eqb x y p q) eqn:P; auto. apply pair_eqb_spec in P.
      destruct P as [[-> ->]|[-> ->]]; destruct O as [O|[O|O]]; subst; tauto.
Qed.

Lemma keeps_run l m h : Forall (outside l) h -> forall m', Inv m' -> keeps l m m' -> keeps l m (run h m').
Proof.
  induction 1 as [|c h O F IH]; intros m' I K; [exact K|]. apply IH; [apply exec_inv; auto|apply keeps_step; auto].
Qed.

(** A chain inside the list survives. *)
Lemma keeps_linked l m m' x y : Inv m -> Inv m' -> keeps l m m' -> (forall z, linked (added_must m) x z -> In z l) ->
  linked (added_must m) x y -> linked (added_must m') x y.
Proof.
  intros I I' [K1 K2] H L. assert (G : forall z, linked (added_must m) x z -> linked (added_must m') x z); [|auto].
  clear y L. intros z L. induction L as [x|x y z L IH S]; [constructor|].
  destruct (eqb_spec y z) as [->|N]; [apply IH; auto|].
  assert (In y l) by (apply H; auto). assert (In z l) by (apply H; econstructor; eauto).
  apply linked_step with y; [apply IH; auto|].
  destruct S as [S|S]; [left|right]; apply K2; auto.
Qed.

Lemma sep_distinct m x y : Inv m -> added_cannot m x y -> x <> y.
Proof.
  intros I C ->. destruct (inv_satisfiable m I) as (f & _ & S). apply (S y y C). auto.
Qed.

Lemma linked_tr must x y z : linked must x y -> linked must y z -> linked must x z.
Proof. intros A B. revert A. induction B as [|p q r B IH S]; intro A; auto. econstructor; [apply IH; auto|exact S]. Qed.
Lemma linked_sy must x y : linked must x y -> linked must y x.
Proof.
  induction 1 as [|x y z L IH S]; [constructor|]. apply linked_tr with y; auto. econstructor; [constructor|tauto].
Qed.

(** What the list holds, and why the constraint is refused. *)
Lemma conflict_list m a b t l : Inv m -> ask (get_list_of_involved_data_IDs_in_a_constraint_conflict a b t) m = Ok (Some l) ->
  In a (ids m) /\ In b (ids m) /\
  (forall x, In x l <-> linked (added_must m) a x \/ linked (added_must m) b x) /\
  ((t = CANNOT_LINK /\ linked (added_must m) a b) \/ (t = MUST_LINK /\ separated (added_must m) (added_cannot m) a b)).
Proof.
  intros I E. unfold ask in E. rewrite run_conflict in E by auto. cbn [snd] in E.
  destruct (both m a b) eqn:B; [|discriminate]. apply both_true in B as B'. destruct B' as [Ia Ib].
  destruct (mem t allowed_types) eqn:T; [|discriminate]. cbn [andb] in E. destruct (accepts m a b t) eqn:A; [discriminate|].
  assert (L : l = flat_map (fun c => if mem a c || mem b c then c else []) (comps m)) by congruence.
  split; auto. split; auto. split.
  - intro x. subst l. rewrite conflict_members by auto. rewrite !added_linked by auto. tauto.
  - unfold accepts in A. rewrite B, T in A. cbn [andb] in A. apply allowed_spec in T.
    rewrite added_linked, added_separated by auto.
    assert (MC := ML_neq_CL).
    destruct (infer_cases m a b) as [Q|[Q|Q]]; rewrite Q in A; try discriminate.
    + destruct T as [-> | ->]; [vm_compute in A; discriminate|]. left. split; auto. apply infer_ML; auto.
    + destruct T as [-> | ->]; [|vm_compute in A; discriminate]. right. split; auto. apply infer_CL; auto.
Qed.

Lemma refused m a b t v : Inv m -> In a (ids m) -> In b (ids m) ->
  (t = CANNOT_LINK /\ linked (added_must m) a b) \/ (t = MUST_LINK /\ separated (added_must m) (added_cannot m) a b) ->
  exec (CallAddConstraint a b t v) m = (m, Raise ValueError).
Proof.
  intros I Ia Ib H. cbn [exec]. unfold bind. rewrite run_add_constraint_raise; auto.
  unfold accepts. assert (both m a b = true) as -> by (apply both_true; auto).
  assert (MC := ML_neq_CL). rewrite added_linked, added_separated in H by auto.
  destruct H as [[-> H]|[-> H]].
  - apply infer_ML in H; auto. rewrite H. reflexivity.
  - apply infer_CL in H; auto. rewrite H. reflexivity.
Qed.

(*PROP C99: whatever is done without taking away a listed ID or a constraint between two listed IDs, the constraint stays refused. *)
Lemma C99_conflict_stays_proof :
  forall m, reachable m -> forall a b t l v,
    ask (get_list_of_involved_data_IDs_in_a_constraint_conflict a b t) m = Ok (Some l) ->
    forall history, Forall (outside l) history ->
      ask (add_constraint a b t v) (run history m) = Raise ValueError.
Proof.
  intros m R a b t l v E h F. assert (I := reachable_inv m R). assert (I' : Inv (run h m)) by (apply reachable_inv, run_reachable_from; auto).
  destruct (conflict_list m a b t l I E) as (Ia & Ib & L & H).
  assert (K : keeps l m (run h m)).
  { apply keeps_run; auto. split; auto. intros x Ix. apply L in Ix. rewrite !added_linked in Ix by auto. destruct Ix as [X|X]; [apply (linked_ids m a)|apply (linked_ids m b)]; auto. }
  assert (La : In a l) by (apply L; left; constructor). assert (Lb : In b l) by (apply L; right; constructor).
  assert (Ka : forall y, linked (added_must m) a y -> linked (added_must (run h m)) a y) by (intro y; apply (keeps_linked l); auto; intros z Z; apply L; auto).
  assert (Kb : forall y, linked (added_must m) b y -> linked (added_must (run h m)) b y) by (intro y; apply (keeps_linked l); auto; intros z Z; apply L; auto).
  assert (X : exec (CallAddConstraint a b t v) (run h m) = (run h m, Raise ValueError)).
  { apply refused; auto; [apply K; auto|apply K; auto|]. destruct H as [[-> H]|[-> (x & y & Lx & Ly & C)]]; [left; split; auto|right; split; auto].
    exists x, y. split; [auto|]. split; [auto|]. destruct K as [K1 K2].
    destruct C as [C|C]; [left; apply K2; auto; [apply (sep_distinct m); auto|..]|right; apply K2; auto; [apply (sep_distinct m); auto|..]]; apply L; auto. }
  cbn [exec] in X. unfold bind in X. unfold ask. destruct (add_constraint a b t v (run h m)) as [m2 [x|e]]; cbn [snd]; [discriminate|]. congruence.
Qed.

(** ** Retractions *)
Lemma retracts_step a b m c : Inv m -> retracts a b c ->
  (forall x, x = a \/ x = b -> In x (ids m) -> In x (ids (fst (exec c m)))) /\
  forall t p q, added (fst (exec c m)) t p q -> added m t p q.
Proof.
  intros I R. split.
  - intros x X Ix. apply present_step; auto. destruct c; auto. destruct R. split; auto. destruct X; congruence.
  - intros t p q A. apply added_step in A; auto. destruct A as [[OK A]|[_ A]]; auto. apply abstract_added; auto.
    destruct c as [x|x| |x y u v|x y| | | | | ]; try (destruct R; fail); cbn [a_effect a_con] in A.
    + destruct (eqb p x || eqb q x); [discriminate|auto].
    + destruct (pair_eqb x y p q); [discriminate|auto].
Qed.

Lemma retracts_run a b h : Forall (retracts a b) h -> forall m, Inv m ->
  (forall x, x = a \/ x = b -> In x (ids m) -> In x (ids (run h m))) /\
  forall t p q, added (run h m) t p q -> added m t p q.
Proof.
  induction 1 as [|c h R F IH]; intros m I; [auto|]. destruct (retracts_step a b m c I R) as [X1 X2].
  destruct (IH _ (exec_inv m c I)) as [Y1 Y2]. split; intros; auto.
Qed.

Lemma linked_alone (must : pystr -> pystr -> Prop) l x y : (forall p q, must p q -> p <> q -> (In p l -> In q l) /\ (In q l -> In p l)) ->
  (forall p q, In p l -> In q l -> p <> q -> ~ must p q) -> In x l -> linked must x y -> x = y.
Proof.
  intros H1 H2 Ix L. induction L as [x|x y z L IH S]; auto. specialize (IH Ix). subst y.
  destruct (eqb_spec x z) as [->|N]; auto. exfalso. destruct S as [S|S].
  - apply (H2 x z); auto. apply (H1 x z); auto.
  - apply (H2 z x); auto. apply (H1 z x); auto.
Qed.

(*PROP C99: and when constraints have been taken away until none is left between two different listed IDs, the constraint is accepted. *)
Lemma C99_conflict_resolved_proof :
  forall m, reachable m -> forall a b t l v, a <> b ->
    ask (get_list_of_involved_data_IDs_in_a_constraint_conflict a b t) m = Ok (Some l) ->
    forall history, Forall (retracts a b) history ->
      (forall u x y, In x l -> In y l -> x <> y -> ~ added (run history m) u x y) ->
      ask (add_constraint a b t v) (run history m) = Ok true.
Proof.
  intros m R a b t l v Nab E h F Free. assert (I := reachable_inv m R). set (m' := run h m).
  assert (I' : Inv m') by (apply reachable_inv, run_reachable_from; auto).
  destruct (conflict_list m a b t l I E) as (Ia & Ib & L & H). destruct (retracts_run a b h F m I) as [S1 S2]. fold m' in S1, S2, Free.
  assert (Ia' : In a (ids m')) by auto. assert (Ib' : In b (ids m')) by auto.
  assert (La : In a l) by (apply L; left; constructor). assert (Lb : In b l) by (apply L; right; constructor).
  assert (Alone : forall x y, In x l -> linked (added_must m') x y -> x = y).
  { intros x y Ix. apply (linked_alone _ l); auto.
    - intros p q M _. apply S2 in M. split; intro X; apply L in X; apply L; (destruct X as [X|X]; [left|right]; (eapply linked_step; [exact X|auto])).
    - intros p q Ip Iq N. apply Free; auto. }
  assert (A : accepts m' a b t = true).
  { unfold accepts. assert (both m' a b = true) as -> by (apply both_true; auto).
    assert (mem t allowed_types = true) as -> by (apply allowed_spec; destruct H as [[-> _]|[-> _]]; auto). cbn [andb].
    assert (infer m' a b = None) as ->; auto. apply infer_None; auto.
    rewrite <- added_linked, <- added_separated by auto. split.
    - intro X. apply Nab. apply Alone; auto.
    - intros (x & y & Lx & Ly & C). apply Alone in Lx; auto. apply Alone in Ly; auto. subst x y.
      destruct C as [C|C]; [apply (Free CANNOT_LINK a b)|apply (Free CANNOT_LINK b a)]; auto. }
  unfold ask. destruct (run_add_constraint m' a b t v I' A) as (m2 & -> & _). reflexivity.
Qed.

(*EX
(** [a - b] are linked, [c] is separated from [b]; [d] is not involved. *)
Example C99_ex : ask (get_list_of_involved_data_IDs_in_a_constraint_conflict a c MUST_LINK) ex = Ok (Some [a; b; c]) /\
  Forall (outside [a; b; c]) [CallDeleteDataID d; CallDeleteConstraint a d; CallAddDataID (str "e")] /\
  Forall (retracts a c) [CallDeleteConstraint a b; CallDeleteConstraint b c] /\
  (forall u x y, In x [a; b; c] -> In y [a; b; c] -> x <> y -> ~ added (run [CallDeleteConstraint a b; CallDeleteConstraint b c] ex) u x y) /\
  ask (add_constraint a c MUST_LINK 1%Q) (run [CallDeleteDataID d; CallDeleteConstraint a d; CallAddDataID (str "e")] ex) = Raise ValueError /\
  ask (add_constraint a c MUST_LINK 1%Q) (run [CallDeleteConstraint a b; CallDeleteConstraint b c] ex) = Ok true.
Proof.
  split; [vm_compute; reflexivity|].
  split; [repeat constructor; try (right; right); intros H; vm_compute in H; intuition discriminate|].
  split; [repeat constructor|]. split; [|split; vm_compute; reflexivity].
  intros u x y Ix Iy N (v & A). simpl in Ix, Iy.
  destruct Ix as [<-|[<-|[<-|[]]]]; destruct Iy as [<-|[<-|[<-|[]]]]; try congruence; vm_compute in A; discriminate.
Qed.
EX*)
