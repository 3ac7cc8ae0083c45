(** * Threads that list components or check completeness while one thread adds constraints (C152). *)

From Coq Require Import String List Bool Arith ZArith QArith Lia.
(*HEADER
From Coq Require Import String List Bool Arith ZArith QArith.
From Verif Require Import Base Manager Spec ManagerThms ManagerInv ManagerQueries Threads ThreadSpec ThreadsThms Readers ReadersSpec ReadersThms Listing ListingSpec ListingThms.
Import ListNotations.
Open Scope nat_scope.
HEADER*)
From Verif Require Import Base Manager Spec Closure ManagerProofs ManagerInv ManagerQueries ManagerThms Interrupt InterruptThms Threads ThreadSpec ThreadsThms Readers ReadersSpec ReadersThms Listing ListingSpec.
Import ListNotations.
Open Scope nat_scope.

(** ** What the programs do to the lists of the manager *)
Definition mlof (s : mgr) (y : pystr) : option (list pystr) := option_map t_ml (dget y (ctrans s)).

(** The lists have no repetition, and the data are [K]. *)
Definition tidy (K : list pystr) (s : mgr) : Prop :=
  keys (ctrans s) = K /\ forall x e, dget x (ctrans s) = Some e -> NoDup (t_ml e) /\ NoDup (t_cl e).
Definition keeps_tidy {T} (p : prog T) (post : T -> Prop) : Prop :=
  forall K s, tidy K s -> (forall t, In t (states p s) -> tidy K t) /\ tidy K (fst (alone p s)) /\ forall a, snd (alone p s) = Ok a -> post a.

Lemma kt_bind {T U} (p : prog T) (k : T -> prog U) Q R : keeps_tidy p Q -> (forall a, Q a -> keeps_tidy (k a) R) -> keeps_tidy (pbind p k) R.
Proof.
  intros H1 H2 K s S. destruct (H1 K s S) as (A1 & A2 & A3). rewrite states_bind, alone_bind. destruct (alone p s) as [s1 [a|e]]; cbn [fst snd] in *.
  - destruct (H2 a (A3 a eq_refl) K s1 A2) as (B1 & B2 & B3). split; auto. intros t I. apply in_app_iff in I as [I|I]; auto.
  - rewrite app_nil_r. split; auto. split; auto. discriminate.
Qed.
Lemma kt_done {T} (r : res T) (Q : T -> Prop) : (forall a, r = Ok a -> Q a) -> keeps_tidy (Done r) Q.
Proof. intros H K s S. cbn. split; [tauto|]. split; auto. Qed.
Lemma kt_for {T} (l : list T) f : (forall x, keeps_tidy (f x) (fun _ => True)) -> keeps_tidy (pfor l f) (fun _ => True).
Proof. intro H. induction l as [|x l IH]; cbn [pfor]; [apply kt_done; auto|]. eapply kt_bind; [apply H|intros; apply IH]. Qed.
Lemma kt_read {T} (q : mgr -> res T) (Q : T -> Prop) : (forall K s a, tidy K s -> q s = Ok a -> Q a) -> keeps_tidy (pread q) Q.
Proof. intros H K s S. cbn. split; [intros t [<-|[]]; auto|]. split; auto. intros a E. eapply H; eauto. Qed.
Lemma kt_same {T} (p : prog T) : (forall s t, In t (states p s) -> ctrans t = ctrans s) -> (forall s, ctrans (fst (alone p s)) = ctrans s) -> keeps_tidy p (fun _ => True).
Proof.
  intros H1 H2 K s [S1 S2]. split; [intros t I; unfold tidy; rewrite (H1 s t I); split; auto|]. split; auto. unfold tidy. rewrite H2. split; auto.
Qed.
Lemma kt_ml x : keeps_tidy (p_ml x) (@NoDup pystr).
Proof.
  apply kt_read. intros K s a [_ S] E. unfold dlookup in E. destruct (dget x (ctrans s)) as [e|] eqn:G; cbn in E; [|discriminate]. injection E as <-. apply (S x e G).
Qed.
Lemma kt_cl x : keeps_tidy (p_cl x) (@NoDup pystr).
Proof.
  apply kt_read. intros K s a [_ S] E. unfold dlookup in E. destruct (dget x (ctrans s)) as [e|] eqn:G; cbn in E; [|discriminate]. injection E as <-. apply (S x e G).
Qed.
Lemma tidy_set K s x e : tidy K s -> In x (keys (ctrans s)) -> NoDup (t_ml e) -> NoDup (t_cl e) -> tidy K (mkMgr (cdict s) (dset x e (ctrans s))).
Proof.
  intros [S1 S2] I N1 N2. split; cbn [ctrans]; [rewrite keys_dset_in; auto|]. intros y f E. rewrite dget_dset in E.
  destruct (eqb_spec y x) as [->|]; [injection E as <-; auto|eauto].
Qed.
Lemma kt_set_ml x l : NoDup l -> keeps_tidy (p_set_ml x l) (fun _ => True).
Proof.
  intros N K s S. cbn. unfold dlookup. destruct (dget x (ctrans s)) as [e|] eqn:G; cbn; [|split; [intros t [<-|[]]; auto|auto]].
  assert (Q : tidy K (mkMgr (cdict s) (dset x (mkTrans l (t_cl e)) (ctrans s)))) by (apply tidy_set; auto; [eapply dget_Some_key; eauto|apply (proj2 S x e G)]).
  split; [intros t [<-|[]]; auto|auto].
Qed.
Lemma kt_set_cl x l : NoDup l -> keeps_tidy (p_set_cl x l) (fun _ => True).
Proof.
  intros N K s S. cbn. unfold dlookup. destruct (dget x (ctrans s)) as [e|] eqn:G; cbn; [|split; [intros t [<-|[]]; auto|auto]].
  assert (Q : tidy K (mkMgr (cdict s) (dset x (mkTrans (t_ml e) l) (ctrans s)))) by (apply tidy_set; auto; [eapply dget_Some_key; eauto|apply (proj2 S x e G)]).
  split; [intros t [<-|[]]; auto|auto].
Qed.

(** The programs that leave the lists alone. *)
Definition calm {T} (p : prog T) : Prop := forall s, (forall t, In t (states p s) -> ctrans t = ctrans s) /\ ctrans (fst (alone p s)) = ctrans s.
Lemma calm_silent {T} (p : prog T) : silent p -> calm p.
Proof.
  intros S s. assert (I := silent_incl p s S). split.
  - intros t J. apply I in J as [<-|[]]; auto.
  - destruct (last_state p s) as [<-|J]; auto. apply I in J as [<-|[]]; auto.
Qed.
Lemma calm_set a b v : calm (p_set_constraint a b v).
Proof.
  intro s. cbn. unfold dlookup. destruct (dget a (cdict s)); cbn; (split; [intros t [<-|[]]; auto|auto]).
Qed.
Lemma kt_calm {T} (p : prog T) : calm p -> keeps_tidy p (fun _ => True).
Proof. intro C. apply kt_same; intros s; apply (C s). Qed.

Lemma kt_transitivity a b t : keeps_tidy (p_add_constraint_transitivity a b t) (fun _ => True).
Proof.
  unfold p_add_constraint_transitivity. destruct (eqb t MUST_LINK).
  - eapply kt_bind; [apply kt_ml|intros ml1 N1]. eapply kt_bind; [apply kt_ml|intros ml2 N2]. eapply kt_bind; [apply kt_cl|intros cl1 N3]. eapply kt_bind; [apply kt_cl|intros cl2 N4].
    cbv zeta. eapply kt_bind.
    + apply kt_for. intro x. eapply kt_bind; [apply kt_set_ml, ounion_NoDup; auto|intros; apply kt_set_cl, ounion_NoDup; auto].
    + intros _ _. apply kt_for. intro x. eapply kt_bind; [apply kt_cl|intros cl N]. apply kt_set_cl, ounion_NoDup; auto. apply ounion_NoDup; auto.
  - eapply kt_bind; [apply kt_cl|intros cl1 N1]. eapply kt_bind; [apply kt_ml|intros ml2 N2]. cbv zeta. eapply kt_bind; [apply kt_cl|intros cl2 N3]. eapply kt_bind; [apply kt_ml|intros ml1 N4].
    eapply kt_bind; [apply kt_ml|intros l1 N5]. eapply kt_bind; [apply kt_for; intro x; apply kt_set_cl, ounion_NoDup; auto|intros _ _].
    eapply kt_bind; [apply kt_ml|intros l2 N6]. apply kt_for. intro x. apply kt_set_cl, ounion_NoDup; auto.
Qed.
Lemma kt_add a b t v : keeps_tidy (p_add_constraint a b t v) (fun _ => True).
Proof.
  assert (Z : forall T (p : prog T), silent p -> keeps_tidy p (fun _ => True)) by (intros; apply kt_calm, calm_silent; auto).
  assert (Y : forall x, silent (prequire x)) by (intros []; exact I).
  assert (X : forall x, silent (p_in_dict x)) by (intros x; cbn; auto).
  unfold p_add_constraint. do 2 (eapply kt_bind; [apply Z, X|intros ? _]; eapply kt_bind; [apply Z, Y|intros ? _]).
  eapply kt_bind; [apply Z, Y|intros ? _]. eapply kt_bind; [apply Z, silent_inferred|intros ? _]. eapply kt_bind; [apply Z, Y|intros ? _].
  eapply kt_bind; [apply Z, silent_added|intros [c|] _]; [apply Z; exact I|].
  eapply kt_bind; [destruct (str_leb a b); apply kt_calm, calm_set|intros ? _]. eapply kt_bind; [apply kt_transitivity|intros ? _]. apply Z; exact I.
Qed.

(** The MUST_LINK lists that change become one same list, and each changes once. *)
Definition moves {T} (new : list pystr) (p : prog T) (s : mgr) : Prop :=
  (forall y, mlof (fst (alone p s)) y = mlof s y \/ mlof (fst (alone p s)) y = Some new) /\
  (forall t, In t (states p s) -> forall y, mlof t y = mlof s y \/ mlof t y = Some new /\ mlof (fst (alone p s)) y = Some new).
Lemma moves_bind {T U} new (p : prog T) (k : T -> prog U) s : moves new p s -> (forall a s', moves new (k a) s') -> moves new (pbind p k) s.
Proof.
  intros [H1 H2] K. unfold moves. rewrite states_bind, alone_bind. destruct (alone p s) as [s1 [a|e]]; cbn [fst snd] in *.
  - destruct (K a s1) as [K1 K2]. split.
    + intro y. destruct (K1 y) as [E|E]; auto. rewrite E. auto.
    + intros t I y. apply in_app_iff in I as [I|I].
      * destruct (H2 t I y) as [E|[E1 E2]]; auto. right. split; auto. destruct (K1 y) as [F|F]; congruence.
      * destruct (K2 t I y) as [E|[E1 E2]]; auto. rewrite E. destruct (H1 y) as [F|F]; auto. right. split; auto. destruct (K1 y) as [G|G]; congruence.
  - rewrite app_nil_r. auto.
Qed.
Lemma moves_calm {T} new (p : prog T) s : calm p -> moves new p s.
Proof.
  intro C. destruct (C s) as [C1 C2]. unfold moves, mlof. rewrite C2. split; auto. intros t I y. rewrite (C1 t I). auto.
Qed.
Lemma moves_for {T} new (l : list T) f : (forall x s, moves new (f x) s) -> forall s, moves new (pfor l f) s.
Proof. intro H. induction l as [|x l IH]; intro s; cbn [pfor]; [apply moves_calm, calm_silent; exact I|]. apply moves_bind; auto. Qed.
Lemma moves_set_ml new x s : moves new (p_set_ml x new) s.
Proof.
  unfold moves. cbn. unfold dlookup. destruct (dget x (ctrans s)) as [e|] eqn:G; cbn.
  - assert (Q : forall y, mlof (mkMgr (cdict s) (dset x (mkTrans new (t_cl e)) (ctrans s))) y = mlof s y \/ mlof (mkMgr (cdict s) (dset x (mkTrans new (t_cl e)) (ctrans s))) y = Some new).
    { intro y. unfold mlof. cbn [ctrans]. rewrite dget_dset. destruct (eqb_spec y x); auto. }
    split; auto. intros t [<-|[]] y. destruct (Q y); auto.
  - split; auto. intros t [<-|[]]; auto.
Qed.
Lemma moves_set_cl new x l s : moves new (p_set_cl x l) s.
Proof.
  unfold moves. cbn. unfold dlookup. destruct (dget x (ctrans s)) as [e|] eqn:G; cbn.
  - assert (Q : forall y, mlof (mkMgr (cdict s) (dset x (mkTrans (t_ml e) l) (ctrans s))) y = mlof s y).
    { intro y. unfold mlof. cbn [ctrans]. rewrite dget_dset. destruct (eqb_spec y x) as [->|]; auto. rewrite G. reflexivity. }
    split; auto. intros t [<-|[]] y. auto.
  - split; auto. intros t [<-|[]]; auto.
Qed.
Definition one_move {T} (p : prog T) : Prop := forall s, exists new, moves new p s.
Lemma one_move_calm {T} (p : prog T) : calm p -> one_move p.
Proof. intros C s. exists []. apply moves_calm. auto. Qed.
Lemma one_move_after {T U} (p : prog T) (k : T -> prog U) : calm p -> (forall a, one_move (k a)) -> one_move (pbind p k).
Proof.
  intros C H s. destruct (C s) as [C1 C2]. destruct (alone p s) as [s1 [a|e]] eqn:E.
  - destruct (H a s1) as [new [N1 N2]]. exists new. unfold moves. rewrite states_bind, alone_bind, E. cbn [fst] in C2.
    assert (M : forall y, mlof s1 y = mlof s y) by (intro y; unfold mlof; rewrite C2; auto). split.
    + intro y. rewrite <- M. apply N1.
    + intros t I y. rewrite <- M. apply in_app_iff in I as [I|I]; auto. left. unfold mlof. rewrite (C1 t I), C2. auto.
  - exists []. unfold moves. rewrite states_bind, alone_bind, E. cbn [fst] in *. rewrite app_nil_r. unfold mlof. rewrite C2. split; auto. intros t I y. rewrite (C1 t I). auto.
Qed.
Lemma one_move_before {T U} (p : prog T) (k : T -> prog U) : one_move p -> (forall a, calm (k a)) -> one_move (pbind p k).
Proof. intros H C s. destruct (H s) as [new N]. exists new. apply moves_bind; auto. intros. apply moves_calm. auto. Qed.
Lemma one_move_transitivity a b t : one_move (p_add_constraint_transitivity a b t).
Proof.
  assert (M : forall x, calm (p_ml x)) by (intro; apply calm_silent; cbn; auto). assert (C : forall x, calm (p_cl x)) by (intro; apply calm_silent; cbn; auto).
  unfold p_add_constraint_transitivity. destruct (eqb t MUST_LINK).
  - apply one_move_after; [apply M|intro ml1]. apply one_move_after; [apply M|intro ml2]. apply one_move_after; [apply C|intro cl1]. apply one_move_after; [apply C|intro cl2]. cbv zeta.
    intro s. exists (ounion ml1 ml2). apply moves_bind.
    + apply moves_for. intros x s'. apply moves_bind; [apply moves_set_ml|intros; apply moves_set_cl].
    + intros _ s'. apply moves_for. intros x s2. apply moves_bind; [apply moves_calm, C|intros; apply moves_set_cl].
  - intro s. exists []. cbv zeta.
    do 5 (apply moves_bind; [apply moves_calm; auto|intros]). clear s. revert s'. intro s.
    apply moves_bind; [apply moves_for; intros; apply moves_set_cl|intros]. apply moves_bind; [apply moves_calm; auto|intros]. apply moves_for. intros. apply moves_set_cl.
Qed.
Lemma one_move_add a b t v : one_move (p_add_constraint a b t v).
Proof.
  assert (Y : forall x, calm (prequire x)) by (intros []; apply calm_silent; exact I).
  assert (X : forall x, calm (p_in_dict x)) by (intros x; apply calm_silent; cbn; auto).
  unfold p_add_constraint. do 2 (apply one_move_after; [apply X|intro]; apply one_move_after; [apply Y|intro]).
  apply one_move_after; [apply Y|intro]. apply one_move_after; [apply calm_silent, silent_inferred|intro]. apply one_move_after; [apply Y|intro].
  apply one_move_after; [apply calm_silent, silent_added|intros [c|]]; [apply one_move_calm, calm_silent; exact I|].
  apply one_move_after; [destruct (str_leb a b); apply calm_set|intro]. apply one_move_before; [apply one_move_transitivity|intro; apply calm_silent; exact I].
Qed.

(** ** The managers during a session that adds constraints *)
Section AddingConstraints.
  Variable m0 : mgr.
  Variable cs : list wcall.
  Hypothesis R0 : reachable m0.
  Hypothesis AC : Forall only_adds_constraints cs.
  Notation N := (ReadersThms.N m0 cs).

  Lemma adds : Forall only_adds cs.
  Proof. eapply Forall_impl; [|exact AC]. intros []; cbn; tauto. Qed.
  Lemma at_call n c : nth_error cs n = Some c -> exists a b t v, c = WAdd a b t v.
  Proof.
    intro E. assert (Q := AC). rewrite Forall_forall in Q. apply nth_error_In in E. apply Q in E. destruct c; cbn in E; try tauto. eauto.
  Qed.
  Lemma N_inv n : Inv (N n).
  Proof. apply reachable_inv, N_reachable. exact R0. Qed.
  Lemma N_tidy n : tidy (keys (ctrans (N n))) (N n).
  Proof. split; auto. intros x e E. assert (Rp := inv_rep _ (N_inv n)). split; [eapply rep_ml_nodup|eapply rep_cl_nodup]; eauto. Qed.
  Lemma N_keys n : keys (ctrans (N n)) = keys (ctrans m0).
  Proof.
    induction n as [|n IH]; [reflexivity|]. destruct (nth_error cs n) as [c|] eqn:E.
    - destruct (at_call n c E) as (a & b & t & v & ->). destruct (kt_add a b t v _ _ (N_tidy n)) as (_ & [K _] & _).
      rewrite <- IH, <- K, (N_step m0 cs n _ E), <- C145_alone_proof. cbn [p_wexec]. rewrite alone_bind.
      destruct (alone (p_add_constraint a b t v) (N n)) as [s [x|x]]; reflexivity.
    - apply nth_error_None in E. rewrite (N_end m0 cs (S n)), <- (N_end m0 cs n) by lia. exact IH.
  Qed.

  Definition stage (n : nat) (s : mgr) : Prop :=
    n <= length cs /\ below (ctrans (N n)) (ctrans s) /\ below (ctrans s) (ctrans (N (S n))) /\ tidy (keys (ctrans m0)) s /\
    forall y, mlof s y = mlof (N n) y \/ mlof s y = mlof (N (S n)) y.

  Lemma stage_start n : n <= length cs -> stage n (N n).
  Proof.
    intro L. split; auto. split; [apply below_refl|]. split; [apply N_below; auto using adds|]. split; [|auto]. rewrite <- (N_keys n). apply N_tidy.
  Qed.
  Lemma stage_call n c : nth_error cs n = Some c -> forall s, In s (states (p_wexec c) (N n)) -> stage n s.
  Proof.
    intros E s I. destruct (at_call n c E) as (a & b & t & v & ->).
    assert (L : n < length cs) by (apply nth_error_Some; congruence).
    assert (St := N_step m0 cs n _ E).
    assert (E2 : N (S n) = fst (alone (p_add_constraint a b t v) (N n))).
    { rewrite St, <- C145_alone_proof. cbn [p_wexec]. rewrite alone_bind. destruct (alone (p_add_constraint a b t v) (N n)) as [s1 [x|x]]; reflexivity. }
    assert (J : In s (states (p_add_constraint a b t v) (N n))).
    { cbn [p_wexec] in I. rewrite states_bind in I. destruct (alone (p_add_constraint a b t v) (N n)) as [s1 [x|x]]; cbn [states] in I; rewrite app_nil_r in I; exact I. }
    split; [lia|].
    assert (BB : below (ctrans (N n)) (ctrans s) /\ below (ctrans s) (ctrans (N (S n)))).
    { destruct (climbs_add (N n) a b t v (N_reachable m0 cs R0 n)) as [C1 C2]. destruct (follows_add a b t v (N n)) as [F1 F2].
      rewrite E2, F2. apply F1 in J as [<-|J]; [split; auto; apply below_refl|apply C1; auto]. }
    split; [apply BB|]. split; [apply BB|]. split.
    - destruct (kt_add a b t v _ _ (N_tidy n)) as (K & _). rewrite <- (N_keys n). auto.
    - intro y. destruct (one_move_add a b t v (N n)) as [new [_ M]]. destruct (M s J y) as [Q|[Q1 Q2]]; auto. right. rewrite E2. congruence.
  Qed.

  Lemma stage_trail ds n : ds = skipn n cs -> n <= length cs -> exists e, trail stage n (p_wsession ds) (N n) e.
  Proof.
    revert n. induction ds as [|c ds IH]; intros n E L.
    - exists n. cbn. split; [|split]; auto; apply stage_start; auto.
    - assert (X : nth_error cs n = Some c /\ ds = skipn (S n) cs).
      { clear - E. revert n E. induction cs as [|d l IH]; intros n E; [destruct n; discriminate|]. destruct n as [|n]; cbn in *; [injection E as -> ->; auto|apply IH; auto]. }
      destruct X as [X1 X2]. assert (L2 : S n <= length cs) by (apply nth_error_Some; congruence).
      assert (T : trail stage n (p_wexec c) (N n) n).
      { apply trail_const. intros x [<-|I]; [apply stage_start; auto|]. eapply stage_call; eauto. }
      destruct (IH (S n) X2 L2) as [e2 T2].
      exists e2. cbn [p_wsession]. apply (trail_bind stage _ _ n (N n) (S n)).
      + assert (G : forall p : prog value, forall k m, k <= S n -> trail stage k p m n -> fst (alone p m) = N (S n) -> trail stage k (pcatch p) m (S n)).
        { induction p as [r|f g IHp]; intros k m LK Tr EQ; cbn in *.
          - destruct Tr as (P1 & L3 & P2). subst m. split; auto. split; [lia|apply stage_start; auto].
          - destruct Tr as (P1 & n' & L3 & Tr). split; auto. exists n'. split; auto. apply IHp; auto.
            clear - Tr. revert n' Tr. generalize (g m) (f m). intros p. revert m. induction p as [r|f' g' IHp]; intros m s n' Tr; cbn in Tr; [lia|].
            destruct Tr as (_ & n2 & L & Tr). specialize (IHp s m _ _ Tr). lia. }
        apply G; auto. rewrite C145_alone_proof. symmetry. apply N_step. auto.
      + rewrite alone_catch. cbn [fst snd]. rewrite C145_alone_proof, <- (N_step m0 cs n c X1).
        apply (trail_bind stage _ _ (S n) (N (S n)) e2); auto.
        destruct (alone (p_wsession ds) (N (S n))) as [m1 [rs|x]] eqn:AE; auto. cbn.
        assert (Pe : stage e2 m1).
        { revert T2 AE. generalize (p_wsession ds) (S n) (N (S n)). induction p as [r|f g IHp]; intros k m Tr EQ; cbn in *.
          - injection EQ as -> _. tauto.
          - destruct Tr as (_ & n' & _ & Tr). eauto. }
        auto.
  Qed.

  (** ** What is read *)
  Definition K := keys (ctrans m0).
  Lemma entry_at n x : In x K -> exists e, dget x (ctrans (N n)) = Some e.
  Proof. intro I. apply dget_In_key. rewrite N_keys. exact I. Qed.
  Lemma read_keys lo r hi : watch stage lo p_trans_keys r hi -> lo <= hi /\ hi <= length cs /\ r = Ok K.
  Proof. intro H. apply watch_read in H as (L & s & (P1 & _ & _ & [P2 _] & _) & ->). rewrite P2. auto. Qed.
  Lemma entry_in s x : tidy K s -> In x K -> exists e, dget x (ctrans s) = Some e /\ NoDup (t_ml e) /\ NoDup (t_cl e).
  Proof. intros [S1 S2] I. rewrite <- S1 in I. apply dget_In_key in I as [e E]. exists e. split; [auto|exact (S2 x e E)]. Qed.

  (** The number of data with a known constraint. *)
  Definition known (n : nat) (x : pystr) : nat :=
    match dget x (ctrans (N n)) with Some e => length (t_ml e) + length (t_cl e) | None => 0 end.
  Lemma known_max n x : In x K -> known n x <= length K.
  Proof.
    intro I. destruct (entry_at n x I) as [e E]. unfold known. rewrite E. assert (Rp := inv_rep _ (N_inv n)). rewrite <- app_length. apply NoDup_incl_length.
    - apply NoDup_app_intro; [eapply rep_ml_nodup; eauto|eapply rep_cl_nodup; eauto|].
      intros y J1 J2. apply (rep_ml _ _ _ Rp x e E) in J1. apply (rep_cl _ _ _ Rp x e E) in J2. exact (rep_excl _ _ _ (N_inv n) J1 J2).
    - unfold K. rewrite <- (N_keys n). intros y J. apply in_app_iff in J as [J|J]; [eapply (rep_ml_incl Rp x); eauto|eapply (rep_cl_incl Rp x); eauto].
  Qed.
  Lemma known_mono n n' x : In x K -> n <= n' -> known n x <= known n' x.
  Proof.
    intros I L. destruct (entry_at n x I) as [e E]. destruct (N_below m0 cs R0 adds n n' L x e E) as (e' & E' & I1 & I2).
    unfold known. rewrite E, E'. assert (Rp := inv_rep _ (N_inv n)). apply Nat.add_le_mono; apply NoDup_incl_length; auto; [eapply rep_ml_nodup|eapply rep_cl_nodup]; eauto.
  Qed.

  (** The two lengths that are read, one after the other. *)
  Lemma read_known lo x r1 mid r2 hi : In x K -> watch stage lo (p_ml x) r1 mid -> watch stage mid (p_cl x) r2 hi ->
    exists ml cl, r1 = Ok ml /\ r2 = Ok cl /\ lo <= mid <= hi /\ hi <= length cs /\ known mid x <= length ml + length cl <= known (S hi) x.
  Proof.
    intros I H1 H2. apply watch_read in H1 as (L1 & s1 & (P1 & A1 & B1 & T1 & _) & ->). apply watch_read in H2 as (L2 & s2 & (P2 & A2 & B2 & T2 & _) & ->).
    destruct (entry_in s1 x T1 I) as (e1 & E1 & Na & _). destruct (entry_in s2 x T2 I) as (e2 & E2 & _ & Nb). unfold dlookup. rewrite E1, E2. cbn [rbind].
    exists (t_ml e1), (t_cl e2). split; auto. split; auto. split; [lia|]. split; auto.
    destruct (entry_at mid x I) as [f F]. destruct (entry_at hi x I) as [g G]. destruct (entry_at (S hi) x I) as [h H].
    assert (Rm := inv_rep _ (N_inv mid)). assert (Rh := inv_rep _ (N_inv (S hi))).
    unfold known. rewrite F, H. split; apply Nat.add_le_mono; apply NoDup_incl_length; auto.
    - exact (rep_ml_nodup _ _ _ Rm x f F).
    - destruct (A1 x f F) as (e & E & Q & _). rewrite E1 in E. injection E as <-. exact Q.
    - exact (rep_cl_nodup _ _ _ Rm x f F).
    - destruct (N_below m0 cs R0 adds mid hi L2 x f F) as (g' & G' & _ & Q1). destruct (A2 x g' G') as (e & E & _ & Q2). rewrite E2 in E. injection E as <-.
      eapply incl_tran; eauto.
    - destruct (B1 x e1 E1) as (h1 & H1 & Q1 & _). assert (L3 : S mid <= S hi) by lia. destruct (N_below m0 cs R0 adds _ _ L3 x h1 H1) as (h' & H' & Q2 & _).
      rewrite H in H'. injection H' as <-. eapply incl_tran; eauto.
    - destruct (B2 x e2 E2) as (h' & H' & _ & Q). rewrite H in H'. injection H' as <-. exact Q.
  Qed.

  Lemma loop_complete l lo r hi : incl l K -> lo <= length cs -> watch stage lo (p_all_complete l) r hi -> lo <= hi <= length cs /\
    (r = Ok true /\ (forall x, In x l -> known (S hi) x = length K) \/
     r = Ok false /\ exists n x, lo <= n <= hi /\ In x l /\ known n x <> length K).
  Proof.
    revert lo. induction l as [|x l IH]; intros lo S LO H; cbn [p_all_complete] in H.
    - inversion H; subst. split; [lia|]. left. split; auto. intros y [].
    - assert (Ix : In x K) by (apply S; left; auto). assert (Sl : incl l K) by (intros y J; apply S; right; auto).
      apply watch_bind in H as (r1 & n1 & H1 & H). assert (Q : exists ml, r1 = Ok ml).
      { pose proof H1 as H1'. apply watch_read in H1' as (_ & s1 & (_ & _ & _ & T1 & _) & ->). destruct (entry_in s1 x T1 Ix) as (e & E & _). unfold dlookup. rewrite E. cbn. eauto. }
      destruct Q as [ml ->]. apply watch_bind in H as (r2 & n2 & H2 & H).
      destruct (read_known _ _ _ _ _ _ Ix H1 H2) as (ml' & cl & E1 & -> & L1 & L2 & Kn1 & Kn2). injection E1 as <-.
      apply watch_bind in H as (r3 & n3 & H3 & H). apply read_keys in H3 as (L3 & L3' & ->). assert (Mx := known_max (Datatypes.S n2) x Ix).
      destruct (Nat.eqb_spec (length ml + length cl) (length K)) as [E|E].
      + apply IH in H as [L H]; auto. split; [lia|]. destruct H as [[-> H]|(-> & n & y & B & J & D)].
        * left. split; auto. intros y [<-|J]; auto. assert (Q1 := known_mono (Datatypes.S n2) (Datatypes.S hi) x Ix). assert (Q2 := known_max (Datatypes.S hi) x Ix). lia.
        * right. split; auto. exists n, y. split; [lia|]. split; [right; auto|auto].
      + inversion H; subst. split; [lia|]. right. split; auto. exists n1, x. split; [lia|]. split; [left; auto|]. lia.
  Qed.

  Lemma complete_at n : snd (check_completude_of_constraints (N n)) = Ok (forallb (fun x => Nat.eqb (known n x) (length K)) K).
  Proof.
    assert (G : forall l, incl l K -> all_complete (ctrans (N n)) l = Ok (forallb (fun x => Nat.eqb (known n x) (length K)) l)).
    { induction l as [|x l IH]; intro S; cbn [all_complete forallb]; auto. destruct (entry_at n x) as [e E]; [apply S; left; auto|].
      unfold dlookup, known. rewrite E. cbn [rbind]. rewrite (N_keys n). fold K. destruct (Nat.eqb _ _); cbn [andb]; auto. apply IH. intros y J. apply S. right; auto. }
    unfold check_completude_of_constraints, bind, gets, lift. rewrite (N_keys n). fold K. rewrite (G K (incl_refl _)). reflexivity.
  Qed.

  Lemma completude_right lo r hi : watch stage lo p_check_completude_of_constraints r hi ->
    exists n, lo <= n <= length cs /\ pred n <= hi /\ r = snd (check_completude_of_constraints (N n)).
  Proof.
    intro H. unfold p_check_completude_of_constraints in H. apply watch_bind in H as (r1 & n1 & H1 & H). apply read_keys in H1 as (L1 & L2 & ->).
    apply loop_complete in H as [L [[-> H]|(-> & n & x & B & J & D)]]; auto using incl_refl.
    - destruct (N_min m0 cs hi) as (n & B1 & B2 & E); [lia|]. exists n. split; [lia|]. split; auto. rewrite E, complete_at. f_equal. symmetry.
      apply forallb_forall. intros x J. apply Nat.eqb_eq. auto.
    - exists n. split; [lia|]. split; [lia|]. rewrite complete_at. f_equal. symmetry. apply not_true_iff_false. intro T. rewrite forallb_forall in T. apply T in J. apply Nat.eqb_eq in J. auto.
  Qed.

  (** ** The lists of components *)
  Lemma component_N n x e : dget x (ctrans (N n)) = Some e -> component_of (N n) x (t_ml e).
  Proof.
    intro E. assert (Iv := N_inv n). assert (Rp := inv_rep _ Iv). assert (Ix : In x (ids (N n))) by (rewrite <- (inv_keys _ Iv); eapply dget_Some_key; eauto).
    split; [apply managed_ids; auto|]. split; [eapply rep_ml_nodup; eauto|]. intro y. split.
    - intro J. assert (Iy : In y (ids (N n))) by (rewrite <- (inv_keys _ Iv); eapply (rep_ml_incl Rp x); eauto). split; [apply managed_ids; auto|].
      apply inferred_spec; auto. apply infer_ML; auto. apply (rep_ml _ _ _ Rp x e E). auto.
    - intros [My Q]. apply managed_ids in My. apply inferred_spec in Q; auto. apply infer_ML in Q; auto. apply (rep_ml _ _ _ Rp x e E). auto.
  Qed.
  Lemma components_meet n n' x x' e e' y : n <= n' -> dget x (ctrans (N n)) = Some e -> dget x' (ctrans (N n')) = Some e' -> In y (t_ml e) -> In y (t_ml e') -> incl (t_ml e) (t_ml e').
  Proof.
    intros L E E' J J' z Z. assert (Rp := inv_rep _ (N_inv n)). assert (Rp' := inv_rep _ (N_inv n')).
    destruct (N_below m0 cs R0 adds n n' L x e E) as (f & F & Q & _). apply Q in J, Z.
    apply (rep_ml _ _ _ Rp' x f F) in J, Z. apply (rep_ml _ _ _ Rp' x' e' E') in J'. apply (rep_ml _ _ _ Rp' x' e' E').
    eapply linked_trans; [exact J'|]. eapply linked_trans; [apply linked_sym; exact J|exact Z].
  Qed.

  Definition row_at (n : nat) (x : pystr) (c : list pystr) : Prop := exists e, dget x (ctrans (N n)) = Some e /\ t_ml e = c.
  Lemma loop_components l found lo r hi : incl l K -> lo <= length cs -> watch stage lo (p_collect_components l found) r hi -> NoDup found ->
    exists res top, r = Ok res /\ lo <= hi <= length cs /\ lo <= top <= length cs /\ pred top <= hi /\ NoDup res /\ incl found res /\
      (forall c, In c res -> In c found \/ exists n x, lo <= n <= top /\ In x K /\ row_at n x c) /\
      (forall x, In x l -> exists n c, lo <= n <= top /\ row_at n x c /\ In c res).
  Proof.
    revert lo found. induction l as [|x l IH]; intros lo found S LO H ND; cbn [p_collect_components] in H.
    - inversion H; subst. exists found, hi. split; auto. split; [lia|]. split; [lia|]. split; [lia|]. split; auto. split; [apply incl_refl|]. split; auto. intros y [].
    - assert (Ix : In x K) by (apply S; left; auto). assert (Sl : incl l K) by (intros y J; apply S; right; auto).
      apply watch_bind in H as (r1 & n1 & H1 & H). apply watch_read in H1 as (L1 & s1 & (P1 & _ & _ & T1 & M1) & ->).
      destruct (entry_in s1 x T1 Ix) as (e1 & E1 & _). unfold dlookup in H. rewrite E1 in H. cbn [rbind] in H.
      assert (RW : exists n, n1 <= n <= length cs /\ pred n <= n1 /\ row_at n x (t_ml e1)).
      { specialize (M1 x). unfold mlof in M1. rewrite E1 in M1. cbn [option_map] in M1. destruct (N_min m0 cs n1 P1) as (n' & B1 & B2 & EN).
        destruct (entry_at n1 x Ix) as [f F]. destruct (entry_at (Datatypes.S n1) x Ix) as [g G]. rewrite F, G in M1. cbn [option_map] in M1.
        destruct M1 as [M1|M1]; injection M1 as M1; [exists n1|exists n']; (split; [lia|]; split; [lia|]); [exists f; auto|exists g; split; auto; rewrite EN; auto]. }
      destruct RW as (n & B1 & B2 & RW). set (found' := if mem (t_ml e1) found then found else found ++ [t_ml e1]) in H.
      assert (ND' : NoDup found').
      { unfold found'. destruct (mem (t_ml e1) found) eqn:Me; auto. apply mem_nIn in Me. apply NoDup_app_intro; auto; [repeat constructor; auto|]. intros c J [<-|[]]; auto. }
      assert (IN' : In (t_ml e1) found') by (unfold found'; destruct (mem (t_ml e1) found) eqn:Me; [apply mem_In; auto|apply in_or_app; right; left; auto]).
      assert (FF : forall c, In c found' -> In c found \/ c = t_ml e1).
      { unfold found'. destruct (mem (t_ml e1) found); auto. intros c J. apply in_app_iff in J as [J|[J|[]]]; auto. }
      assert (IF : incl found found') by (unfold found'; destruct (mem (t_ml e1) found); [apply incl_refl|apply incl_appl, incl_refl]).
      apply IH in H as (res & top & -> & L & LT & PT & NR & IR & R1 & R2); auto; try lia.
      exists res, (max n top). split; auto. split; [lia|]. split; [lia|]. split; [lia|]. split; auto. split; [eapply incl_tran; eauto|]. split.
      + intros c J. apply R1 in J as [J|(k & y & B & J & Q)].
        * apply FF in J as [J| ->]; auto. right. exists n, x. split; [lia|]. auto.
        * right. exists k, y. split; [lia|]. auto.
      + intros y [<-|J].
        * exists n, (t_ml e1). split; [lia|]. split; auto.
        * destruct (R2 y J) as (k & c & B & Q & J'). exists k, c. split; [lia|]. auto.
  Qed.

  Lemma components_right lo r hi : watch stage lo p_get_connected_components r hi ->
    exists l n2, r = Ok l /\ lo <= n2 <= length cs /\ pred n2 <= hi /\ collected (map as_wcall cs) m0 lo n2 l.
  Proof.
    intro H. unfold p_get_connected_components in H. apply watch_bind in H as (r1 & n1 & H1 & H). apply read_keys in H1 as (L1 & L2 & ->).
    apply loop_components in H as (l & top & -> & L & LT & PT & NR & _ & R1 & R2); auto using incl_refl, NoDup_nil.
    exists l, top. split; auto. split; [lia|]. split; auto. split; auto. split; [|split].
    - intros c J. apply R1 in J as [[]|(n & x & B & J & e & E & <-)]. exists n, x. split; [lia|]. apply component_N. auto.
    - intros x Mx. assert (Ix : In x K) by (unfold K; rewrite (inv_keys _ (reachable_inv _ R0)); apply managed_ids; auto).
      destruct (R2 x Ix) as (n & c & B & (e & E & <-) & J). exists n, (t_ml e). split; [lia|]. split; auto. apply component_N. auto.
    - intros c d Jc Jd. apply R1 in Jc as [[]|(n & x & _ & _ & e & E & <-)]. apply R1 in Jd as [[]|(n' & x' & _ & _ & e' & E' & <-)].
      destruct (existsb (fun y => mem y (t_ml e')) (t_ml e)) eqn:X.
      + apply existsb_exists in X as (y & Y1 & Y2). apply mem_In in Y2. destruct (Nat.le_ge_cases n n') as [Q|Q]; [left|right; left]; eapply components_meet; eauto.
      + right. right. intros y [Y1 Y2]. assert (existsb (fun y => mem y (t_ml e')) (t_ml e) = true); [|congruence]. apply existsb_exists. exists y. split; auto. apply mem_In. auto.
  Qed.
End AddingConstraints.

Lemma got_lower cs m lo lo' qs rs : lo' <= lo -> got_at_times cs m lo qs rs -> got_at_times cs m lo' qs rs.
Proof.
  intros L H. inversion H as [|? n ? ? ? B E G|? n1 n2 l ? ? B B2 C G]; subst; [apply no_call|apply (got_completude _ _ _ n)|apply (got_components _ _ _ n1 n2)]; auto; lia.
Qed.

Lemma silent_collect l found : silent (p_collect_components l found).
Proof. revert found. induction l as [|x l IH]; intro found; cbn [p_collect_components]; [exact I|]. apply silent_bind; [cbn; auto|auto]. Qed.
Lemma silent_complete l : silent (p_all_complete l).
Proof.
  induction l as [|x l IH]; cbn [p_all_complete]; [exact I|]. do 3 (apply silent_bind; [cbn; auto|intro]). destruct (Nat.eqb _ _); [auto|exact I].
Qed.
Lemma silent_lsession qs : silent (p_lsession qs).
Proof.
  induction qs as [|q qs IH]; cbn [p_lsession]; [exact I|]. apply silent_bind.
  - apply silent_catch. destruct q; cbn [p_lexec]; (apply silent_bind; [|intro; exact I]); (apply silent_bind; [cbn; auto|intro]); [apply silent_collect|apply silent_complete].
  - intro r. apply silent_bind; auto. intro. exact I.
Qed.

Lemma listings_right m cs qs lo r hi : reachable m -> Forall only_adds_constraints cs -> watch (stage m cs) lo (p_lsession qs) r hi ->
  exists rs, r = Ok rs /\ got_at_times (map as_wcall cs) m lo qs rs.
Proof.
  intros R AC. revert lo r hi. induction qs as [|q qs IH]; intros lo r hi H; cbn [p_lsession] in H.
  - inversion H; subst. exists []. split; auto. constructor.
  - apply watch_bind in H as (x & n1 & H1 & H). apply watch_catch in H1 as (y & -> & H1).
    apply watch_bind in H as (z & n2 & H2 & H). apply IH in H2 as (rs & -> & RS). inversion H; subst. exists (y :: rs). split; auto.
    destruct q; cbn [p_lexec] in H1; apply watch_bind in H1 as (w & n3 & H1 & HH).
    + apply (components_right m cs R AC) in H1 as (l & k & -> & L1 & L2 & C). inversion HH; subst. eapply got_components; [| |exact C|]; rewrite ?map_length; try lia.
      eapply got_lower; [|exact RS]. lia.
    + apply (completude_right m cs R AC) in H1 as (k & L1 & L2 & ->). eapply got_completude with (n := k); rewrite ?map_length; [lia| |].
      * cbn [exec]. unfold bind. change (run (firstn k (map as_wcall cs)) m) with (N m cs k).
        destruct (check_completude_of_constraints (N m cs k)) as [s [b|e]]; cbn [snd] in *; [inversion HH; subst; reflexivity|destruct HH as [-> _]; reflexivity].
      * eapply got_lower; [|exact RS]. assert (k <= S n1 \/ True) by auto. destruct (snd (check_completude_of_constraints (N m cs k))); [inversion HH; subst; lia|destruct HH; subst; lia].
Qed.

(*PROP C152: the listing and the check alone, action by action, end with the manager and the result of the methods. *)
Lemma C152_alone_proof : forall q m, alone (p_lexec q) m = exec (as_lcall q) m.
Proof.
  assert (G : forall l found m, alone (p_collect_components l found) m = (m, collect_components (ctrans m) l found)).
  { induction l as [|x l IH]; intros found m; cbn [p_collect_components collect_components]; [reflexivity|]. rewrite alone_bind. cbn [p_ml pread alone].
    unfold dlookup. destruct (dget x (ctrans m)) as [e|]; cbn [rbind]; [apply IH|reflexivity]. }
  assert (H : forall l m, alone (p_all_complete l) m = (m, all_complete (ctrans m) l)).
  { induction l as [|x l IH]; intro m; cbn [p_all_complete all_complete]; [reflexivity|]. rewrite alone_bind. cbn [p_ml pread alone].
    unfold dlookup. destruct (dget x (ctrans m)) as [e|] eqn:E; cbn [rbind]; [|reflexivity]. rewrite alone_bind. cbn [p_cl pread alone].
    unfold dlookup. rewrite E. cbn [rbind]. rewrite alone_bind. cbn [p_trans_keys pread alone]. destruct (Nat.eqb _ _); [apply IH|reflexivity]. }
  intros [|] m; cbn [p_lexec as_lcall exec]; rewrite alone_bind.
  - unfold p_get_connected_components. rewrite alone_bind. cbn [p_trans_keys pread alone]. rewrite G. unfold bind at 1, get_connected_components, bind, gets, lift.
    destruct (collect_components (ctrans m) (keys (ctrans m)) []); reflexivity.
  - unfold p_check_completude_of_constraints. rewrite alone_bind. cbn [p_trans_keys pread alone]. rewrite H. unfold bind at 1, check_completude_of_constraints, bind, gets, lift.
    destruct (all_complete (ctrans m) (keys (ctrans m))); reflexivity.
Qed.
(*EX
Definition A := str "a". Definition B := str "b". Definition C := str "c".
Definition ex : mgr := run [CallAddConstraint A B MUST_LINK 1%Q] (init [B; A; C]).
Lemma ex_reachable : reachable ex. Proof. apply run_reachable. Qed.
Example C152_alone_ex : snd (alone (p_lexec LComponents) ex) = Ok (VComponents [[A; B]; [C]]) /\ snd (alone (p_lexec LCompletude) ex) = Ok (VBool false) /\
  snd (alone (p_lexec LCompletude) (run [CallAddConstraint A C CANNOT_LINK 1%Q] ex)) = Ok (VBool true).
Proof. repeat split; vm_compute; reflexivity. Qed.
EX*)

(*PROP C152: one thread adds constraints, any number of calls, and any number of other threads check any number of times that the constraints are complete, or list the connected components. However
    their reads and writes are interleaved, the additions end as when they are made alone; each check returns what it returns after some number of the additions; each list of
    components covers the data with components of the data after some numbers of the additions, two of them being nested or apart. *)
Lemma C152_listing_partial_proof : forall m cs qss m' r rss,
    reachable m -> Forall only_adds_constraints cs ->
    interleaved m (p_wsession cs :: map p_lsession qss) m' (r :: rss) ->
    m' = run (map as_wcall cs) m /\ r = Ok (snd (one_by_one (map as_wcall cs) m)) /\
    Forall2 (fun qs rs => exists answers, rs = Ok answers /\ got_at_times (map as_wcall cs) m 0 qs answers) qss rss.
Proof.
  intros m cs qss m' r rss R AD I. destruct (stage_trail m cs R AD cs 0 eq_refl (Nat.le_0_l _)) as [e T].
  destruct (silent_watch (stage m cs) m (p_wsession cs) (map p_lsession qss) m' r rss 0 e I) as [E W]; auto.
  { apply Forall_forall. intros p J. apply in_map_iff in J as (qs & <- & J). apply silent_lsession. }
  rewrite alone_wsession in E. injection E as <- <-. split; auto. split; auto.
  clear I T. revert rss W. induction qss as [|qs qss IH]; intros rss W; inversion W as [|? ? ? ? [hi H] W']; subst; constructor; auto.
  eapply listings_right; eauto.
Qed.
(*EX
Definition news : list wcall := [WAdd C A CANNOT_LINK 1%Q; WAdd A B CANNOT_LINK 1%Q].
Definition lists : list lcall := [LCompletude; LComponents; LCompletude].
Definition lists_got : list (res value) := [Ok (VBool false); Ok (VComponents [[A; B]; [C]]); Ok (VBool true)].
Example C152_listing_ex : Forall only_adds_constraints news /\
  (exists m', interleaved ex (p_wsession news :: map p_lsession [lists]) m' [Ok [Ok (VBool true); Raise ValueError]; Ok lists_got]) /\
  got_at_times (map as_wcall news) ex 0 lists lists_got.
Proof.
  split; [repeat constructor|]. assert (J : exists m', interleaved ex (p_wsession news :: map p_lsession [lists]) m' [Ok [Ok (VBool true); Raise ValueError]; Ok lists_got]).
  { eexists. apply (play_interleaved (repeat 0 12 ++ repeat 1 7 ++ repeat 0 (length (states (p_wsession news) ex) - 12) ++ repeat 1 11)). vm_compute. reflexivity. }
  split; auto. destruct J as [m' J]. apply C152_listing_partial in J as (_ & _ & F); [|apply ex_reachable|repeat constructor].
  inversion F as [|? ? ? ? (answers & E & G) _]; subst. injection E as <-. exact G.
Qed.
EX*)

Local Notation A := (str "a"). Local Notation B := (str "b").
(*PROP C152, refuted: a list of components that is got while a MUST_LINK constraint is added is not always a partition of the data: the same data is in two of the components. *)
Lemma C152_partition_refuted_proof :
  exists ids a b m' l,
    interleaved (init ids) [p_wsession [WAdd a b MUST_LINK 1%Q]; p_lsession [LComponents]] m' [Ok [Ok (VBool true)]; Ok [Ok (VComponents l)]] /\
    ~ NoDup (concat l).
Proof.
  exists [A; B], A, B. eexists. exists [[A]; [A; B]]. split.
  - apply (play_interleaved (repeat 1 2 ++ repeat 0 (length (states (p_wexec (WAdd A B MUST_LINK 1%Q)) (init [A; B]))) ++ [1])). vm_compute. reflexivity.
  - cbn. intro N. inversion N as [|? ? Q _]; subst. apply Q. left. reflexivity.
Qed.

(*PROP C152, refuted: nor does the list stand for the components after some number of the additions. *)
Lemma C152_moment_refuted_proof :
  exists ids a b m' l,
    interleaved (init ids) [p_wsession [WAdd a b MUST_LINK 1%Q]; p_lsession [LComponents]] m' [Ok [Ok (VBool true)]; Ok [Ok (VComponents l)]] /\
    forall n, ask get_connected_components (run (firstn n [CallAddConstraint a b MUST_LINK 1%Q]) (init ids)) <> Ok l.
Proof.
  exists [A; B], A, B. eexists. exists [[A]; [A; B]]. split.
  - apply (play_interleaved (repeat 1 2 ++ repeat 0 (length (states (p_wexec (WAdd A B MUST_LINK 1%Q)) (init [A; B]))) ++ [1])). vm_compute. reflexivity.
  - intros [|[|n]]; vm_compute; discriminate.
Qed.
