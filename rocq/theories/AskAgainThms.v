(** * What a thread was told stays so while one thread adds constraints (C163). *)

From Coq Require Import String List Bool Arith ZArith QArith Lia.
(*HEADER
From Coq Require Import String List Bool Arith ZArith QArith.
From Verif Require Import Base Manager Spec ManagerThms Threads ThreadSpec ThreadsThms Readers ReadersSpec ReadersThms Listing ListingSpec ListingThms AskAgain AskAgainSpec AskAgainThms.
Import ListNotations.
Open Scope nat_scope.

Definition A := str "a". Definition B := str "b". Definition C := str "c".
HEADER*)
From Verif Require Import Base Manager Spec Closure ManagerProofs ManagerInv ManagerQueries ManagerThms InterruptThms Threads ThreadSpec ThreadsThms Readers ReadersSpec ReadersThms
  Listing ListingSpec ListingThms SampleThread SampleThreadThms MinMaxThreadThms RisingProofs ConflictThread ConflictThreadSpec ConflictThreadThms AskAgain AskAgainSpec.
Import ListNotations.
Open Scope nat_scope.

Lemma watch2_catch {T} (P : nat -> mgr -> Prop) (p : prog T) lo s0 r hi s1 : watch2 P lo s0 (pcatch p) r hi s1 -> exists x, r = Ok x /\ watch2 P lo s0 p x hi s1.
Proof.
  revert lo s0. induction p as [x|f g IH]; intros lo s0 H; cbn [pcatch] in H.
  - inversion H; subst. exists x. split; auto. constructor.
  - inversion H as [|? ? n s ? ? ? ? ? L B Pn H']; subst. apply IH in H' as (x & -> & H'). exists x. split; auto. econstructor; eauto.
Qed.

(** One question of a session. *)
Lemma session_later P qs : forall lo s0 r hi s1, watch2 P lo s0 (p_qsession qs) r hi s1 -> exists rs, r = Ok rs /\ length rs = length qs /\
  forall j q v, nth_error qs j = Some q -> nth_error rs j = Some v -> exists lo' t hi' t', below (ctrans s0) (ctrans t) /\ watch2 P lo' t (p_qexec q) v hi' t'.
Proof.
  induction qs as [|q qs IH]; intros lo s0 r hi s1 W; cbn [p_qsession] in W.
  - inversion W; subst. exists []. split; auto. split; auto. intros [|j] ? ? E; discriminate E.
  - apply watch2_bind in W as (x & n1 & t1 & W1 & W). apply watch2_catch in W1 as (v & -> & W1). assert (B1 := watch2_below _ _ _ _ _ _ _ W1).
    apply watch2_bind in W as (y & n2 & t2 & W2 & W). apply IH in W2 as (rs & -> & L & H). inversion W; subst. exists (v :: rs). split; auto. split; [cbn; auto|].
    intros [|j] q' v' E E'; cbn in E, E'.
    + injection E as <-. injection E' as <-. exists lo, s0, n1, t1. split; auto. apply below_refl.
    + destruct (H j q' v' E E') as (lo' & t & hi' & t' & B & W'). exists lo', t, hi', t'. split; auto. eapply below_trans; eauto.
Qed.
(** Two questions of a session. *)
Lemma session_two P qs : forall lo s0 rs hi s1, watch2 P lo s0 (p_qsession qs) (Ok rs) hi s1 ->
  forall i j q q' v v', i < j -> nth_error qs i = Some q -> nth_error qs j = Some q' -> nth_error rs i = Some v -> nth_error rs j = Some v' ->
  exists lo1 t1 hi1 u1 lo2 t2 hi2 u2, watch2 P lo1 t1 (p_qexec q) v hi1 u1 /\ below (ctrans u1) (ctrans t2) /\ watch2 P lo2 t2 (p_qexec q') v' hi2 u2.
Proof.
  induction qs as [|q0 qs IH]; intros lo s0 rs hi s1 W i j q q' v v' L Ei Ej Vi Vj; cbn [p_qsession] in W; [destruct i; discriminate|].
  apply watch2_bind in W as (x & n1 & t1 & W1 & W). apply watch2_catch in W1 as (v0 & -> & W1). apply watch2_bind in W as (y & n2 & t2 & W2 & W).
  destruct y as [ys|e]; [|destruct W; discriminate]. inversion W; subst. destruct j as [|j]; [lia|]. cbn in Ej, Vj. destruct i as [|i]; cbn in Ei, Vi.
  - injection Ei as <-. injection Vi as <-. apply session_later in W2 as (rs & Q & _ & H). injection Q as <-. destruct (H j q' v' Ej Vj) as (lo' & t & hi' & t' & B & W').
    exists lo, s0, n1, t1, lo', t, hi', t'. auto.
  - apply (IH n1 t1 ys _ _ W2 i j q q' v v'); auto. lia.
Qed.

Lemma silent_conflict a b t : silent (p_conflict a b t).
Proof.
  unfold p_conflict. assert (D : forall x, silent (p_in_dict x)) by (cbn; auto). assert (Rq : forall x, silent (prequire x)) by (intros []; exact I).
  do 2 (apply silent_bind; [apply D|intro]; apply silent_bind; [apply Rq|intro]). apply silent_bind; [apply Rq|intro]. apply silent_bind; [apply silent_inferred|intros [u|]]; [|exact I].
  apply silent_bind; [apply silent_inferred|intro v]. destruct (match v with Some _ => _ | None => _ end); [|exact I]. apply silent_bind; [|intro; exact I].
  unfold p_get_connected_components. apply silent_bind; [cbn; auto|intro; apply silent_collect].
Qed.

Lemma silent_qexec q : silent (p_qexec q).
Proof.
  destruct q as [a b| | |a b t]; cbn [p_qexec]; (apply silent_bind; [|intro; exact I]).
  - apply silent_inferred.
  - apply silent_bind; [cbn; auto|intro; apply silent_collect].
  - apply silent_bind; [cbn; auto|intro; apply silent_complete].
  - apply silent_conflict.
Qed.
Lemma silent_qsession qs : silent (p_qsession qs).
Proof.
  induction qs as [|q qs IH]; cbn [p_qsession]; [exact I|]. apply silent_bind; [apply silent_catch, silent_qexec|]. intro. apply silent_bind; [exact IH|intro; exact I].
Qed.

Section Again.
  Variable m0 : mgr.
  Variable cs : list wcall.
  Hypothesis R0 : reachable m0.
  Hypothesis AC : Forall only_adds_constraints cs.
  Notation N := (ReadersThms.N m0 cs).
  Notation K := (ListingThms.K m0).
  Notation stage := (ListingThms.stage m0 cs).
  Notation seen2 := (ConflictThreadThms.at_stage m0 cs).

  (** An inferred constraint. *)
  Lemma inferred_known a b lo u hi : watch seen2 lo (p_get_inferred_constraint a b) (Ok u) hi -> In a (ids m0) /\ In b (ids m0).
  Proof.
    intro W. unfold p_get_inferred_constraint in W.
    apply watch_bind in W as (x1 & n1 & W1 & W). apply watch_read in W1 as (L1 & s1 & ((_ & _ & _ & [T1 _] & _) & _) & ->).
    apply watch_bind in W as (x2 & n2 & W2 & W). apply watch_require in W2 as (<- & ->). destruct (mem a (keys (ctrans s1))) eqn:Ma; [|destruct W; discriminate].
    apply watch_bind in W as (x3 & n3 & W3 & W). apply watch_read in W3 as (L3 & s3 & ((_ & _ & _ & [T3 _] & _) & _) & ->).
    apply watch_bind in W as (x4 & n4 & W4 & W). apply watch_require in W4 as (<- & ->). destruct (mem b (keys (ctrans s3))) eqn:Mb; [|destruct W; discriminate].
    apply mem_In in Ma, Mb. rewrite T1 in Ma. rewrite T3 in Mb. fold K in Ma, Mb. rewrite (K_ids m0 R0) in Ma, Mb. auto.
  Qed.
  Lemma inferred_again a b t lo s0 hi s1 lo' s0' r hi' s1' :
    watch2 seen2 lo s0 (p_get_inferred_constraint a b) (Ok (Some t)) hi s1 -> below (ctrans s1) (ctrans s0') -> watch2 seen2 lo' s0' (p_get_inferred_constraint a b) r hi' s1' -> r = Ok (Some t).
  Proof.
    intros W1 B W2. destruct (reread m0 cs _ _ _ _ _ _ _ W1) as [_ H1]. destruct (reread m0 cs _ _ _ _ _ _ _ W2) as [H2 _]. specialize (H1 t eq_refl).
    apply watch2_watch in W1, W2. destruct (inferred_known _ _ _ _ _ W1) as [Ia Ib].
    apply (read_inferred m0 cs R0 AC) in W1 as (n & _ & _ & E1); auto. apply (read_inferred m0 cs R0 AC) in W2 as (n' & _ & _ & ->); auto. injection E1 as E1. symmetry in E1.
    destruct (infer (N n') a b) as [u|] eqn:E; [|exfalso; apply H2; auto; eapply has_below; eauto]. f_equal. f_equal.
    destruct (Nat.le_ge_cases n n') as [L|L]; [apply (infer_stays m0 cs R0 AC n n' a b t L) in E1|apply (infer_stays m0 cs R0 AC n' n a b u L) in E]; auto; congruence.
  Qed.

  (** Components. *)
  Lemma read_row x lo s0 r hi s1 : In x K -> watch2 seen2 lo s0 (p_ml x) r hi s1 -> below (ctrans s0) (ctrans s1) /\ exists e, dget x (ctrans s1) = Some e /\ NoDup (t_ml e) /\ r = Ok (t_ml e).
  Proof.
    intros J W. apply watch2_read in W as (_ & B & ((_ & _ & _ & T & _) & _) & ->). split; auto. destruct (entry_in m0 s1 x T J) as (e & E & N1 & _). exists e. unfold dlookup. rewrite E. auto.
  Qed.
  Lemma read_row_cl x lo s0 r hi s1 : In x K -> watch2 seen2 lo s0 (p_cl x) r hi s1 -> below (ctrans s0) (ctrans s1) /\ exists e, dget x (ctrans s1) = Some e /\ NoDup (t_cl e) /\ r = Ok (t_cl e).
  Proof.
    intros J W. apply watch2_read in W as (_ & B & ((_ & _ & _ & T & _) & _) & ->). split; auto. destruct (entry_in m0 s1 x T J) as (e & E & _ & N1). exists e. unfold dlookup. rewrite E. auto.
  Qed.
  Lemma read_all lo s0 r hi s1 : watch2 seen2 lo s0 p_trans_keys r hi s1 -> below (ctrans s0) (ctrans s1) /\ r = Ok K.
  Proof. intro W. apply watch2_read in W as (_ & B & ((_ & _ & _ & [T _] & _) & _) & ->). split; auto. rewrite T. reflexivity. Qed.
  Lemma collect_told k : incl k K -> forall found lo s0 r hi s1, watch2 seen2 lo s0 (p_collect_components k found) r hi s1 ->
    exists l, r = Ok l /\ incl found l /\
      (forall c, In c l -> In c found \/ exists x e, In x k /\ dget x (ctrans s1) = Some e /\ incl c (t_ml e)) /\
      (forall x e, In x k -> dget x (ctrans s0) = Some e -> exists c, In c l /\ incl (t_ml e) c).
  Proof.
    induction k as [|x k IH]; intros S found lo s0 r hi s1 W; cbn [p_collect_components] in W.
    - inversion W; subst. exists found. split; auto. split; [apply incl_refl|]. split; auto. intros x e [].
    - apply watch2_bind in W as (r1 & n1 & t1 & W1 & W). apply read_row in W1 as (B1 & e1 & E1 & _ & ->); [|apply S; left; auto].
      assert (B2 := watch2_below _ _ _ _ _ _ _ W). apply IH in W as (l & -> & I1 & I2 & I3); [|intros y J; apply S; right; auto]. exists l. split; auto.
      assert (F : incl found l /\ In (t_ml e1) l).
      { destruct (mem (t_ml e1) found) eqn:M; [apply mem_In in M; auto|]. split; [intros c J; apply I1, in_or_app; auto|apply I1, in_or_app; right; left; auto]. }
      destruct F as [F1 F2]. split; auto. split.
      + intros c J. destruct (I2 c J) as [Q|(y & f & Jy & Ef & Q)]; [|right; exists y, f; split; [right|]; auto].
        assert (Q' : In c found \/ c = t_ml e1). { destruct (mem (t_ml e1) found); auto. apply in_app_iff in Q as [Q|[Q|[]]]; auto. }
        destruct Q' as [Q'| ->]; auto. right. destruct (B2 x e1 E1) as (f & Ef & Q1 & _). exists x, f. split; [left|]; auto.
      + intros y f [<-|J] Ef.
        * exists (t_ml e1). split; auto. destruct (B1 x f Ef) as (g & Eg & Q1 & _). rewrite E1 in Eg. injection Eg as <-. auto.
        * destruct (B1 y f Ef) as (g & Eg & Q1 & _). destruct (I3 y g J Eg) as (c & Jc & Q2). exists c. split; auto. eapply incl_tran; eauto.
  Qed.
  Lemma components_again l lo s0 hi s1 lo' s0' r hi' s1' :
    watch2 seen2 lo s0 p_get_connected_components (Ok l) hi s1 -> below (ctrans s1) (ctrans s0') -> watch2 seen2 lo' s0' p_get_connected_components r hi' s1' ->
    exists l', r = Ok l' /\ forall c, In c l -> exists d, In d l' /\ incl c d.
  Proof.
    intros W1 B W2. unfold p_get_connected_components in *. apply watch2_bind in W1 as (x1 & n1 & t1 & W1 & W1'). apply read_all in W1 as (_ & ->).
    apply watch2_bind in W2 as (x2 & n2 & t2 & W2 & W2'). apply read_all in W2 as (B2 & ->).
    apply collect_told in W1' as (l1 & Q & _ & H1 & _); [|apply incl_refl]. injection Q as <-. apply collect_told in W2' as (l' & -> & _ & _ & H2); [|apply incl_refl].
    exists l'. split; auto. intros c J. destruct (H1 c J) as [[]|(x & e & Jx & E & Q)]. assert (B3 := below_trans _ _ _ B B2). destruct (B3 x e E) as (f & F & Q1 & _).
    destruct (H2 x f Jx F) as (d & Jd & Q2). exists d. split; auto. eapply incl_tran; [exact Q|]. eapply incl_tran; eauto.
  Qed.

  (** Completeness. *)
  Definition full (s : mgr) (x : pystr) : Prop :=
    exists e l1 l2, dget x (ctrans s) = Some e /\ NoDup l1 /\ NoDup l2 /\ incl l1 (t_ml e) /\ incl l2 (t_cl e) /\ length K <= length l1 + length l2.
  Lemma full_below s s' x : below (ctrans s) (ctrans s') -> full s x -> full s' x.
  Proof.
    intros B (e & l1 & l2 & E & N1 & N2 & I1 & I2 & L). destruct (B x e E) as (f & F & Q1 & Q2). exists f, l1, l2. split; auto. split; auto. split; auto. split; [eapply incl_tran; eauto|]. split; [eapply incl_tran; eauto|auto].
  Qed.
  Lemma complete_told k : incl k K -> forall lo s0 hi s1, watch2 seen2 lo s0 (p_all_complete k) (Ok true) hi s1 -> forall x, In x k -> full s1 x.
  Proof.
    induction k as [|x k IH]; intros S lo s0 hi s1 W; cbn [p_all_complete] in W; [intros y []|]. assert (Jx : In x K) by (apply S; left; auto).
    apply watch2_bind in W as (r1 & n1 & t1 & W1 & W). apply read_row in W1 as (B1 & e1 & E1 & N1 & ->); auto.
    apply watch2_bind in W as (r2 & n2 & t2 & W2 & W). apply read_row_cl in W2 as (B2 & e2 & E2 & N2 & ->); auto.
    apply watch2_bind in W as (r3 & n3 & t3 & W3 & W). apply read_all in W3 as (B3 & ->). assert (B4 := watch2_below _ _ _ _ _ _ _ W).
    destruct (Nat.eqb_spec (length (t_ml e1) + length (t_cl e2)) (length K)) as [Q|Q]; [|inversion W].
    intros y [<-|J]; [|eapply IH; eauto; intros z Jz; apply S; right; auto]. apply (full_below t2); [eapply below_trans; eauto|].
    destruct (B2 x e1 E1) as (f & F & Q1 & _). rewrite E2 in F. injection F as <-. exists e2, (t_ml e1), (t_cl e2). split; auto. split; auto. split; auto. split; auto. split; [apply incl_refl|lia].
  Qed.
  Lemma complete_stays k : incl k K -> forall lo s0 r hi s1, (forall x, In x k -> full s0 x) -> watch2 seen2 lo s0 (p_all_complete k) r hi s1 -> r = Ok true.
  Proof.
    induction k as [|x k IH]; intros S lo s0 r hi s1 F W; cbn [p_all_complete] in W; [inversion W; subst; auto|]. assert (Jx : In x K) by (apply S; left; auto).
    apply watch2_bind in W as (r1 & n1 & t1 & W1 & W). assert (V1 := watch2_watch _ _ _ _ _ _ _ W1). apply read_row in W1 as (B1 & e1 & E1 & N1 & ->); auto.
    apply watch2_bind in W as (r2 & n2 & t2 & W2 & W). assert (V2 := watch2_watch _ _ _ _ _ _ _ W2). apply read_row_cl in W2 as (B2 & e2 & E2 & N2 & ->); auto.
    apply watch2_bind in W as (r3 & n3 & t3 & W3 & W). apply read_all in W3 as (B3 & ->).
    apply (watch_impl seen2 stage) in V1; [|intros ? ? [? _]; auto]. apply (watch_impl seen2 stage) in V2; [|intros ? ? [? _]; auto].
    destruct (ListingThms.read_known m0 cs R0 AC _ _ _ _ _ _ Jx V1 V2) as (ml & cl & Q1 & Q2 & _ & _ & _ & U). injection Q1 as <-. injection Q2 as <-.
    assert (U2 := known_max m0 cs R0 AC (Datatypes.S n2) x Jx). assert (Fx : full s0 x) by (apply F; left; auto).
    destruct Fx as (e & l1 & l2 & E & M1 & M2 & I1 & I2 & L). destruct (B1 x e E) as (f & Ef & Q1 & _). rewrite E1 in Ef. injection Ef as <-.
    assert (B12 := below_trans _ _ _ B1 B2). destruct (B12 x e E) as (f & Ef & _ & Q2). rewrite E2 in Ef. injection Ef as <-.
    assert (L1 : length l1 <= length (t_ml e1)) by (apply NoDup_incl_length; auto; eapply incl_tran; eauto). assert (L2 : length l2 <= length (t_cl e2)) by (apply NoDup_incl_length; auto; eapply incl_tran; eauto).
    destruct (Nat.eqb_spec (length (t_ml e1) + length (t_cl e2)) (length K)) as [Q|Q]; [|exfalso; lia].
    eapply IH; [| |exact W]; [intros z Jz; apply S; right; auto|]. intros y J. apply (full_below s0); [|apply F; right; auto]. eapply below_trans; eauto.
  Qed.
  Lemma completude_again lo s0 hi s1 lo' s0' r hi' s1' :
    watch2 seen2 lo s0 p_check_completude_of_constraints (Ok true) hi s1 -> below (ctrans s1) (ctrans s0') -> watch2 seen2 lo' s0' p_check_completude_of_constraints r hi' s1' -> r = Ok true.
  Proof.
    intros W1 B W2. unfold p_check_completude_of_constraints in *. apply watch2_bind in W1 as (x1 & n1 & t1 & W1 & W1'). apply read_all in W1 as (_ & ->).
    apply watch2_bind in W2 as (x2 & n2 & t2 & W2 & W2'). apply read_all in W2 as (B2 & ->).
    assert (H := complete_told K (incl_refl _) _ _ _ _ W1'). eapply (complete_stays K); [apply incl_refl| |exact W2']. intros x J. exact (full_below _ _ _ (below_trans _ _ _ B B2) (H x J)).
  Qed.

  (** Conflicts. *)
  Lemma conflict_told a b t l lo s0 hi s1 : watch2 seen2 lo s0 (p_conflict a b t) (Ok (Some l)) hi s1 ->
    mem a (ids m0) = true /\ mem b (ids m0) = true /\ mem t allowed_types = true /\
    exists u k1 t1 k2 t2 c k3 t3 k4, watch2 seen2 k1 t1 (p_get_inferred_constraint a b) (Ok (Some u)) k2 t2 /\ eqb t u = false /\
      watch2 seen2 k3 t3 p_get_connected_components (Ok c) k4 s1 /\ l = chosen a b c /\ below (ctrans t2) (ctrans s1).
  Proof.
    intro W. unfold p_conflict in W.
    apply watch2_bind in W as (x1 & n1 & t1 & W1 & W). apply watch2_watch, ConflictThreadThms.read_known in W1 as (L1 & ->). apply watch2_bind in W as (x2 & n2 & t2 & W2 & W). apply watch2_watch, watch_require in W2 as (<- & ->).
    destruct (mem a (ids m0)) eqn:Ma; [|destruct W; discriminate].
    apply watch2_bind in W as (x3 & n3 & t3 & W3 & W). apply watch2_watch, ConflictThreadThms.read_known in W3 as (L3 & ->). apply watch2_bind in W as (x4 & n4 & t4 & W4 & W). apply watch2_watch, watch_require in W4 as (<- & ->).
    destruct (mem b (ids m0)) eqn:Mb; [|destruct W; discriminate].
    apply watch2_bind in W as (x5 & n5 & t5 & W5 & W). apply watch2_watch, watch_require in W5 as (<- & ->). destruct (mem t allowed_types) eqn:Mt; [|destruct W; discriminate].
    split; auto. split; auto. split; auto.
    apply watch2_bind in W as (x6 & n6 & t6 & W6 & W). destruct x6 as [[u|]|e]; [|inversion W|destruct W; discriminate].
    apply watch2_bind in W as (x7 & n7 & t7 & W7 & W). assert (Q := inferred_again _ _ _ _ _ _ _ _ _ _ _ _ W6 (below_refl _) W7). subst x7.
    destruct (eqb t u) eqn:Q; cbn [negb] in W; [inversion W|]. apply watch2_bind in W as (x8 & n8 & t8 & W8 & W). destruct x8 as [c|e]; [|destruct W; discriminate]. inversion W; subst.
    assert (B8 := watch2_below _ _ _ _ _ _ _ W8). assert (B7 := watch2_below _ _ _ _ _ _ _ W7).
    do 9 eexists. split; [exact W6|]. split; auto. split; [exact W8|]. split; [reflexivity|exact (below_trans _ _ _ B7 B8)].
  Qed.
  Lemma conflict_again a b t l lo s0 hi s1 lo' s0' r hi' s1' :
    watch2 seen2 lo s0 (p_conflict a b t) (Ok (Some l)) hi s1 -> below (ctrans s1) (ctrans s0') -> watch2 seen2 lo' s0' (p_conflict a b t) r hi' s1' ->
    exists l', r = Ok (Some l') /\ incl l l'.
  Proof.
    intros W1 B W. apply conflict_told in W1 as (Ma & Mb & Mt & u & k1 & v1 & k2 & v2 & c & k3 & v3 & k4 & V1 & Q & V2 & -> & B1). unfold p_conflict in W.
    apply watch2_bind in W as (x1 & n1 & t1 & W1 & W). assert (C1 := watch2_below _ _ _ _ _ _ _ W1). apply watch2_watch, ConflictThreadThms.read_known in W1 as (L1 & ->). rewrite Ma in W.
    apply watch2_bind in W as (x2 & n2 & t2 & W2 & W). assert (C2 := watch2_below _ _ _ _ _ _ _ W2). apply watch2_watch, watch_require in W2 as (<- & ->).
    apply watch2_bind in W as (x3 & n3 & t3 & W3 & W). assert (C3 := watch2_below _ _ _ _ _ _ _ W3). apply watch2_watch, ConflictThreadThms.read_known in W3 as (L3 & ->). rewrite Mb in W.
    apply watch2_bind in W as (x4 & n4 & t4 & W4 & W). assert (C4 := watch2_below _ _ _ _ _ _ _ W4). apply watch2_watch, watch_require in W4 as (<- & ->). rewrite Mt in W.
    apply watch2_bind in W as (x5 & n5 & t5 & W5 & W). assert (C5 := watch2_below _ _ _ _ _ _ _ W5). apply watch2_watch, watch_require in W5 as (<- & ->).
    assert (D : below (ctrans s1) (ctrans t5)) by (do 5 (eapply below_trans; [eassumption|]); assumption). clear C1 C2 C3 C4 C5 B.
    apply watch2_bind in W as (x6 & n6 & t6 & W6 & W). assert (C6 := watch2_below _ _ _ _ _ _ _ W6).
    assert (E := inferred_again _ _ _ _ _ _ _ _ _ _ _ _ V1 (below_trans _ _ _ B1 D) W6). subst x6.
    apply watch2_bind in W as (x7 & n7 & t7 & W7 & W). assert (C7 := watch2_below _ _ _ _ _ _ _ W7).
    assert (E := inferred_again _ _ _ _ _ _ _ _ _ _ _ _ W6 (below_refl _) W7). subst x7. rewrite Q in W. cbn [negb] in W.
    apply watch2_bind in W as (x8 & n8 & t8 & W8 & W). assert (D2 := below_trans _ _ _ D (below_trans _ _ _ C6 C7)).
    assert (E := components_again _ _ _ _ _ _ _ _ _ _ V2 D2 W8). destruct E as (c' & -> & H). inversion W; subst. exists (chosen a b c'). split; auto.
    intros y J. apply in_flat_map in J as (d & Jd & Jy). destruct (H d Jd) as (d' & Jd' & I). apply in_flat_map. exists d'. split; auto.
    destruct (mem a d || mem b d) eqn:M; [|destruct Jy]. replace (mem a d' || mem b d') with true; auto. symmetry. apply orb_true_iff. apply orb_true_iff in M. rewrite !mem_In in *. destruct M; auto.
  Qed.

  Lemma still_right q lo s0 v hi s1 lo' s0' v' hi' s1' :
    watch2 seen2 lo s0 (p_qexec q) v hi s1 -> below (ctrans s1) (ctrans s0') -> watch2 seen2 lo' s0' (p_qexec q) v' hi' s1' -> still q v v'.
  Proof.
    intros W1 B W2. destruct q as [a b| | |a b t]; cbn [p_qexec still] in *; apply watch2_bind in W1 as (x & n1 & t1 & W1 & W1'); apply watch2_bind in W2 as (y & n2 & t2 & W2 & W2').
    - intros t ->. destruct x as [u|e]; [|destruct W1'; discriminate]. inversion W1'; subst. apply (inferred_again _ _ _ _ _ _ _ _ _ _ _ _ W1 B) in W2. subst y. inversion W2'; subst. auto.
    - intros l ->. destruct x as [u|e]; [|destruct W1'; discriminate]. inversion W1'; subst. apply (components_again _ _ _ _ _ _ _ _ _ _ W1 B) in W2 as (l' & -> & H). inversion W2'; subst. eauto.
    - intros ->. destruct x as [u|e]; [|destruct W1'; discriminate]. inversion W1'; subst. apply (completude_again _ _ _ _ _ _ _ _ _ W1 B) in W2. subst y. inversion W2'; subst. auto.
    - intros l ->. destruct x as [u|e]; [|destruct W1'; discriminate]. inversion W1'; subst. apply (conflict_again _ _ _ _ _ _ _ _ _ _ _ _ _ W1 B) in W2 as (l' & -> & H). inversion W2'; subst. eauto.
  Qed.
End Again.

Lemma alone_qexec : forall q m, alone (p_qexec q) m = exec (as_qcall q) m.
Proof.
  intros [a b| | |a b t] m; [|exact (C152_alone_proof LComponents m)|exact (C152_alone_proof LCompletude m)|].
    2:{ cbn [p_qexec as_qcall exec]. rewrite alone_bind, C162_alone_proof. unfold bind, ret. destruct (get_list_of_involved_data_IDs_in_a_constraint_conflict a b t m) as [m1 [r|e]]; reflexivity. }
  cbn [p_qexec as_qcall exec]. rewrite alone_bind, (does_inferred a b m). unfold bind, ret.
    destruct (get_inferred_constraint a b m) as [m1 [r|e]]; reflexivity.
Qed.
(*PROP C163: a session of questions alone, action by action, ends with the manager and the results of the methods called one by one. *)
Lemma C163_alone_proof : forall qs m, alone (p_qsession qs) m = (fst (one_by_one (map as_qcall qs) m), Ok (snd (one_by_one (map as_qcall qs) m))).
Proof.
  induction qs as [|q qs IH]; intro m; cbn [p_qsession map one_by_one]; [reflexivity|]. rewrite alone_bind, alone_catch, alone_qexec. destruct (exec (as_qcall q) m) as [m1 r]. cbn [fst snd].
  rewrite alone_bind, IH. destruct (one_by_one (map as_qcall qs) m1) as [m2 rs]. reflexivity.
Qed.
(*EX
Example C163_alone_ex : snd (alone (p_qsession [QInferred A B; QComponents; QCompletude; QInferred A (str "z"); QConflict A B CANNOT_LINK]) (run [CallAddConstraint A B MUST_LINK 1%Q] (init [A; B; C]))) =
  Ok [Ok (VInferred (Some MUST_LINK)); Ok (VComponents [[A; B]; [C]]); Ok (VBool false); Raise ValueError; Ok (VConflict (Some [A; B]))].
Proof. vm_compute. reflexivity. Qed.
EX*)

(*PROP C163: one thread adds constraints, any number of calls, and any number of other threads ask for inferred constraints, for the components, for the completeness and for conflicts, in any order. However their reads
    and writes are interleaved, what a thread was told stays so: when it asks the same again, an inferred constraint is the same, complete constraints are complete, data that were
    in one component are in one component, and a conflict is a conflict, that involves at least the same data. *)
Lemma C163_told_stays_proof : forall m cs qss m' r rss,
    reachable m -> Forall only_adds_constraints cs ->
    interleaved m (p_wsession cs :: map p_qsession qss) m' (r :: rss) ->
    m' = run (map as_wcall cs) m /\ r = Ok (snd (one_by_one (map as_wcall cs) m)) /\
    Forall2 (fun qs x => exists answers, x = Ok answers /\ length answers = length qs /\
      forall i j q v w, i < j -> nth_error qs i = Some q -> nth_error qs j = Some q -> nth_error answers i = Some v -> nth_error answers j = Some w -> still q v w) qss rss.
Proof.
  intros m cs qss m' r rss R AC J. destruct (stage_trail m cs R AC cs 0 eq_refl (Nat.le_0_l _)) as [e T0].
  assert (T : trail (at_stage m cs) 0 (p_wsession cs) m e).
  { apply trail_and; [exact T0|]. destruct (sd_session cs AC m) as [S1 _]. intros x [<-|Ix]; auto. }
  destruct (rising_watch (at_stage m cs) m (p_wsession cs) _ m' r rss 0 e J) as [E W]; auto.
  { apply Forall_forall. intros p Ip. apply in_map_iff in Ip as (qs & <- & _). apply silent_qsession. }
  { apply rising_session; auto. }
  rewrite alone_wsession in E. injection E as <- <-. split; auto. split; auto. clear J T T0. revert rss W.
  induction qss as [|qs qss IH]; intros rss W; inversion W as [|? ? ? ? (hi & s1 & Hw) W']; subst; constructor; auto.
  destruct (session_later _ _ _ _ _ _ _ Hw) as (rs & -> & L & _). exists rs. split; auto. split; auto. intros i j q v w Lij Ei Ej Vi Vj.
  destruct (session_two _ _ _ _ _ _ _ Hw i j q q v w Lij Ei Ej Vi Vj) as (lo1 & t1 & hi1 & u1 & lo2 & t2 & hi2 & u2 & W1 & B & W2). eapply still_right; eauto.
Qed.
(*EX
Definition ex : mgr := run [CallAddConstraint A C CANNOT_LINK 1%Q] (init [A; B; C]).
Definition news : list wcall := [WAdd B A MUST_LINK 1%Q; WAdd B C CANNOT_LINK 1%Q].
Definition asked : list qcall := [QInferred A B; QComponents; QCompletude; QCompletude; QInferred A B; QComponents; QCompletude].
Definition asked2 : list qcall := [QConflict A C MUST_LINK; QConflict A C MUST_LINK].
(** The first questions are asked while [a] and [b] are being linked, when the row of [b] is written and the one of [a] is not. *)
Example C163_told_stays_ex : reachable ex /\ Forall only_adds_constraints news /\ exists m', interleaved ex (p_wsession news :: map p_qsession [asked; asked2]) m'
  [Ok [Ok (VBool true); Ok (VBool true)];
   Ok [Ok (VInferred (Some MUST_LINK)); Ok (VComponents [[A]; [B; A]; [C]]); Ok (VBool false); Ok (VBool true); Ok (VInferred (Some MUST_LINK)); Ok (VComponents [[B; A]; [C]]); Ok (VBool true)];
   Ok [Ok (VConflict (Some [A; B; A; C])); Ok (VConflict (Some [B; A; C]))]].
Proof.
  split; [apply reach_call, reach_init|]. split; [repeat constructor|].
  eexists. apply (play_interleaved (repeat 0 15 ++ repeat 1 9 ++ repeat 2 13 ++ repeat 0 (length (states (p_wsession news) ex) - 15) ++ repeat 1 29 ++ repeat 2 15)). vm_compute. reflexivity.
Qed.
EX*)

(*PROP C163: only the same question: asked with the data in the other order, the constraint that was inferred may not be there yet. *)
Lemma C163_other_order_proof : exists m cs a b m' r,
    reachable m /\ Forall only_adds_constraints cs /\
    interleaved m [p_wsession cs; p_qsession [QInferred a b; QInferred b a]] m' [r; Ok [Ok (VInferred (Some MUST_LINK)); Ok (VInferred None)]].
Proof.
  set (A := str "a"). set (B := str "b"). pose (cs := [WAdd B A MUST_LINK 1%Q]). pose (m := init [A; B]).
  exists m, cs, A, B, (run (map as_wcall cs) m), (Ok [Ok (VBool true)]). split; [apply reach_init|]. split; [repeat constructor|].
  apply (play_interleaved (repeat 0 15 ++ repeat 1 7 ++ repeat 0 3)). vm_compute. reflexivity.
Qed.
