(** * What the threads are told lies between what held before the additions and what holds after them (C164). *)

From Coq Require Import String List Bool Arith ZArith QArith Lia.
(*HEADER
From Coq Require Import String List Bool Arith ZArith QArith.
From Verif Require Import Base Manager Spec ManagerThms Threads ThreadSpec ThreadsThms Readers ReadersSpec ReadersThms Listing ListingSpec ListingThms AskAgain AskAgainSpec AskAgainThms ToldSpec ToldThms.
Import ListNotations.
Open Scope nat_scope.

Definition A := str "a". Definition B := str "b". Definition C := str "c".
HEADER*)
From Verif Require Import Base Manager Spec Closure ManagerProofs ManagerInv ManagerQueries ManagerThms InterruptThms Threads ThreadSpec ThreadsThms Readers ReadersSpec ReadersThms
  Listing ListingSpec ListingThms SampleThread SampleThreadThms MinMaxThreadThms RisingProofs ConflictThread ConflictThreadSpec ConflictThreadThms AskAgain AskAgainSpec AskAgainThms ToldSpec.
Import ListNotations.
Open Scope nat_scope.

Lemma rising_end {T} (p : prog T) m : rising p m -> forall s, In s (m :: states p m) -> below (ctrans s) (ctrans (fst (alone p m))).
Proof.
  revert m. induction p as [r|f g IH]; intros m H s J; cbn [rising states alone] in *.
  - destruct J as [<-|[]]. apply below_refl.
  - destruct H as [H1 H2]. destruct J as [<-|J]; [|apply (IH m (f m) H2); auto]. eapply below_trans; [exact H1|]. apply (IH m (f m) H2). left. auto.
Qed.
Lemma watch2_impl (P P' : nat -> mgr -> Prop) {T} (p : prog T) lo s0 r hi s1 : (forall n s, P n s -> P' n s) -> watch2 P lo s0 p r hi s1 -> watch2 P' lo s0 p r hi s1.
Proof. intros H W. induction W; econstructor; eauto. Qed.
Lemma watch2_last (P : nat -> mgr -> Prop) (Q : mgr -> Prop) {T} (p : prog T) lo s0 r hi s1 : (forall n s, P n s -> Q s) -> Q s0 -> watch2 P lo s0 p r hi s1 -> Q s1.
Proof. intros H Q0 W. induction W; auto. apply IHW. eauto. Qed.
(** A program that only reads, alone. *)
Lemma watch2_alone (P : nat -> mgr -> Prop) {T} (p : prog T) n s : silent p -> P n s -> watch2 P n s p (snd (alone p s)) n s.
Proof.
  intros S H. induction p as [r|f g IH]; cbn in *; [constructor|]. destruct S as [S1 S2]. rewrite S1. econstructor; [apply le_n|apply below_refl|exact H|]. apply IH. auto.
Qed.
Lemma session_each (P : nat -> mgr -> Prop) (Q : mgr -> Prop) qs : (forall n s, P n s -> Q s) -> forall lo s0 r hi s1, Q s0 -> watch2 P lo s0 (p_qsession qs) r hi s1 -> exists rs, r = Ok rs /\
  Forall2 (fun q v => exists lo' t hi' t', below (ctrans s0) (ctrans t) /\ watch2 P lo' t (p_qexec q) v hi' t' /\ Q t') qs rs.
Proof.
  intro H. induction qs as [|q qs IH]; intros lo s0 r hi s1 Q0 W; cbn [p_qsession] in W.
  - inversion W; subst. exists []. auto.
  - apply watch2_bind in W as (x & n1 & t1 & W1 & W). apply watch2_catch in W1 as (v & -> & W1). assert (B1 := watch2_below _ _ _ _ _ _ _ W1). assert (Q1 := watch2_last _ _ _ _ _ _ _ _ H Q0 W1).
    apply watch2_bind in W as (y & n2 & t2 & W2 & W). apply IH in W2 as (rs & -> & F); auto. inversion W; subst. exists (v :: rs). split; auto. constructor.
    + exists lo, s0, n1, t1. split; [apply below_refl|auto].
    + clear - F B1. induction F as [|q' v' qs rs (lo' & t & hi' & t' & B & W & Qt) F IH]; constructor; auto. exists lo', t, hi', t'. split; auto. eapply below_trans; eauto.
Qed.

(*PROP C164: one thread adds constraints, any number of calls, and any number of other threads ask for inferred constraints, for the components, for the completeness and for conflicts. However their
    reads and writes are interleaved, no thread is told less than what the method returns before the additions, and what a thread is told is still returned by the method after them. *)
Lemma C164_between_proof : forall m cs qss m' r rss,
    reachable m -> Forall only_adds_constraints cs ->
    interleaved m (p_wsession cs :: map p_qsession qss) m' (r :: rss) ->
    Forall2 (fun qs x => exists answers, x = Ok answers /\
      Forall2 (fun q v => still q (snd (exec (as_qcall q) m)) v /\ still q v (snd (exec (as_qcall q) m'))) qs answers) qss rss.
Proof.
  intros m cs qss m' r rss R AC J. destruct (stage_trail m cs R AC cs 0 eq_refl (Nat.le_0_l _)) as [e T0].
  assert (T1 : trail (at_stage m cs) 0 (p_wsession cs) m e).
  { apply trail_and; [exact T0|]. destruct (sd_session cs AC m) as [S1 _]. intros x [<-|Ix]; auto. }
  assert (RI := rising_session cs AC m R). assert (T := trail_and _ _ _ _ _ _ T1 (rising_end _ _ RI)).
  assert (P0 := trail_start _ _ _ _ _ T1). assert (PE := trail_end _ _ _ _ _ T1). assert (B0 := proj2 (trail_start _ _ _ _ _ T)). cbv beta in B0.
  assert (SI : Forall silent (map p_qsession qss)) by (apply Forall_forall; intros p Ip; apply in_map_iff in Ip as (qs & <- & _); apply silent_qsession).
  destruct (rising_watch _ m (p_wsession cs) _ m' r rss 0 e J SI T RI) as [E W].
  rewrite E in *. cbn [fst] in *. clear J T T0 T1 SI RI. revert rss W.
  induction qss as [|qs qss IH]; intros rss W; inversion W as [|? ? ? ? (hi & s1 & Hw) W']; subst; constructor; auto.
  apply (session_each _ (fun s => below (ctrans s) (ctrans m'))) in Hw as (rs & -> & F); auto; [|intros n s [_ H]; exact H]. exists rs. split; auto. clear - F P0 PE R AC.
  induction F as [|q v qs rs (lo & t & hi & t' & B & W & Bt) F IH]; constructor; auto. clear IH F.
  apply (watch2_impl _ (at_stage m cs)) in W; [|intros ? ? [? _]; auto]. rewrite <- !alone_qexec. split.
  - eapply (still_right m cs R AC q); [apply watch2_alone; [apply silent_qexec|exact P0]|exact B|exact W].
  - eapply (still_right m cs R AC q); [exact W|exact Bt|apply watch2_alone; [apply silent_qexec|exact PE]].
Qed.
(*EX
Definition ex : mgr := run [CallAddConstraint A C CANNOT_LINK 1%Q] (init [A; B; C]).
Definition news : list wcall := [WAdd B A MUST_LINK 1%Q; WAdd B C CANNOT_LINK 1%Q].
Definition asked : list (list qcall) := [[QInferred A B; QComponents; QCompletude; QInferred B A]; [QConflict A C MUST_LINK; QInferred B A]].
Definition answered : list (res (list (res value))) :=
  [Ok [Ok (VBool true); Ok (VBool true)];
   Ok [Ok (VInferred (Some MUST_LINK)); Ok (VComponents [[A]; [B; A]; [C]]); Ok (VBool false); Ok (VInferred None)];
   Ok [Ok (VConflict (Some [A; B; A; C])); Ok (VInferred (Some MUST_LINK))]].
Lemma answered_so : exists m', interleaved ex (p_wsession news :: map p_qsession asked) m' answered.
Proof.
  eexists. apply (play_interleaved (repeat 0 15 ++ repeat 1 15 ++ repeat 2 13 ++ repeat 0 (length (states (p_wsession news) ex) - 15) ++ repeat 2 4)). vm_compute. reflexivity.
Qed.
(** The answers are neither those before nor those after the additions. *)
Example C164_between_ex : reachable ex /\ Forall only_adds_constraints news /\ (exists m', interleaved ex (p_wsession news :: map p_qsession asked) m' answered) /\
  snd (exec CallComponents ex) = Ok (VComponents [[A]; [B]; [C]]) /\ snd (exec CallComponents (run (map as_wcall news) ex)) = Ok (VComponents [[B; A]; [C]]).
Proof. split; [apply reach_call, reach_init|]. split; [repeat constructor|]. split; [exact answered_so|]. split; vm_compute; reflexivity. Qed.
EX*)

(*PROP C164: what some thread is told to be inferred is inferred in the end; so no two threads are told different constraints between the same two data, whatever the order of the data. *)
Lemma C164_no_contradiction_proof : forall m cs qss m' r rss a b t,
    reachable m -> Forall only_adds_constraints cs ->
    interleaved m (p_wsession cs :: map p_qsession qss) m' (r :: rss) ->
    told qss rss a b t -> inferred m' a b (Some t) /\ forall u, told qss rss a b u \/ told qss rss b a u -> u = t.
Proof.
  intros m cs qss m' r rss a b t R AC J. assert (F := C164_between_proof _ _ _ _ _ _ R AC J).
  assert (G : forall a b t, told qss rss a b t -> inferred m' a b (Some t)).
  { clear a b t. intros a b t (k & qs & an & i & E1 & E2 & E3 & E4). clear J. revert k rss F E1 E2. induction qss as [|q0 qss IH]; intros k rss F E1 E2; [destruct k; discriminate|].
    inversion F as [|? x ? rss' (an' & Ex & F1) F2]; subst. destruct k as [|k]; cbn in E1, E2; [|eapply (IH k rss'); eauto].
    injection E1 as ->. injection E2 as ->. clear F F2 IH. revert i E3 E4. induction F1 as [|q v qs an [_ H] F1 IH]; intros i E3 E4; [destruct i; discriminate|].
    destruct i as [|i]; cbn in E3, E4; [|eapply IH; eauto]. injection E3 as ->. injection E4 as ->. specialize (H t eq_refl). cbn [as_qcall exec] in H. unfold inferred, ask. revert H. unfold bind, ret.
    destruct (get_inferred_constraint a b m') as [m1 [x|x]]; cbn; intro H; [injection H as ->; auto|discriminate]. }
  intro H. assert (H' := G _ _ _ H). split; auto. assert (R' : reachable m').
  { destruct (C163_told_stays_proof _ _ _ _ _ _ R AC J) as (-> & _ & _). apply run_reachable_from. auto. }
  assert (I := reachable_inv _ R'). assert (IS : In a (ids m') /\ In b (ids m')).
  { unfold inferred, ask in H'. rewrite run_inferred in H' by auto. cbn [snd] in H'. destruct (both m' a b) eqn:Bo in H'; [apply both_true; auto|discriminate]. }
  destruct IS as [Ia Ib]. intros u [K|K]; apply G in K; apply inferred_spec in K; auto; apply inferred_spec in H'; auto; [congruence|]. rewrite infer_sym in K by auto. congruence.
Qed.
(*EX
Example C164_no_contradiction_ex : told asked (tl answered) A B MUST_LINK /\ told asked (tl answered) B A MUST_LINK /\
  exists m', interleaved ex (p_wsession news :: map p_qsession asked) m' (hd (Raise ValueError) answered :: tl answered).
Proof. split; [exists 0; do 2 eexists; exists 0; repeat split; reflexivity|]. split; [exists 1; do 2 eexists; exists 1; repeat split; reflexivity|exact answered_so]. Qed.
EX*)
