(** * An inferred constraint that a thread was told is told again while data and constraints are added (C167). *)

From Coq Require Import String List Bool Arith ZArith QArith Lia.
(*HEADER
From Coq Require Import String List Bool Arith ZArith QArith.
From Verif Require Import Base Manager Spec ManagerInv ManagerThms Threads ThreadSpec ThreadsThms Readers ReadersSpec ReadersThms KeepSpec GrowThms.
Import ListNotations.
Open Scope nat_scope.

Definition A := str "a". Definition B := str "b". Definition C := str "c". Definition D := str "d".
HEADER*)
From Verif Require Import Base Manager Spec Closure ManagerProofs ManagerInv ManagerQueries ManagerThms InterruptThms Threads ThreadSpec ThreadsThms Readers ReadersSpec ReadersThms
  SampleThreadThms RisingProofs AskAgainThms ToldThms KeepSpec KeepThms.
Import ListNotations.
Open Scope nat_scope.

(** Adding data only adds rows. *)
Lemma rises_add_ID m d : Inv m -> rises (p_add_data_ID d) m (fun _ _ => True).
Proof.
  intro I. unfold p_add_data_ID. apply (rises_bind _ _ _ (fun k s => s = m /\ k = mem d (keys (cdict m)))). { apply rises_read. intros k E. injection E as <-. auto. }
  intros k s (-> & ->). apply (rises_bind _ _ _ (fun _ s => s = m /\ mem d (keys (cdict m)) = false)). { apply rises_done. intros u E. destruct (mem d (keys (cdict m))); [discriminate|auto]. }
  intros _ s (-> & M). apply mem_nIn in M. apply (rises_bind _ _ _ (fun _ s => ctrans s = ctrans m)). { split; cbn; auto. split; auto. apply below_refl. }
  intros _ s Es. apply (rises_bind _ _ _ (fun _ s => ctrans s = ctrans m)); [apply rises_read; auto|]. intros l s1 Es1. apply (rises_bind _ _ _ (fun _ s => ctrans s = ctrans m)).
  - apply (rises_for l _ (fun s => ctrans s = ctrans m)); auto. intros z s2 _ Es2.
    assert (G : forall u v w, rises (p_set_constraint u v w) s2 (fun _ s' => ctrans s' = ctrans m)).
    { intros u v w. unfold rises, p_set_constraint, pwrite, dlookup. cbn. destruct (dget u (cdict s2)); cbn; (split; [split; auto; apply below_refl|auto]). }
    destruct (eqb d z); [|destruct (str_ltb d z)]; apply G.
  - intros _ s2 Es2. apply (rises_bind _ _ _ (fun _ _ => True)); [|intros; apply rises_done; auto]. split; cbn; auto. split; auto. rewrite Es2. intros x e E. exists e.
    rewrite dget_dset. destruct (eqb_spec x d) as [->|]; [|split; auto; split; apply incl_refl]. exfalso. apply M. apply dget_Some_key in E. rewrite (inv_keys _ I) in E. exact E.
Qed.
Lemma rising_additions cs : Forall only_adds cs -> forall m, reachable m -> rising (p_wsession cs) m.
Proof.
  induction 1 as [|c cs O _ IH]; intros m R; cbn [p_wsession]; [exact I|]. apply rising_bind.
  - apply rising_catch. destruct c; cbn in O; try tauto; cbn [p_wexec]; apply rising_bind; try (intros; exact I); [apply rises_add_ID|apply (rises_add m)]; apply reachable_inv; auto.
  - intros x _. rewrite alone_catch. cbn [fst]. rewrite C145_alone_proof. apply rising_bind; [apply IH; apply reach_call; auto|intros; exact I].
Qed.

(** Sessions of questions. *)
Lemma asked2_later (P : nat -> mgr -> Prop) qs : forall lo s0 r hi s1, watch2 P lo s0 (p_session qs) r hi s1 -> exists rs, r = Ok rs /\ length rs = length qs /\
  forall j q v, nth_error qs j = Some q -> nth_error rs j = Some v -> exists lo' t hi' t', below (ctrans s0) (ctrans t) /\ watch2 P lo' t (p_exec q) v hi' t'.
Proof.
  induction qs as [|q qs IH]; intros lo s0 r hi s1 W; cbn [p_session] in W.
  - inversion W; subst. exists []. split; auto. split; auto. intros [|j] ? ? E; discriminate E.
  - apply watch2_bind in W as (x & n1 & t1 & W1 & W). apply watch2_catch in W1 as (v & -> & W1). assert (B1 := watch2_below _ _ _ _ _ _ _ W1).
    apply watch2_bind in W as (y & n2 & t2 & W2 & W). apply IH in W2 as (rs & -> & L & H). inversion W; subst. exists (v :: rs). split; auto. split; [cbn; auto|].
    intros [|j] q' v' E E'; cbn in E, E'.
    + injection E as <-. injection E' as <-. exists lo, s0, n1, t1. split; auto. apply below_refl.
    + destruct (H j q' v' E E') as (lo' & t & hi' & t' & B & W'). exists lo', t, hi', t'. split; auto. eapply below_trans; eauto.
Qed.
Lemma asked2_two (P : nat -> mgr -> Prop) qs : forall lo s0 rs hi s1, watch2 P lo s0 (p_session qs) (Ok rs) hi s1 ->
  forall i j q q' v v', i < j -> nth_error qs i = Some q -> nth_error qs j = Some q' -> nth_error rs i = Some v -> nth_error rs j = Some v' ->
  exists lo1 t1 hi1 u1 lo2 t2 hi2 u2, watch2 P lo1 t1 (p_exec q) v hi1 u1 /\ below (ctrans u1) (ctrans t2) /\ watch2 P lo2 t2 (p_exec q') v' hi2 u2.
Proof.
  induction qs as [|q0 qs IH]; intros lo s0 rs hi s1 W i j q q' v v' L Ei Ej Vi Vj; cbn [p_session] in W; [destruct i; discriminate|].
  apply watch2_bind in W as (x & n1 & t1 & W1 & W). apply watch2_catch in W1 as (v0 & -> & W1). apply watch2_bind in W as (y & n2 & t2 & W2 & W).
  destruct y as [ys|e]; [|destruct W; discriminate]. inversion W; subst. destruct j as [|j]; [lia|]. cbn in Ej, Vj. destruct i as [|i]; cbn in Ei, Vi.
  - injection Ei as <-. injection Vi as <-. apply asked2_later in W2 as (rs & Q & _ & H). injection Q as <-. destruct (H j q' v' Ej Vj) as (lo' & t & hi' & t' & B & W').
    exists lo, s0, n1, t1, lo', t, hi', t'. auto.
  - apply (IH n1 t1 ys _ _ W2 i j q q' v v'); auto. lia.
Qed.

(** What is read once is there the next time. *)
Definition has_row (s : mgr) (a b : pystr) : Prop := In a (keys (ctrans s)) /\ exists e, dget b (ctrans s) = Some e /\ (In a (t_ml e) \/ In a (t_cl e)).
Lemma has_row_below s s' a b : below (ctrans s) (ctrans s') -> has_row s a b -> has_row s' a b.
Proof. intros B (K & e & E & H). split; [eapply below_key; eauto|]. destruct (B b e E) as (f & F & Q1 & Q2). exists f. split; auto. destruct H; auto. Qed.
Lemma row_read (P : nat -> mgr -> Prop) a b lo s0 t hi s1 : watch2 P lo s0 (p_get_inferred_constraint a b) (Ok (Some t)) hi s1 -> has_row s1 a b.
Proof.
  intro W. unfold p_get_inferred_constraint in W.
  apply watch2_bind in W as (x1 & n1 & t1 & W1 & W). apply watch2_read in W1 as (_ & B1 & _ & ->).
  apply watch2_bind in W as (x2 & n2 & t2 & W2 & W). apply watch2_below in W2 as B2. apply watch2_watch, watch_require in W2 as (_ & ->). destruct (mem a (keys (ctrans t1))) eqn:Ma; [|destruct W; discriminate].
  apply watch2_bind in W as (x3 & n3 & t3 & W3 & W). apply watch2_read in W3 as (_ & B3 & _ & ->).
  apply watch2_bind in W as (x4 & n4 & t4 & W4 & W). apply watch2_below in W4 as B4. apply watch2_watch, watch_require in W4 as (_ & ->). destruct (mem b (keys (ctrans t3))) eqn:Mb; [|destruct W; discriminate].
  apply watch2_bind in W as (x5 & n5 & t5 & W5 & W). apply watch2_read in W5 as (_ & B5 & _ & ->). unfold dlookup in W.
  assert (Ka : In a (keys (ctrans t5))). { apply mem_In in Ma. do 4 (eapply below_key in Ma; [|eassumption]). exact Ma. }
  destruct (dget b (ctrans t5)) as [e5|] eqn:E5; cbn [rbind] in W; [|destruct W; discriminate].
  destruct (mem a (t_ml e5)) eqn:M5. { inversion W; subst. split; auto. exists e5. split; auto. left. apply mem_In. auto. }
  apply watch2_bind in W as (x6 & n6 & t6 & W6 & W). apply watch2_read in W6 as (_ & B6 & _ & ->). unfold dlookup in W.
  destruct (dget b (ctrans t6)) as [e6|] eqn:E6; cbn [rbind] in W; [|destruct W; discriminate]. destruct (mem a (t_cl e6)) eqn:M6; inversion W; subst.
  split; [eapply below_key; eauto|]. exists e6. split; auto. right. apply mem_In. auto.
Qed.
Lemma row_again (P : nat -> mgr -> Prop) a b lo s0 r hi s1 : has_row s0 a b -> watch2 P lo s0 (p_get_inferred_constraint a b) r hi s1 -> exists t, r = Ok (Some t).
Proof.
  intros H W. unfold p_get_inferred_constraint in W.
  assert (Kb : forall s, has_row s a b -> mem a (keys (ctrans s)) = true /\ mem b (keys (ctrans s)) = true). { intros s (K & e & E & _). split; apply mem_In; auto. eapply dget_Some_key; eauto. }
  apply watch2_bind in W as (x1 & n1 & t1 & W1 & W). apply watch2_read in W1 as (_ & B1 & _ & ->). apply (has_row_below _ _ _ _ B1) in H. rewrite (proj1 (Kb _ H)) in W.
  apply watch2_bind in W as (x2 & n2 & t2 & W2 & W). apply watch2_below in W2 as B2. apply watch2_watch, watch_require in W2 as (_ & ->). apply (has_row_below _ _ _ _ B2) in H.
  apply watch2_bind in W as (x3 & n3 & t3 & W3 & W). apply watch2_read in W3 as (_ & B3 & _ & ->). apply (has_row_below _ _ _ _ B3) in H. rewrite (proj2 (Kb _ H)) in W.
  apply watch2_bind in W as (x4 & n4 & t4 & W4 & W). apply watch2_below in W4 as B4. apply watch2_watch, watch_require in W4 as (_ & ->). apply (has_row_below _ _ _ _ B4) in H.
  apply watch2_bind in W as (x5 & n5 & t5 & W5 & W). apply watch2_read in W5 as (_ & B5 & _ & ->). apply (has_row_below _ _ _ _ B5) in H. unfold dlookup in W.
  destruct H as (Ka & e5 & E5 & H). rewrite E5 in W. cbn [rbind] in W. destruct (mem a (t_ml e5)) eqn:M5; [inversion W; subst; eauto|]. apply mem_nIn in M5. destruct H as [H|H]; [tauto|].
  apply watch2_bind in W as (x6 & n6 & t6 & W6 & W). apply watch2_read in W6 as (_ & B6 & _ & ->). unfold dlookup in W. destruct (B6 b e5 E5) as (e6 & E6 & _ & Q). rewrite E6 in W. cbn [rbind] in W.
  assert (M6 : mem a (t_cl e6) = true) by (apply mem_In; auto). rewrite M6 in W. inversion W; subst. eauto.
Qed.

Section Growing.
  Variable m0 : mgr.
  Variable cs : list wcall.
  Hypothesis R0 : reachable m0.
  Hypothesis AD : Forall only_adds cs.
  Notation N := (ReadersThms.N m0 cs).
  Notation seen := (ReadersThms.seen m0 cs).
  Lemma told_later n n' a b t : n <= n' -> inferred (N n) a b (Some t) -> inferred (N n') a b (Some t).
  Proof.
    intros L H. assert (I := reachable_inv _ (N_reachable m0 cs R0 n)). assert (I' := reachable_inv _ (N_reachable m0 cs R0 n')). assert (B := N_below m0 cs R0 AD n n' L). unfold inferred, ask in *.
    rewrite (ask_inferred m0 cs R0) in *. destruct (mem a (keys (ctrans (N n))) && mem b (keys (ctrans (N n)))) eqn:K; [|discriminate]. injection H as H. apply andb_true_iff in K as [Ka Kb]. apply mem_In in Ka, Kb.
    apply (below_key _ _ a B) in Ka. apply (below_key _ _ b B) in Kb. assert (Ka2 := Ka). assert (Kb2 := Kb). apply mem_In in Ka2, Kb2. rewrite Ka2, Kb2. cbn [andb]. f_equal.
    unfold infer in H. destruct (dget b (ctrans (N n))) as [e|] eqn:E; [|discriminate]. destruct (B b e E) as (e' & E' & Q1 & Q2). destruct (mem a (t_ml e)) eqn:M1.
    - injection H as <-. unfold infer. rewrite E'. apply mem_In in M1. apply Q1, mem_In in M1. rewrite M1. auto.
    - destruct (mem a (t_cl e)) eqn:M2; [|discriminate]. injection H as <-. apply mem_In in M2. apply Q2 in M2. assert (M3 := M2). apply mem_In in M3. unfold infer. rewrite E', M3.
      destruct (mem a (t_ml e')) eqn:M4; auto. exfalso. assert (Rp := inv_rep _ I'). rewrite (inv_keys _ I') in Ka, Kb. apply (rep_excl (N n') a b I').
      + apply (infer_ML (N n') a b); auto. unfold infer. rewrite E', M4. auto.
      + apply separated_sym. apply (rep_cl _ _ _ Rp b e' E'). auto.
  Qed.
  Lemma told_moment a b t lo s0 hi s1 : watch2 seen lo s0 (p_get_inferred_constraint a b) (Ok (Some t)) hi s1 -> exists n, n <= length cs /\ inferred (N n) a b (Some t).
  Proof. intro W. apply watch2_watch, (inferred_right m0 cs R0 AD) in W as (n & L & _ & E). exists n. split; [lia|]. unfold inferred, ask. auto. Qed.
  Lemma told_again a b t lo s0 hi s1 lo' s0' r hi' s1' :
    watch2 seen lo s0 (p_get_inferred_constraint a b) (Ok (Some t)) hi s1 -> below (ctrans s1) (ctrans s0') -> watch2 seen lo' s0' (p_get_inferred_constraint a b) r hi' s1' -> r = Ok (Some t).
  Proof.
    intros W1 B W2. assert (H := has_row_below _ _ _ _ B (row_read _ _ _ _ _ _ _ _ W1)). destruct (row_again _ _ _ _ _ _ _ _ H W2) as (u & ->).
    destruct (told_moment _ _ _ _ _ _ _ W1) as (n & _ & E1). destruct (told_moment _ _ _ _ _ _ _ W2) as (n' & _ & E2). destruct (Nat.le_ge_cases n n') as [L|L].
    - apply (told_later n n') in E1; auto. unfold inferred in *. congruence.
    - apply (told_later n' n) in E2; auto. unfold inferred in *. congruence.
  Qed.
End Growing.

(*PROP C167: one thread adds data and constraints, any number of calls, and any number of other threads ask for added and inferred constraints. However their reads and writes are interleaved, a
    constraint that is inferred before the additions is told by each question about it; and once a thread is told an inferred constraint, it is told the same each time it asks the same, and the constraint
    is inferred in the end. *)
Lemma C167_inferred_stays_proof : forall m cs qss m' r rss,
    reachable m -> Forall only_adds cs -> Forall (Forall asks) qss ->
    interleaved m (p_wsession cs :: map p_session qss) m' (r :: rss) ->
    Forall2 (fun qs x => exists answers, x = Ok answers /\ length answers = length qs /\
      forall i a b v t, nth_error qs i = Some (TGetInferred a b) -> nth_error answers i = Some v ->
        (inferred m a b (Some t) -> v = Ok (VInferred (Some t))) /\
        (v = Ok (VInferred (Some t)) -> inferred m' a b (Some t) /\
           forall j v', i < j -> nth_error qs j = Some (TGetInferred a b) -> nth_error answers j = Some v' -> v' = v)) qss rss.
Proof.
  intros m cs qss m' r rss R AD As J. destruct (session_trail m cs R AD cs 0 eq_refl (Nat.le_0_l _)) as [e T]. assert (P0 := trail_start _ _ _ _ _ T).
  assert (SI : Forall silent (map p_session qss)). { apply Forall_forall. intros p Ip. apply in_map_iff in Ip as (qs & <- & Iq). apply silent_asking. rewrite Forall_forall in As. auto. }
  destruct (rising_watch _ m (p_wsession cs) _ m' r rss 0 e J SI T (rising_additions cs AD m R)) as [E W]. rewrite alone_wsession in E. injection E as <- <-. clear J SI T As. revert rss W.
  induction qss as [|qs qss IH]; intros rss W; inversion W as [|? ? ? ? (hi & s1 & Hw) W']; subst; constructor; auto.
  destruct (asked2_later _ _ _ _ _ _ _ Hw) as (rs & -> & L & H). exists rs. split; auto. split; auto. intros i a b v t Ei Vi.
  assert (EX : forall lo s0 v hi s1, watch2 (seen m cs) lo s0 (p_exec (TGetInferred a b)) v hi s1 ->
    exists u n s2, watch2 (seen m cs) lo s0 (p_get_inferred_constraint a b) u n s2 /\ v = match u with Ok o => Ok (VInferred o) | Raise x => Raise x end /\ (forall o, u = Ok o -> s2 = s1)).
  { intros lo s0 w hi' s1' W0. cbn [p_exec] in W0. apply watch2_bind in W0 as (u & n & t1 & W1 & W2). destruct u as [o|x].
    - inversion W2; subst. do 3 eexists. split; [exact W1|]. auto.
    - destruct W2 as [-> _]. do 3 eexists. split; [exact W1|]. split; auto. discriminate. }
  destruct (H i _ v Ei Vi) as (lo & s & hi' & s' & B & Wi). apply EX in Wi as (u & n & s2 & Wi & -> & _). split.
  - intro It. assert (W0 := watch2_alone _ (p_get_inferred_constraint a b) 0 m (silent_inferred a b) P0). rewrite (does_inferred a b m) in W0. unfold inferred, ask in It. rewrite It in W0.
    rewrite (told_again m cs R AD _ _ _ _ _ _ _ _ _ _ _ _ W0 B Wi). auto.
  - intro Eu. destruct u as [o|]; [|discriminate]. injection Eu as ->. split.
    + destruct (told_moment m cs R AD _ _ _ _ _ _ _ Wi) as (k & Lk & E). assert (NE : N m cs (length cs) = run (map as_wcall cs) m) by (unfold N; rewrite firstn_all2; auto; rewrite map_length; auto). rewrite <- NE. apply (told_later m cs R AD k); auto.
    + intros j v' Lij Ej Vj. destruct (asked2_two _ _ _ _ _ _ _ Hw i j _ _ _ _ Lij Ei Ej Vi Vj) as (lo1 & t1 & hi1 & u1 & lo2 & t2 & hi2 & u2 & W1 & B1 & W2).
      apply EX in W1 as (x1 & n1 & s3 & W1 & E1 & Q1). destruct x1 as [o1|]; [|discriminate]. injection E1 as <-. rewrite <- (Q1 _ eq_refl) in B1. apply EX in W2 as (x2 & n2 & s4 & W2 & -> & _).
      rewrite (told_again m cs R AD _ _ _ _ _ _ _ _ _ _ _ _ W1 B1 W2). auto.
Qed.
(*EX
Definition ex : mgr := run [CallAddConstraint A B MUST_LINK 1%Q] (init [A; B; C]).
Definition news : list wcall := [WAddID D; WAdd D C MUST_LINK 1%Q; WAdd C A CANNOT_LINK 1%Q].
Definition asked : list tcall := [TGetInferred C D; TGetInferred B A; TGetInferred C D; TGetInferred D C; TGetInferred C D; TGetInferred D B; TGetInferred B A].
(** D is unknown, then C is linked to D, but D not yet to C, and C stays linked to D. *)
Example C167_inferred_stays_ex : reachable ex /\ Forall only_adds news /\ Forall (Forall asks) [asked] /\ inferred ex B A (Some MUST_LINK) /\
  exists m', interleaved ex (p_wsession news :: map p_session [asked]) m'
    [Ok [Ok (VBool true); Ok (VBool true); Ok (VBool true)];
     Ok [Raise ValueError; Ok (VInferred (Some MUST_LINK)); Ok (VInferred (Some MUST_LINK)); Ok (VInferred None); Ok (VInferred (Some MUST_LINK)); Ok (VInferred (Some CANNOT_LINK));
         Ok (VInferred (Some MUST_LINK))]].
Proof.
  split; [apply run_reachable|]. split; [repeat constructor|]. split; [repeat constructor|]. split; [vm_compute; reflexivity|].
  eexists. apply (play_interleaved (repeat 1 2 ++ repeat 0 23 ++ repeat 1 11 ++ repeat 0 23 ++ repeat 1 9)). vm_compute. reflexivity.
Qed.
EX*)

(*PROP C167: only while nothing is deleted: while another thread deletes a constraint of other data, a thread can be told that two data must link, then that nothing is known of them, and they must link
    before and after. *)
Lemma C167_deletions_proof : exists m a b c d m' r,
    reachable m /\ inferred m a b (Some MUST_LINK) /\ inferred m' a b (Some MUST_LINK) /\
    interleaved m [p_wsession [WDelete c d]; p_session [TGetInferred a b; TGetInferred a b]] m' [r; Ok [Ok (VInferred (Some MUST_LINK)); Ok (VInferred None)]].
Proof.
  set (A := str "a"). set (B := str "b"). set (C := str "c"). set (D := str "d").
  set (m := run [CallAddConstraint A B MUST_LINK 1%Q; CallAddConstraint C D MUST_LINK 1%Q] (init [A; B; C; D])).
  exists m, A, B, C, D, (fst (exec (CallDeleteConstraint C D) m)), (Ok [Ok (VBool true)]).
  split; [apply run_reachable|]. split; [vm_compute; reflexivity|]. split; [vm_compute; reflexivity|].
  apply (play_interleaved (repeat 1 3 ++ repeat 0 4 ++ repeat 1 4 ++ repeat 0 (length (states (p_wexec (WDelete C D)) m) - 4))). vm_compute. reflexivity.
Qed.

(*PROP C167: no two threads are told that two data must link and that they cannot, in whatever order the data are given and at whatever moments of the additions. *)
Lemma C167_no_contradiction_proof : forall m cs qss m' r rss k k' qs qs' answers answers' i j a b t u,
    reachable m -> Forall only_adds cs -> Forall (Forall asks) qss ->
    interleaved m (p_wsession cs :: map p_session qss) m' (r :: rss) ->
    nth_error qss k = Some qs -> nth_error rss k = Some (Ok answers) ->
    nth_error qss k' = Some qs' -> nth_error rss k' = Some (Ok answers') ->
    nth_error qs i = Some (TGetInferred a b) -> nth_error answers i = Some (Ok (VInferred (Some t))) ->
    nth_error qs' j = Some (TGetInferred a b) \/ nth_error qs' j = Some (TGetInferred b a) -> nth_error answers' j = Some (Ok (VInferred (Some u))) ->
    t = u.
Proof.
  intros m cs qss m' r rss k k' qs qs' an an' i j a b t u R AD As J Q1 A1 Q2 A2 Ei Vi Ej Vj. assert (F := C167_inferred_stays_proof _ _ _ _ _ _ R AD As J).
  assert (G : forall k qs an i a b t, nth_error qss k = Some qs -> nth_error rss k = Some (Ok an) -> nth_error qs i = Some (TGetInferred a b) -> nth_error an i = Some (Ok (VInferred (Some t))) ->
    inferred m' a b (Some t)).
  { clear - F. intros k qs an i a b t E1 E2 E3 E4. revert k E1 E2. induction F as [|q x qss rss (an' & -> & _ & H) F IH]; intros k E1 E2; [destruct k; discriminate|].
    destruct k as [|k]; cbn in E1, E2; [|eauto]. injection E1 as ->. injection E2 as ->. destruct (H i a b _ t E3 E4) as [_ H']. apply H'. auto. }
  assert (H := G _ _ _ _ _ _ _ Q1 A1 Ei Vi). assert (R' : reachable m').
  { destruct (session_trail m cs R AD cs 0 eq_refl (Nat.le_0_l _)) as [e T]. destruct (silent_watch (seen m cs) m (p_wsession cs) (map p_session qss) m' r rss 0 e J) as [E _]; auto.
    - apply Forall_forall. intros p Ip. apply in_map_iff in Ip as (q & <- & Iq). apply silent_asking. rewrite Forall_forall in As. auto.
    - rewrite alone_wsession in E. injection E as <- <-. apply run_reachable_from. auto. }
  assert (I := reachable_inv _ R'). assert (IS : In a (ids m') /\ In b (ids m')).
  { assert (H' := H). unfold inferred, ask in H'. rewrite run_inferred in H' by auto. cbn [snd] in H'. destruct (both m' a b) eqn:Bo in H'; [apply both_true; auto|discriminate]. }
  destruct IS as [Ia Ib]. apply inferred_spec in H; auto. destruct Ej as [Ej|Ej]; assert (K := G _ _ _ _ _ _ _ Q2 A2 Ej Vj); apply inferred_spec in K; auto; [congruence|]. rewrite infer_sym in K by auto. congruence.
Qed.
(*EX
(** One thread is told of C and D, and another one, later, of D and C. *)
Example C167_no_contradiction_ex : exists m', interleaved ex (p_wsession news :: map p_session [[TGetInferred C D]; [TGetInferred D C]]) m'
  [Ok [Ok (VBool true); Ok (VBool true); Ok (VBool true)]; Ok [Ok (VInferred (Some MUST_LINK))]; Ok [Ok (VInferred (Some MUST_LINK))]].
Proof. eexists. apply (play_interleaved (repeat 0 23 ++ repeat 1 3 ++ repeat 0 23 ++ repeat 2 3)). vm_compute. reflexivity. Qed.
EX*)
