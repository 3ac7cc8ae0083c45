(** * An added constraint that a thread was told is told again, until it is deleted (C165). *)

From Coq Require Import String List Bool Arith ZArith QArith Lia.
(*HEADER
From Coq Require Import String List Bool Arith ZArith QArith.
From Verif Require Import Base Manager Spec ManagerInv ManagerThms Threads ThreadSpec ThreadsThms Readers ReadersSpec ReadersThms KeepSpec KeepThms.
Import ListNotations.
Open Scope nat_scope.

Definition A := str "a". Definition B := str "b". Definition C := str "c". Definition D := str "d".
HEADER*)
From Verif Require Import Base Manager Spec Closure ManagerProofs ManagerInv ManagerQueries ManagerThms Threads ThreadSpec ThreadsThms Readers ReadersSpec ReadersThms KeepSpec.
Import ListNotations.
Open Scope nat_scope.

(** ** The states of a program, numbered *)
Definition numbered (l : list mgr) (n : nat) (s : mgr) : Prop := nth_error l n = Some s.
Lemma trail_numbered l {T} (p : prog T) : forall k m, (forall j, nth_error l (k + j) = nth_error (m :: states p m) j) -> trail (numbered l) k p m (k + length (states p m)).
Proof.
  induction p as [r|f g IH]; intros k m H; cbn [trail states length] in *.
  - assert (Q := H 0). rewrite Nat.add_0_r in *. cbn in Q. unfold numbered. auto.
  - assert (Q := H 0). rewrite Nat.add_0_r in Q. split; [exact Q|]. exists (S k). split; [lia|]. replace (k + S (length (states (g m) (f m)))) with (S k + length (states (g m) (f m))) by lia.
    apply IH. intro j. replace (S k + j) with (k + S j) by lia. apply H.
Qed.
Lemma trail_end' (P : nat -> mgr -> Prop) {T} (p : prog T) n m e : trail P n p m e -> P e (fst (alone p m)).
Proof. revert n m. induction p as [r|f g IH]; intros n m H; cbn in *; [tauto|]. destruct H as (_ & n' & _ & H). eapply IH; eauto. Qed.
Lemma watch_alone (P : nat -> mgr -> Prop) {T} (p : prog T) n s : silent p -> P n s -> watch P n p (snd (alone p s)) n.
Proof.
  intros S H. induction p as [r|f g IH]; cbn in *; [constructor|]. destruct S as [S1 S2]. rewrite S1. econstructor; [apply le_n|exact H|]. apply IH. auto.
Qed.
Lemma watch_le (P : nat -> mgr -> Prop) {T} (p : prog T) lo r hi : watch P lo p r hi -> lo <= hi.
Proof. induction 1; lia. Qed.

Lemma Forall2_impl {X Y} (P Q : X -> Y -> Prop) l l' : (forall a b, P a b -> Q a b) -> Forall2 P l l' -> Forall2 Q l l'.
Proof. intros H F. induction F; constructor; auto. Qed.
(** Sessions of questions. *)
Lemma asked_later P qs : forall lo r hi, watch P lo (p_session qs) r hi -> exists rs, r = Ok rs /\ length rs = length qs /\
  forall j q v, nth_error qs j = Some q -> nth_error rs j = Some v -> exists lo' hi', lo <= lo' /\ watch P lo' (p_exec q) v hi'.
Proof.
  induction qs as [|q qs IH]; intros lo r hi W; cbn [p_session] in W.
  - inversion W; subst. exists []. split; auto. split; auto. intros [|j] ? ? E; discriminate E.
  - apply watch_bind in W as (x & n1 & W1 & W). apply watch_catch in W1 as (v & -> & W1). assert (L1 := watch_le _ _ _ _ _ W1).
    apply watch_bind in W as (y & n2 & W2 & W). apply IH in W2 as (rs & -> & L & H). inversion W; subst. exists (v :: rs). split; auto. split; [cbn; auto|].
    intros [|j] q' v' E E'; cbn in E, E'.
    + injection E as <-. injection E' as <-. exists lo, n1. auto.
    + destruct (H j q' v' E E') as (lo' & hi' & B & W'). exists lo', hi'. split; auto. lia.
Qed.
Lemma asked_two P qs : forall lo rs hi, watch P lo (p_session qs) (Ok rs) hi ->
  forall i j q q' v v', i < j -> nth_error qs i = Some q -> nth_error qs j = Some q' -> nth_error rs i = Some v -> nth_error rs j = Some v' ->
  exists lo1 hi1 lo2 hi2, watch P lo1 (p_exec q) v hi1 /\ hi1 <= lo2 /\ watch P lo2 (p_exec q') v' hi2.
Proof.
  induction qs as [|q0 qs IH]; intros lo rs hi W i j q q' v v' L Ei Ej Vi Vj; cbn [p_session] in W; [destruct i; discriminate|].
  apply watch_bind in W as (x & n1 & W1 & W). apply watch_catch in W1 as (v0 & -> & W1). apply watch_bind in W as (y & n2 & W2 & W).
  destruct y as [ys|e]; [|destruct W; discriminate]. inversion W; subst. destruct j as [|j]; [lia|]. cbn in Ej, Vj. destruct i as [|i]; cbn in Ei, Vi.
  - injection Ei as <-. injection Vi as <-. apply asked_later in W2 as (rs & Q & _ & H). injection Q as <-. destruct (H j q' v' Ej Vj) as (lo' & hi' & B & W').
    exists lo, n1, lo', hi'. auto.
  - apply (IH n1 ys _ W2 i j q q' v v'); auto. lia.
Qed.
Lemma silent_asks q : asks q -> silent (p_exec q).
Proof. destruct q; cbn [asks p_exec]; [tauto| |]; intros _; (apply silent_bind; [|intro; exact I]); [apply silent_added|apply silent_inferred]. Qed.
Lemma silent_asking qs : Forall asks qs -> silent (p_session qs).
Proof. induction 1 as [|q qs H _ IH]; cbn [p_session]; [exact I|]. apply silent_bind; [apply silent_catch, silent_asks; auto|]. intro. apply silent_bind; [exact IH|intro; exact I]. Qed.

(** ** The entry of a constraint *)
Section Entry.
  Variables x y : pystr.   (* the two data in their order *)
  Variable strict : Prop.  (* the constraint is not added either *)
  Definition there (s : mgr) : Prop := (exists r, dget x (cdict s) = Some r) /\ (exists r, dget y (cdict s) = Some r).
  Definition entry_of (s : mgr) : option (option constr) := match dget x (cdict s) with Some r => dget y r | None => None end.
  Definition keep (s s' : mgr) : Prop := (there s -> there s') /\ forall o, (o = None -> strict) -> entry_of s = Some o -> entry_of s' = Some o.
  Lemma keep_refl s : keep s s.
  Proof. split; auto. Qed.
  Lemma keep_trans s1 s2 s3 : keep s1 s2 -> keep s2 s3 -> keep s1 s3.
  Proof. intros [H1 H2] [H3 H4]. split; auto. Qed.
  Lemma keep_same s s' : cdict s' = cdict s -> keep s s'.
  Proof. intro E. unfold keep, there, entry_of. rewrite E. auto. Qed.
  Lemma keep_intro s s' : (forall r, dget x (cdict s) = Some r -> exists r', dget x (cdict s') = Some r' /\ dget y r' = dget y r) ->
    (forall r, dget y (cdict s) = Some r -> exists r', dget y (cdict s') = Some r') -> keep s s'.
  Proof.
    intros H1 H2. split.
    - intros [[r E] [r2 E2]]. destruct (H1 r E) as (r' & E' & _). destruct (H2 r2 E2) as (r2' & E2'). split; eauto.
    - intros o _ E. unfold entry_of in *. destruct (dget x (cdict s)) as [r|] eqn:Er; [|discriminate]. destruct (H1 r eq_refl) as (r' & -> & ->). auto.
  Qed.

  Fixpoint steady {T} (p : prog T) : Prop := match p with Done _ => True | Step f k => forall m, keep m (f m) /\ steady (k m) end.
  Lemma steady_bind {T U} (p : prog T) (k : T -> prog U) : steady p -> (forall a, steady (k a)) -> steady (pbind p k).
  Proof. intros H K. induction p as [[a|e]|f g IH]; cbn in *; auto. intro m. destruct (H m). auto. Qed.
  Lemma steady_silent {T} (p : prog T) : silent p -> steady p.
  Proof. induction p as [r|f g IH]; cbn; auto. intros [H1 H2] m. rewrite H1. split; auto. apply keep_refl. Qed.
  Lemma steady_for {U} (l : list U) f : (forall z, steady (f z)) -> steady (pfor l f).
  Proof. intro H. induction l as [|z l IH]; cbn [pfor]; [exact I|]. apply steady_bind; auto. Qed.
  Lemma steady_write q : (forall m m', q m = Ok m' -> keep m m') -> steady (pwrite q).
  Proof. intros H m. split; [|exact I]. destruct (q m) as [m'|e] eqn:E; [auto|apply keep_refl]. Qed.
  Lemma steady_update f : (forall m, keep m (f m)) -> steady (p_update f).
  Proof. intro H. apply steady_write. intros m m' E. injection E as <-. auto. Qed.
  Lemma steady_ml z : steady (p_ml z). Proof. apply steady_silent. cbn. auto. Qed.
  Lemma steady_cl z : steady (p_cl z). Proof. apply steady_silent. cbn. auto. Qed.
  Lemma steady_set_ml z l : steady (p_set_ml z l). Proof. apply steady_write. intros m m' E. destruct (dlookup z (ctrans m)); [|discriminate]. injection E as <-. apply keep_same. reflexivity. Qed.
  Lemma steady_set_cl z l : steady (p_set_cl z l). Proof. apply steady_write. intros m m' E. destruct (dlookup z (ctrans m)); [|discriminate]. injection E as <-. apply keep_same. reflexivity. Qed.
  Lemma steady_transitivity a b t : steady (p_add_constraint_transitivity a b t).
  Proof.
    unfold p_add_constraint_transitivity. destruct (eqb t MUST_LINK);
      repeat first [apply steady_set_ml | apply steady_set_cl | apply steady_ml | apply steady_cl | apply steady_for; intro | apply steady_bind; [|intro]].
  Qed.
  Lemma steady_generate : steady p_generate_constraints_transitivity.
  Proof.
    unfold p_generate_constraints_transitivity. apply steady_bind; [apply steady_update; intro; apply keep_same; reflexivity|intros _]. apply steady_bind; [apply steady_silent; cbn; auto|intro l].
    apply steady_for. intro z. apply steady_bind; [apply steady_silent; cbn; auto|intro row]. apply steady_for. intro w. apply steady_bind; [apply steady_silent; cbn; auto|intros [c|]]; [apply steady_transitivity|exact I].
  Qed.
  Lemma keep_set u v w m m' : u <> x \/ v <> y -> rbind (dlookup u (cdict m)) (fun row => Ok (mkMgr (dset u (dset v w row) (cdict m)) (ctrans m))) = Ok m' -> keep m m'.
  Proof.
    intros D E. unfold dlookup in E. destruct (dget u (cdict m)) as [row|] eqn:Er; cbn [rbind] in E; [|discriminate]. injection E as <-. apply keep_intro; cbn [cdict]; intros r Q; rewrite dget_dset.
    - destruct (eqb_spec x u) as [->|]; [|eauto]. rewrite Er in Q. injection Q as ->. eexists. split; [reflexivity|]. apply dget_dset_other. destruct D; congruence.
    - destruct (eqb y u); eauto.
  Qed.
  Lemma steady_set u v w : u <> x \/ v <> y -> steady (p_set_constraint u v w).
  Proof. intro D. apply steady_write. intros m m' E. eapply keep_set; eauto. Qed.

  (** From one state. *)
  Fixpoint stays {T} (p : prog T) (s : mgr) : Prop := match p with Done _ => True | Step f k => keep s (f s) /\ stays (k s) (f s) end.
  Lemma stays_steady {T} (p : prog T) s : steady p -> stays p s.
  Proof. revert s. induction p as [r|f g IH]; intros s H; cbn in *; auto. destruct (H s). auto. Qed.
  Lemma stays_bind {T U} (p : prog T) (k : T -> prog U) s : stays p s -> (forall a, snd (alone p s) = Ok a -> stays (k a) (fst (alone p s))) -> stays (pbind p k) s.
  Proof. revert s. induction p as [[a|e]|f g IH]; intros s H K; cbn in *; auto. destruct H. auto. Qed.
  Lemma stays_read {T U} (p : prog T) (k : T -> prog U) s : silent p -> (forall a, snd (alone p s) = Ok a -> stays (k a) s) -> stays (pbind p k) s.
  Proof. intros S K. apply stays_bind; [apply stays_steady, steady_silent; auto|]. intros a E. replace (fst (alone p s)) with s; auto. clear - S. induction p as [r|f g IH]; cbn in *; auto. destruct S as [S1 S2]. rewrite S1. auto. Qed.
  Lemma stays_end {T} (p : prog T) s : stays p s -> keep s (fst (alone p s)).
  Proof. revert s. induction p as [r|f g IH]; intros s H; cbn in *; [apply keep_refl|]. destruct H. eapply keep_trans; eauto. Qed.
  Lemma stays_catch {T} (p : prog T) s : stays p s -> stays (pcatch p) s.
  Proof. revert s. induction p as [r|f g IH]; intros s H; cbn in *; auto. destruct H. auto. Qed.
  Lemma stays_order {T} (p : prog T) s : stays p s -> forall i j t u, i <= j -> nth_error (s :: states p s) i = Some t -> nth_error (s :: states p s) j = Some u -> keep t u.
  Proof.
    revert s. induction p as [r|f g IH]; intros s H i j t u L Ei Ej; cbn [states stays] in *.
    - destruct i as [|i]; [|destruct i; discriminate]. destruct j as [|j]; [|destruct j; discriminate]. cbn in *. replace u with t by congruence. apply keep_refl.
    - destruct H as [H1 H2]. destruct i as [|i]; cbn [nth_error] in Ei.
      + injection Ei as <-. destruct j as [|j]; [injection Ej as <-; apply keep_refl|]. eapply keep_trans; [exact H1|]. apply (IH s (f s) H2 0 j); auto. lia.
      + destruct j as [|j]; [lia|]. apply (IH s (f s) H2 i j); auto. lia.
  Qed.

  Definition pair_of (a b : pystr) : Prop := (a = x /\ b = y) \/ (a = y /\ b = x).
  Lemma stays_call w s : leaves x y w -> (strict -> adds_other x y w) -> there s -> stays (p_wexec w) s.
  Proof.
    intros Lw Aw [[rx Ex] [ry Ey]]. destruct w as [d|d|a b t v|a b]; cbn [p_wexec leaves] in *.
    - apply stays_bind; [|intros; exact I]. unfold p_add_data_ID. apply stays_read; [cbn; auto|]. intros k Ek. cbn in Ek. injection Ek as <-.
      apply stays_read; [exact I|]. intros [] Ek. destruct (mem d (keys (cdict s))) eqn:M; cbn in Ek; [discriminate|]. apply mem_nIn in M.
      assert (Dx : d <> x) by (intros ->; apply M; eapply dget_Some_key; eauto). assert (Dy : d <> y) by (intros ->; apply M; eapply dget_Some_key; eauto).
      apply stays_steady. apply steady_bind. { apply steady_update. intro m. apply keep_intro; cbn [cdict]; intros r Q; rewrite dget_dset_other by congruence; eauto. }
      intros _. apply steady_bind; [apply steady_silent; cbn; auto|intro l]. apply steady_bind; [|intros _; apply steady_bind; [apply steady_update; intro; apply keep_same; reflexivity|intro; exact I]].
      apply steady_for. intro z. destruct (eqb d z); [|destruct (str_ltb d z)]; apply steady_set; auto.
    - destruct Lw as [Dx Dy]. apply stays_steady. apply steady_bind; [|intro; exact I]. unfold p_delete_data_ID. apply steady_bind; [apply steady_silent; cbn; auto|intro k]. apply steady_bind; [exact I|intros _].
      apply steady_bind. { apply steady_update. intro m. apply keep_intro; cbn [cdict]; intros r Q; rewrite dget_dpop_other by congruence; eauto. }
      intros _. apply steady_bind; [apply steady_silent; cbn; auto|intro l]. apply steady_bind; [|intros _; apply steady_bind; [apply steady_generate|intro; exact I]].
      apply steady_for. intro z. apply steady_write. intros m m' E. unfold dlookup in E. destruct (dget z (cdict m)) as [row|] eqn:Er; cbn [rbind] in E; [|discriminate]. injection E as <-.
      apply keep_intro; cbn [cdict]; intros r Q; rewrite dget_dset.
      + destruct (eqb_spec x z) as [->|]; [|eauto]. rewrite Er in Q. injection Q as ->. eexists. split; [reflexivity|]. apply dget_dpop_other. congruence.
      + destruct (eqb y z); eauto.
    - apply stays_bind; [|intros; exact I]. unfold p_add_constraint. apply stays_read; [cbn; auto|]. intros k1 _. apply stays_read; [exact I|]. intros [] _. apply stays_read; [cbn; auto|]. intros k2 _.
      apply stays_read; [exact I|]. intros [] _. apply stays_read; [exact I|]. intros [] _. apply stays_read; [apply silent_inferred|]. intros i _. apply stays_read; [exact I|]. intros [] _.
      apply stays_read; [apply silent_added|]. intros [c|] Ec; [exact I|]. apply stays_bind; [|intros; apply stays_steady; apply steady_bind; [apply steady_transitivity|intro; exact I]].
      assert (G : forall u v, (entry_of s = Some None /\ ~ strict) \/ (u <> x \/ v <> y) -> stays (p_set_constraint u v (Some (t, 1%Q))) s).
      { intros u v0 [[E NS]|D]; [|apply stays_steady, steady_set; auto]. split; [|exact I]. unfold dlookup. destruct (dget u (cdict s)) as [row|] eqn:Er; cbn [rbind]; [|apply keep_refl].
        split; [|intros o So Q; exfalso; apply NS, So; congruence]. intros [[r1 Q1] [r2 Q2]]. split; cbn [cdict]; rewrite dget_dset; [destruct (eqb x u)|destruct (eqb y u)]; eauto. }
      unfold p_get_added_constraint in Ec. rewrite !alone_bind in Ec. cbn [p_in_dict pread alone] in Ec. destruct (mem a (keys (cdict s))); cbn in Ec; [|discriminate]. destruct (mem b (keys (cdict s))); cbn in Ec; [|discriminate].
      assert (E2 : forall u v, rbind (dlookup u (cdict s)) (fun row => dlookup v row) = Ok None -> (u = a /\ v = b) \/ (u = b /\ v = a) -> (entry_of s = Some None /\ ~ strict) \/ (u <> x \/ v <> y)).
      { intros u v0 Q PQ. unfold entry_of. destruct (eqb_spec u x) as [->|]; [|auto]. destruct (eqb_spec v0 y) as [->|]; [|auto]. left. unfold dlookup in Q. rewrite Ex in *. cbn in Q. destruct (dget y rx) as [o|]; [|discriminate]. injection Q as ->. split; auto. intro St. destruct (Aw St) as [A1 A2].
        destruct PQ as [[Q1 Q2]|[Q1 Q2]]; [apply A1|apply A2]; split; congruence. }
      destruct (str_leb a b); cbn in Ec; apply G, E2; auto.
    - destruct Lw as [D1 D2]. apply stays_steady. apply steady_bind; [|intro; exact I]. unfold p_delete_constraint. apply steady_bind; [apply steady_silent; cbn; auto|intro k1]. apply steady_bind; [exact I|intros _].
      apply steady_bind; [apply steady_silent; cbn; auto|intro k2]. apply steady_bind; [exact I|intros _]. apply steady_bind; [|intros _; apply steady_bind; [apply steady_generate|intro; exact I]].
      destruct (str_leb a b); apply steady_set.
      + destruct (eqb_spec a x) as [->|]; auto.
      + destruct (eqb_spec b x) as [->|]; auto.
  Qed.
  Lemma stays_session cs : Forall (leaves x y) cs -> (strict -> Forall (adds_other x y) cs) -> forall s, there s -> stays (p_wsession cs) s.
  Proof.
    induction 1 as [|c cs O _ IH]; intros Ad s H; cbn [p_wsession]; [exact I|]. assert (S := stays_call c s O (fun St => Forall_inv (Ad St)) H). apply stays_bind; [apply stays_catch; auto|].
    intros r _. apply stays_bind; [|intros; exact I]. apply IH; [intro St; exact (Forall_inv_tail (Ad St))|]. rewrite alone_catch. cbn [fst]. apply (stays_end _ _ S). auto.
  Qed.

  (** What is told about it. *)
  Hypothesis order : str_leb x y = true.
  Variable l : list mgr.
  Hypothesis L : forall i j t u, i <= j -> nth_error l i = Some t -> nth_error l j = Some u -> keep t u.
  Hypothesis T : forall i t, nth_error l i = Some t -> there t.
  Notation P := (numbered l).
  Lemma read_entry a b lo r hi : pair_of a b -> watch P lo (p_get_added_constraint a b) r hi -> lo <= hi /\ exists s, P hi s /\ r = match entry_of s with Some o => Ok o | None => Raise KeyError end.
  Proof.
    intros PO W. unfold p_get_added_constraint in W.
    assert (K : forall z i t, z = x \/ z = y -> P i t -> mem z (keys (cdict t)) = true). { intros z i t Z Q. apply mem_In. destruct (T i t Q) as [[r1 E1] [r2 E2]]. destruct Z as [-> | ->]; eapply dget_Some_key; eauto. }
    assert (Z : (a = x \/ a = y) /\ (b = x \/ b = y)) by (unfold pair_of in PO; tauto). destruct Z as [Za Zb].
    apply watch_bind in W as (x1 & n1 & W1 & W). apply watch_read in W1 as (L1 & s1 & P1 & ->). rewrite (K a n1 s1) in W by auto.
    apply watch_bind in W as (x2 & n2 & W2 & W). apply watch_require in W2 as (<- & ->).
    apply watch_bind in W as (x3 & n3 & W3 & W). apply watch_read in W3 as (L3 & s3 & P3 & ->). rewrite (K b n3 s3) in W by auto.
    apply watch_bind in W as (x4 & n4 & W4 & W). apply watch_require in W4 as (<- & ->).
    assert (G : watch P n3 (p_get_constraint x y) r hi).
    { destruct PO as [[-> ->]|[-> ->]]; [rewrite order in W; exact W|]. destruct (str_leb y x) eqn:O; [|exact W]. assert (Q := str_leb_antisym _ _ order O). rewrite Q in *. exact W. }
    apply watch_read in G as (L5 & s5 & P5 & ->). split; [lia|]. exists s5. split; auto. unfold entry_of, dlookup. destruct (T hi s5 P5) as [[r1 ->] _]. cbn [rbind]. reflexivity.
  Qed.
  Lemma again a b a' b' o lo hi lo' r hi' : (o = None -> strict) -> pair_of a b -> pair_of a' b' -> watch P lo (p_get_added_constraint a b) (Ok o) hi -> hi <= lo' ->
    watch P lo' (p_get_added_constraint a' b') r hi' -> r = Ok o.
  Proof.
    intros So P1 P2 W1 Le W2. apply read_entry in W1 as (_ & s & Q & E); auto. apply read_entry in W2 as (Le2 & s' & Q' & ->); auto.
    destruct (entry_of s) as [o'|] eqn:E1; [|discriminate]. injection E as <-. assert (K : keep s s') by (eapply L; [|exact Q|exact Q']; lia). destruct K as [_ K]. rewrite (K o So E1). auto.
  Qed.
End Entry.

Lemma entries_told (strict : Prop) m cs qss m' r rss a b :
    managed m a -> managed m b -> Forall (leaves a b) cs -> (strict -> Forall (adds_other a b) cs) -> Forall (Forall asks) qss ->
    interleaved m (p_wsession cs :: map p_session qss) m' (r :: rss) ->
    Forall2 (fun qs x => exists answers, x = Ok answers /\ length answers = length qs /\
      forall i q v o, (o = None -> strict) -> nth_error qs i = Some q -> asks_for a b q -> nth_error answers i = Some v ->
        (ask (get_added_constraint a b) m = Ok o -> v = Ok (VAdded o)) /\
        (v = Ok (VAdded o) -> ask (get_added_constraint a b) m' = Ok o /\
           forall j q' v', i < j -> nth_error qs j = Some q' -> asks_for a b q' -> nth_error answers j = Some v' -> v' = v)) qss rss.
Proof.
  intros Ma Mb Lv Ad As J. apply managed_ids in Ma, Mb.
  assert (XY : exists x y, str_leb x y = true /\ pair_of x y a b /\ Forall (leaves x y) cs /\ (strict -> Forall (adds_other x y) cs) /\ there x y m).
  { apply dget_In_key in Ma as [r1 E1], Mb as [r2 E2]. destruct (str_leb a b) eqn:O; [exists a, b|exists b, a]; (split; [auto using str_leb_false|]); (split; [unfold pair_of; auto|]).
    - split; auto. split; auto. split; eauto.
    - split; [|split; [intro St; specialize (Ad St)|split; eauto]].
      + eapply Forall_impl; [|exact Lv]. intros [d|d|? ? ? ?|u v]; cbn; tauto.
      + eapply Forall_impl; [|exact Ad]. intros [d|d|? ? ? ?|u v]; cbn; tauto. }
  destruct XY as (x & y & O & PO & Lv' & Ad' & TH). assert (ST := stays_session x y strict cs Lv' Ad' m TH).
  set (l := m :: states (p_wsession cs) m). assert (TR : trail (numbered l) 0 (p_wsession cs) m (0 + length (states (p_wsession cs) m))) by (apply trail_numbered; reflexivity).
  assert (ORD := stays_order x y strict _ _ ST). fold l in ORD.
  assert (TT : forall i t, nth_error l i = Some t -> there x y t). { intros i t E. apply (ORD 0 i m t (Nat.le_0_l _) eq_refl E). auto. }
  assert (PE := trail_end' _ _ _ _ _ TR).
  assert (SI : Forall silent (map p_session qss)).
  { apply Forall_forall. intros p Ip. apply in_map_iff in Ip as (qs & <- & Iq). apply silent_asking. rewrite Forall_forall in As. auto. }
  destruct (silent_watch (numbered l) m (p_wsession cs) _ m' r rss 0 _ J SI TR) as [E W].
  rewrite E in PE. cbn [fst] in PE. clear J E TR SI. revert rss W. induction qss as [|qs qss IH]; intros rss W; inversion W as [|? ? ? ? (hi & Hw) W']; subst; constructor; [|apply IH; auto; inversion As; auto].
  destruct (asked_later _ _ _ _ _ Hw) as (rs & -> & Len & H). exists rs. split; auto. split; auto. intros i q v o So Ei Q Vi.
  assert (Ask : forall q', asks_for a b q' -> exists a' b', pair_of x y a' b' /\ q' = TGetAdded a' b') by (intros q' [-> | ->]; do 2 eexists; (split; [|reflexivity]); unfold pair_of in *; tauto).
  assert (EX : forall a' b' lo v hi, watch (numbered l) lo (p_exec (TGetAdded a' b')) v hi -> exists u, watch (numbered l) lo (p_get_added_constraint a' b') u hi /\ v = match u with Ok o => Ok (VAdded o) | Raise e => Raise e end).
  { intros a' b' lo v0 hi0 W0. cbn [p_exec] in W0. apply watch_bind in W0 as (u & n & W1 & W0). destruct u as [o1|e]; [inversion W0; subst|destruct W0 as [-> ->]]; eexists; (split; [exact W1|reflexivity]). }
  destruct (Ask q Q) as (a1 & b1 & PO1 & ->). split.
  - intro Ad0. destruct (H i _ v Ei Vi) as (lo' & hi' & Le & W1). apply EX in W1 as (u & W1 & ->).
    assert (W0 := watch_alone (numbered l) (p_get_added_constraint a b) 0 m (silent_added a b) eq_refl). rewrite does_added in W0. unfold ask in Ad0. rewrite Ad0 in W0.
    rewrite (again x y strict O l ORD TT _ _ _ _ _ _ _ _ _ _ So PO PO1 W0 Le W1). reflexivity.
  - intros ->. split.
    + destruct (H i _ _ Ei Vi) as (lo' & hi' & Le & W1). apply EX in W1 as (u & W1 & Eu). destruct u as [o'|]; [|discriminate]. injection Eu as <-.
      assert (W0 := watch_alone (numbered l) (p_get_added_constraint a b) _ m' (silent_added a b) PE). rewrite does_added in W0. unfold ask.
      refine (again x y strict O l ORD TT _ _ _ _ _ _ _ _ _ _ So PO1 PO W1 _ W0). destruct (read_entry x y O l TT _ _ _ _ _ PO1 W1) as (_ & s & Qs & _). unfold numbered in Qs.
      assert (Lt : hi' < length l) by (apply nth_error_Some; congruence). cbn [l length] in Lt. lia.
    + intros j q' v' Lij Ej Q' Vj. destruct (Ask q' Q') as (a2 & b2 & PO2 & ->).
      destruct (asked_two _ _ _ _ _ Hw i j _ _ _ _ Lij Ei Ej Vi Vj) as (lo1 & hi1 & lo2 & hi2 & W1 & Le & W2). apply EX in W1 as (u & W1 & Eu). destruct u as [o'|]; [|discriminate]. injection Eu as <-.
      apply EX in W2 as (u & W2 & ->). rewrite (again x y strict O l ORD TT _ _ _ _ _ _ _ _ _ _ So PO1 PO2 W1 Le W2). reflexivity.
Qed.

(*PROP C165: one thread changes the manager, any number of additions and deletions, none of which deletes the constraint between two managed data nor one of them; any number of other threads ask for
    added and inferred constraints. However their reads and writes are interleaved, the constraint between the two data is told, with its type and value, if it was added before; and once a thread is told it,
    it is told the same each time it asks, whatever the order of the data, and it is there in the end. *)
Lemma C165_added_stays_proof : forall m cs qss m' r rss a b,
    managed m a -> managed m b -> Forall (leaves a b) cs -> Forall (Forall asks) qss ->
    interleaved m (p_wsession cs :: map p_session qss) m' (r :: rss) ->
    Forall2 (fun qs x => exists answers, x = Ok answers /\ length answers = length qs /\
      forall i q v c, nth_error qs i = Some q -> asks_for a b q -> nth_error answers i = Some v ->
        (added_as m a b c -> v = Ok (VAdded (Some c))) /\
        (v = Ok (VAdded (Some c)) -> added_as m' a b c /\
           forall j q' v', i < j -> nth_error qs j = Some q' -> asks_for a b q' -> nth_error answers j = Some v' -> v' = v)) qss rss.
Proof.
  intros m cs qss m' r rss a b Ma Mb Lv As J. assert (F := entries_told False m cs qss m' r rss a b Ma Mb Lv (fun X => False_ind _ X) As J). eapply Forall2_impl; [|exact F]. clear F J.
  intros qs x (an & -> & Len & H). exists an. split; auto. split; auto. intros i q v c Ei Q Vi. apply (H i q v (Some c)); auto. discriminate.
Qed.
(*EX
Definition ex : mgr := run [CallAddConstraint A C CANNOT_LINK 1%Q] (init [A; B; C; D]).
Definition changes : list wcall := [WAdd B A MUST_LINK 1%Q; WDeleteID D; WDelete A C].
Definition asked : list tcall := [TGetAdded A B; TGetInferred A B; TGetAdded B A].
(** The questions are asked while the inferred constraints are computed again, after [d] is deleted. *)
Example C165_added_stays_ex : managed ex A /\ managed ex B /\ Forall (leaves A B) changes /\ Forall (Forall asks) [asked] /\
  exists m', interleaved ex (p_wsession changes :: map p_session [asked]) m'
    [Ok [Ok (VBool true); Ok (VBool true); Ok (VBool true)]; Ok [Ok (VAdded (Some (MUST_LINK, 1%Q))); Ok (VInferred None); Ok (VAdded (Some (MUST_LINK, 1%Q)))]].
Proof.
  split; [apply managed_ids; vm_compute; auto|]. split; [apply managed_ids; vm_compute; auto|]. split; [|split; [repeat constructor|]].
  - constructor; [exact I|]. constructor; [split; discriminate|]. constructor; [|constructor]. split; intros [H1 H2]; discriminate.
  - eexists. apply (play_interleaved (repeat 0 30 ++ repeat 1 10 ++ repeat 0 92)). vm_compute. reflexivity.
Qed.
EX*)

(*PROP C165: when the changes do not add the constraint either, each answer about it is the one before the changes, whatever the changes in progress. *)
Lemma C165_untouched_proof : forall m cs qss m' r rss a b o,
    managed m a -> managed m b -> Forall (leaves a b) cs -> Forall (adds_other a b) cs -> Forall (Forall asks) qss ->
    interleaved m (p_wsession cs :: map p_session qss) m' (r :: rss) -> ask (get_added_constraint a b) m = Ok o ->
    Forall2 (fun qs x => exists answers, x = Ok answers /\ length answers = length qs /\
      forall i q v, nth_error qs i = Some q -> asks_for a b q -> nth_error answers i = Some v -> v = Ok (VAdded o)) qss rss.
Proof.
  intros m cs qss m' r rss a b o Ma Mb Lv Ao As J Eo. assert (F := entries_told True m cs qss m' r rss a b Ma Mb Lv (fun _ => Ao) As J). eapply Forall2_impl; [|exact F]. clear F J.
  intros qs x (an & -> & Len & H). exists an. split; auto. split; auto. intros i q v Ei Q Vi. apply (H i q v o); auto.
Qed.
(*EX
(** Nothing is ever added between [b] and [c]: so it is told at each moment, also while [d] is deleted. *)
Definition asked2 : list tcall := [TGetAdded C B; TGetAdded B C].
Example C165_untouched_ex : managed ex B /\ managed ex C /\ Forall (leaves B C) changes /\ Forall (adds_other B C) changes /\ ask (get_added_constraint B C) ex = Ok None /\
  exists m', interleaved ex (p_wsession changes :: map p_session [asked2]) m'
    [Ok [Ok (VBool true); Ok (VBool true); Ok (VBool true)]; Ok [Ok (VAdded None); Ok (VAdded None)]].
Proof.
  split; [apply managed_ids; vm_compute; auto|]. split; [apply managed_ids; vm_compute; auto|]. split; [|split; [|split; [vm_compute; reflexivity|]]].
  - constructor; [exact I|]. constructor; [split; discriminate|]. constructor; [|constructor]. split; intros [H1 H2]; discriminate.
  - constructor; [split; intros [H1 H2]; discriminate|]. repeat constructor.
  - eexists. apply (play_interleaved (repeat 0 30 ++ repeat 1 6 ++ repeat 0 92)). vm_compute. reflexivity.
Qed.
EX*)

(*PROP C165: the constraint that a thread was told may not be inferred yet when it asks for the inferred constraint. *)
Lemma C165_not_yet_inferred_proof : exists m cs a b c m' r,
    reachable m /\ Forall only_adds cs /\
    interleaved m [p_wsession cs; p_session [TGetAdded a b; TGetInferred a b]] m' [r; Ok [Ok (VAdded (Some c)); Ok (VInferred None)]].
Proof.
  set (A := str "a"). set (B := str "b"). pose (cs := [WAdd A B MUST_LINK 1%Q]). pose (m := init [A; B]).
  exists m, cs, A, B, (MUST_LINK, 1%Q), (run (map as_wcall cs) m), (Ok [Ok (VBool true)]). split; [apply reach_init|]. split; [repeat constructor|].
  apply (play_interleaved (repeat 0 10 ++ repeat 1 7 ++ repeat 0 8)). vm_compute. reflexivity.
Qed.
