(** * Threads that ask for the data involved in a conflict while one thread adds constraints (C162). *)

From Coq Require Import String List Bool Arith ZArith QArith Lia.
(*HEADER
From Coq Require Import String List Bool Arith ZArith QArith.
From Verif Require Import Base Manager Spec ManagerProofs ManagerThms ManagerInv ManagerQueries Threads ThreadSpec ThreadsThms Readers ReadersSpec ReadersThms Listing ListingSpec ListingThms
  SampleThread KMeansThreadSpec SaveThreadSpec ConflictThread ConflictThreadSpec ConflictThreadThms.
Import ListNotations.
Open Scope nat_scope.

Definition A := str "a". Definition B := str "b". Definition C := str "c".
HEADER*)
From Verif Require Import Base Manager Spec Closure ManagerProofs ManagerInv ManagerQueries ManagerThms InterruptThms Threads ThreadSpec ThreadsThms Readers ReadersSpec ReadersThms
  Listing ListingSpec ListingThms SampleThread SampleThreadThms KMeansThreadSpec MinMaxThreadThms SaveThreadSpec RisingProofs ConflictThread ConflictThreadSpec.
Import ListNotations.
Open Scope nat_scope.

Section Asking.
  Variable m0 : mgr.
  Variable cs : list wcall.
  Hypothesis R0 : reachable m0.
  Hypothesis AC : Forall only_adds_constraints cs.
  Notation N := (ReadersThms.N m0 cs).
  Notation K := (ListingThms.K m0).
  Notation stage := (ListingThms.stage m0 cs).
  Notation inI x := (In x (ids m0)).
  Definition at_stage (n : nat) (s : mgr) : Prop := stage n s /\ keys (cdict s) = ids m0.

  Lemma infer_cl n a b e : inI a -> inI b -> dget b (ctrans (N n)) = Some e -> In a (t_cl e) -> infer (N n) a b = Some CANNOT_LINK.
  Proof.
    intros Ia Ib E J. assert (In_ : Inv (N n)) by (apply N_inv; auto). rewrite <- (N_ids m0 cs R0 AC n) in Ia, Ib.
    assert (J' := J). apply mem_In in J'. unfold infer. rewrite E, J'. destruct (mem a (t_ml e)) eqn:M2; auto. exfalso. assert (Rp := inv_rep _ In_).
    apply (rep_excl (N n) a b In_).
    - apply (infer_ML (N n) a b); auto. unfold infer. rewrite E, M2. auto.
    - apply separated_sym. apply (rep_cl _ _ _ Rp b e E). auto.
  Qed.
  Lemma infer_ml n a b e : dget b (ctrans (N n)) = Some e -> In a (t_ml e) -> infer (N n) a b = Some MUST_LINK.
  Proof. intros E J. apply mem_In in J. unfold infer. rewrite E, J. auto. Qed.
  Lemma infer_stays n n' a b s : n <= n' -> inI a -> inI b -> infer (N n) a b = Some s -> infer (N n') a b = Some s.
  Proof.
    intros L Ia Ib H. unfold infer in H. destruct (dget b (ctrans (N n))) as [e|] eqn:E; [|discriminate].
    destruct (N_below m0 cs R0 (adds cs AC) n n' L b e E) as (e' & E' & Q1 & Q2). destruct (mem a (t_ml e)) eqn:M1.
    - injection H as <-. apply (infer_ml n' a b e'); auto. apply Q1, mem_In. auto.
    - destruct (mem a (t_cl e)) eqn:M2; [|discriminate]. injection H as <-. apply (infer_cl n' a b e'); auto. apply Q2, mem_In. auto.
  Qed.
  Lemma in_K x : inI x -> In x K.
  Proof. intro. rewrite (K_ids m0 R0). auto. Qed.

  (** The inferred constraint that is read is the one after some number of the additions. *)
  Lemma read_inferred a b lo r hi : inI a -> inI b -> watch at_stage lo (p_get_inferred_constraint a b) r hi ->
    exists n, lo <= n <= length cs /\ pred n <= hi /\ r = Ok (infer (N n) a b).
  Proof.
    intros Ia Ib W. unfold p_get_inferred_constraint in W. assert (Ka := in_K a Ia). assert (Kb := in_K b Ib).
    apply watch_bind in W as (x1 & n1 & W1 & W). apply watch_read in W1 as (L1 & s1 & ((_ & _ & _ & T1 & _) & _) & ->).
    assert (M1 : mem a (keys (ctrans s1)) = true). { destruct (entry_in m0 s1 a T1 Ka) as (e & E & _). apply mem_In. eapply dget_Some_key; eauto. } rewrite M1 in W.
    apply watch_bind in W as (x2 & n2 & W2 & W). apply watch_require in W2 as (<- & ->).
    apply watch_bind in W as (x3 & n3 & W3 & W). apply watch_read in W3 as (L3 & s3 & ((_ & _ & _ & T3 & _) & _) & ->).
    assert (M3 : mem b (keys (ctrans s3)) = true). { destruct (entry_in m0 s3 b T3 Kb) as (e & E & _). apply mem_In. eapply dget_Some_key; eauto. } rewrite M3 in W.
    apply watch_bind in W as (x4 & n4 & W4 & W). apply watch_require in W4 as (<- & ->).
    apply watch_bind in W as (x5 & n5 & W5 & W). apply watch_read in W5 as (L5 & s5 & ((P5 & B5 & C5 & T5 & _) & _) & ->).
    destruct (entry_in m0 s5 b T5 Kb) as (e5 & E5 & _). unfold dlookup in W. rewrite E5 in W. cbn [rbind] in W.
    destruct (mem a (t_ml e5)) eqn:Ml.
    { apply watch_done_inv in W as [-> <-]. destruct (N_min m0 cs n5 P5) as (n' & Q1 & Q2 & EN). exists n'. split; [lia|]. split; [lia|]. f_equal. symmetry.
      destruct (C5 b e5 E5) as (f & F & Q & _). rewrite <- EN in F. apply (infer_ml n' a b f); auto. apply Q, mem_In. auto. }
    apply watch_bind in W as (x6 & n6 & W6 & W). apply watch_read in W6 as (L6 & s6 & ((P6 & B6 & C6 & T6 & _) & _) & ->).
    destruct (entry_in m0 s6 b T6 Kb) as (e6 & E6 & _). unfold dlookup in W. rewrite E6 in W. cbn [rbind] in W.
    destruct (mem a (t_cl e6)) eqn:Mc; apply watch_done_inv in W as [-> <-].
    { destruct (N_min m0 cs n6 P6) as (n' & Q1 & Q2 & EN). exists n'. split; [lia|]. split; [lia|]. f_equal. symmetry.
      destruct (C6 b e6 E6) as (f & F & _ & Q). rewrite <- EN in F. apply (infer_cl n' a b f); auto. apply Q, mem_In. auto. }
    exists n5. split; [lia|]. split; [lia|]. f_equal. symmetry. unfold infer. destruct (entry_at m0 cs R0 AC n5 b Kb) as (e & E). rewrite E.
    destruct (B5 b e E) as (f & F & Q & _). rewrite E5 in F. injection F as <-. apply mem_nIn in Ml, Mc.
    replace (mem a (t_ml e)) with false by (symmetry; apply mem_nIn; intro J; apply Ml, Q; auto).
    destruct (N_below m0 cs R0 (adds cs AC) n5 n6 L6 b e E) as (g & G & _ & Q'). destruct (B6 b g G) as (f & F & _ & Q6). rewrite E6 in F. injection F as <-.
    replace (mem a (t_cl e)) with false by (symmetry; apply mem_nIn; intro J; apply Mc, Q6, Q'; auto). reflexivity.
  Qed.

  Lemma read_known x lo r hi : watch at_stage lo (p_in_dict x) r hi -> lo <= hi /\ r = Ok (mem x (ids m0)).
  Proof. intro W. apply watch_read in W as (L & s & (_ & E) & ->). rewrite E. auto. Qed.

  (** The data in the components that were listed. *)
  Definition chosen (a b : pystr) (components : list (list pystr)) : list pystr := flat_map (fun c => if mem a c || mem b c then c else []) components.
  Lemma linked_N n x y : inferred (N n) x y (Some MUST_LINK) -> inI x /\ inI y /\ linked (sml (N n)) x y.
  Proof.
    intro H. assert (I := N_inv m0 cs R0 n). assert (B : In x (ids (N n)) /\ In y (ids (N n))).
    { unfold inferred, ask in H. rewrite run_inferred in H by auto. cbn [snd] in H. destruct (both (N n) x y) eqn:B; [apply both_true; auto|discriminate]. }
    destruct B as [Bx By]. apply inferred_spec in H; auto. apply infer_ML in H; auto. rewrite (N_ids m0 cs R0 AC) in *. auto.
  Qed.
  Lemma N_linked n x y : inI x -> inI y -> linked (sml (N n)) x y -> inferred (N n) x y (Some MUST_LINK).
  Proof.
    intros Ix Iy H. assert (I := N_inv m0 cs R0 n). rewrite <- (N_ids m0 cs R0 AC n) in Ix, Iy. apply inferred_spec; auto. apply infer_ML; auto.
  Qed.
  Lemma inferred_later n n' x y : n <= n' -> inferred (N n) x y (Some MUST_LINK) -> inferred (N n') x y (Some MUST_LINK).
  Proof.
    intros L H. assert (J := linked_N _ _ _ H). destruct J as (Ix & Iy & _). apply inferred_spec; try (rewrite (N_ids m0 cs R0 AC); auto); [apply N_inv; auto|].
    apply (infer_stays n n'); auto. apply inferred_spec; auto; try (rewrite (N_ids m0 cs R0 AC); auto). apply N_inv; auto.
  Qed.
  Lemma chosen_right a b lo l n2 : inI a -> inI b -> n2 <= length cs -> collected (map as_wcall cs) m0 lo n2 l -> involved_between (N lo) (N n2) a b (chosen a b l).
  Proof.
    intros Ia Ib L2 CO. destruct CO as (C0 & C1 & C2 & C3). split.
    - intros y H. assert (G : exists z c, (z = a \/ z = b) /\ In c l /\ In z c /\ In y c).
      { assert (X : exists z, (z = a \/ z = b) /\ inferred (N lo) z y (Some MUST_LINK)) by (destruct H; [exists a|exists b]; auto). destruct X as (z & Z & Hz).
        assert (Iz := Hz). apply linked_N in Iz as (Iz & Iy & _). destruct (C2 z) as (n & c & Bn & (Q1 & Q2 & Q) & J); [apply managed_ids; auto|].
        exists z, c. split; auto. split; auto. change (run (firstn n (map as_wcall cs)) m0) with (N n) in Q. split; apply Q; (split; [apply managed_ids; rewrite (N_ids m0 cs R0 AC); auto|]).
        - apply N_linked; auto. apply linked_refl.
        - apply (inferred_later lo); auto. lia. }
      destruct G as (z & c & Z & J & J1 & J2). apply in_flat_map. exists c. split; auto.
      replace (mem a c || mem b c) with true; auto. symmetry. apply orb_true_iff. rewrite !mem_In. destruct Z as [-> | ->]; auto.
    - intros y H. apply in_flat_map in H as (c & J & Jy). destruct (C1 c J) as (n & x & Bn & Q0). destruct Q0 as (Q1 & Q2 & Q). change (run (firstn n (map as_wcall cs)) m0) with (N n) in Q.
      destruct (mem a c || mem b c) eqn:M; [|destruct Jy]. assert (X : forall z, In z c -> inferred (N n2) z y (Some MUST_LINK)).
      { intros z Jz. apply (inferred_later n); [lia|]. apply Q in Jz. destruct Jz as [Z0 Jz]. assert (Jy2 := proj1 (Q y) Jy). clear Jy. destruct Jy2 as [Y0 Jy]. apply linked_N in Jz as (I1 & I2 & L). apply linked_N in Jy as (I3 & I4 & L').
        apply N_linked; auto. eapply linked_trans; [apply linked_sym; exact L|exact L']. }
      apply orb_true_iff in M. rewrite !mem_In in M. destruct M; auto.
  Qed.
  (** The second read of the inferred constraint. *)
  Definition has (s : mgr) (a b : pystr) : Prop := exists e, dget b (ctrans s) = Some e /\ (In a (t_ml e) \/ In a (t_cl e)).
  Lemma has_below s s' a b : below (ctrans s) (ctrans s') -> has s a b -> has s' a b.
  Proof. intros B (e & E & H). destruct (B b e E) as (f & F & Q1 & Q2). exists f. split; auto. destruct H; auto. Qed.
  Lemma reread a b lo s0 r hi s1 : watch2 at_stage lo s0 (p_get_inferred_constraint a b) r hi s1 -> (r = Ok None -> ~ has s0 a b) /\ (forall u, r = Ok (Some u) -> has s1 a b).
  Proof.
    intro W. unfold p_get_inferred_constraint in W.
    apply watch2_bind in W as (x1 & n1 & t1 & W1 & W). apply watch2_read in W1 as (_ & B1 & _ & ->). 
    apply watch2_bind in W as (x2 & n2 & t2 & W2 & W). apply watch2_below in W2 as B2. destruct x2 as [u2|e2]; [|destruct W as [-> _]; split; discriminate].
    apply watch2_bind in W as (x3 & n3 & t3 & W3 & W). apply watch2_read in W3 as (_ & B3 & _ & ->). 
    apply watch2_bind in W as (x4 & n4 & t4 & W4 & W). apply watch2_below in W4 as B4. destruct x4 as [u4|e4]; [|destruct W as [-> _]; split; discriminate].
    apply watch2_bind in W as (x5 & n5 & t5 & W5 & W). apply watch2_read in W5 as (_ & B5 & _ & ->). unfold dlookup in W. 
    assert (B : below (ctrans s0) (ctrans t5)) by (repeat (eapply below_trans; [eassumption|]); apply below_refl). clear B1 B2 B3 B4 B5 W2 W4.
    destruct (dget b (ctrans t5)) as [e5|] eqn:E5; cbn [rbind] in W; [|destruct W as [-> _]; split; discriminate].
    destruct (mem a (t_ml e5)) eqn:M5. { inversion W; subst. split; [discriminate|]. intros u _. exists e5. split; auto. left. apply mem_In. auto. }
    apply watch2_bind in W as (x6 & n6 & t6 & W6 & W). apply watch2_read in W6 as (_ & B6 & _ & ->). unfold dlookup in W.
    destruct (dget b (ctrans t6)) as [e6|] eqn:E6; cbn [rbind] in W; [|destruct W as [-> _]; split; discriminate].
    destruct (mem a (t_cl e6)) eqn:M6; inversion W; subst. { split; [discriminate|]. intros u _. exists e6. split; auto. right. apply mem_In. auto. }
    split; [intros _|discriminate]. apply mem_nIn in M5, M6. intros (e & E & H). destruct (B b e E) as (f & F & Q1 & Q2). rewrite E5 in F. injection F as <-.
    destruct H as [H|H]; [apply M5, Q1; auto|]. destruct (B6 b e5 E5) as (g & G & _ & Q3). rewrite E6 in G. injection G as <-. apply M6, Q3, Q2. auto.
  Qed.

  Lemma N_whole : N (length cs) = run (map as_wcall cs) m0.
  Proof. unfold ReadersThms.N. rewrite firstn_all2; auto. rewrite map_length. auto. Qed.
  (** Whether there is a conflict is what it is after some number of the additions. *)
  Lemma conflict_right a b t s0 r hi s1 : watch2 at_stage 0 s0 (p_conflict a b t) r hi s1 ->
    (valid_question m0 a b t -> exists n, n <= length cs /\
       ((r = Ok None /\ ~ in_conflict (N n) a b t) \/
        (in_conflict (N n) a b t /\ exists lo l hi', n <= S lo /\ r = Ok (Some (chosen a b l)) /\ watch stage lo p_get_connected_components (Ok l) hi'))) /\
    (~ valid_question m0 a b t -> r = Raise ValueError).
  Proof.
    intro W. unfold p_conflict in W. unfold valid_question. rewrite !managed_ids.
    assert (AT : allowed t <-> mem t allowed_types = true) by (rewrite mem_In; unfold allowed, allowed_types; cbn; intuition). rewrite AT. clear AT.
    apply watch2_bind in W as (x1 & n1 & t1 & W1 & W). apply watch2_watch, read_known in W1 as (L1 & ->). apply watch2_bind in W as (x2 & n2 & t2 & W2 & W). apply watch2_watch, watch_require in W2 as (<- & ->).
    rewrite <- (mem_In a). destruct (mem a (ids m0)) eqn:Ma; [|destruct W as [-> _]; split; [intros (? & _); discriminate|auto]].
    apply watch2_bind in W as (x3 & n3 & t3 & W3 & W). apply watch2_watch, read_known in W3 as (L3 & ->). apply watch2_bind in W as (x4 & n4 & t4 & W4 & W). apply watch2_watch, watch_require in W4 as (<- & ->).
    rewrite <- (mem_In b). destruct (mem b (ids m0)) eqn:Mb; [|destruct W as [-> _]; split; [intros (_ & ? & _); discriminate|auto]].
    apply watch2_bind in W as (x5 & n5 & t5 & W5 & W). apply watch2_watch, watch_require in W5 as (<- & ->).
    destruct (mem t allowed_types) eqn:Mt; [|destruct W as [-> _]; split; [intros (_ & _ & ?); discriminate|auto]]. apply mem_In in Ma, Mb. split; [intros _|tauto].
    apply watch2_bind in W as (x6 & n6 & t6 & W6 & W). assert (RR := reread _ _ _ _ _ _ _ W6). destruct RR as [_ RR]. apply watch2_watch, read_inferred in W6 as (k & Lk & Lk' & ->); auto.
    assert (SP : forall n u, inferred (N n) a b u <-> infer (N n) a b = u) by (intros n u; apply inferred_spec; try (rewrite (N_ids m0 cs R0 AC); auto); apply N_inv; auto).
    destruct (infer (N k) a b) as [s2|] eqn:E.
    2:{ inversion W; subst. exists k. split; [lia|]. left. split; auto. intros (u & H & _). apply SP in H. congruence. }
    specialize (RR s2 eq_refl). apply watch2_bind in W as (x7 & n7 & t7 & W7 & W). assert (R2 := reread _ _ _ _ _ _ _ W7). destruct R2 as [R2 _].
    apply watch2_watch, read_inferred in W7 as (k' & Lk1 & Lk2 & ->); auto. exists k'. split; [lia|].
    destruct (infer (N k') a b) as [s3|] eqn:E3; [|exfalso; apply R2; auto]. destruct (eqb t s3) eqn:Q; cbn [negb] in W.
    - inversion W; subst. left. split; auto. intros (u & H & D). apply SP in H. apply eqb_eq in Q. congruence.
    - right. split. { exists s3. split; [apply SP; auto|]. intros ->. rewrite eqb_refl in Q. discriminate. }
      apply watch2_bind in W as (x8 & n8 & t8 & W8 & W). apply watch2_watch, (watch_impl at_stage stage) in W8; [|intros ? ? [? _]; auto].
      assert (W9 := W8). apply (components_right m0 cs R0 AC) in W9 as (l & top & -> & _). inversion W; subst. exists n7, l. eexists. split; [|split; [reflexivity|exact W8]]. lia.
  Qed.
End Asking.

(** Threads that ask, while one thread adds constraints. *)
Lemma questions_watched m cs (qs : list (pystr * pystr * pystr)) m' r rs : reachable m -> Forall only_adds_constraints cs ->
  interleaved m (p_left (p_wsession cs) :: map (fun q => p_right (p_conflict (fst (fst q)) (snd (fst q)) (snd q))) qs) m' (r :: rs) ->
  (m' = run (map as_wcall cs) m /\ r = Ok (inl (snd (one_by_one (map as_wcall cs) m)))) /\
  Forall2 (fun q x => exists r0 hi s1, x = match r0 with Ok v => Ok (inr v) | Raise e => Raise e end /\
    watch2 (at_stage m cs) 0 m (p_conflict (fst (fst q)) (snd (fst q)) (snd q)) r0 hi s1) qs rs.
Proof.
  intros R AC J. destruct (stage_trail m cs R AC cs 0 eq_refl (Nat.le_0_l _)) as [e T0].
  assert (T : trail (at_stage m cs) 0 (p_wsession cs) m e).
  { apply trail_and; [exact T0|]. destruct (sd_session cs AC m) as [S1 _]. intros x [<-|Ix]; auto. }
  assert (PE := trail_end _ _ _ _ _ T).
  destruct (rising_watch (at_stage m cs) m (p_left (p_wsession cs)) _ m' r rs 0 e J) as [E W].
  { apply Forall_forall. intros p Ip. apply in_map_iff in Ip as (q & <- & _). apply silent_bind; [|intro; exact I]. unfold p_conflict.
    assert (D : forall x, silent (p_in_dict x)) by (cbn; auto). assert (Rq : forall x, silent (prequire x)) by (intros []; exact I).
    do 2 (apply silent_bind; [apply D|intro]; apply silent_bind; [apply Rq|intro]). apply silent_bind; [apply Rq|intro]. apply silent_bind; [apply silent_inferred|intros [u|]]; [|exact I].
    apply silent_bind; [apply silent_inferred|intro v]. destruct (match v with Some _ => _ | None => _ end); [|exact I]. apply silent_bind; [|intro; exact I].
    unfold p_get_connected_components. apply silent_bind; [cbn; auto|intro; apply silent_collect]. }
  { unfold p_left. eapply trail_bind; [exact T|]. rewrite alone_wsession in *. cbn. auto. }
  { unfold p_left. apply rising_bind; [apply rising_session; auto|intros; exact I]. }
  unfold p_left in E. rewrite alone_bind, alone_wsession in E. cbn [alone] in E. injection E as <- <-. split; auto.
  clear J T T0 PE. revert rs W. induction qs as [|q qs IH]; intros rs W; inversion W as [|? ? ? ? (hi & s1 & Hw) W']; subst; constructor; auto.
  unfold p_right in Hw. apply watch2_bind in Hw as (x & n1 & s2 & H1 & H2). exists x, n1, s2. split; auto. destruct x as [v|e0]; [inversion H2; subst; auto|destruct H2; auto].
Qed.

(*PROP C162: asking alone, action by action, is the method. *)
Lemma C162_alone_proof : forall a b t m, alone (p_conflict a b t) m = get_list_of_involved_data_IDs_in_a_constraint_conflict a b t m.
Proof.
  intros a b t m. assert (C : alone p_get_connected_components m = get_connected_components m).
  { assert (C := C152_alone_proof LComponents m). cbn [p_lexec as_lcall exec] in C. rewrite alone_bind in C. revert C. unfold bind, ret.
    destruct (alone p_get_connected_components m) as [s [c|e]], (get_connected_components m) as [s' [c'|e']]; cbn; intro C; injection C; intros; subst; auto; discriminate. }
  assert (D := does_inferred a b m). assert (Q : fst (get_inferred_constraint a b m) = m).
  { rewrite <- D. assert (S := silent_inferred a b). revert S. generalize (p_get_inferred_constraint a b). clear. intro p. revert m. induction p as [r|f g IH]; intros m S; cbn in *; auto.
    destruct S as [S1 S2]. rewrite S1. apply IH; auto. }
  unfold p_conflict, get_list_of_involved_data_IDs_in_a_constraint_conflict. rewrite alone_bind. cbn [p_in_dict pread alone]. unfold bind at 1, in_dict, gets at 1.
  destruct (mem a (keys (cdict m))); [|reflexivity]. rewrite alone_bind. cbn [prequire alone]. unfold bind at 1. cbn [require]. unfold ret at 1. rewrite alone_bind. cbn [p_in_dict pread alone]. unfold bind at 1, gets at 1.
  destruct (mem b (keys (cdict m))); [|reflexivity]. rewrite alone_bind. cbn [prequire alone]. unfold bind at 1. cbn [require]. unfold ret at 1. rewrite alone_bind. unfold bind at 1.
  destruct (mem t allowed_types); [|reflexivity]. cbn [prequire alone require]. unfold ret at 1. rewrite alone_bind, D. unfold bind at 1.
  destruct (get_inferred_constraint a b m) as [s1 [i|e]] eqn:E; cbn [fst] in Q; subst s1; [|reflexivity]. destruct i as [u|]; [|reflexivity].
  rewrite alone_bind, D. cbn iota. destruct (negb (eqb t u)); [|reflexivity]. rewrite alone_bind, C. unfold bind. destruct (get_connected_components m) as [s [c|e]]; reflexivity.
Qed.
(*EX
Definition ex : mgr := run [CallAddConstraint A C CANNOT_LINK 1%Q] (init [A; B; C]).
Lemma ex_reachable : reachable ex. Proof. apply run_reachable. Qed.
Example C162_alone_ex : snd (alone (p_conflict A C MUST_LINK) ex) = Ok (Some [A; C]) /\ snd (alone (p_conflict A B MUST_LINK) ex) = Ok None /\
  snd (alone (p_conflict A C CANNOT_LINK) ex) = Ok None /\ snd (alone (p_conflict A (str "d") MUST_LINK) ex) = Raise ValueError.
Proof. repeat split; vm_compute; reflexivity. Qed.
EX*)

(*PROP C162: one thread adds constraints, any number of calls, and any number of other threads ask which data are involved in a conflict. However their reads and writes are interleaved, the additions end as
    when they are made alone, and each thread is told rightly whether there is a conflict after some number of the additions. The list has at least the data that are involved one addition before, and only
    data that are involved at the end. What is missing: the list may not be the one of any moment, see below. *)
Lemma C162_additions_partial_proof : forall m cs qs m' r rs,
    reachable m -> Forall only_adds_constraints cs ->
    interleaved m (p_left (p_wsession cs) :: map (fun q => p_right (p_conflict (fst (fst q)) (snd (fst q)) (snd q))) qs) m' (r :: rs) ->
    m' = run (map as_wcall cs) m /\ r = Ok (inl (snd (one_by_one (map as_wcall cs) m))) /\
    Forall2 (fun q x => exists answer, x = match answer with Ok v => Ok (inr v) | Raise e => Raise e end /\ answered_meanwhile (map as_wcall cs) m q answer) qs rs.
Proof.
  intros m cs qs m' r rs R AC J. destruct (questions_watched m cs qs m' r rs R AC J) as ((E1 & E2) & W). split; auto. split; auto. clear J E1 E2.
  induction W as [|[[a b] t] x qs rs (r0 & hi & s1 & -> & H1) W IH]; constructor; auto. exists r0. split; auto. cbn [fst snd] in H1. clear IH W.
  apply (conflict_right m cs R AC) in H1 as [H1 H2]. split; auto. intro V. destruct (H1 V) as (n & Ln & H). exists n. rewrite map_length. split; auto.
  destruct H as [[-> H]|(H & lo & l & hi' & L & -> & Wl)]; [exact H|]. split; [exact H|]. destruct V as (Va & Vb & _). apply managed_ids in Va, Vb.
  apply (components_right m cs R AC) in Wl as (l' & top & Q & B1 & B2 & CO). injection Q as <-. assert (CR := chosen_right m cs R AC a b _ l top Va Vb (proj2 B1) CO). destruct CR as [C1 C2].
  rewrite <- N_whole. split.
  - intros y Hy. apply C1. change (run (firstn (pred n) (map as_wcall cs)) m) with (ReadersThms.N m cs (pred n)) in Hy. destruct Hy as [Hy|Hy]; [left|right]; apply (inferred_later m cs R AC (pred n)); auto; lia.
  - intros y Jy. apply C2 in Jy. destruct Jy as [Hy|Hy]; [left|right]; apply (inferred_later m cs R AC top); auto; lia.
Qed.
(*EX
Definition all_of_them (cs : list wcall) (m : mgr) : nat := length (states (p_wsession cs) m).
(** [b] and [c] are linked once the component of [a] is read; the conflict between [a] and [b] that follows is seen by the thread that asks later. *)
Definition news : list wcall := [WAdd B C MUST_LINK 1%Q].
Definition asked : list (pystr * pystr * pystr) := [(A, C, MUST_LINK); (A, B, MUST_LINK)].
Example C162_additions_ex : Forall only_adds_constraints news /\ valid_question ex A B MUST_LINK /\
  ~ in_conflict ex A B MUST_LINK /\ in_conflict (run (map as_wcall news) ex) A B MUST_LINK /\
  exists m', interleaved ex (p_left (p_wsession news) :: map (fun q => p_right (p_conflict (fst (fst q)) (snd (fst q)) (snd q))) asked) m'
    [Ok (inl [Ok (VBool true)]); Ok (inr (Some [A; B; C])); Ok (inr (Some [A; B; C]))].
Proof.
  split; [repeat constructor|]. split; [split; [apply managed_ids; vm_compute; auto|split; [apply managed_ids; vm_compute; auto|left; reflexivity]]|].
  split; [intros (s & H & _); vm_compute in H; discriminate|]. split; [exists CANNOT_LINK; split; [vm_compute; reflexivity|discriminate]|].
  exists (run (map as_wcall news) ex). apply (play_interleaved (repeat 1 12 ++ repeat 2 2 ++ repeat 0 (all_of_them news ex) ++ repeat 1 2 ++ repeat 2 12)). vm_compute. reflexivity.
Qed.
EX*)

(*PROP C162: when nothing new is inferred as MUST_LINK by the end of the additions, in particular when only CANNOT_LINK constraints are added, each answer is the one of the method after some number of
    the additions. *)
Lemma C162_moment_partial_proof : forall m cs qs m' r rs,
    reachable m -> Forall only_adds_constraints cs -> no_new_links m (run (map as_wcall cs) m) ->
    interleaved m (p_left (p_wsession cs) :: map (fun q => p_right (p_conflict (fst (fst q)) (snd (fst q)) (snd q))) qs) m' (r :: rs) ->
    Forall2 (fun q x => exists n, x = match ask (get_list_of_involved_data_IDs_in_a_constraint_conflict (fst (fst q)) (snd (fst q)) (snd q)) (run (map as_wcall (firstn n cs)) m) with
                                      | Ok v => Ok (inr v) | Raise e => Raise e end) qs rs.
Proof.
  intros m cs qs m' r rs R AC NL J. destruct (questions_watched m cs qs m' r rs R AC J) as (_ & W). clear J.
  assert (NL' : no_new_links m (ReadersThms.N m cs (length cs))) by (rewrite N_whole; exact NL).
  assert (CM : forall n, comps (ReadersThms.N m cs n) = comps m).
  { intro n. assert (I := ListingThms.N_inv m cs R n). assert (I0 := reachable_inv _ R). unfold comps. rewrite (N_ids m cs R AC).
    assert (G : forall l acc, comps_aux (ReadersThms.N m cs n) l acc = comps_aux m l acc); [|apply G].
    assert (Q : forall x, comp_of (ReadersThms.N m cs n) x = comp_of m x).
    { intro x. assert (Q := quiet_rows m cs R AC NL' n x). unfold mlof, comp_of in *. destruct (dget x (ctrans (ReadersThms.N m cs n))), (dget x (ctrans m)); cbn in Q; congruence. }
    induction l as [|x l IH]; intro acc; cbn [comps_aux]; auto. rewrite Q. apply IH. }
  induction W as [|[[a b] t] x qs rs (r0 & hi & s1 & -> & H1) W IH]; constructor; auto. cbn [fst snd] in *. clear IH W.
  apply (conflict_right m cs R AC) in H1 as [H1 H2].
  assert (AN : forall n, ask (get_list_of_involved_data_IDs_in_a_constraint_conflict a b t) (run (map as_wcall (firstn n cs)) m) =
    if both m a b && mem t allowed_types then Ok (if accepts (ReadersThms.N m cs n) a b t then None else Some (chosen a b (comps m))) else Raise ValueError).
  { intro n. rewrite <- firstn_map. change (run (firstn n (map as_wcall cs)) m) with (ReadersThms.N m cs n). unfold ask. rewrite run_conflict by (apply ListingThms.N_inv; auto). cbn [snd].
    rewrite CM. unfold both. rewrite (N_ids m cs R AC). reflexivity. }
  assert (VQ : valid_question m a b t <-> both m a b && mem t allowed_types = true).
  { unfold valid_question. rewrite andb_true_iff, both_true, !managed_ids, mem_In. unfold allowed, allowed_types. cbn. intuition. }
  destruct (both m a b && mem t allowed_types) eqn:V.
  - destruct H1 as (n & Ln & H); [apply VQ; auto|]. exists n. rewrite AN.
    assert (AE : accepts (ReadersThms.N m cs n) a b t = true <-> ~ in_conflict (ReadersThms.N m cs n) a b t).
    { apply andb_true_iff in V as [V1 V2]. apply both_true in V1 as [Va Vb]. assert (I := ListingThms.N_inv m cs R n). assert (Q := N_ids m cs R AC n). unfold accepts, both, in_conflict. rewrite Q.
      apply mem_In in Va, Vb. rewrite Va, Vb, V2. cbn [andb]. apply mem_In in Va, Vb. split.
      - intros H3 (u & H4 & D). apply inferred_spec in H4; auto; try (rewrite Q; auto). rewrite H4 in H3. apply eqb_eq in H3. congruence.
      - intro H3. destruct (infer (ReadersThms.N m cs n) a b) as [u|] eqn:E; auto. destruct (eqb_spec u t) as [|D]; auto. exfalso. apply H3. exists u. split; auto. apply inferred_spec; auto; rewrite Q; auto. }
    destruct H as [[-> H]|(H & lo & l & hi' & L & -> & Wl)].
    + apply AE in H. rewrite H. reflexivity.
    + destruct (accepts (ReadersThms.N m cs n) a b t) eqn:Ac; [exfalso; apply (proj1 AE eq_refl); auto|].
      unfold p_get_connected_components in Wl. apply watch_bind in Wl as (r2 & n3 & W2 & W1). apply (read_keys m cs) in W2 as (_ & _ & ->). apply (quiet_collect m cs R AC NL') in W1; [|apply incl_refl].
      rewrite collect_run in W1 by apply incl_refl. rewrite (K_ids m R) in W1. injection W1 as ->. reflexivity.
  - exists 0. rewrite AN. rewrite H2; auto. intro Q. apply VQ in Q. discriminate.
Qed.
(*EX
Definition apart : list wcall := [WAdd A B CANNOT_LINK 1%Q; WAdd B C CANNOT_LINK 1%Q].
Example C162_moment_ex : Forall only_adds_constraints apart /\ no_new_links ex (run (map as_wcall apart) ex) /\
  exists m', interleaved ex (p_left (p_wsession apart) :: map (fun q => p_right (p_conflict (fst (fst q)) (snd (fst q)) (snd q))) asked) m'
    [Ok (inl [Ok (VBool true); Ok (VBool true)]); Ok (inr (Some [A; C])); Ok (inr (Some [A; B]))].
Proof.
  split; [repeat constructor|]. split.
  - intros a b H. assert (I : Inv (run (map as_wcall apart) ex)) by (apply reachable_inv; do 2 apply reach_call; apply ex_reachable).
    assert (J : In a (ids (run (map as_wcall apart) ex)) /\ In b (ids (run (map as_wcall apart) ex))).
    { unfold inferred, ask in H. rewrite run_inferred in H by auto. cbn [snd] in H. destruct (both _ a b) eqn:Bo in H; [apply both_true; auto|discriminate]. }
    destruct J as [Ja Jb]. vm_compute in Ja, Jb. repeat destruct Ja as [<-|Ja]; repeat destruct Jb as [<-|Jb]; try contradiction; first [vm_compute; reflexivity|vm_compute in H; discriminate].
  - exists (run (map as_wcall apart) ex). apply (play_interleaved (repeat 1 12 ++ repeat 2 2 ++ repeat 0 (all_of_them apart ex) ++ repeat 1 2 ++ repeat 2 12)). vm_compute. reflexivity.
Qed.
EX*)

(*PROP C162, refuted: with one addition, the list may not be the one of any moment: it repeats the data that are linked meanwhile. *)
Lemma C162_moment_refuted_proof : exists m cs a b t m' r l,
    reachable m /\ Forall only_adds_constraints cs /\ interleaved m [p_left (p_wsession cs); p_right (p_conflict a b t)] m' [r; Ok (inr (Some l))] /\ ~ NoDup l /\
    forall n, ask (get_list_of_involved_data_IDs_in_a_constraint_conflict a b t) (run (map as_wcall (firstn n cs)) m) <> Ok (Some l).
Proof.
  set (A := str "a"). set (B := str "b"). set (Ck := str "c"). pose (cs := [WAdd A B MUST_LINK 1%Q]). pose (m := run [CallAddConstraint A Ck CANNOT_LINK 1%Q] (init [A; B; Ck])).
  exists m, cs, A, Ck, MUST_LINK, (run (map as_wcall cs) m), (Ok (inl [Ok (VBool true)])), [A; A; B; Ck]. split; [apply run_reachable|]. split; [repeat constructor|]. split; [|split].
  - apply (play_interleaved (repeat 1 12 ++ repeat 0 (length (states (p_wsession cs) m)) ++ repeat 1 2)). vm_compute. reflexivity.
  - intro N. inversion N as [|? ? Q _]; subst. apply Q. left. reflexivity.
  - intros [|n]; [vm_compute; discriminate|]. replace (firstn (S n) cs) with cs by (cbn; rewrite firstn_nil; reflexivity). vm_compute. discriminate.
Qed.

(*PROP C162, refuted: when a constraint is deleted, a conflict may be reported although there is none at any moment: the inferred constraint is read twice, and it is gone the second time. *)
Lemma C162_deletions_refuted_proof : exists m cs a b t m' r l,
    reachable m /\ Forall only_constraints cs /\ valid_question m a b t /\ interleaved m [p_left (p_wsession cs); p_right (p_conflict a b t)] m' [r; Ok (inr (Some l))] /\
    forall n, ~ in_conflict (run (map as_wcall (firstn n cs)) m) a b t.
Proof.
  set (A := str "a"). set (B := str "b"). pose (cs := [WDelete A B]). pose (m := run [CallAddConstraint A B MUST_LINK 1%Q] (init [A; B])).
  exists m, cs, A, B, MUST_LINK, (run (map as_wcall cs) m), (Ok (inl [Ok (VBool true)])), [A; B]. split; [apply run_reachable|]. split; [repeat constructor|]. split; [|split].
  - split; [apply managed_ids; vm_compute; auto|split; [apply managed_ids; vm_compute; auto|left; reflexivity]].
  - apply (play_interleaved (repeat 1 5 ++ repeat 0 (length (states (p_wsession cs) m)) ++ repeat 1 7)). vm_compute. reflexivity.
  - intros [|n] (s & H & D); [vm_compute in H; injection H as <-; apply D; reflexivity|]. replace (firstn (S n) cs) with cs in H by (cbn; rewrite firstn_nil; reflexivity). vm_compute in H. discriminate.
Qed.
