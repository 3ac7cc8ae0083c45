(** * While a constraint is added, the lists of the transitivity dictionary only grow, write after write.
    Used for threads that read the same entry twice. *)

From Coq Require Import String List Bool Arith ZArith QArith Lia.
From Verif Require Import Base Manager Spec Closure ManagerProofs ManagerInv ManagerQueries ManagerThms InterruptThms Threads ThreadSpec ThreadsThms Readers ReadersSpec ReadersThms
  Listing ListingSpec ListingThms.
Import ListNotations.
Open Scope nat_scope.

Fixpoint rising {T} (p : prog T) (s : mgr) : Prop :=
  match p with Done _ => True | Step f k => below (ctrans s) (ctrans (f s)) /\ rising (k s) (f s) end.
Definition rises {T} (p : prog T) (s : mgr) (Q : T -> mgr -> Prop) : Prop := rising p s /\ forall a, snd (alone p s) = Ok a -> Q a (fst (alone p s)).

Lemma rising_bind {T U} (p : prog T) (k : T -> prog U) s : rising p s -> (forall a, snd (alone p s) = Ok a -> rising (k a) (fst (alone p s))) -> rising (pbind p k) s.
Proof. revert s. induction p as [[a|e]|f g IH]; intros s R H; cbn in *; auto. destruct R as [R1 R2]. split; auto. Qed.
Lemma rises_bind {T U} (p : prog T) (k : T -> prog U) s Q R : rises p s Q -> (forall a s', Q a s' -> rises (k a) s' R) -> rises (pbind p k) s R.
Proof.
  intros [H1 H2] H. split; [apply rising_bind; auto; intros a E; apply H; auto|]. intros b. rewrite alone_bind. destruct (alone p s) as [s1 [a|e]] eqn:E; cbn [fst snd] in *; [|discriminate].
  apply H. auto.
Qed.
Lemma rises_done {T} (r : res T) s (Q : T -> mgr -> Prop) : (forall a, r = Ok a -> Q a s) -> rises (Done r) s Q.
Proof. intro H. split; [exact I|]. cbn. auto. Qed.
Lemma rises_read {T} (q : mgr -> res T) s (Q : T -> mgr -> Prop) : (forall a, q s = Ok a -> Q a s) -> rises (pread q) s Q.
Proof. intro H. split; [cbn; split; auto; apply below_refl|]. cbn. auto. Qed.
Lemma rises_silent {T} (p : prog T) s : silent p -> rises p s (fun a s' => s' = s /\ snd (alone p s) = Ok a).
Proof.
  intro S. assert (G : rising p s /\ fst (alone p s) = s).
  { revert s. induction p as [r|f g IH]; intro s; cbn in *; auto. destruct S as [S1 S2]. rewrite S1. destruct (IH s (S2 s) s). split; auto. split; auto. apply below_refl. }
  destruct G. split; auto.
Qed.
Lemma rises_set_ml x l s (Q : unit -> mgr -> Prop) :
  (forall e, dget x (ctrans s) = Some e -> incl (t_ml e) l /\ Q tt (mkMgr (cdict s) (dset x (mkTrans l (t_cl e)) (ctrans s)))) -> rises (p_set_ml x l) s Q.
Proof.
  intro H. unfold rises, p_set_ml, pwrite, dlookup. cbn. destruct (dget x (ctrans s)) as [e|] eqn:E; cbn.
  - destruct (H e eq_refl) as [H1 H2]. split; [split; auto; eapply below_set; eauto; apply incl_refl|]. intros [] _. auto.
  - split; [split; auto; apply below_refl|]. discriminate.
Qed.
Lemma rises_set_cl x l s (Q : unit -> mgr -> Prop) :
  (forall e, dget x (ctrans s) = Some e -> incl (t_cl e) l /\ Q tt (mkMgr (cdict s) (dset x (mkTrans (t_ml e) l) (ctrans s)))) -> rises (p_set_cl x l) s Q.
Proof.
  intro H. unfold rises, p_set_cl, pwrite, dlookup. cbn. destruct (dget x (ctrans s)) as [e|] eqn:E; cbn.
  - destruct (H e eq_refl) as [H1 H2]. split; [split; auto; eapply below_set; eauto; apply incl_refl|]. intros [] _. auto.
  - split; [split; auto; apply below_refl|]. discriminate.
Qed.
Lemma rises_for {T} (l : list T) f (J : mgr -> Prop) : (forall x s, In x l -> J s -> rises (f x) s (fun _ s' => J s')) -> forall s, J s -> rises (pfor l f) s (fun _ s' => J s').
Proof.
  induction l as [|x l IH]; intros H s Js; cbn [pfor]; [apply rises_done; auto|]. eapply rises_bind; [apply H; auto; left; auto|]. cbn. intros _ s' Js'. apply IH; auto. intros. apply H; auto. right. auto.
Qed.
Lemma rises_weak {T} (p : prog T) s (Q R : T -> mgr -> Prop) : (forall a s', Q a s' -> R a s') -> rises p s Q -> rises p s R.
Proof. intros H [H1 H2]. split; auto. Qed.

(** ** Adding a constraint *)
Lemma rises_transitivity m s a b t : Inv m -> ctrans s = ctrans m -> (t <> MUST_LINK -> ~ linked (sml m) a b) ->
  rises (p_add_constraint_transitivity a b t) s (fun _ _ => True).
Proof.
  intros I E NL. assert (Rp := inv_rep _ I). assert (Weak : forall s1 : mgr, True) by auto.
  assert (ROW : forall x e y f, dget x (ctrans m) = Some e -> In y (t_ml e) -> dget y (ctrans m) = Some f -> incl (t_ml f) (t_ml e) /\ incl (t_cl f) (t_cl e)).
  { intros x e y f Ex J Ey. apply (rep_ml _ _ _ Rp x e Ex) in J. split; intros z Jz.
    - apply (rep_ml _ _ _ Rp y f Ey) in Jz. apply (rep_ml _ _ _ Rp x e Ex). eapply linked_trans; eauto.
    - apply (rep_cl _ _ _ Rp y f Ey) in Jz. apply (rep_cl _ _ _ Rp x e Ex). apply separated_sym. eapply separated_linked_r; [apply linked_sym; exact J|]. apply separated_sym. exact Jz. }
  assert (ML : forall x s1 (U : Type) (k : list pystr -> prog U), ctrans s1 = ctrans m -> (forall e, dget x (ctrans m) = Some e -> rises (k (t_ml e)) s1 (fun _ _ => True)) -> rises (pbind (p_ml x) k) s1 (fun _ _ => True)).
  { intros x s1 U k Q H. apply (rises_bind _ _ _ (fun l s' => s' = s1 /\ exists e, dget x (ctrans m) = Some e /\ l = t_ml e)).
    - apply rises_read. intros l. rewrite Q. unfold dlookup. destruct (dget x (ctrans m)) as [e|]; cbn; [|discriminate]. intro H1. injection H1 as <-. eauto.
    - intros l s' (-> & e & E1 & ->). auto. }
  assert (CL : forall x s1 (U : Type) (k : list pystr -> prog U), ctrans s1 = ctrans m -> (forall e, dget x (ctrans m) = Some e -> rises (k (t_cl e)) s1 (fun _ _ => True)) -> rises (pbind (p_cl x) k) s1 (fun _ _ => True)).
  { intros x s1 U k Q H. apply (rises_bind _ _ _ (fun l s' => s' = s1 /\ exists e, dget x (ctrans m) = Some e /\ l = t_cl e)).
    - apply rises_read. intros l. rewrite Q. unfold dlookup. destruct (dget x (ctrans m)) as [e|]; cbn; [|discriminate]. intro H1. injection H1 as <-. eauto.
    - intros l s' (-> & e & E1 & ->). auto. }
  unfold p_add_constraint_transitivity. destruct (eqb t MUST_LINK) eqn:Et.
  - apply ML; auto. intros ea Ea. apply ML; auto. intros eb Eb. apply CL; auto. intros ea' Ea'. rewrite Ea in Ea'. injection Ea' as <-. apply CL; auto. intros eb' Eb'. rewrite Eb in Eb'. injection Eb' as <-. cbv zeta.
    set (nm := ounion (t_ml ea) (t_ml eb)). set (nc := ounion (t_cl ea) (t_cl eb)).
    set (J := fun s1 : mgr => forall x e, In x nm -> dget x (ctrans s1) = Some e -> incl (t_ml e) nm /\ incl (t_cl e) nc).
    apply (rises_bind _ _ _ (fun _ s1 => J s1)).
    + apply rises_for.
      * intros x s1 Jx Js. apply (rises_bind _ _ _ (fun _ s2 => J s2)).
        -- apply rises_set_ml. intros e Ee. destruct (Js x e Jx Ee) as [Q1 Q2]. split; auto. intros y f Jy Ey. cbn in Ey. rewrite dget_dset in Ey. destruct (eqb y x); [injection Ey as <-; cbn; split; auto; apply incl_refl|]. eapply Js; eauto.
        -- intros _ s2 Js2. apply rises_set_cl. intros e Ee. destruct (Js2 x e Jx Ee) as [Q1 Q2]. split; auto. intros y f Jy Ey. cbn in Ey. rewrite dget_dset in Ey. destruct (eqb y x); [injection Ey as <-; cbn; split; auto; apply incl_refl|]. eapply Js2; eauto.
      * intros x e Jx Ex. rewrite E in Ex. apply ounion_In in Jx as [Jx|Jx].
        -- destruct (ROW a ea x e Ea Jx Ex). split; intros z Jz; apply ounion_In; auto.
        -- destruct (ROW b eb x e Eb Jx Ex). split; intros z Jz; apply ounion_In; auto.
    + intros _ s1 _. apply (rises_weak _ _ (fun _ _ => True)); auto. apply (rises_for _ _ (fun _ => True)); auto. intros x s2 _ _.
      apply (rises_bind _ _ _ (fun l s' => s' = s2 /\ exists e, dget x (ctrans s2) = Some e /\ l = t_cl e)).
      * apply rises_read. intros l. unfold dlookup. destruct (dget x (ctrans s2)) as [e|]; cbn; [|discriminate]. intro H1. injection H1 as <-. eauto.
      * intros l s' (-> & e & E1 & ->). apply rises_set_cl. intros f Ef. rewrite E1 in Ef. injection Ef as <-. split; auto. intros z Jz. apply ounion_In. auto.
  - assert (D : ~ linked (sml m) a b) by (apply NL; intros ->; rewrite eqb_refl in Et; discriminate).
    apply CL; auto. intros ea Ea. apply ML; auto. intros eb Eb. cbv zeta. apply CL; auto. intros eb' Eb'. rewrite Eb in Eb'. injection Eb' as <-. apply ML; auto. intros ea' Ea'. rewrite Ea in Ea'. injection Ea' as <-.
    apply ML; auto. intros ea' Ea'. rewrite Ea in Ea'. injection Ea' as <-.
    set (n1 := ounion (t_cl ea) (t_ml eb)). set (n2 := ounion (t_cl eb) (t_ml ea)).
    set (J := fun s1 : mgr => (forall x e, In x (t_ml ea) -> dget x (ctrans s1) = Some e -> incl (t_cl e) n1) /\ (forall x e, In x (t_ml eb) -> dget x (ctrans s1) = Some e -> incl (t_cl e) n2) /\
      exists e, dget b (ctrans s1) = Some e /\ t_ml e = t_ml eb).
    assert (DJ : forall x, In x (t_ml ea) -> In x (t_ml eb) -> False).
    { intros x J1 J2. apply D. apply (rep_ml _ _ _ Rp a ea Ea) in J1. apply (rep_ml _ _ _ Rp b eb Eb) in J2. eapply linked_trans; [exact J1|apply linked_sym; exact J2]. }
    assert (SB : forall s1 x e l, (exists e, dget b (ctrans s1) = Some e /\ t_ml e = t_ml eb) -> dget x (ctrans s1) = Some e -> exists e', dget b (dset x (mkTrans (t_ml e) l) (ctrans s1)) = Some e' /\ t_ml e' = t_ml eb).
    { intros s1 x e l (f & F1 & F2) Ex. rewrite dget_dset. destruct (eqb_spec b x) as [<-|]; eauto. eexists. split; [reflexivity|]. cbn. congruence. }
    apply (rises_bind _ _ _ (fun _ s1 => J s1)).
    + apply rises_for.
      * intros x s1 Jx (J1 & J2 & J3). apply rises_set_cl. intros e Ee. split; [eapply J1; eauto|]. split; [|split].
        -- intros y f Jy Ey. cbn in Ey. rewrite dget_dset in Ey. destruct (eqb y x); [injection Ey as <-; apply incl_refl|eapply J1; eauto].
        -- intros y f Jy Ey. cbn in Ey. rewrite dget_dset in Ey. destruct (eqb_spec y x) as [->|]; [exfalso; eapply DJ; eauto|eapply J2; eauto].
        -- cbn. apply SB; auto.
      * split; [|split].
        -- intros x e Jx Ex. rewrite E in Ex. destruct (ROW a ea x e Ea Jx Ex). intros z Jz; apply ounion_In; auto.
        -- intros x e Jx Ex. rewrite E in Ex. destruct (ROW b eb x e Eb Jx Ex). intros z Jz; apply ounion_In; auto.
        -- rewrite E. eauto.
    + intros _ s1 (_ & J2 & J3). apply (rises_bind _ _ _ (fun l s' => s' = s1 /\ l = t_ml eb)).
      * apply rises_read. intros l. unfold dlookup. destruct J3 as (f & -> & <-). cbn. intro H1. injection H1 as <-. auto.
      * intros l s' (-> & ->). apply (rises_weak _ _ (fun _ s1 => forall x e, In x (t_ml eb) -> dget x (ctrans s1) = Some e -> incl (t_cl e) n2)); auto.
        apply rises_for; auto. intros x s2 Jx Js. apply rises_set_cl. intros e Ee. split; [eapply Js; eauto|].
        intros y f Jy Ey. cbn in Ey. rewrite dget_dset in Ey. destruct (eqb y x); [injection Ey as <-; apply incl_refl|eapply Js; eauto].
Qed.

Lemma alone_inferred m a b : Inv m -> snd (alone (p_get_inferred_constraint a b) m) = if both m a b then Ok (infer m a b) else Raise ValueError.
Proof.
  intro I. rewrite does_inferred, run_inferred by auto. reflexivity.
Qed.
Lemma rises_add m a b t v : Inv m -> rises (p_add_constraint a b t v) m (fun _ _ => True).
Proof.
  intro I. unfold p_add_constraint.
  apply (rises_bind _ _ _ (fun k s => s = m)); [apply rises_read; auto|intros k1 s ->]. apply (rises_bind _ _ _ (fun k s => s = m)); [apply rises_done; auto|intros _ s ->].
  apply (rises_bind _ _ _ (fun k s => s = m)); [apply rises_read; auto|intros k2 s ->]. apply (rises_bind _ _ _ (fun k s => s = m)); [apply rises_done; auto|intros _ s ->].
  apply (rises_bind _ _ _ (fun k s => s = m /\ mem t allowed_types = true)); [apply rises_done; intros u H; destruct (mem t allowed_types); [auto|discriminate]|intros _ s (-> & At)].
  eapply rises_bind; [apply rises_silent, silent_inferred|]. cbv beta. intros i s (-> & Ei). rewrite alone_inferred in Ei by auto. destruct (both m a b) eqn:B; [|discriminate]. injection Ei as <-. apply both_true in B as [Ia Ib].
  apply (rises_bind _ _ _ (fun k s => s = m /\ match infer m a b with Some u => eqb u t | None => true end = true)).
  { apply rises_done. intros u H. destruct (infer m a b) as [w|]; auto. destruct (eqb w t); [auto|discriminate]. }
  intros _ s (-> & Ok_). eapply rises_bind; [apply rises_silent, silent_added|]. cbv beta. intros c s (-> & _). destruct c as [c|]; [apply rises_done; auto|].
  apply (rises_bind _ _ _ (fun _ s => ctrans s = ctrans m)).
  - assert (G : forall x y w, rises (p_set_constraint x y w) m (fun _ s => ctrans s = ctrans m)).
    { intros x y w. unfold rises, p_set_constraint, pwrite, dlookup. cbn. destruct (dget x (cdict m)); cbn; (split; [split; auto; apply below_refl|auto]). }
    destruct (str_leb a b); apply G.
  - intros _ s Es. eapply rises_bind; [apply (rises_transitivity m); auto|intros; apply rises_done; auto].
    intros NE L. apply infer_ML in L; auto. rewrite L in Ok_. apply eqb_eq in Ok_. congruence.
Qed.
Lemma rising_catch {T} (p : prog T) s : rising p s -> rising (pcatch p) s.
Proof. revert s. induction p as [r|f g IH]; intros s H; cbn in *; auto. destruct H. auto. Qed.
Lemma rising_session cs : Forall only_adds_constraints cs -> forall m, reachable m -> rising (p_wsession cs) m.
Proof.
  induction 1 as [|c cs O _ IH]; intros m R; cbn [p_wsession]; [exact I|]. apply rising_bind.
  - apply rising_catch. destruct c; cbn in O; try tauto. cbn [p_wexec]. apply rising_bind; [apply (rises_add m); apply reachable_inv; auto|intros; exact I].
  - intros x _. rewrite alone_catch. cbn [fst]. rewrite C145_alone_proof. apply rising_bind; [apply IH; apply reach_call; auto|intros; exact I].
Qed.

(** ** What the other threads see, the lists only growing *)
Section Watch2.
  Variable P : nat -> mgr -> Prop.
  Inductive watch2 {T} : nat -> mgr -> prog T -> res T -> nat -> mgr -> Prop :=
  | watch2_done : forall n s r, watch2 n s (Done r) r n s
  | watch2_step : forall lo s0 n s f k r hi s', lo <= n -> below (ctrans s0) (ctrans s) -> P n s -> watch2 n s (k s) r hi s' -> watch2 lo s0 (Step f k) r hi s'.
  Lemma watch2_lower {T} lo lo' s0 s0' (p : prog T) r hi s' : lo' <= lo -> below (ctrans s0') (ctrans s0) -> watch2 lo s0 p r hi s' -> exists hi' s'', watch2 lo' s0' p r hi' s''.
  Proof. intros L B H. destruct H; [exists lo', s0'; constructor|]. exists hi, s'. econstructor; [|eapply below_trans; eauto|eauto|eauto]. lia. Qed.
  Lemma watch2_watch {T} lo s0 (p : prog T) r hi s' : watch2 lo s0 p r hi s' -> watch P lo p r hi.
  Proof. induction 1; econstructor; eauto. Qed.
  Lemma watch2_below {T} lo s0 (p : prog T) r hi s' : watch2 lo s0 p r hi s' -> below (ctrans s0) (ctrans s').
  Proof. induction 1; [apply below_refl|eapply below_trans; eauto]. Qed.
  Lemma watch2_bind {T U} (p : prog T) (k : T -> prog U) lo s0 r hi s' : watch2 lo s0 (pbind p k) r hi s' ->
    exists x mid s1, watch2 lo s0 p x mid s1 /\ match x with Ok a => watch2 mid s1 (k a) r hi s' | Raise e => r = Raise e /\ mid = hi end.
  Proof.
    revert lo s0. induction p as [[a|e]|f g IH]; intros lo s0 H; cbn [pbind] in H.
    - exists (Ok a), lo, s0. split; auto. constructor.
    - inversion H; subst. exists (Raise e), hi, s'. split; auto. constructor.
    - inversion H as [|? ? n s ? ? ? ? ? L B Pn H']; subst. apply IH in H' as (x & mid & s1 & H1 & H2). exists x, mid, s1. split; auto. econstructor; eauto.
  Qed.
  Lemma watch2_read {T} (q : mgr -> res T) lo s0 r hi s' : watch2 lo s0 (pread q) r hi s' -> lo <= hi /\ below (ctrans s0) (ctrans s') /\ P hi s' /\ r = q s'.
  Proof. intro H. inversion H as [|? ? n s ? ? ? ? ? L1 B P1 W0]; subst. inversion W0; subst. auto. Qed.
  Lemma rising_watch {T} m (w : prog T) ps m' r0 rs n e : interleaved m (w :: ps) m' (r0 :: rs) -> Forall silent ps -> trail P n w m e -> rising w m ->
    alone w m = (m', r0) /\ Forall2 (fun p r => exists hi s', watch2 n m p r hi s') ps rs.
  Proof.
    intro I. remember (w :: ps) as l eqn:El. remember (r0 :: rs) as rl eqn:Er. revert w ps r0 rs n El Er.
    induction I as [m rs1|m l1 f k l2 m' rs1 T1 IH]; intros w ps r0 rs n El Er S Tr Ri.
    - subst. cbn in El. injection El as <- <-. split; auto. clear. induction rs; cbn; constructor; auto. exists n, m. constructor.
    - destruct l1 as [|q l1]; cbn in El; injection El as <- <-.
      + cbn in Tr. destruct Tr as (Pn & n' & L & Tr). destruct Ri as [Ri1 Ri2]. destruct (IH (k m) l2 r0 rs n' eq_refl Er S Tr Ri2) as [E F]. split; [exact E|].
        clear - F L Ri1. induction F as [|p r ps rs (hi & s' & H) F IH]; constructor; auto. eapply watch2_lower; eauto.
      + apply Forall_app in S as [S1 S2]. inversion S2 as [|? ? Sk S3]; subst. cbn in Sk. destruct Sk as [Fm Sk]. rewrite Fm in *.
        destruct (IH q (l1 ++ k m :: l2) r0 rs n eq_refl eq_refl) as [E F]; auto; [apply Forall_app; auto|]. split; auto.
        apply Forall2_app_inv_l in F as (r1 & r2 & F1 & F2 & ->). inversion F2 as [|? r ? r3 (hi & s' & W) F3]; subst.
        apply Forall2_app; auto. constructor; auto. exists hi, s'. econstructor; [|apply below_refl|eapply trail_start; eauto|exact W]. lia.
  Qed.
End Watch2.
