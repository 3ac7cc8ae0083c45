(** * Threads that ask while one thread changes the manager (C145). *)

From Coq Require Import String List Bool Arith ZArith QArith Lia.
(*HEADER
From Coq Require Import String List Bool Arith ZArith QArith.
From Verif Require Import Base Manager Spec ManagerThms ManagerInv ManagerQueries Threads ThreadSpec ThreadsThms Readers ReadersSpec ReadersThms.
Import ListNotations.
Open Scope nat_scope.
HEADER*)
From Verif Require Import Base Manager Spec Closure ManagerProofs ManagerInv ManagerQueries ManagerThms Interrupt InterruptThms Threads ThreadSpec ThreadsThms Readers ReadersSpec.
Import ListNotations.
Open Scope nat_scope.

(** ** The programs and the methods that list the managers they pass through *)
Fixpoint states {T} (p : prog T) (m : mgr) : list mgr :=
  match p with
  | Done _ => []
  | Step f k => f m :: states (k m) (f m)
  end.
Definition follows {T} (p : prog T) (w : Interrupt.W T) (m : mgr) : Prop :=
  incl (states p m) (m :: fst (w m)) /\ alone p m = snd (w m).

Lemma states_bind {T U} (p : prog T) (k : T -> prog U) m :
  states (pbind p k) m = states p m ++ match alone p m with (m1, Ok a) => states (k a) m1 | _ => [] end.
Proof. revert m. induction p as [[a|e]|f g IH]; intro m; cbn [pbind states alone app]; auto. f_equal. apply IH. Qed.
Lemma last_state {T} (p : prog T) m : In (fst (alone p m)) (m :: states p m).
Proof. revert m. induction p as [r|f g IH]; intro m; cbn [alone states]; [left; auto|]. right. apply IH. Qed.

Lemma follows_bind {T U} (p : prog T) w (k : T -> prog U) k' m : follows p w m ->
  (forall a, snd (alone p m) = Ok a -> follows (k a) (k' a) (fst (alone p m))) -> follows (pbind p k) (wbind w k') m.
Proof.
  intros [H E] K. assert (LS := last_state p m). unfold follows. rewrite states_bind, alone_bind. unfold wbind.
  destruct (w m) as [l [m1 r]] eqn:Wm. cbn [fst snd] in *. rewrite E in *. cbn [fst snd] in *. destruct r as [a|e].
  - destruct (K a eq_refl) as [K1 K2]. destruct (k' a m1) as [l' e]. cbn [fst snd] in *. split; auto.
    assert (M1 : In m1 (m :: l)) by (destruct LS as [LS|LS]; [left; auto|apply H; auto]).
    intros x I. apply in_app_iff in I as [I|I].
    + apply H in I. destruct I as [I|I]; [left; auto|right; apply in_or_app; auto].
    + apply K1 in I. destruct I as [<-|I]; [|right; apply in_or_app; auto]. destruct M1 as [M1|M1]; [left; auto|right; apply in_or_app; auto].
  - rewrite app_nil_r. auto.
Qed.
Lemma follows_read {T U} (q : mgr -> res T) (k : T -> prog U) w m v : q m = Ok v -> follows (k v) w m -> follows (pbind (pread q) k) w m.
Proof. intros E [H1 H2]. unfold follows. cbn [pread pbind states alone]. rewrite E. cbn [pbind]. split; auto. intros x [<-|I]; [left; auto|apply H1; auto]. Qed.
Lemma follows_read_raise {T U} (q : mgr -> res T) (k : T -> prog U) w m e : q m = Raise e -> w m = ([], (m, Raise e)) -> follows (pbind (pread q) k) w m.
Proof. intros E H. unfold follows. cbn [pread pbind states alone]. rewrite E, H. cbn. split; auto. intros x [<-|[]]; left; auto. Qed.
Lemma follows_quiet {T U} (p : prog U) (r : M mgr T) k m a : r m = (m, Ok a) -> follows p (k a) m -> follows p (wbind (quiet r) k) m.
Proof. intros E [H1 H2]. unfold follows, wbind, quiet. rewrite E. destruct (k a m). cbn [fst snd app] in *. auto. Qed.
Lemma follows_same {T} (p : prog T) (r : M mgr T) m : (forall m, In m (states p m) -> True) -> states p m = [] \/ states p m = [m] -> alone p m = r m -> follows p (quiet r) m.
Proof. intros _ S E. split; auto. intros x I. destruct S as [S|S]; rewrite S in I; [destruct I|destruct I as [<-|[]]; left; auto]. Qed.
Lemma follows_pread {T} (q : mgr -> res T) (r : M mgr T) m : r m = (m, q m) -> follows (pread q) (quiet r) m.
Proof. intro E. split; [intros x [<-|[]]; left; auto|]. cbn. auto. Qed.
Lemma follows_done {T} (x : res T) (r : M mgr T) m : r m = (m, x) -> follows (Done x) (quiet r) m.
Proof. intro E. split; [intros ? []|]. cbn. auto. Qed.
Lemma follows_require b m : follows (prequire b) (quiet (require b)) m.
Proof. apply follows_done. destruct b; reflexivity. Qed.
Lemma follows_update f m : follows (p_update f) (write f) m.
Proof. split; [intros x [<-|[]]; right; left; auto|reflexivity]. Qed.
Lemma follows_for {T} (l : list T) f g : (forall a m, follows (f a) (g a) m) -> forall m, follows (pfor l f) (wfor l g) m.
Proof. intro H. induction l as [|x l IH]; intro m; cbn [pfor wfor]; [apply follows_done; reflexivity|]. apply follows_bind; auto. Qed.

Lemma follows_set_constraint a b v m : follows (p_set_constraint a b v) (w_set_constraint a b v) m.
Proof.
  unfold follows, p_set_constraint, w_set_constraint, wbind, quiet, write, bind, gets, lift, pwrite, dlookup. cbn.
  destruct (dget a (cdict m)) as [row|]; cbn; split; auto; intros x [<-|[]]; [right; left|left]; auto.
Qed.
Lemma follows_set_ml a l m : follows (p_set_ml a l) (w_set_ml a l) m.
Proof.
  unfold follows, p_set_ml, w_set_ml, wbind, quiet, write, get_trans, bind, gets, lift, pwrite, dlookup. cbn.
  destruct (dget a (ctrans m)) as [row|]; cbn; split; auto; intros x [<-|[]]; [right; left|left]; auto.
Qed.
Lemma follows_set_cl a l m : follows (p_set_cl a l) (w_set_cl a l) m.
Proof.
  unfold follows, p_set_cl, w_set_cl, wbind, quiet, write, get_trans, bind, gets, lift, pwrite, dlookup. cbn.
  destruct (dget a (ctrans m)) as [row|]; cbn; split; auto; intros x [<-|[]]; [right; left|left]; auto.
Qed.

Definition w_inner (a b t : pystr) : Interrupt.W unit :=
  if eqb t MUST_LINK then
    wbind (quiet (get_trans a)) (fun t1 => wbind (quiet (get_trans b)) (fun t2 =>
      let new_ml := ounion (t_ml t1) (t_ml t2) in let new_cl := ounion (t_cl t1) (t_cl t2) in
      wbind (wfor new_ml (fun x => wbind (w_set_ml x new_ml) (fun _ => w_set_cl x new_cl))) (fun _ =>
      wfor new_cl (fun x => wbind (quiet (get_trans x)) (fun t => w_set_cl x (ounion (t_cl t) new_ml))))))
  else
    wbind (quiet (get_trans a)) (fun t1 => wbind (quiet (get_trans b)) (fun t2 =>
      let new_cl1 := ounion (t_cl t1) (t_ml t2) in let new_cl2 := ounion (t_cl t2) (t_ml t1) in
      wbind (quiet (get_trans a)) (fun t1 => wbind (wfor (t_ml t1) (fun x => w_set_cl x new_cl1)) (fun _ =>
      wbind (quiet (get_trans b)) (fun t2 => wfor (t_ml t2) (fun x => w_set_cl x new_cl2)))))).
Lemma w_inner_spec a b t : w_add_constraint_transitivity a b t = wbind (w_inner a b t) (fun _ => quiet (ret true)).
Proof. reflexivity. Qed.

Lemma trans_run x m : get_trans x m = (m, match dget x (ctrans m) with Some e => Ok e | None => Raise KeyError end).
Proof. unfold get_trans, bind, gets, lift, dlookup. destruct (dget x (ctrans m)); reflexivity. Qed.
Lemma follows_cl {U} x (k : list pystr -> prog U) (k' : trans -> Interrupt.W U) m :
  (forall e, dget x (ctrans m) = Some e -> follows (k (t_cl e)) (k' e) m) -> follows (pbind (p_cl x) k) (wbind (quiet (get_trans x)) k') m.
Proof.
  intro H. destruct (dget x (ctrans m)) as [e|] eqn:E.
  - apply (follows_read _ _ _ _ (t_cl e)); [unfold dlookup; rewrite E; reflexivity|]. apply (follows_quiet _ _ _ _ e); [rewrite trans_run, E; auto|auto].
  - apply (follows_read_raise _ _ _ _ KeyError); [unfold dlookup; rewrite E; reflexivity|]. unfold wbind, quiet. rewrite trans_run, E. reflexivity.
Qed.
Lemma follows_ml {U} x (k : list pystr -> prog U) (k' : trans -> Interrupt.W U) m :
  (forall e, dget x (ctrans m) = Some e -> follows (k (t_ml e)) (k' e) m) -> follows (pbind (p_ml x) k) (wbind (quiet (get_trans x)) k') m.
Proof.
  intro H. destruct (dget x (ctrans m)) as [e|] eqn:E.
  - apply (follows_read _ _ _ _ (t_ml e)); [unfold dlookup; rewrite E; reflexivity|]. apply (follows_quiet _ _ _ _ e); [rewrite trans_run, E; auto|auto].
  - apply (follows_read_raise _ _ _ _ KeyError); [unfold dlookup; rewrite E; reflexivity|]. unfold wbind, quiet. rewrite trans_run, E. reflexivity.
Qed.
Lemma follows_cl_again {U} x e (k : list pystr -> prog U) w m : dget x (ctrans m) = Some e -> follows (k (t_cl e)) w m -> follows (pbind (p_cl x) k) w m.
Proof. intros E H. apply (follows_read _ _ _ _ (t_cl e)); auto. unfold dlookup. rewrite E. reflexivity. Qed.
Lemma follows_ml_again {U} x e (k : list pystr -> prog U) w m : dget x (ctrans m) = Some e -> follows (k (t_ml e)) w m -> follows (pbind (p_ml x) k) w m.
Proof. intros E H. apply (follows_read _ _ _ _ (t_ml e)); auto. unfold dlookup. rewrite E. reflexivity. Qed.

Lemma follows_inner a b t m : follows (p_add_constraint_transitivity a b t) (w_inner a b t) m.
Proof.
  unfold p_add_constraint_transitivity, w_inner. destruct (eqb t MUST_LINK).
  - apply follows_ml. intros e1 E1. apply follows_ml. intros e2 E2. apply (follows_cl_again a e1); auto. apply (follows_cl_again b e2); auto. cbv zeta.
    apply follows_bind.
    + apply follows_for. intros x n. apply follows_bind; [apply follows_set_ml|intros; apply follows_set_cl].
    + intros _ _. apply follows_for. intros x n. apply follows_cl. intros e E. apply follows_set_cl.
  - apply follows_cl. intros e1 E1. apply follows_ml. intros e2 E2. apply (follows_cl_again b e2); auto. apply (follows_ml_again a e1); auto. cbv zeta.
    apply follows_ml. intros e3 E3. apply follows_bind; [apply follows_for; intros; apply follows_set_cl|]. intros _ _.
    apply follows_ml. intros e4 E4. apply follows_for; intros; apply follows_set_cl.
Qed.
Lemma follows_tail {T U V} (p : prog T) (w : Interrupt.W T) (x : U) (y : V) m : follows p w m ->
  follows (pbind p (fun _ => Done (Ok y))) (wbind (wbind w (fun _ => quiet (ret x))) (fun _ => quiet (ret y))) m.
Proof.
  intros [H E]. unfold follows. rewrite states_bind, alone_bind, E. unfold wbind. destruct (w m) as [l [m1 [u|e]]]; cbn in *; rewrite ?app_nil_r; auto.
Qed.
Lemma follows_transitivity {V} a b t (y : V) m :
  follows (pbind (p_add_constraint_transitivity a b t) (fun _ => Done (Ok y))) (wbind (w_add_constraint_transitivity a b t) (fun _ => quiet (ret y))) m.
Proof. rewrite w_inner_spec. apply follows_tail. apply follows_inner. Qed.
Lemma follows_transitivity_unit a b t m :
  follows (p_add_constraint_transitivity a b t) (wbind (w_add_constraint_transitivity a b t) (fun _ => quiet (ret tt))) m.
Proof.
  rewrite w_inner_spec. destruct (follows_inner a b t m) as [H E]. unfold follows, wbind. rewrite E. destruct (w_inner a b t m) as [l [m1 [[]|e]]]; cbn in *; rewrite ?app_nil_r; auto.
Qed.

(** Programs that only read pass through the manager they start with. *)
Lemma silent_states {T} (p : prog T) (r : M mgr T) m : does p r -> incl (states p m) [m] -> follows p (quiet r) m.
Proof. intros D H. split; [|apply D]. intros x I. apply H in I. destruct I as [<-|[]]. left; auto. Qed.
Fixpoint silent {T} (p : prog T) : Prop := match p with Done _ => True | Step f k => (forall m, f m = m) /\ forall m, silent (k m) end.
Lemma silent_bind {T U} (p : prog T) (k : T -> prog U) : silent p -> (forall a, silent (k a)) -> silent (pbind p k).
Proof. intros H K. induction p as [[a|e]|f g IH]; cbn in *; auto. destruct H as [H1 H2]. split; auto. Qed.
Lemma silent_incl {T} (p : prog T) m : silent p -> incl (states p m) [m].
Proof. revert m. induction p as [r|f g IH]; intros m H x I; [destruct I|]. cbn in *. destruct H as [H1 H2]. rewrite H1 in I. destruct I as [<-|I]; [left; auto|]. apply (IH m m); auto. Qed.
Lemma silent_inferred a b : silent (p_get_inferred_constraint a b).
Proof.
  unfold p_get_inferred_constraint. repeat first [apply silent_bind; [|intro]|match goal with |- silent (if ?b then _ else _) => destruct b end]; cbn; auto.
Qed.
Lemma silent_added a b : silent (p_get_added_constraint a b).
Proof.
  unfold p_get_added_constraint. repeat first [apply silent_bind; [|intro]|match goal with |- silent (if ?b then _ else _) => destruct b end]; cbn; auto.
Qed.

Ltac follow :=
  repeat first [apply follows_require|apply follows_update|apply follows_set_constraint|apply follows_pread; reflexivity|apply follows_done; reflexivity
               |match goal with |- follows (if ?b then _ else _) _ _ => destruct b end
               |apply follows_transitivity|apply follows_transitivity_unit
               |apply follows_bind; [|intros]|apply follows_for; intros].

Lemma follows_add a b t v m : follows (p_add_constraint a b t v) (w_add_constraint a b t v) m.
Proof.
  unfold p_add_constraint, w_add_constraint. do 5 (apply follows_bind; [follow|intros]).
  apply follows_bind; [apply silent_states; [apply does_inferred|apply silent_incl, silent_inferred]|intros o _].
  apply follows_bind; [destruct o; [apply follows_require|apply follows_done; reflexivity]|intros _ _].
  apply follows_bind; [apply silent_states; [apply does_added|apply silent_incl, silent_added]|intros [c|] _]; [follow|].
  apply follows_bind; [follow|intros]. apply follows_transitivity.
Qed.
Lemma follows_add_ID x m : follows (p_add_data_ID x) (w_add_data_ID x) m.
Proof. unfold p_add_data_ID, w_add_data_ID, p_ids. follow. Qed.
Lemma row_run x m : bind (gets (fun m => dlookup x (cdict m))) lift m = (m, dlookup x (cdict m)).
Proof. reflexivity. Qed.
Lemma constraint_run a b m : get_constraint a b m = (m, rbind (dlookup a (cdict m)) (fun row => dlookup b row)).
Proof. unfold get_constraint, bind, gets, lift. destruct (dlookup a (cdict m)); reflexivity. Qed.
Lemma follows_generate m : follows p_generate_constraints_transitivity w_generate_constraints_transitivity m.
Proof.
  unfold p_generate_constraints_transitivity, w_generate_constraints_transitivity, p_ids, p_row.
  apply follows_bind; [follow|intros]. apply follows_bind; [follow|intros]. apply follows_for; intros x n.
  apply follows_bind; [apply follows_pread; apply row_run|intros]. apply follows_for; intros y n'.
  apply follows_bind; [apply follows_pread; apply constraint_run|intros [c|] _]; [apply follows_transitivity_unit|apply follows_done; reflexivity].
Qed.
Lemma follows_delete_ID x m : follows (p_delete_data_ID x) (w_delete_data_ID x) m.
Proof.
  unfold p_delete_data_ID, w_delete_data_ID, p_ids. do 4 (apply follows_bind; [follow|intros]).
  apply follows_bind; [|intros; apply follows_bind; [apply follows_generate|intros; follow]].
  apply follows_for. intros o n. unfold follows, wbind, quiet, write, bind, gets, lift, pwrite, dlookup. cbn.
  destruct (dget o (cdict n)) as [row|]; cbn; split; auto; intros y [<-|[]]; [right; left|left]; auto.
Qed.
Lemma follows_delete a b m : follows (p_delete_constraint a b) (w_delete_constraint a b) m.
Proof.
  unfold p_delete_constraint, w_delete_constraint. do 5 (apply follows_bind; [follow|intros]).
  apply follows_bind; [apply follows_generate|intros; follow].
Qed.
Lemma follows_wexec c m : follows (p_wexec c) (w_exec (as_wcall c)) m.
Proof.
  destruct c; cbn [p_wexec as_wcall w_exec]; (apply follows_bind; [|intros; follow]);
    [apply follows_add_ID|apply follows_delete_ID|apply follows_add|apply follows_delete].
Qed.

(*PROP C145: one change alone, action by action, ends with the manager and the result of the method. *)
Lemma C145_alone_proof : forall c m, alone (p_wexec c) m = exec (as_wcall c) m.
Proof. intros c m. rewrite <- C135_same_calls_proof. apply follows_wexec. Qed.
(*EX
Definition A := str "a". Definition B := str "b". Definition C := str "c". Definition D := str "d".
Definition ex : mgr := run [CallAddConstraint A B MUST_LINK 1%Q] (init [B; A; C]).
Lemma ex_reachable : reachable ex. Proof. apply run_reachable. Qed.
Example C145_alone_ex : snd (alone (p_wexec (WAddID D)) ex) = Ok (VBool true) /\ snd (alone (p_wexec (WDeleteID D)) ex) = Raise ValueError /\
  ask (get_inferred_constraint A B) (fst (alone (p_wexec (WDelete B A)) ex)) = Ok None.
Proof. repeat split; vm_compute; reflexivity. Qed.
EX*)

(** ** Where the writing thread goes, and what the others see *)
Section Watch.
  Variable P : nat -> mgr -> Prop.

  (** The program [p] on [m] passes through managers with growing numbers, from [n] to [e]. *)
  Fixpoint trail {T} (n : nat) (p : prog T) (m : mgr) (e : nat) : Prop :=
    P n m /\ match p with
             | Done _ => n <= e /\ P e m
             | Step f k => exists n', n <= n' /\ trail n' (k m) (f m) e
             end.
  Lemma trail_start {T} n (p : prog T) m e : trail n p m e -> P n m.
  Proof. destruct p; cbn; tauto. Qed.
  Lemma trail_lower {T} n n' (p : prog T) m e : P n m -> n <= n' -> trail n' p m e -> trail n p m e.
  Proof.
    intros Pn L H. destruct p as [r|f k]; cbn in *.
    - destruct H as (_ & L2 & Pe). repeat split; auto. lia.
    - destruct H as (_ & n2 & L2 & H). split; auto. exists n2. split; [lia|auto].
  Qed.
  Lemma trail_bind {T U} (p : prog T) (k : T -> prog U) n m e e' : trail n p m e ->
    match alone p m with (m1, Ok a) => trail e (k a) m1 e' | (_, Raise _) => e' = e end -> trail n (pbind p k) m e'.
  Proof.
    revert n m. induction p as [[a|x]|f g IH]; intros n m H K; cbn [pbind].
    - cbn in H, K. destruct H as (P1 & L & P2). apply (trail_lower n e); auto.
    - cbn in *. subst. auto.
    - cbn in H. destruct H as (P1 & n' & L & H). split; auto. exists n'. split; auto.
  Qed.
  Lemma trail_last {T} (p : prog T) n e m l s : states p m = l ++ [s] -> (forall x, In x (m :: l) -> P n x) -> n <= e -> P e s -> trail n p m e.
  Proof.
    revert m l. induction p as [r|f g IH]; intros m l S H L E; cbn [states] in S; [destruct l; discriminate|].
    split; [apply H; left; auto|]. destruct l as [|y l].
    - cbn in S. injection S as S1 S2. exists e. split; auto. destruct (g m) as [r|f' k']; [|discriminate]. cbn. rewrite S1. auto.
    - cbn in S. injection S as S1 S2. exists n. split; auto. apply (IH m (f m) l); auto. intros x I. apply H. rewrite S1 in I. destruct I as [I|I]; [right; left|right; right]; auto.
  Qed.
  Lemma trail_const {T} (p : prog T) n m : (forall x, In x (m :: states p m) -> P n x) -> trail n p m n.
  Proof.
    revert m. induction p as [r|f g IH]; intros m H; (split; [apply H; left; auto|]).
    - split; auto. apply H; left; auto.
    - exists n. split; auto. apply IH. intros x I. apply H. right. exact I.
  Qed.

  (** A thread that reads managers with growing numbers. *)
  Inductive watch {T} : nat -> prog T -> res T -> nat -> Prop :=
  | watch_done : forall n r, watch n (Done r) r n
  | watch_step : forall lo n s f k r hi, lo <= n -> P n s -> watch n (k s) r hi -> watch lo (Step f k) r hi.
  Lemma watch_lower {T} lo lo' (p : prog T) r hi : lo' <= lo -> watch lo p r hi -> exists hi', watch lo' p r hi'.
  Proof. intros L H. destruct H; [exists lo'; constructor|]. exists hi. econstructor; [|eauto|eauto]. lia. Qed.
  Lemma watch_le {T} lo (p : prog T) r hi : watch lo p r hi -> lo <= hi.
  Proof. induction 1; lia. Qed.
  Lemma watch_bind {T U} (p : prog T) (k : T -> prog U) lo r hi : watch lo (pbind p k) r hi ->
    exists x mid, watch lo p x mid /\ match x with Ok a => watch mid (k a) r hi | Raise e => r = Raise e /\ mid = hi end.
  Proof.
    revert lo. induction p as [[a|e]|f g IH]; intros lo H; cbn [pbind] in H.
    - exists (Ok a), lo. split; [constructor|auto].
    - inversion H; subst. exists (Raise e), hi. split; [constructor|auto].
    - inversion H as [|? ? ? ? ? ? ? L1 P1 W0]; subst. apply IH in W0 as (x & mid & W1 & W2). exists x, mid. split; auto. econstructor; eauto.
  Qed.
  Lemma watch_read {T} (q : mgr -> res T) lo r hi : watch lo (pread q) r hi -> lo <= hi /\ exists s, P hi s /\ r = q s.
  Proof. intro H. inversion H as [|? n s ? ? ? ? L1 P1 W0]; subst. inversion W0; subst. split; auto. exists s. auto. Qed.
  Lemma watch_require b lo r hi : watch lo (prequire b) r hi -> lo = hi /\ r = (if b then Ok tt else Raise ValueError).
  Proof. intro H. inversion H; subst. auto. Qed.

  Lemma silent_watch {T} m (w : prog T) ps m' r0 rs n e : interleaved m (w :: ps) m' (r0 :: rs) -> Forall silent ps -> trail n w m e ->
    alone w m = (m', r0) /\ Forall2 (fun p r => exists hi, watch n p r hi) ps rs.
  Proof.
    intro I. remember (w :: ps) as l eqn:El. remember (r0 :: rs) as rl eqn:Er. revert w ps r0 rs n El Er.
    induction I as [m rs1|m l1 f k l2 m' rs1 T1 IH]; intros w ps r0 rs n El Er S Tr.
    - subst. cbn in El. injection El as <- <-. split; auto. clear. induction rs; cbn; constructor; auto. exists n. constructor.
    - destruct l1 as [|q l1]; cbn in El; injection El as <- <-.
      + cbn in Tr. destruct Tr as (Pn & n' & L & Tr). destruct (IH (k m) l2 r0 rs n' eq_refl Er S Tr) as [E F]. split; [exact E|].
        clear - F L. induction F as [|p r ps rs [hi H] F IH]; constructor; auto. eapply watch_lower; eauto.
      + apply Forall_app in S as [S1 S2]. inversion S2 as [|? ? Sk S3]; subst. cbn in Sk. destruct Sk as [Fm Sk]. rewrite Fm in *.
        destruct (IH q (l1 ++ k m :: l2) r0 rs n eq_refl eq_refl) as [E F]; auto; [apply Forall_app; auto|]. split; auto.
        apply Forall2_app_inv_l in F as (r1 & r2 & F1 & F2 & ->). inversion F2 as [|? r ? r3 [hi W] F3]; subst.
        apply Forall2_app; auto. constructor; auto. exists hi. econstructor; [|eapply trail_start; eauto|exact W]. lia.
  Qed.
End Watch.

Lemma states_catch {T} (p : prog T) m : states (pcatch p) m = states p m.
Proof. revert m. induction p as [r|f g IH]; intro m; cbn; auto. f_equal. apply IH. Qed.

(** [self._constraints_dictionary[a][b]] *)
Definition entry (a b : pystr) (s : mgr) : res (option constr) := rbind (dlookup a (cdict s)) (fun row => dlookup b row).

Lemma below_key T T' x : below T T' -> In x (keys T) -> In x (keys T').
Proof. intros H I. apply dget_In_key in I as [e E]. destruct (H x e E) as (e' & E' & _). eapply dget_Some_key; eauto. Qed.

Lemma keys_dset_incl {V} a k (v : V) (d : dict pystr V) : In a (keys d) -> In a (keys (dset k v d)).
Proof.
  intro I. destruct (mem k (keys d)) eqn:M; [apply mem_In in M; rewrite keys_dset_in; auto|apply mem_nIn in M; rewrite keys_dset_out; auto; apply in_or_app; auto].
Qed.

Section Adding.
  Variable m0 : mgr.
  Variable cs : list wcall.
  Hypothesis R0 : reachable m0.
  Hypothesis AD : Forall only_adds cs.
  Definition N (n : nat) : mgr := run (firstn n (map as_wcall cs)) m0.

  Lemma N_reachable n : reachable (N n).
  Proof.
    unfold N, run. generalize (firstn n (map as_wcall cs)). intro l. clear AD. revert R0. generalize m0. induction l as [|c l IH]; cbn; auto.
    intros m R. apply IH. apply reach_call. auto.
  Qed.
  Lemma N_step n c : nth_error cs n = Some c -> N (S n) = fst (exec (as_wcall c) (N n)).
  Proof.
    unfold N, run. clear. revert m0 n. induction cs as [|d l IH]; intros m n E; [destruct n; discriminate|].
    destruct n as [|n]; cbn in E; [injection E as ->; reflexivity|]. cbn [map firstn fold_left]. apply (IH _ n E).
  Qed.
  Lemma N_end n : length cs <= n -> N n = N (length cs).
  Proof. intro L. unfold N. rewrite !firstn_all2; rewrite ?map_length; auto. Qed.

  Definition seen (n : nat) (s : mgr) : Prop :=
    n <= length cs /\ below (ctrans (N n)) (ctrans s) /\ below (ctrans s) (ctrans (N (S n))) /\
    (forall x, In x (keys (ctrans s)) -> In x (keys (ctrans (N n)))) /\
    (forall a b, In a (ids m0) -> In b (ids m0) -> In a (keys (cdict s)) /\ (entry a b s = entry a b (N n) \/ entry a b s = entry a b (N (S n)))).

  (** The managers during one addition of a data ID. *)
  Definition kept (m s : mgr) : Prop :=
    ctrans s = ctrans m /\ forall a b, In a (ids m) -> In b (ids m) -> In a (keys (cdict s)) /\ entry a b s = entry a b m.
  Lemma kept_refl m : kept m m.
  Proof. split; auto. Qed.
  Lemma kept_new m x s : ~ In x (ids m) -> kept m s -> kept m (mkMgr (dset x [] (cdict s)) (ctrans s)).
  Proof.
    intros X [K1 K2]. split; auto. intros a b Ia Ib. destruct (K2 a b Ia Ib) as [J E]. cbn [cdict]. split; [apply keys_dset_incl; auto|].
    unfold entry, dlookup in *. cbn [cdict]. rewrite dget_dset. destruct (eqb_spec a x) as [->|]; [destruct (X Ia)|auto].
  Qed.
  Lemma kept_set m x p q v s : ~ In x (ids m) -> p = x \/ q = x -> kept m s -> kept m (fst (alone (p_set_constraint p q v) s)).
  Proof.
    intros X PQ [K1 K2]. cbn. unfold dlookup at 1. destruct (dget p (cdict s)) as [row|] eqn:G; cbn [rbind]; [|split; auto].
    split; auto. intros a b Ia Ib. destruct (K2 a b Ia Ib) as [J E]. cbn [cdict]. split; [apply keys_dset_incl; auto|].
    unfold entry, dlookup in *. cbn [cdict] in *. rewrite dget_dset. destruct (eqb_spec a p) as [->|]; auto.
    destruct PQ as [PQ|PQ]; [subst p; destruct (X Ia)|subst q]. cbn [rbind]. rewrite dget_dset. destruct (eqb_spec b x) as [->|]; [destruct (X Ib)|].
    rewrite G in E. exact E.
  Qed.
  Definition keeps_it {T} m (p : prog T) : Prop := forall s, kept m s -> (forall x, In x (states p s) -> kept m x) /\ kept m (fst (alone p s)).
  Lemma keeps_for {T} m (l : list T) f : (forall x, keeps_it m (f x)) -> keeps_it m (pfor l f).
  Proof.
    intro H. induction l as [|x l IH]; intros s K; [split; [intros ? []|auto]|]. cbn [pfor]. rewrite states_bind, alone_bind.
    destruct (H x s K) as [H1 H2]. destruct (alone (f x) s) as [s1 [u|e]]; cbn [fst] in *; [|rewrite app_nil_r; auto].
    destruct (IH s1 H2) as [I1 I2]. split; auto. intros y I. apply in_app_iff in I as [I|I]; auto.
  Qed.
  Lemma keeps_set m x p q v : ~ In x (ids m) -> p = x \/ q = x -> keeps_it m (p_set_constraint p q v).
  Proof.
    intros X PQ s K. assert (H := kept_set m x p q v s X PQ K). split; auto. intros y I. cbn in H, I. destruct I as [<-|[]]. exact H.
  Qed.

  Lemma ids_grow n : incl (ids m0) (ids (N n)).
  Proof.
    induction n as [|n IH]; [apply incl_refl|]. destruct (nth_error cs n) as [c|] eqn:E.
    - intros x I. apply IH in I. rewrite (N_step n c E). apply present_step; [apply reachable_inv, N_reachable|].
      assert (OA : only_adds c) by (rewrite Forall_forall in AD; apply AD; eapply nth_error_In; eauto).
      destruct c as [y|y|a b t v|a b]; cbn [only_adds] in OA; try tauto; cbn [as_wcall]; auto.
    - apply nth_error_None in E. rewrite (N_end (S n)) by lia. rewrite <- (N_end n) by lia. exact IH.
  Qed.

  Lemma add_ID_states m x : ~ In x (ids m) -> exists l s r, (forall y, In y l -> kept m y) /\ kept m s /\
    alone (p_add_data_ID x) m = (mkMgr (cdict s) (dset x (fresh_trans x) (ctrans s)), Ok true) /\ states (p_add_data_ID x) m = l ++ [mkMgr (cdict s) (dset x (fresh_trans x) (ctrans s))] \/
    (forall y, In y l -> kept m y) /\ kept m s /\ alone (p_add_data_ID x) m = (s, Raise r) /\ states (p_add_data_ID x) m = l.
  Proof.
    intro X. unfold p_add_data_ID. set (body := fun other : pystr => _).
    assert (KB : forall o, keeps_it m (body o)).
    { intro o. unfold body. destruct (eqb x o); [|destruct (str_ltb x o)]; apply (keeps_set m x); auto. }
    set (m1 := mkMgr (dset x [] (cdict m)) (ctrans m)). assert (K1 : kept m m1) by (apply kept_new; auto; apply kept_refl).
    destruct (keeps_for m (keys (cdict m1)) body KB m1 K1) as [F1 F2].
    rewrite !states_bind, !alone_bind. cbn [p_in_dict pread states alone app fst snd].
    replace (mem x (keys (cdict m))) with false by (symmetry; apply mem_nIn; auto). cbn [negb].
    rewrite !states_bind, !alone_bind. cbn [prequire states alone app]. rewrite !states_bind, !alone_bind. cbn [p_update pwrite states alone app fst snd]. fold m1.
    rewrite !states_bind, !alone_bind. cbn [p_ids pread states alone app fst snd]. rewrite !states_bind, !alone_bind.
    destruct (alone (pfor (keys (cdict m1)) body) m1) as [s [[]|e]]; cbn [fst] in *.
    - rewrite !states_bind, !alone_bind. cbn [p_update pwrite states alone app fst snd].
      exists (m :: m1 :: m1 :: states (pfor (keys (cdict m1)) body) m1), s, KeyError. left. split; [|split; auto].
      intros y [<-|[<-|[<-|I]]]; auto. apply kept_refl.
    - exists (m :: m1 :: m1 :: states (pfor (keys (cdict m1)) body) m1), s, e. right. rewrite app_nil_r. split; [|split; auto].
      intros y [<-|[<-|[<-|I]]]; auto. apply kept_refl.
  Qed.

  Lemma seen_start n : n <= length cs -> below (ctrans (N n)) (ctrans (N (S n))) -> seen n (N n).
  Proof.
    intros L B. split; auto. split; [apply below_refl|]. split; auto. split; auto. intros a b Ia Ib. split; auto. apply (ids_grow n). auto.
  Qed.

  (** During one addition. *)
  Lemma segment n c : nth_error cs n = Some c -> below (ctrans (N n)) (ctrans (N (S n))) /\
    exists e, n <= e <= S n /\ (seen (S n) (N (S n)) -> trail seen n (p_wexec c) (N n) e).
  Proof.
    intro E. assert (L : n < length cs) by (apply nth_error_Some; congruence).
    assert (OA : only_adds c) by (rewrite Forall_forall in AD; apply AD; eapply nth_error_In; eauto).
    assert (Rn := N_reachable n). assert (Iv := reachable_inv _ Rn). assert (St := N_step n c E).
    destruct c as [x|x|a b t v|a b]; cbn [only_adds] in OA; try tauto.
    - assert (AL : alone (p_add_data_ID x) (N n) = add_data_ID x (N n)).
      { destruct (follows_add_ID x (N n)) as [_ F]. rewrite F. apply ends_add_ID. }
      assert (St2 : N (S n) = fst (alone (p_add_data_ID x) (N n))).
      { rewrite St, AL. cbn [as_wcall exec]. unfold bind. destruct (add_data_ID x (N n)) as [m1 [y|e]]; reflexivity. }
      assert (SS : states (p_wexec (WAddID x)) (N n) = states (p_add_data_ID x) (N n)).
      { cbn [p_wexec]. rewrite states_bind. destruct (alone (p_add_data_ID x) (N n)) as [m1 [y|e]]; apply app_nil_r. }
      assert (RA := run_add_data_ID (N n) x Iv). rewrite <- AL in RA. destruct (mem x (ids (N n))) eqn:M.
      + rewrite RA in St2. cbn [fst] in St2. assert (B : below (ctrans (N n)) (ctrans (N (S n)))) by (rewrite St2; apply below_refl). split; auto.
        exists n. split; [lia|]. intros _. apply trail_const. rewrite SS. unfold p_add_data_ID. rewrite !states_bind. cbn [p_in_dict pread states alone app].
        assert (M' : mem x (keys (cdict (N n))) = true) by exact M. rewrite M'. cbn. intros y [<-|[<-|[]]]; apply seen_start; auto; lia.
      + apply mem_nIn in M. destruct RA as (m' & RA & _). destruct (add_ID_states (N n) x M) as (l & s & r & [(F & K & E1 & E2)|(_ & _ & E1 & _)]); [|congruence].
        rewrite E1 in St2. cbn [fst] in St2.
        assert (B : below (ctrans (N n)) (ctrans (N (S n)))).
        { rewrite St2. cbn [ctrans]. rewrite (proj1 K). intros z e Z. exists e. split; [|split; apply incl_refl]. rewrite dget_dset.
          destruct (eqb_spec z x) as [->|]; auto. apply dget_Some_key in Z. rewrite (inv_keys _ Iv) in Z. destruct (M Z). }
        split; auto. exists (S n). split; [lia|]. intro SE. rewrite <- St2 in E2.
        apply (trail_last seen _ n (S n) (N n) l (N (S n))); [rewrite SS; exact E2| |lia|exact SE].
        intros y Iy. assert (Ky : kept (N n) y) by (destruct Iy as [<-|Iy]; [apply kept_refl|auto]). destruct Ky as [Ky1 Ky2].
        split; [lia|]. rewrite Ky1. split; [apply below_refl|]. split; auto. split; auto. intros p q Ip Iq. apply (ids_grow n) in Ip. apply (ids_grow n) in Iq.
        destruct (Ky2 p q Ip Iq). auto.
    - assert (B : below (ctrans (N n)) (ctrans (N (S n))) /\ forall s, interrupted (CallAddConstraint a b t v) (N n) s -> below (ctrans (N n)) (ctrans s) /\ below (ctrans s) (ctrans (N (S n)))).
      { destruct (climbs_add (N n) a b t v Rn) as [C1 C2].
        assert (E2 : N (S n) = fst (snd (w_add_constraint a b t v (N n)))).
        { rewrite St, (ends_add a b t v (N n)). cbn [as_wcall exec]. unfold bind. destruct (add_constraint a b t v (N n)) as [m1 [y|e]]; reflexivity. }
        rewrite E2. split; auto. intros s [<-|I]; [split; auto; apply below_refl|].
        cbn [w_exec] in I. destruct (trace_ret (w_add_constraint a b t v) VBool (N n)) as [T _]. rewrite T in I. apply C1. auto. }
      destruct B as [B1 B2]. split; auto. exists n. split; [lia|]. intros _. apply trail_const.
      intros s I. assert (J : interrupted (CallAddConstraint a b t v) (N n) s).
      { destruct I as [<-|I]; [left; auto|]. destruct (follows_wexec (WAdd a b t v) (N n)) as [F _]. apply F in I. exact I. }
      destruct (B2 s J) as [S1 S2].
      assert (DD : s = N n \/ cdict s = cdict (N (S n))).
      { rewrite St. apply (pair_dictionary _ a b); auto. right. exists t, v. reflexivity. }
      split; [lia|]. split; auto. split; auto. split.
      + intros y Iy. apply (below_key _ _ _ S2) in Iy.
        rewrite (inv_keys _ (reachable_inv _ (N_reachable (S n)))), St in Iy. rewrite (inv_keys _ Iv). apply present_step in Iy; auto.
      + intros p q Ip Iq. apply (ids_grow n) in Ip as Ip1. apply (ids_grow (S n)) in Ip as Ip2.
        destruct DD as [->|DD]; [auto|]. unfold entry. rewrite DD. auto.
  Qed.

  Lemma seen_end n : n <= length cs -> seen n (N n).
  Proof.
    intro L. apply seen_start; auto. destruct (nth_error cs n) as [c|] eqn:E; [apply (segment n c E)|].
    apply nth_error_None in E. rewrite (N_end (S n)), (N_end n) by lia. apply below_refl.
  Qed.

  Lemma session_trail ds n : ds = skipn n cs -> n <= length cs -> exists e, trail seen n (p_wsession ds) (N n) e.
  Proof.
    revert n. induction ds as [|c ds IH]; intros n E L.
    - exists n. cbn. split; [|split]; auto; apply seen_end; auto.
    - assert (X : nth_error cs n = Some c /\ ds = skipn (S n) cs).
      { clear - E. revert n E. induction cs as [|d l IH]; intros n E; [destruct n; discriminate|]. destruct n as [|n]; cbn in *; [injection E as -> ->; auto|apply IH; auto]. }
      destruct X as [X1 X2]. assert (L2 : S n <= length cs) by (apply nth_error_Some; congruence).
      destruct (segment n c X1) as (_ & e & Le & T). specialize (T (seen_end _ L2)). destruct (IH (S n) X2 L2) as [e2 T2].
      exists e2. cbn [p_wsession]. apply (trail_bind seen _ _ n (N n) (S n)).
      + assert (G : forall p : prog value, forall k m, trail seen k p m e -> fst (alone p m) = N (S n) -> trail seen k (pcatch p) m (S n)).
        { induction p as [r|f g IHp]; intros k m Tr EQ; cbn in *.
          - destruct Tr as (P1 & L3 & P2). subst m. split; auto. split; [lia|apply seen_end; auto].
          - destruct Tr as (P1 & n' & L3 & Tr). split; auto. exists n'. split; auto. }
        apply G; auto. rewrite C145_alone_proof. symmetry. apply N_step. auto.
      + rewrite alone_catch. cbn [fst snd]. rewrite C145_alone_proof, <- (N_step n c X1).
        apply (trail_bind seen _ _ (S n) (N (S n)) e2); auto.
        destruct (alone (p_wsession ds) (N (S n))) as [m1 [rs|x]] eqn:AE; auto. cbn.
        assert (Pe : seen e2 m1).
        { revert T2 AE. generalize (p_wsession ds) (S n) (N (S n)). induction p as [r|f g IHp]; intros k m Tr EQ; cbn in *.
          - injection EQ as -> _. tauto.
          - destruct Tr as (_ & n' & _ & Tr). eauto. }
        auto.
  Qed.

  (** ** What the questions return *)
  Lemma N_min n : n <= length cs -> exists n', n <= n' <= length cs /\ pred n' <= n /\ N n' = N (S n).
  Proof.
    intro L. destruct (Nat.eq_dec n (length cs)) as [->|D]; [exists (length cs)|exists (S n)]; repeat split; try lia. symmetry. apply N_end. lia.
  Qed.
  Lemma N_below n n' : n <= n' -> below (ctrans (N n)) (ctrans (N n')).
  Proof.
    induction 1 as [|k L IH]; [apply below_refl|]. eapply below_trans; [exact IH|]. destruct (Nat.le_gt_cases k (length cs)) as [Q|Q].
    - destruct (seen_end k Q) as (_ & _ & B & _). exact B.
    - rewrite (N_end (S k)), (N_end k) by lia. apply below_refl.
  Qed.

  Lemma ask_inferred n a b : snd (get_inferred_constraint a b (N n)) =
    if mem a (keys (ctrans (N n))) && mem b (keys (ctrans (N n))) then Ok (infer (N n) a b) else Raise ValueError.
  Proof. assert (Iv := reachable_inv _ (N_reachable n)). rewrite run_inferred by auto. unfold both. rewrite (inv_keys _ Iv). reflexivity. Qed.

  Lemma inferred_right lo a b r hi : watch seen lo (p_get_inferred_constraint a b) r hi ->
    exists n, lo <= n <= length cs /\ pred n <= hi /\ r = snd (get_inferred_constraint a b (N n)).
  Proof.
    intro H. unfold p_get_inferred_constraint in H.
    apply watch_bind in H as (x1 & n1 & H1 & H). apply watch_read in H1 as (L1 & s1 & P1 & ->).
    apply watch_bind in H as (x2 & n2 & H2 & H). apply watch_require in H2 as (<- & ->).
    assert (B1 := proj1 P1). assert (C1 := proj1 (proj2 P1)). assert (K1 := proj1 (proj2 (proj2 (proj2 P1)))).
    destruct (mem a (keys (ctrans s1))) eqn:M1.
    2:{ destruct H as [-> <-]. exists n1. split; [lia|]. split; [lia|]. rewrite ask_inferred.
        destruct (mem a (keys (ctrans (N n1)))) eqn:Q; auto. apply mem_In in Q. apply (below_key _ _ _ C1) in Q. apply mem_In in Q. congruence. }
    apply watch_bind in H as (x3 & n2 & H3 & H). apply watch_read in H3 as (L2 & s2 & P2 & ->).
    apply watch_bind in H as (x4 & n3 & H4 & H). apply watch_require in H4 as (<- & ->).
    assert (B2 := proj1 P2). assert (C2 := proj1 (proj2 P2)). assert (K2 := proj1 (proj2 (proj2 (proj2 P2)))).
    destruct (mem b (keys (ctrans s2))) eqn:M2.
    2:{ destruct H as [-> <-]. exists n2. split; [lia|]. split; [lia|]. rewrite ask_inferred.
        destruct (mem b (keys (ctrans (N n2)))) eqn:Q; [|rewrite andb_false_r; auto]. apply mem_In in Q. apply (below_key _ _ _ C2) in Q. apply mem_In in Q. congruence. }
    apply mem_In in M1, M2. apply K1 in M1. apply K2 in M2.
    apply watch_bind in H as (x5 & n3 & H5 & H). apply watch_read in H5 as (L3 & s3 & P3 & ->).
    destruct P3 as (B3 & C3 & D3 & K3 & _).
    assert (A3 : In a (keys (ctrans (N n3)))) by (eapply below_key; [|exact M1]; apply N_below; lia).
    assert (I3 : In b (keys (ctrans (N n3)))) by (eapply below_key; [|exact M2]; apply N_below; lia).
    assert (S3 := below_key _ _ _ C3 I3). apply dget_In_key in S3 as [e3 E3]. unfold dlookup in H. rewrite E3 in H. cbn [rbind] in H.
    assert (UP : forall n e, n3 <= n -> dget b (ctrans (N n)) = Some e -> In a (t_ml e) \/ In a (t_cl e) -> n <= length cs ->
      snd (get_inferred_constraint a b (N n)) = Ok (Some (if mem a (t_ml e) then MUST_LINK else CANNOT_LINK))).
    { intros n e Ln E Q _. rewrite ask_inferred. replace (mem a (keys (ctrans (N n)))) with true by (symmetry; apply mem_In; eapply below_key; [apply N_below; exact Ln|auto]).
      replace (mem b (keys (ctrans (N n)))) with true by (symmetry; apply mem_In; eapply dget_Some_key; eauto). cbn [andb]. unfold infer. rewrite E.
      destruct (mem a (t_ml e)) eqn:Me; auto. destruct Q as [Q|Q]; [apply mem_In in Q; congruence|]. apply mem_In in Q. rewrite Q. auto. }
    destruct (mem a (t_ml e3)) eqn:M3.
    { inversion H; subst. destruct (N_min _ B3) as (n' & L' & L'' & EN). exists n'. split; [lia|]. split; [lia|].
      destruct (D3 b e3 E3) as (e' & E' & Q1 & _). rewrite <- EN in E'. apply mem_In in M3. apply Q1 in M3.
      rewrite (UP n' e'); auto; [|lia|lia]. apply mem_In in M3. rewrite M3. auto. }
    apply watch_bind in H as (x6 & n4 & H6 & H). apply watch_read in H6 as (L4 & s4 & P4 & ->).
    destruct P4 as (B4 & C4 & D4 & K4 & _).
    assert (I4 : In b (keys (ctrans (N n4)))) by (eapply below_key; [|exact I3]; apply N_below; lia).
    assert (S4 := below_key _ _ _ C4 I4). apply dget_In_key in S4 as [e4 E4]. unfold dlookup in H. rewrite E4 in H. cbn [rbind] in H.
    destruct (mem a (t_cl e4)) eqn:M4; inversion H; subst.
    - destruct (N_min _ B4) as (n' & L' & L'' & EN). exists n'. split; [lia|]. split; [lia|].
      destruct (D4 b e4 E4) as (e' & E' & _ & Q2). rewrite <- EN in E'. apply mem_In in M4. apply Q2 in M4.
      rewrite (UP n' e'); auto; [|lia|lia]. destruct (mem a (t_ml e')) eqn:M5; auto. exfalso. apply mem_In in M5.
      assert (Rp := proj2 (proj2 (reachable_inv _ (N_reachable n')))). apply (rep_ml _ _ _ Rp b e' E') in M5. apply (rep_cl _ _ _ Rp b e' E') in M4.
      apply (rep_cons _ _ _ Rp a). eapply separated_linked_l; eauto.
    - exists n3. split; [lia|]. split; [lia|]. rewrite ask_inferred.
      replace (mem a (keys (ctrans (N n3)))) with true by (symmetry; apply mem_In; auto). replace (mem b (keys (ctrans (N n3)))) with true by (symmetry; apply mem_In; auto).
      cbn [andb]. unfold infer. apply dget_In_key in I3 as [f3 F3]. rewrite F3.
      destruct (C3 b f3 F3) as (g & G & Q1 & _). rewrite E3 in G. injection G as <-.
      destruct (mem a (t_ml f3)) eqn:Z1; [apply mem_In in Z1; apply Q1 in Z1; apply mem_In in Z1; congruence|].
      destruct (mem a (t_cl f3)) eqn:Z2; auto. apply mem_In in Z2. destruct (N_below n3 hi L4 b f3 F3) as (g & G & _ & Q2). apply Q2 in Z2.
      destruct (C4 b g G) as (g' & G' & _ & Q3). rewrite E4 in G'. injection G' as <-. apply Q3 in Z2. apply mem_In in Z2. congruence.
  Qed.

  Lemma added_right lo a b r hi : In a (ids m0) -> In b (ids m0) -> watch seen lo (p_get_added_constraint a b) r hi ->
    exists n, lo <= n <= length cs /\ pred n <= hi /\ r = snd (get_added_constraint a b (N n)).
  Proof.
    intros Ia Ib H. assert (Ent : forall n, snd (get_added_constraint a b (N n)) = if str_leb a b then entry a b (N n) else entry b a (N n)).
    { intro n. rewrite <- does_added. unfold p_get_added_constraint. rewrite !alone_bind. cbn [p_in_dict pread alone].
      assert (Ja := ids_grow n _ Ia). assert (Jb := ids_grow n _ Ib). apply mem_In in Ja, Jb. change (mem a (keys (cdict (N n))) = true) in Ja. change (mem b (keys (cdict (N n))) = true) in Jb.
      rewrite Ja. rewrite !alone_bind. cbn. rewrite Jb. cbn. destruct (str_leb a b); reflexivity. }
    unfold p_get_added_constraint in H.
    apply watch_bind in H as (x1 & n1 & H1 & H). apply watch_read in H1 as (L1 & s1 & P1 & ->).
    apply watch_bind in H as (x2 & n2 & H2 & H). apply watch_require in H2 as (<- & ->).
    destruct P1 as (_ & _ & _ & _ & P1). destruct (P1 a a Ia Ia) as [J1 _]. apply mem_In in J1. rewrite J1 in H.
    apply watch_bind in H as (x3 & n2 & H3 & H). apply watch_read in H3 as (L2 & s2 & P2 & ->).
    apply watch_bind in H as (x4 & n3 & H4 & H). apply watch_require in H4 as (<- & ->).
    destruct P2 as (_ & _ & _ & _ & P2). destruct (P2 b b Ib Ib) as [J2 _]. apply mem_In in J2. rewrite J2 in H.
    assert (G : forall p q, In p (ids m0) -> In q (ids m0) -> watch seen n2 (p_get_constraint p q) r hi -> exists n, lo <= n <= length cs /\ pred n <= hi /\ r = entry p q (N n)).
    { intros p q Ip Iq W. apply watch_read in W as (L3 & s3 & P3 & ->). destruct P3 as (B3 & _ & _ & _ & P3). destruct (P3 p q Ip Iq) as [_ [E|E]].
      - exists hi. split; [lia|]. split; [lia|]. exact E.
      - destruct (N_min _ B3) as (n' & L' & L'' & EN). exists n'. split; [lia|]. split; [lia|]. rewrite EN. exact E. }
    destruct (str_leb a b); apply G in H as (n & L & L' & ->); auto; exists n; rewrite Ent; auto.
  Qed.
End Adding.

Lemma right_lower cs m lo lo' qs rs : lo' <= lo -> right_at_times cs m lo qs rs -> right_at_times cs m lo' qs rs.
Proof. intros L H. destruct H; econstructor; eauto. lia. Qed.

Lemma silent_catch {T} (p : prog T) : silent p -> silent (pcatch p).
Proof. induction p as [r|f g IH]; cbn; auto. intros [H1 H2]. split; auto. Qed.
Lemma silent_session m qs : Forall (only_asks m) qs -> silent (p_session qs).
Proof.
  induction 1 as [|q qs Q F IH]; cbn [p_session]; [exact I|]. apply silent_bind.
  - apply silent_catch. destruct q; cbn [only_asks p_exec] in *; [tauto| |]; (apply silent_bind; [|intro; exact I]); [apply silent_added|apply silent_inferred].
  - intro r. apply silent_bind; auto. intro. exact I.
Qed.

Lemma watch_catch {T} (P : nat -> mgr -> Prop) (p : prog T) lo r hi : watch P lo (pcatch p) r hi -> exists x, r = Ok x /\ watch P lo p x hi.
Proof.
  revert lo. induction p as [x|f g IH]; intros lo H; cbn [pcatch] in H.
  - inversion H; subst. exists x. split; auto. constructor.
  - inversion H as [|? ? ? ? ? ? ? L1 P1 W0]; subst. apply IH in W0 as (x & -> & W). exists x. split; auto. econstructor; eauto.
Qed.

Lemma questions_right m cs qs lo r hi : reachable m -> Forall only_adds cs -> Forall (only_asks m) qs -> watch (seen m cs) lo (p_session qs) r hi ->
  exists rs, r = Ok rs /\ right_at_times (map as_wcall cs) m lo qs rs.
Proof.
  intros R AD F. revert lo r hi. induction F as [|q qs Q F IH]; intros lo r hi H; cbn [p_session] in H.
  - inversion H; subst. exists []. split; auto. constructor.
  - apply watch_bind in H as (x & n1 & H1 & H). apply watch_catch in H1 as (y & -> & H1).
    apply watch_bind in H as (z & n2 & H2 & H). apply IH in H2 as (rs & -> & RS). inversion H; subst.
    exists (y :: rs). split; auto.
    assert (X : exists n, lo <= n <= length cs /\ pred n <= n1 /\ y = answer_after (map as_wcall cs) m n q).
    { destruct q as [a b t v|a b|a b]; cbn [only_asks p_exec] in *; [tauto| |].
      - apply watch_bind in H1 as (u & n3 & H3 & H1). destruct Q as [Qa Qb]. apply managed_ids in Qa, Qb.
        apply (added_right m cs R AD) in H3 as (n & L & L' & ->); auto.
        assert (n3 = n1) by (destruct (snd (get_added_constraint a b (N m cs n))); [inversion H1|destruct H1]; auto). subst n3.
        exists n. split; auto. split; auto. unfold answer_after. cbn [as_call exec]. unfold bind, ret. fold (N m cs n).
        destruct (get_added_constraint a b (N m cs n)) as [m1 [o|e]]; cbn [snd] in *; [inversion H1|destruct H1]; auto.
      - apply watch_bind in H1 as (u & n3 & H3 & H1).
        apply (inferred_right m cs R AD) in H3 as (n & L & L' & ->); auto.
        assert (n3 = n1) by (destruct (snd (get_inferred_constraint a b (N m cs n))); [inversion H1|destruct H1]; auto). subst n3.
        exists n. split; auto. split; auto. unfold answer_after. cbn [as_call exec]. unfold bind, ret. fold (N m cs n).
        destruct (get_inferred_constraint a b (N m cs n)) as [m1 [o|e]]; cbn [snd] in *; [inversion H1|destruct H1]; auto. }
    destruct X as (n & L & L' & E). apply (question _ _ lo n); auto; [rewrite map_length; auto|]. eapply right_lower; eauto.
Qed.

Lemma alone_wsession cs m : alone (p_wsession cs) m = (run (map as_wcall cs) m, Ok (snd (one_by_one (map as_wcall cs) m))).
Proof.
  revert m. induction cs as [|c cs IH]; intro m; cbn [p_wsession map one_by_one]; [reflexivity|].
  rewrite alone_bind, alone_catch, C145_alone_proof. unfold run. cbn [fold_left]. fold (run (map as_wcall cs) (fst (exec (as_wcall c) m))).
  destruct (exec (as_wcall c) m) as [m1 r]. cbn [fst snd].
  rewrite alone_bind, IH. destruct (one_by_one (map as_wcall cs) m1) as [m2 rs]. reflexivity.
Qed.

(*PROP C145, partial: one thread adds data and constraints, any number of calls, and any number of other threads ask any number of questions about inferred constraints, and about
    added constraints of data that are managed from the start.  However their reads and writes are interleaved, the changes end as when they are made alone, and every
    question is answered as it is after some number of the changes; from one question to the next of the same thread this number goes back by one at most. *)
Lemma C145_additions_partial_proof : forall m cs qss m' r rss,
    reachable m -> Forall only_adds cs -> Forall (Forall (only_asks m)) qss ->
    interleaved m (p_wsession cs :: map p_session qss) m' (r :: rss) ->
    m' = run (map as_wcall cs) m /\ r = Ok (snd (one_by_one (map as_wcall cs) m)) /\
    Forall2 (fun qs rs => exists answers, rs = Ok answers /\ right_at_times (map as_wcall cs) m 0 qs answers) qss rss.
Proof.
  intros m cs qss m' r rss R AD F I. destruct (session_trail m cs R AD cs 0 eq_refl (Nat.le_0_l _)) as [e T].
  destruct (silent_watch (seen m cs) m (p_wsession cs) (map p_session qss) m' r rss 0 e I) as [E W]; auto.
  { apply Forall_forall. intros p J. apply in_map_iff in J as (qs & <- & J). rewrite Forall_forall in F. eapply silent_session; eauto. }
  rewrite alone_wsession in E. injection E as <- <-. split; auto. split; auto.
  clear I T. revert rss W. induction F as [|qs qss Q F IH]; intros rss W; inversion W as [|? ? ? ? [hi H] W']; subst; constructor; auto.
  eapply questions_right; eauto.
Qed.
(*EX
(** One thread adds D and tells that D and C must link, and that A and C cannot; another one asks meanwhile.  D is unknown, then C is linked to D, but D not yet to C, and in the end D cannot link with B. *)
Definition news : list wcall := [WAddID D; WAdd D C MUST_LINK 1%Q; WAdd C A CANNOT_LINK 1%Q].
Definition asks : list tcall := [TGetInferred C D; TGetInferred C D; TGetInferred D C; TGetAdded A C; TGetInferred D B].
Definition answers : list (res value) := [Raise ValueError; Ok (VInferred (Some MUST_LINK)); Ok (VInferred None); Ok (VAdded None); Ok (VInferred (Some CANNOT_LINK))].
Example C145_additions_ex : Forall only_adds news /\ Forall (Forall (only_asks ex)) [asks] /\
  (exists m', interleaved ex (p_wsession news :: map p_session [asks]) m' [Ok [Ok (VBool true); Ok (VBool true); Ok (VBool true)]; Ok answers]) /\
  right_at_times (map as_wcall news) ex 0 asks answers.
Proof.
  split; [repeat constructor|]. split.
  - assert (M : forall x, In x [A; B; C] -> managed ex x) by (intros x I; apply managed_ids; destruct I as [<-|[<-|[<-|[]]]]; vm_compute; auto).
    repeat constructor; apply M; cbn; auto.
  - split.
    + eexists. apply (play_interleaved (repeat 1 2 ++ repeat 0 23 ++ repeat 1 10 ++ repeat 0 23 ++ repeat 1 4)). vm_compute. reflexivity.
    + apply (question _ _ 0 0); [cbn; auto with arith|reflexivity|]. apply (question _ _ 0 2); [cbn; auto with arith|reflexivity|].
      apply (question _ _ 1 1); [cbn; auto with arith|reflexivity|]. apply (question _ _ 0 2); [cbn; auto with arith|reflexivity|].
      apply (question _ _ 1 3); [cbn; auto with arith|reflexivity|]. constructor.
Qed.
EX*)

(*PROP C145, refuted: the answers that one thread gets one after the other need not be right at one moment.  While another thread adds a = b, it is told that b and a must link, and then
    that nothing is known of a and b. *)
Lemma C145_order_refuted_proof :
  exists ids a b m',
    interleaved (init ids) [p_wsession [WAdd a b MUST_LINK 1%Q]; p_session [TGetInferred b a; TGetInferred a b]] m'
      [Ok [Ok (VBool true)]; Ok [Ok (VInferred (Some MUST_LINK)); Ok (VInferred None)]].
Proof.
  exists [A; B], A, B. eexists. apply (play_interleaved (repeat 0 15 ++ repeat 1 7 ++ repeat 0 3)). vm_compute. reflexivity.
Qed.

(*PROP C145, refuted for deletions: while another thread deletes the constraint of c and d, a thread is told that nothing is known of a and b, which must link before and after. *)
Lemma C145_deletion_refuted_proof :
  exists m a b c d m',
    reachable m /\ ask (get_inferred_constraint a b) m = Ok (Some MUST_LINK) /\ ask (get_inferred_constraint a b) m' = Ok (Some MUST_LINK) /\
    interleaved m [p_wsession [WDelete c d]; p_session [TGetInferred a b]] m' [Ok [Ok (VBool true)]; Ok [Ok (VInferred None)]].
Proof.
  set (m := run [CallAddConstraint A B MUST_LINK 1%Q; CallAddConstraint C (str "d") MUST_LINK 1%Q] (init [A; B; C; str "d"])).
  exists m, A, B, C, (str "d"), (fst (exec (CallDeleteConstraint C (str "d")) m)).
  split; [apply run_reachable|]. split; [vm_compute; reflexivity|]. split; [vm_compute; reflexivity|].
  apply (play_interleaved (repeat 0 4 ++ repeat 1 4 ++ repeat 0 (length (states (p_wexec (WDelete C (str "d"))) m) - 4))). vm_compute. reflexivity.
Qed.

(*PROP C145, refuted for deletions of data: a question about a data that is being deleted can raise a KeyError, which the documentation does not mention. *)
Lemma C145_deleted_ID_refuted_proof :
  exists ids a b m',
    interleaved (init ids) [p_wsession [WDeleteID b]; p_session [TGetInferred a b]] m' [Ok [Ok (VBool true)]; Ok [Raise KeyError]].
Proof.
  exists [A; B], A, B. eexists. apply (play_interleaved (repeat 1 2 ++ repeat 0 (length (states (p_wexec (WDeleteID B)) (init [A; B]))) ++ [1])). vm_compute. reflexivity.
Qed.

(*PROP C145, refuted for added constraints of new data: a question about the added constraint of a data that is being added can raise a KeyError. *)
Lemma C145_new_ID_refuted_proof :
  exists ids a b m',
    interleaved (init ids) [p_wsession [WAddID b]; p_session [TGetAdded a b]] m' [Ok [Ok (VBool true)]; Ok [Raise KeyError]].
Proof.
  exists [A], A, B. eexists. apply (play_interleaved (repeat 0 2 ++ repeat 1 3 ++ repeat 0 4)). vm_compute. reflexivity.
Qed.
