(** * Changes that are interrupted half way (C135) *)

From Coq Require Import String List Bool Arith ZArith QArith Lia.
(*HEADER
From Coq Require Import String List Bool Arith ZArith QArith.
From Verif Require Import Base Manager Spec ManagerThms Json ResumeSpec UndoSpec Interrupt InterruptSpec InterruptThms.
Import ListNotations.
Open Scope nat_scope.

Definition A : pystr := str "a".
Definition B : pystr := str "b".
Definition C : pystr := str "c".
Definition E : pystr := str "d".
Definition ex : mgr := run [CallAddConstraint A B MUST_LINK 1%Q; CallAddConstraint C E MUST_LINK 1%Q; CallAddConstraint A A MUST_LINK 1%Q] (init [C; B; A; E]).
Definition link : call := CallAddConstraint C B CANNOT_LINK 1%Q.
Definition half (c : call) (n : nat) : mgr := nth n (fst (w_exec c ex)) ex.
Lemma ex_reachable : reachable ex. Proof. apply run_reachable. Qed.
Lemma half_interrupted c n : interrupted c ex (half c n).
Proof.
  unfold interrupted, half. destruct (nth_in_or_default n (fst (w_exec c ex)) ex) as [H|H]; [right|left]; auto.
Qed.
HEADER*)
From Verif Require Import Base Manager Spec Closure ManagerProofs ManagerInv ManagerQueries ManagerSem ManagerThms Json JsonSpec JsonThms SameSpec ResumeSpec ResumeThms UndoSpec UndoThms Interrupt InterruptSpec.
Import ListNotations.
Open Scope nat_scope.

(** ** The traced methods end as the others *)
Definition ends {A} (w : W A) (p : M mgr A) : Prop := forall m, snd (w m) = p m.

Lemma ends_quiet {A} (p : M mgr A) : ends (quiet p) p.
Proof. intro m. reflexivity. Qed.
Lemma ends_write f : ends (write f) (modify f).
Proof. intro m. reflexivity. Qed.
Lemma ends_bind {A B} (w : W A) p (k : A -> W B) k' : ends w p -> (forall a, ends (k a) (k' a)) -> ends (wbind w k) (bind p k').
Proof.
  intros E K m. unfold wbind, bind. rewrite <- E. destruct (w m) as [l [m1 [a|e]]]; cbn [snd]; [|reflexivity].
  rewrite <- K. destruct (k a m1). reflexivity.
Qed.
Lemma ends_for {A} (l : list A) f g : (forall a, ends (f a) (g a)) -> ends (wfor l f) (for_ l g).
Proof. intro H. induction l as [|x l IH]; cbn [wfor for_]; [apply ends_quiet|]. apply ends_bind; auto. Qed.
Lemma ends_row a : ends (quiet (bind (gets (fun m => dlookup a (cdict m))) lift)) (bind (gets (fun m => dlookup a (cdict m))) (fun r => lift r)).
Proof. apply ends_quiet. Qed.

Lemma ends_assoc {A B C} (w : W C) (p : M mgr A) (k : A -> M mgr B) (k' : B -> M mgr C) :
  ends w (bind (bind p k) k') -> ends w (bind p (fun a => bind (k a) k')).
Proof. intros E m. rewrite E. unfold bind. destruct (p m) as [m1 [a|e]]; auto. Qed.

Lemma ends_set_constraint a b v : ends (w_set_constraint a b v) (set_constraint a b v).
Proof. apply ends_assoc. apply ends_bind; [apply ends_quiet|]. intro. apply ends_write. Qed.
Lemma ends_set_ml a l : ends (w_set_ml a l) (set_ml a l).
Proof. apply ends_bind; [apply ends_quiet|]. intro. apply ends_write. Qed.
Lemma ends_set_cl a l : ends (w_set_cl a l) (set_cl a l).
Proof. apply ends_bind; [apply ends_quiet|]. intro. apply ends_write. Qed.

Ltac ends_step :=
  first [apply ends_quiet | apply ends_write | apply ends_set_constraint | apply ends_set_ml | apply ends_set_cl
        |apply ends_for; intro | apply ends_bind; [|intro] | match goal with |- ends (if ?b then _ else _) _ => destruct b end
        |match goal with |- ends (match ?b with Some _ => _ | None => _ end) _ => destruct b end].

Lemma ends_transitivity a b t : ends (w_add_constraint_transitivity a b t) (add_constraint_transitivity a b t).
Proof. unfold w_add_constraint_transitivity, add_constraint_transitivity. apply ends_bind; [|intro; apply ends_quiet]. destruct (eqb t MUST_LINK); repeat ends_step. Qed.
Lemma ends_generate : ends w_generate_constraints_transitivity generate_constraints_transitivity.
Proof.
  unfold w_generate_constraints_transitivity, generate_constraints_transitivity. repeat ends_step.
  apply ends_assoc. repeat first [apply ends_transitivity|ends_step].
Qed.
Lemma ends_add_ID x : ends (w_add_data_ID x) (add_data_ID x).
Proof. unfold w_add_data_ID, add_data_ID. repeat ends_step. Qed.
Lemma ends_delete_ID x : ends (w_delete_data_ID x) (delete_data_ID x).
Proof.
  unfold w_delete_data_ID, delete_data_ID. repeat first [apply ends_generate|ends_step].
  apply ends_assoc. repeat ends_step.
Qed.
Lemma ends_add a b t v : ends (w_add_constraint a b t v) (add_constraint a b t v).
Proof.
  unfold w_add_constraint, add_constraint. repeat first [apply ends_transitivity|ends_step].
Qed.
Lemma ends_delete a b : ends (w_delete_constraint a b) (delete_constraint a b).
Proof. unfold w_delete_constraint, delete_constraint. repeat first [apply ends_generate|ends_step]. Qed.

(*PROP C135: the methods that list the managers they pass through end with the manager and the result of the methods of the other theorems. *)
Lemma C135_same_calls_proof : forall c m, snd (w_exec c m) = exec c m.
Proof.
  intros c m. assert (E : ends (w_exec c) (exec c)); [|apply E].
  destruct c; cbn [w_exec]; try apply ends_quiet; unfold exec; apply ends_bind; try (intro; apply ends_quiet);
    [apply ends_add_ID|apply ends_delete_ID|apply ends_add|apply ends_delete].
Qed.
(*EX
(** The addition of a CANNOT_LINK between two components of two makes five writes; deleting an ID makes more. *)
Example C135_same_calls_ex : length (fst (w_exec link ex)) = 5 /\ length (fst (w_exec (CallDeleteDataID B) ex)) = 17 /\
  half link 4 = fst (exec link ex) /\ half link 3 <> half link 4 /\ half link 2 <> half link 3 /\ half link 1 <> half link 2 /\ half link 0 <> ex.
Proof. repeat split; try (vm_compute; reflexivity); vm_compute; discriminate. Qed.
EX*)

(** ** Properties of all the managers a method passes through *)
Definition stays (P : mgr -> Prop) {A} (w : W A) : Prop :=
  forall m, P m -> (forall m', In m' (fst (w m)) -> P m') /\ P (fst (snd (w m))).

Definition reads {A} (p : M mgr A) : Prop := forall m, fst (p m) = m.
Lemma stays_quiet P {A} (p : M mgr A) : reads p -> stays P (quiet p).
Proof. intros E m H. split; [intros m' []|]. cbn. rewrite E. auto. Qed.
Lemma stays_write (P : mgr -> Prop) f : (forall m, P m -> P (f m)) -> stays P (write f).
Proof. intros E m H. split; [intros m' [<-|[]]|]; apply E; auto. Qed.
Lemma stays_bind (P : mgr -> Prop) {A B} (w : W A) (k : A -> W B) : stays P w -> (forall a, stays P (k a)) -> stays P (wbind w k).
Proof.
  intros Hw K m H. unfold wbind. assert (X := Hw m H). destruct (w m) as [l [m1 [a|e]]]; cbn [fst snd] in *; [|auto].
  destruct X as [X1 X2]. assert (Y := K a m1 X2). destruct (k a m1) as [l' e]. cbn [fst snd] in *. destruct Y as [Y1 Y2].
  split; [|auto]. intros m' I. apply in_app_iff in I. destruct I; auto.
Qed.
Lemma stays_for (P : mgr -> Prop) {A} (l : list A) f : (forall a, In a l -> stays P (f a)) -> stays P (wfor l f).
Proof.
  induction l as [|x l IH]; intro H; cbn [wfor]; [apply stays_quiet; intro; reflexivity|].
  apply stays_bind; [apply H; left; auto|]. intro. apply IH. intros. apply H. right. auto.
Qed.

Lemma reads_bind {A B} (p : M mgr A) (k : A -> M mgr B) : reads p -> (forall a, reads (k a)) -> reads (bind p k).
Proof. intros R K m. unfold bind. specialize (R m). destruct (p m) as [m1 [a|e]]; cbn [fst] in *; subst; auto. apply K. Qed.
Lemma reads_ret {A} (a : A) : reads (ret a). Proof. intro; reflexivity. Qed.
Lemma reads_gets {A} (f : mgr -> A) : reads (gets f). Proof. intro; reflexivity. Qed.
Lemma reads_lift {A} (r : res A) : reads (lift r). Proof. intro; reflexivity. Qed.
Lemma reads_require b : @reads unit (require b). Proof. intro; destruct b; reflexivity. Qed.
Ltac read := repeat first [apply reads_ret|apply reads_gets|apply reads_lift|apply reads_require|apply reads_bind; [|intro]
                          |match goal with |- reads (if ?b then _ else _) => destruct b end
                          |match goal with |- reads (match ?b with Some _ => _ | None => _ end) => destruct b end].
Lemma reads_trans a : reads (get_trans a). Proof. unfold get_trans. read. Qed.
Lemma reads_constraint a b : reads (get_constraint a b). Proof. unfold get_constraint. read. Qed.
Lemma reads_in_dict a : reads (in_dict a). Proof. unfold in_dict. read. Qed.
Lemma reads_inferred a b : reads (get_inferred_constraint a b).
Proof. unfold get_inferred_constraint, in_trans. read; apply reads_trans. Qed.
Lemma reads_added a b : reads (get_added_constraint a b).
Proof. unfold get_added_constraint, in_dict. read; apply reads_constraint. Qed.

(** [P] looks at the dictionary only. *)
Section Dictionary.
  Variable D : dict pystr (dict pystr (option constr)).
  Let same (m : mgr) : Prop := cdict m = D.
  Ltac same_step :=
    first [apply stays_quiet; first [apply reads_trans|apply reads_constraint|apply reads_in_dict|read]
          |apply stays_write; intros ? ?; assumption
          |apply stays_for; intros ? _|apply stays_bind; [|intro]
          |match goal with |- stays _ (if ?b then _ else _) => destruct b end
          |match goal with |- stays _ (match ?b with Some _ => _ | None => _ end) => destruct b end].
  Lemma same_transitivity a b t : stays same (w_add_constraint_transitivity a b t).
  Proof. unfold w_add_constraint_transitivity, w_set_ml, w_set_cl. cbv zeta. repeat same_step. Qed.
  Lemma same_generate : stays same w_generate_constraints_transitivity.
  Proof. unfold w_generate_constraints_transitivity. repeat first [apply same_transitivity|same_step]. Qed.
End Dictionary.

Lemma bind_quiet {A B} (p : M mgr A) (k : A -> W B) m : reads p ->
  wbind (quiet p) k m = match snd (p m) with Ok a => k a m | Raise e => ([], (m, Raise e)) end.
Proof.
  intro R. unfold wbind, quiet. specialize (R m). destruct (p m) as [m1 [a|e]]; cbn [fst snd] in *; subst; auto.
  destruct (k a m). reflexivity.
Qed.

(** ** Constraints *)

(** Every manager after a write already has the dictionary of the end. *)
Definition settles {A} (w : W A) (m : mgr) : Prop := forall m', In m' (fst (w m)) -> cdict m' = cdict (fst (snd (w m))).

Lemma settles_quiet {A} (p : M mgr A) m : settles (quiet p) m.
Proof. intros m' []. Qed.
Lemma settles_bind_quiet {A B} (p : M mgr A) (k : A -> W B) m : reads p -> (forall a, settles (k a) m) -> settles (wbind (quiet p) k) m.
Proof. intros R K. unfold settles. rewrite bind_quiet by auto. destruct (snd (p m)) as [a|e]; [apply K|intros m' []]. Qed.
Lemma settles_then {B} a b v (k : unit -> W B) m : (forall D u, stays (fun m => cdict m = D) (k u)) -> settles (wbind (w_set_constraint a b v) k) m.
Proof.
  intro K. intros m'. unfold w_set_constraint, wbind, quiet, write, bind, gets, lift, dlookup.
  destruct (dget a (cdict m)) as [row|]; [|intros []].
  set (m1 := mkMgr _ _). destruct (K (cdict m1) tt m1 eq_refl) as [X Y]. destruct (k tt m1) as [l e]. cbn [fst snd app] in *.
  intros [<-|I]; [auto|]. rewrite (X _ I). auto.
Qed.

Ltac settle := repeat first [apply settles_bind_quiet; [first [apply reads_in_dict|apply reads_inferred|apply reads_added|read]|intro]
  |match goal with |- settles (match ?b with Some _ => _ | None => _ end) _ => destruct b end
  |match goal with |- settles (wbind (if ?b then _ else _) _) _ => destruct b end
  |apply settles_quiet].

Lemma settles_add a b t v m : settles (w_add_constraint a b t v) m.
Proof.
  unfold w_add_constraint. settle; (apply settles_then; intros D u; apply stays_bind; [apply same_transitivity|intro; apply stays_quiet; intro; reflexivity]).
Qed.
Lemma settles_delete a b m : settles (w_delete_constraint a b) m.
Proof.
  unfold w_delete_constraint. settle; (apply settles_then; intros D u; apply stays_bind; [apply same_generate|intro; apply stays_quiet; intro; reflexivity]).
Qed.

Lemma trace_ret {A B} (w : W A) (f : A -> B) m :
  fst (wbind w (fun r => quiet (ret (f r))) m) = fst (w m) /\ fst (snd (wbind w (fun r => quiet (ret (f r))) m)) = fst (snd (w m)).
Proof. unfold wbind. destruct (w m) as [l [m1 [a|e]]]; cbn; rewrite ?app_nil_r; auto. Qed.

Lemma pair_dictionary c a b m m' : of_pair c a b -> interrupted c m m' -> m' = m \/ cdict m' = cdict (fst (exec c m)).
Proof.
  intros C [<-|I]; [auto|]. right. rewrite <- C135_same_calls_proof.
  destruct C as [->|(t & v & ->)]; cbn [w_exec] in *;
    match goal with |- context [wbind ?w ?f] => destruct (trace_ret w VBool m) as [T1 T2] end; rewrite T1 in I; rewrite T2;
    [apply settles_delete|apply settles_add]; auto.
Qed.

(*PROP C135: a call that adds or deletes a constraint and is interrupted at any point leaves a manager that is saved as before the call or as after it. *)
Lemma C135_saved_proof :
  forall m m' c a b, of_pair c a b -> interrupted c m m' ->
    to_json_text m' = to_json_text m \/ to_json_text m' = to_json_text (fst (exec c m)).
Proof.
  intros m m' c a b C I. destruct (pair_dictionary _ _ _ _ _ C I) as [->|E]; [auto|right]. unfold to_json_text, stored_list. rewrite E. reflexivity.
Qed.
(*EX
Example C135_saved_ex : of_pair link C B /\ interrupted link ex (half link 1) /\
  half link 1 <> fst (exec link ex) /\ to_json_text (half link 1) = to_json_text (fst (exec link ex)) /\ to_json_text (half link 1) <> to_json_text ex.
Proof.
  split; [right; exists CANNOT_LINK, 1%Q; reflexivity|]. split; [apply half_interrupted|].
  split; [vm_compute; discriminate|]. split; [vm_compute; reflexivity|vm_compute; discriminate].
Qed.
EX*)

Definition erase (p q : pystr) (D : dict pystr (dict pystr (option constr))) :=
  match dget p D with Some row => dset p (dset q None row) D | None => D end.

Section Erase.
  Variables p q : pystr.
  Variable ks : list pystr.
  Variable D0 : dict pystr (dict pystr (option constr)).
  Let P (m : mgr) : Prop := keys (cdict m) = ks /\ erase p q (cdict m) = D0.
  Lemma erase_set v : stays P (w_set_constraint p q v).
  Proof.
    intros m [K E]. unfold w_set_constraint, wbind, quiet, write, bind, gets, lift, dlookup.
    destruct (dget p (cdict m)) as [row|] eqn:R; [|split; [intros m' []|split; auto]].
    assert (X : P (mkMgr (dset p (dset q v row) (cdict m)) (ctrans m))).
    { split; cbn [cdict]; [rewrite keys_dset_in; auto; eapply dget_Some_key; eauto|]. rewrite <- E. unfold erase. rewrite dget_dset_same, R, !dset_dset. reflexivity. }
    split; [|exact X]. intros m' [<-|[]]. exact X.
  Qed.
  Lemma erase_same {A} (w : W A) : (forall D, stays (fun m => cdict m = D) w) -> stays P w.
  Proof.
    intros S m H. destruct (S (cdict m) m eq_refl) as [X Y]. unfold P in *. split; [intros m' I; rewrite (X m' I)|rewrite Y]; auto.
  Qed.
End Erase.

Definition sorted_pair (a b : pystr) : pystr * pystr := if str_leb a b then (a, b) else (b, a).

Lemma erase_add a b t v ks D0 :
  stays (fun m => keys (cdict m) = ks /\ erase (fst (sorted_pair a b)) (snd (sorted_pair a b)) (cdict m) = D0) (w_add_constraint a b t v).
Proof.
  unfold w_add_constraint, sorted_pair.
  repeat first [apply erase_same; intro; apply same_transitivity|apply stays_bind; [|intro]|apply stays_quiet; first [apply reads_in_dict|apply reads_inferred|apply reads_added|read]
               |match goal with |- stays _ (match ?b with Some _ => _ | None => _ end) => destruct b end].
  all: destruct (str_leb a b); cbn [fst snd]; apply erase_set.
Qed.
Lemma erase_delete a b ks D0 :
  stays (fun m => keys (cdict m) = ks /\ erase (fst (sorted_pair a b)) (snd (sorted_pair a b)) (cdict m) = D0) (w_delete_constraint a b).
Proof.
  unfold w_delete_constraint, sorted_pair.
  repeat first [apply erase_same; intro; apply same_generate|apply stays_bind; [|intro]|apply stays_quiet; first [apply reads_in_dict|apply reads_inferred|apply reads_added|read]].
  all: destruct (str_leb a b); cbn [fst snd]; apply erase_set.
Qed.

Lemma generate_any D T T' : generate_constraints_transitivity (mkMgr D T) = generate_constraints_transitivity (mkMgr D T').
Proof. reflexivity. Qed.

Lemma delete_same a b m1 m2 : keys (cdict m1) = keys (cdict m2) ->
  erase (fst (sorted_pair a b)) (snd (sorted_pair a b)) (cdict m1) = erase (fst (sorted_pair a b)) (snd (sorted_pair a b)) (cdict m2) ->
  m1 = m2 \/ In a (keys (cdict m1)) /\ In b (keys (cdict m1)) -> delete_constraint a b m1 = delete_constraint a b m2.
Proof.
  intros K E [->|[Ia Ib]]; [reflexivity|].
  assert (Run : forall m, In a (keys (cdict m)) -> In b (keys (cdict m)) ->
     delete_constraint a b m = bind generate_constraints_transitivity (fun _ => ret true) (mkMgr (erase (fst (sorted_pair a b)) (snd (sorted_pair a b)) (cdict m)) [])).
  { clear. intros m Ia Ib. assert (Ma := proj2 (mem_In _ _) Ia). assert (Mb := proj2 (mem_In _ _) Ib).
    unfold delete_constraint. unfold bind at 1, in_dict at 1, gets at 1. rewrite Ma. unfold bind at 1, require at 1, ret at 1.
    unfold bind at 1, in_dict at 1, gets at 1. rewrite Mb. unfold bind at 1, require at 1, ret at 1.
    assert (Go : forall p q, In p (keys (cdict m)) -> exists T, set_constraint p q None m = (mkMgr (erase p q (cdict m)) T, Ok tt)).
    { intros p q I. apply dget_In_key in I. destruct I as [row R]. exists (ctrans m). unfold set_constraint, bind, gets, lift, dlookup, erase. rewrite R. reflexivity. }
    unfold sorted_pair. destruct (str_leb a b); cbn [fst snd].
    - destruct (Go a b Ia) as [T X]. unfold bind at 1. rewrite X. reflexivity.
    - destruct (Go b a Ib) as [T X]. unfold bind at 1. rewrite X. reflexivity. }
  rewrite Run, Run, E; auto; rewrite <- K; auto.
Qed.

(*PROP C135 (partial): after any interrupted call that adds or deletes a constraint, deleting the constraint of this pair gives the manager it would have given without that call. *)
Lemma C135_pair_repaired_partial_proof :
  forall m m' c a b, of_pair c a b -> interrupted c m m' ->
    exec (CallDeleteConstraint a b) m' = exec (CallDeleteConstraint a b) m.
Proof.
  intros m m' c a b C [<-|I]; [reflexivity|]. cbn [exec]. unfold bind.
  assert (X : keys (cdict m') = keys (cdict m) /\ erase (fst (sorted_pair a b)) (snd (sorted_pair a b)) (cdict m') = erase (fst (sorted_pair a b)) (snd (sorted_pair a b)) (cdict m)).
  { destruct C as [->|(t & v & ->)]; cbn [w_exec] in I;
      match type of I with context [wbind ?w ?f] => destruct (trace_ret w VBool m) as [T _] end; rewrite T in I.
    - apply (erase_delete a b _ _ m (conj eq_refl eq_refl)); auto.
    - apply (erase_add a b t v _ _ m (conj eq_refl eq_refl)); auto. }
  assert (Kn : In a (keys (cdict m')) /\ In b (keys (cdict m'))).
  { destruct X as [-> _].
    assert (G : forall B (k : W B), In m' (fst (wbind (quiet (in_dict a)) (fun k1 => wbind (quiet (require k1)) (fun _ => wbind (quiet (in_dict b)) (fun k2 => wbind (quiet (require k2)) (fun _ => k)))) m)) -> In a (keys (cdict m)) /\ In b (keys (cdict m))).
    { intros B k J. rewrite bind_quiet in J by apply reads_in_dict. cbn [in_dict gets snd] in J.
      rewrite bind_quiet in J by apply reads_require. destruct (mem a (keys (cdict m))) eqn:Ma; [|destruct J].
      cbn [require ret snd] in J. rewrite bind_quiet in J by apply reads_in_dict. cbn [in_dict gets snd] in J.
      rewrite bind_quiet in J by apply reads_require. destruct (mem b (keys (cdict m))) eqn:Mb; [|destruct J].
      split; apply mem_In; auto. }
    destruct C as [->|(t & v & ->)]; cbn [w_exec] in I;
      match type of I with context [wbind ?w ?f] => destruct (trace_ret w VBool m) as [T _] end; rewrite T in I.
    - eapply G; exact I.
    - eapply G; exact I. }
  rewrite (delete_same a b m' m); auto; tauto.
Qed.
(*EX
(** An interrupted deletion too. *)
Example C135_pair_repaired_ex : half link 1 <> ex /\ half (CallDeleteConstraint A B) 1 <> fst (exec (CallDeleteConstraint A B) ex) /\
  fst (exec (CallDeleteConstraint C B) (half link 1)) = fst (exec (CallDeleteConstraint C B) ex) /\
  exec (CallDeleteConstraint A B) (half (CallDeleteConstraint A B) 1) = exec (CallDeleteConstraint A B) ex.
Proof. split; [vm_compute; discriminate|]. split; [vm_compute; discriminate|]. split; vm_compute; reflexivity. Qed.
EX*)

(** ** Data IDs *)
Section IDs.
  Variable x : pystr.
  Notation rows := (dict pystr (dict pystr (option constr))).
  Definition dropped (D : rows) : rows := map (fun e => (fst e, dpop x (snd e))) (dpop x D).

  Lemma dpop_out {V} (d : dict pystr V) : ~ In x (keys d) -> dpop x d = d.
  Proof.
    induction d as [|[k v] d IH]; intro N; cbn; auto. destruct (eqb_spec x k) as [->|]; [exfalso; apply N; left; auto|].
    f_equal. apply IH. intro. apply N. right; auto.
  Qed.
  Lemma dpop_gone {V} (d : dict pystr V) : NoDup (keys d) -> ~ In x (keys (dpop x d)).
  Proof. intros N I. rewrite keys_dpop in I by auto. apply filter_In in I. destruct I as [_ E]. rewrite eqb_refl in E. discriminate. Qed.
  Lemma dropped_pop D : NoDup (keys D) -> dropped (dpop x D) = dropped D.
  Proof. intro N. unfold dropped. rewrite (dpop_out (dpop x D)); auto. apply dpop_gone; auto. Qed.
  Lemma dropped_row o row row' D : dget o D = Some row -> (o = x \/ dpop x row' = dpop x row) -> dropped (dset o row' D) = dropped D.
  Proof.
    unfold dropped. induction D as [|[k v] D IH]; intros G E; cbn in *; [discriminate|].
    destruct (eqb_spec o k) as [->|N].
    - injection G as ->. cbn. destruct (eqb_spec x k) as [->|]; auto. cbn. f_equal. destruct E as [E|E]; [congruence|]. rewrite E. reflexivity.
    - cbn. destruct (eqb_spec x k) as [->|]; cbn.
      + assert (M : forall (D : rows), dget o D = Some row -> (o = k \/ dpop k row' = dpop k row) ->
          map (fun e => (fst e, dpop k (snd e))) (dset o row' D) = map (fun e => (fst e, dpop k (snd e))) D).
        { clear -N. induction D as [|[k' v'] D IH]; intros G E; cbn in *; [discriminate|].
          destruct (eqb_spec o k') as [->|]; cbn; [|f_equal; apply IH; auto]. injection G as ->. f_equal. destruct E as [->|E]; [congruence|]. rewrite E. reflexivity. }
        apply M; auto.
      + f_equal. apply IH; auto.
  Qed.
  Lemma dropped_new r D : ~ In x (keys D) -> dropped (dset x r D) = dropped D.
  Proof.
    intro N. rewrite dset_out by auto. unfold dropped. rewrite (dpop_out D) by auto. f_equal.
    induction D as [|[k v] D IH]; cbn; [rewrite eqb_refl; auto|]. destruct (eqb_spec x k) as [->|]; [exfalso; apply N; left; auto|].
    f_equal. apply IH. intro. apply N. right; auto.
  Qed.

  Variable D0 : rows.
  Definition near (m : mgr) : Prop :=
    NoDup (keys (cdict m)) /\ (forall o row, dget o (cdict m) = Some row -> NoDup (keys row)) /\ dropped (cdict m) = D0.
  Definition near_with (m : mgr) : Prop := near m /\ In x (keys (cdict m)).

  Lemma near_same {A} (P : mgr -> Prop) (w : W A) : (forall m m', cdict m' = cdict m -> P m -> P m') -> (forall D, stays (fun m => cdict m = D) w) -> stays P w.
  Proof.
    intros C S m H. destruct (S (cdict m) m eq_refl) as [X Y]. split; [intros m' I|]; eapply C; try exact H; auto.
  Qed.
  Lemma near_cdict m m' : cdict m' = cdict m -> near m -> near m'.
  Proof. intros E. unfold near. rewrite E. auto. Qed.
  Lemma near_with_cdict m m' : cdict m' = cdict m -> near_with m -> near_with m'.
  Proof. intros E. unfold near_with, near. rewrite E. auto. Qed.

  Lemma near_row o (row row' : dict pystr (option constr)) m : near m -> dget o (cdict m) = Some row -> NoDup (keys row') -> (o = x \/ dpop x row' = dpop x row) ->
    near (mkMgr (dset o row' (cdict m)) (ctrans m)).
  Proof.
    intros (N & R & E) G N' H. split; [|split]; cbn [cdict]; [apply NoDup_keys_dset; auto| |rewrite (dropped_row _ _ _ _ G H); auto].
    intros o' r. rewrite dget_dset. destruct (eqb o' o); [intro Q; injection Q as <-; auto|apply R].
  Qed.

  Lemma dpop_dset {V} (v : V) d : dpop x (dset x v d) = dpop x d.
  Proof.
    induction d as [|[k w] d IH]; cbn; [rewrite eqb_refl; auto|].
    destruct (eqb x k) eqn:E; cbn; rewrite E; auto. f_equal. auto.
  Qed.

  Lemma near_set p q v : (p = x \/ q = x) -> stays near_with (w_set_constraint p q v).
  Proof.
    intros C m [N I]. unfold w_set_constraint, wbind, quiet, write, bind, gets, lift, dlookup.
    destruct (dget p (cdict m)) as [row|] eqn:R; [|split; [intros m' []|split; auto]].
    assert (X : near_with (mkMgr (dset p (dset q v row) (cdict m)) (ctrans m))).
    { split; [|cbn [cdict]; apply In_keys_dset; auto]. eapply near_row; eauto.
      - apply NoDup_keys_dset. apply (proj1 (proj2 N) _ _ R).
      - destruct C as [->| ->]; [auto|right; apply dpop_dset]. }
    split; [|exact X]. intros m' [<-|[]]. exact X.
  Qed.

  Lemma stays_at {B} (P : mgr -> Prop) f (k : unit -> W B) m : P (f m) -> stays P (k tt) ->
    (forall m', In m' (fst (wbind (write f) k m)) -> P m') /\ P (fst (snd (wbind (write f) k m))).
  Proof.
    intros H S. destruct (S (f m) H) as [Y Z]. unfold wbind, write. destruct (k tt (f m)) as [l e]. cbn [fst snd app] in *.
    split; auto. intros m' [<-|I]; auto.
  Qed.

  Lemma near_add m : near m -> ~ In x (keys (cdict m)) ->
    (forall m', In m' (fst (w_add_data_ID x m)) -> near_with m') /\ near_with (fst (snd (w_add_data_ID x m))).
  Proof.
    intros (N & R & E) X. unfold w_add_data_ID. rewrite bind_quiet by apply reads_in_dict. cbn [in_dict gets snd].
    rewrite (proj2 (mem_nIn _ _) X). rewrite bind_quiet by apply reads_require. cbn [negb require ret snd].
    apply stays_at.
    { split; [split; [|split]|]; cbn [cdict]; [apply NoDup_keys_dset; auto| |rewrite dropped_new; auto|apply In_keys_dset; auto].
      intros o r. rewrite dget_dset. destruct (eqb o x); [intro Q; injection Q as <-; constructor|apply R]. }
    apply stays_bind; [apply stays_quiet; read|intro others]. apply stays_bind.
    - apply stays_for. intros o _. destruct (eqb_spec x o) as [->|]; [apply near_set; auto|]. destruct (str_ltb x o); apply near_set; auto.
    - intro. apply stays_bind; [apply stays_write; intros m2; apply near_with_cdict; reflexivity|intro; apply stays_quiet; read].
  Qed.

  Lemma near_delete m : near m -> forall m', In m' (fst (w_delete_data_ID x m)) -> near m'.
  Proof.
    intro N. assert (S : stays near (w_delete_data_ID x)); [|apply (S m N)].
    unfold w_delete_data_ID. apply stays_bind; [apply stays_quiet; apply reads_in_dict|intro]. apply stays_bind; [apply stays_quiet; read|intro].
    apply stays_bind.
    { apply stays_write. intros m1 (N1 & R1 & E1). split; [|split]; cbn [cdict]; [rewrite keys_dpop; auto; apply NoDup_filter; auto| |rewrite dropped_pop; auto].
      intros o row G. apply (R1 o). destruct (eqb_spec o x) as [->|]; [rewrite dget_dpop_same in G by auto; discriminate|rewrite dget_dpop_other in G; auto]. }
    intro. apply stays_bind; [apply stays_quiet; read|intro others]. apply stays_bind.
    - apply stays_for. intros o _ m1 N1. rewrite bind_quiet by read. unfold bind, gets, lift, dlookup. cbn [snd].
      destruct (dget o (cdict m1)) as [row|] eqn:R; [|split; [intros m' []|auto]].
      assert (NR := proj1 (proj2 N1) _ _ R).
      assert (X : near (mkMgr (dset o (dpop x row) (cdict m1)) (ctrans m1))).
      { eapply near_row; eauto; [rewrite keys_dpop; auto; apply NoDup_filter; auto|]. right. apply dpop_out. apply dpop_gone; auto. }
      split; [|exact X]. intros m' [<-|[]]. exact X.
    - intro. apply stays_bind; [|intro; apply stays_quiet; read]. apply near_same; [apply near_cdict|]. intro. apply same_generate.
  Qed.

  Lemma delete_near m : near_with m -> delete_data_ID x m = bind generate_constraints_transitivity (fun _ => ret true) (mkMgr D0 []).
  Proof.
    intros [(N & R & E) I]. assert (M := proj2 (mem_In _ _) I).
    unfold delete_data_ID, bind at 1, in_dict, gets at 1. rewrite M.
    unfold bind at 1. cbn [require]. unfold ret at 1. unfold bind at 1, modify at 1.
    unfold bind at 1, gets at 1. cbn [cdict ctrans].
    set (D1 := dpop x (cdict m)).
    assert (N1 : NoDup (keys D1)) by (unfold D1; rewrite keys_dpop; auto; apply NoDup_filter; auto).
    destruct (for_set_row (dpop x) (keys D1) (mkMgr D1 (ctrans m)) N1 (incl_refl _)) as (D2 & Run & K2 & G2). cbn [cdict ctrans] in *.
    unfold bind at 1.
    match goal with |- context [for_ (keys D1) ?f ?s] => assert (X : for_ (keys D1) f s = for_ (keys D1) (set_row (dpop x)) s) end.
    { reflexivity. }
    rewrite X, Run. replace D2 with D0; [reflexivity|].
    rewrite <- E. unfold dropped. fold D1. clear -N1 K2 G2.
    assert (G : forall k, dget k D2 = option_map (dpop x) (dget k D1)).
    { intro k. rewrite G2. destruct (mem k (keys D1)) eqn:M; auto. apply mem_nIn in M. apply dget_None in M. rewrite M. reflexivity. }
    clear G2. revert D2 K2 G. induction D1 as [|[k r] D1 IH]; intros D2 K2 G; destruct D2 as [|[k2 r2] D2]; try discriminate; auto.
    cbn in K2. injection K2 as -> K2. cbn [map fst snd]. inversion N1; subst. f_equal.
    - specialize (G k). cbn in G. rewrite eqb_refl in G. injection G as ->. reflexivity.
    - apply IH; auto. intro j. specialize (G j). cbn in G. destruct (eqb_spec j k) as [Ej|]; [|auto]. rewrite Ej.
      transitivity (@None (dict pystr (option constr))); [apply dget_None; unfold keys; rewrite K2; auto|]. rewrite (proj2 (dget_None k D1)); auto.
  Qed.
End IDs.

Lemma near_start x m : reachable m -> near x (dropped x (cdict m)) m.
Proof.
  intro R. destruct (reachable_inv _ R) as (Wf & _ & _). split; [apply (wf_nodup _ Wf)|]. split; auto. intros o row. apply (wf_row_nodup _ Wf).
Qed.

(*PROP C135 (partial): after any interrupted deletion of a data ID, adding this ID, which is refused when it is still managed, and deleting it again ends the deletion. *)
Lemma C135_deletion_repaired_partial_proof :
  forall m m' x, reachable m -> managed m x -> interrupted (CallDeleteDataID x) m m' ->
    run [CallAddDataID x; CallDeleteDataID x] m' = run [CallDeleteDataID x] m.
Proof.
  intros m m' x R X I. apply managed_ids in X. change (In x (keys (cdict m))) in X.
  assert (N := near_start x m R). set (D0 := dropped x (cdict m)) in *.
  assert (N' : near x D0 m').
  { destruct I as [<-|I]; auto. cbn [w_exec] in I. destruct (trace_ret (w_delete_data_ID x) VBool m) as [T _]. rewrite T in I. eapply near_delete; eauto. }
  unfold run. cbn [fold_left exec].
  assert (Go : forall m1, near_with x D0 m1 -> fst (bind (delete_data_ID x) (fun r => ret (VBool r)) m1) = fst (bind (delete_data_ID x) (fun r => ret (VBool r)) m)).
  { intros m1 H. unfold bind at 1 2. rewrite (delete_near x D0 m1 H), (delete_near x D0 m (conj N X)). reflexivity. }
  apply Go. unfold bind. rewrite <- (ends_add_ID x m').
  destruct (in_dec (list_eq_dec N.eq_dec) x (keys (cdict m'))) as [J|J].
  - unfold w_add_data_ID. rewrite bind_quiet by apply reads_in_dict. cbn [in_dict gets snd]. rewrite (proj2 (mem_In _ _) J).
    rewrite bind_quiet by apply reads_require. cbn. split; auto.
  - destruct (near_add x D0 m' N' J) as [_ Z]. destruct (snd (w_add_data_ID x m')) as [m1 [r|e]]; cbn in *; auto.
Qed.
(*EX
Example C135_deletion_repaired_ex : reachable ex /\ managed ex B /\ interrupted (CallDeleteDataID B) ex (half (CallDeleteDataID B) 1) /\
  snd (exec (CallDeleteDataID B) (half (CallDeleteDataID B) 1)) = Raise ValueError /\
  run [CallAddDataID B; CallDeleteDataID B] (half (CallDeleteDataID B) 1) = fst (exec (CallDeleteDataID B) ex).
Proof.
  split; [apply ex_reachable|]. split; [eexists; split; [vm_compute; reflexivity|simpl; auto]|]. split; [apply half_interrupted|].
  split; vm_compute; reflexivity.
Qed.
EX*)

(*PROP C135 (partial): after any interrupted addition of a data ID, deleting this ID, which is refused when it is not managed yet, gives a manager with the content from before the addition. *)
Lemma C135_addition_repaired_partial_proof :
  forall m m' x, reachable m -> ~ managed m x -> interrupted (CallAddDataID x) m m' ->
    reachable (run [CallDeleteDataID x] m') /\ same_content (run [CallDeleteDataID x] m') m.
Proof.
  intros m m' x R X I. assert (X' : ~ In x (keys (cdict m))) by (intro J; apply X; apply managed_ids; auto).
  assert (N := near_start x m R). set (D0 := dropped x (cdict m)) in *.
  destruct I as [<-|I].
  - assert (E : run [CallDeleteDataID x] m = m); [|rewrite E; split; auto; split; auto].
    assert (H := run_delete_data_ID m x (reachable_inv _ R)). rewrite (proj2 (mem_nIn _ _) X') in H.
    unfold run. cbn [fold_left exec]. unfold bind. rewrite H. reflexivity.
  - cbn [w_exec] in I. destruct (trace_ret (w_add_data_ID x) VBool m) as [T _]. rewrite T in I.
    destruct (near_add x D0 m N X') as [Y Z]. specialize (Y m' I).
    assert (E : run [CallDeleteDataID x] m' = run [CallAddDataID x; CallDeleteDataID x] m).
    { unfold run. cbn [fold_left exec]. unfold bind at 1 2 3. rewrite <- (ends_add_ID x m).
      rewrite (delete_near x D0 m' Y).
      destruct (snd (w_add_data_ID x m)) as [m1 [r|e]]; cbn [fst snd ret] in *; rewrite (delete_near x D0 m1 Z); reflexivity. }
    rewrite E. split; [apply run_reachable_from; auto|].
    assert (NI : keeps_IDs [CallAddDataID x]) by (intros y [Q|[]]; discriminate).
    destruct (C128_undo_proof m [CallAddDataID x] R NI) as [_ U].
    assert (H := run_add_data_ID m x (reachable_inv _ R)). rewrite (proj2 (mem_nIn _ _) X') in H. destruct H as (m1 & H & _).
    cbn [undo app] in U. unfold undo_call in U. cbn [exec] in U. unfold bind in U. rewrite H in U. cbn [ret snd] in U. exact U.
Qed.
(*EX
Example C135_addition_repaired_ex : ~ managed ex (str "bb") /\ interrupted (CallAddDataID (str "bb")) ex (half (CallAddDataID (str "bb")) 2) /\
  snd (exec (CallAddDataID (str "bb")) (half (CallAddDataID (str "bb")) 2)) = Raise ValueError /\
  snd (exec (CallGetInferred A (str "bb")) (half (CallAddDataID (str "bb")) 2)) = Raise ValueError /\
  snd (exec (CallDeleteDataID (str "bb")) (half (CallAddDataID (str "bb")) 2)) = Ok (VBool true).
Proof.
  split; [intros (l & H & I); vm_compute in H; injection H as <-; vm_compute in I; intuition discriminate|]. split; [apply half_interrupted|].
  repeat split; vm_compute; reflexivity.
Qed.
EX*)

(** ** What an interrupted manager still answers *)
Definition below (T T' : dict pystr trans) : Prop :=
  forall z e, dget z T = Some e -> exists e', dget z T' = Some e' /\ incl (t_ml e) (t_ml e') /\ incl (t_cl e) (t_cl e').
Definition climbs {A} (w : W A) (m : mgr) : Prop :=
  (forall m', In m' (fst (w m)) -> below (ctrans m) (ctrans m') /\ below (ctrans m') (ctrans (fst (snd (w m))))) /\
  below (ctrans m) (ctrans (fst (snd (w m)))).

Lemma below_refl T : below T T.
Proof. intros z e G. exists e. split; [auto|split; apply incl_refl]. Qed.
Lemma below_trans T1 T2 T3 : below T1 T2 -> below T2 T3 -> below T1 T3.
Proof.
  intros H1 H2 z e G. destruct (H1 z e G) as (e' & G' & A & B). destruct (H2 z e' G') as (e2 & G2 & A2 & B2).
  exists e2. split; [auto|split; eapply incl_tran; eauto].
Qed.
Lemma below_set T x e e' : dget x T = Some e -> incl (t_ml e) (t_ml e') -> incl (t_cl e) (t_cl e') -> below T (dset x e' T).
Proof.
  intros G A B z f F. rewrite dget_dset. destruct (eqb_spec z x) as [->|]; [|exists f; split; [auto|split; apply incl_refl]].
  rewrite G in F. injection F as <-. exists e'. auto.
Qed.

Lemma climbs_quiet {A} (p : M mgr A) m : reads p -> climbs (quiet p) m.
Proof. intro R. split; [intros m' []|]. cbn. rewrite R. apply below_refl. Qed.
Lemma climbs_bind {A B} (w : W A) (k : A -> W B) m : climbs w m ->
  (forall a, snd (snd (w m)) = Ok a -> climbs (k a) (fst (snd (w m)))) -> climbs (wbind w k) m.
Proof.
  intros [H1 H2] K. unfold climbs, wbind. destruct (w m) as [l [m1 [a|e]]]; cbn [fst snd] in *; [|auto].
  destruct (K a eq_refl) as [K1 K2]. destruct (k a m1) as [l' e]. cbn [fst snd] in *.
  split; [|eapply below_trans; eauto]. intros m' I. apply in_app_iff in I. destruct I as [I|I].
  - destruct (H1 m' I). split; [auto|eapply below_trans; eauto].
  - destruct (K1 m' I). split; [eapply below_trans; eauto|auto].
Qed.
Lemma climbs_write f m : below (ctrans m) (ctrans (f m)) -> climbs (write f) m.
Proof. intro H. split; [intros m' [<-|[]]; split; [auto|apply below_refl]|auto]. Qed.
Lemma climbs_bind_quiet {A B} (p : M mgr A) (k : A -> W B) m : reads p -> (forall a, snd (p m) = Ok a -> climbs (k a) m) -> climbs (wbind (quiet p) k) m.
Proof. intros R K. apply climbs_bind; [apply climbs_quiet; auto|]. intros a E. cbn in *. rewrite R. auto. Qed.

Definition steps {A} (J : mgr -> Prop) (w : W A) : Prop := forall m, J m -> climbs w m /\ J (fst (snd (w m))).
Lemma steps_bind {A B} J (w : W A) (k : A -> W B) : steps J w -> (forall a, steps J (k a)) -> steps J (wbind w k).
Proof.
  intros H K m Jm. destruct (H m Jm) as [C J1]. split; [apply climbs_bind; [auto|intros a _; apply K; auto]|].
  unfold wbind. destruct (w m) as [l [m1 [a|e]]]; cbn [fst snd] in *; [|auto]. destruct (K a m1 J1) as [_ J2]. destruct (k a m1). auto.
Qed.
Lemma steps_for {A} J (l : list A) f : (forall x, In x l -> steps J (f x)) -> steps J (wfor l f).
Proof.
  induction l as [|x l IH]; intro H; cbn [wfor]; [intros m Jm; split; [apply climbs_quiet; intro; reflexivity|exact Jm]|].
  apply steps_bind; [apply H; left; auto|intro; apply IH; intros; apply H; right; auto].
Qed.

Lemma get_trans_ask x m : snd (get_trans x m) = match dget x (ctrans m) with Some e => Ok e | None => Raise KeyError end.
Proof. unfold get_trans, bind, gets, lift, dlookup. destruct (dget x (ctrans m)); reflexivity. Qed.

Lemma set_entry_steps (J : mgr -> Prop) x (f : trans -> trans) :
  (forall m e, J m -> dget x (ctrans m) = Some e -> incl (t_ml e) (t_ml (f e)) /\ incl (t_cl e) (t_cl (f e)) /\ J (mkMgr (cdict m) (dset x (f e) (ctrans m)))) ->
  steps J (wbind (quiet (get_trans x)) (fun e => write (fun m => mkMgr (cdict m) (dset x (f e) (ctrans m))))).
Proof.
  intros H m Jm. assert (E := get_trans_ask x m). split.
  - apply climbs_bind_quiet; [apply reads_trans|]. intros e G. rewrite E in G. destruct (dget x (ctrans m)) as [e'|] eqn:D; [|discriminate]. injection G as ->.
    destruct (H m e Jm D) as (A & B & _). apply climbs_write. cbn [ctrans]. eapply below_set; eauto.
  - rewrite bind_quiet by apply reads_trans. rewrite E. destruct (dget x (ctrans m)) as [e'|] eqn:D; [|exact Jm]. apply (H m e' Jm D).
Qed.

Definition within (l cl : list pystr) (xs : list pystr) (m : mgr) : Prop :=
  forall z e, In z xs -> dget z (ctrans m) = Some e -> incl (t_ml e) l /\ incl (t_cl e) cl.

Lemma climbs_transitivity m a b t must cannot : Rep (ctrans m) must cannot -> (t = MUST_LINK \/ ~ linked must a b) -> climbs (w_add_constraint_transitivity a b t) m.
Proof.
  intros R NL. unfold w_add_constraint_transitivity.
  apply climbs_bind; [|intros; apply climbs_quiet; intro; reflexivity].
  assert (Same : forall z u e f, dget z (ctrans m) = Some e -> dget u (ctrans m) = Some f -> In u (t_ml e) -> incl (t_ml f) (t_ml e) /\ incl (t_cl f) (t_cl e)).
  { intros z u e f Z U I. apply (rep_ml _ _ _ R z e Z) in I. split; intros w Hw.
    - apply (rep_ml _ _ _ R u f U) in Hw. apply (rep_ml _ _ _ R z e Z). eapply linked_trans; eauto.
    - apply (rep_cl _ _ _ R u f U) in Hw. apply (rep_cl _ _ _ R z e Z). eapply separated_linked_l; [apply linked_sym; exact I|exact Hw]. }
  destruct (eqb_spec t MUST_LINK) as [->|Nt].
  - apply climbs_bind_quiet; [apply reads_trans|]. intros t1 G1. rewrite get_trans_ask in G1. destruct (dget a (ctrans m)) as [e1|] eqn:D1; [|discriminate]. injection G1 as ->.
    apply climbs_bind_quiet; [apply reads_trans|]. intros t2 G2. rewrite get_trans_ask in G2. destruct (dget b (ctrans m)) as [e2|] eqn:D2; [|discriminate]. injection G2 as ->.
    cbv zeta. set (nml := ounion (t_ml t1) (t_ml t2)). set (ncl := ounion (t_cl t1) (t_cl t2)).
    apply climbs_bind.
    + assert (S : steps (within nml ncl nml) (wfor nml (fun x => wbind (w_set_ml x nml) (fun _ => w_set_cl x ncl)))).
      { apply steps_for. intros x Ix. apply steps_bind; [|intro]; apply set_entry_steps; intros m1 e H G; cbn [t_ml t_cl]; destruct (H x e Ix G) as [A B].
        - split; [auto|split; [apply incl_refl|]]. intros z f Iz. cbn [ctrans]. rewrite dget_dset. destruct (eqb z x); [|apply H; auto].
          intro Q; injection Q as <-. cbn [t_ml t_cl]. split; [apply incl_refl|auto].
        - split; [apply incl_refl|split; [auto|]]. intros z f Iz. cbn [ctrans]. rewrite dget_dset. destruct (eqb z x); [|apply H; auto].
          intro Q; injection Q as <-. cbn [t_ml t_cl]. split; [auto|apply incl_refl]. }
      apply S. intros z e Iz Gz. unfold nml in Iz. apply ounion_In in Iz. unfold nml, ncl.
      destruct Iz as [Iz|Iz]; [destruct (Same a z t1 e D1 Gz Iz) as [A B]|destruct (Same b z t2 e D2 Gz Iz) as [A B]];
        split; intros w Hw; apply ounion_In; auto.
    + intros _ _. match goal with |- climbs ?w ?m1 => assert (S : steps (fun _ => True) w) end; [|apply S; auto].
      apply steps_for. intros x _ m1 _. split; [|auto].
      apply climbs_bind_quiet; [apply reads_trans|]. intros e G. rewrite get_trans_ask in G. destruct (dget x (ctrans m1)) as [e'|] eqn:D; [|discriminate]. injection G as ->.
      apply climbs_bind_quiet; [apply reads_trans|]. intros e' G. rewrite get_trans_ask, D in G. injection G as <-.
      apply climbs_write. cbn [ctrans]. eapply below_set; eauto; cbn [t_ml t_cl]; [apply incl_refl|]. intros w Hw. apply ounion_In. auto.
  - destruct NL as [NL|NL]; [contradiction|].
    apply climbs_bind_quiet; [apply reads_trans|]. intros t1 G1. rewrite get_trans_ask in G1. destruct (dget a (ctrans m)) as [e1|] eqn:D1; [|discriminate]. injection G1 as ->.
    apply climbs_bind_quiet; [apply reads_trans|]. intros t2 G2. rewrite get_trans_ask in G2. destruct (dget b (ctrans m)) as [e2|] eqn:D2; [|discriminate]. injection G2 as ->.
    cbv zeta. set (nc1 := ounion (t_cl t1) (t_ml t2)). set (nc2 := ounion (t_cl t2) (t_ml t1)).
    apply climbs_bind_quiet; [apply reads_trans|]. intros t1' G1. rewrite get_trans_ask, D1 in G1. injection G1 as <-.
    set (J := fun m1 => (forall z e, In z (t_ml t1) -> dget z (ctrans m1) = Some e -> incl (t_cl e) nc1) /\
      (forall z e, In z (t_ml t2) -> dget z (ctrans m1) = Some e -> incl (t_cl e) nc2) /\
      (exists e, dget b (ctrans m1) = Some e /\ t_ml e = t_ml t2)).
    assert (Apart : forall z, In z (t_ml t1) -> In z (t_ml t2) -> False).
    { intros z I1 I2. apply (rep_ml _ _ _ R a t1 D1) in I1. apply (rep_ml _ _ _ R b t2 D2) in I2. apply NL. eapply linked_trans; [exact I1|]. apply linked_sym. exact I2. }
    assert (S1 : steps J (wfor (t_ml t1) (fun x => w_set_cl x nc1))).
    { apply steps_for. intros x Ix. apply set_entry_steps. intros m1 e (H1 & H2 & e0 & H3 & H4) G. cbn [t_ml t_cl]. split; [apply incl_refl|]. split; [apply (H1 x e Ix G)|].
      split; [|split]; cbn [ctrans].
      - intros z f Iz. rewrite dget_dset. destruct (eqb z x); [|apply H1; auto]. intro Q; injection Q as <-. apply incl_refl.
      - intros z f Iz. rewrite dget_dset. destruct (eqb_spec z x) as [->|]; [destruct (Apart x Ix Iz)|apply H2; auto].
      - rewrite dget_dset. destruct (eqb_spec b x) as [->|]; [|eauto]. rewrite H3 in G. injection G as <-. eexists. split; [reflexivity|]. exact H4. }
    assert (S2 : steps J (wfor (t_ml t2) (fun x => w_set_cl x nc2))).
    { apply steps_for. intros x Ix. apply set_entry_steps. intros m1 e (H1 & H2 & e0 & H3 & H4) G. cbn [t_ml t_cl]. split; [apply incl_refl|]. split; [apply (H2 x e Ix G)|].
      split; [|split]; cbn [ctrans].
      - intros z f Iz. rewrite dget_dset. destruct (eqb_spec z x) as [->|]; [destruct (Apart x Iz Ix)|apply H1; auto].
      - intros z f Iz. rewrite dget_dset. destruct (eqb z x); [|apply H2; auto]. intro Q; injection Q as <-. apply incl_refl.
      - rewrite dget_dset. destruct (eqb_spec b x) as [->|]; [|eauto]. rewrite H3 in G. injection G as <-. eexists. split; [reflexivity|]. exact H4. }
    assert (J0 : J m).
    { split; [|split; [|exists t2; auto]]; intros z e Iz Gz w Hw; apply ounion_In; left;
        [apply (Same a z t1 e D1 Gz Iz)|apply (Same b z t2 e D2 Gz Iz)]; auto. }
    apply climbs_bind; [apply (S1 m J0)|]. intros _ _. destruct (S1 m J0) as [_ J1].
    set (m1 := fst (snd (wfor (t_ml t1) (fun x => w_set_cl x nc1) m))) in *.
    apply climbs_bind_quiet; [apply reads_trans|]. intros t2' G2. rewrite get_trans_ask in G2.
    destruct J1 as (H1 & H2 & e0 & H3 & H4). rewrite H3 in G2. injection G2 as <-. rewrite H4. apply S2. repeat split; eauto.
Qed.

Lemma climbs_add m a b t v : reachable m -> climbs (w_add_constraint a b t v) m.
Proof.
  intros R. assert (Iv := reachable_inv _ R). assert (Rp := proj2 (proj2 Iv)).
  unfold w_add_constraint.
  apply climbs_bind_quiet; [apply reads_in_dict|intros k1 _]. apply climbs_bind_quiet; [read|intros _ _].
  apply climbs_bind_quiet; [apply reads_in_dict|intros k2 _]. apply climbs_bind_quiet; [read|intros _ _].
  apply climbs_bind_quiet; [read|intros _ _].
  apply climbs_bind_quiet; [apply reads_inferred|intros inf Hinf].
  apply climbs_bind_quiet; [read|intros u Hu].
  apply climbs_bind_quiet; [apply reads_added|intros [c|] Had]; [apply climbs_quiet; read|].
  assert (NL : t = MUST_LINK \/ ~ linked (stored (cdict m) MUST_LINK) a b).
  { rewrite run_inferred in Hinf by auto. cbn [snd] in Hinf. destruct (both m a b) eqn:B; [|discriminate]. injection Hinf as <-.
    destruct (eqb_spec t MUST_LINK) as [|N]; [auto|right]. intro L. apply both_true in B. destruct B as [Ia Ib].
    assert (Kb : In b (keys (ctrans m))) by (rewrite (proj1 (proj2 Iv)); auto). apply dget_In_key in Kb. destruct Kb as [e E].
    assert (X : infer m a b = Some MUST_LINK).
    { unfold infer. rewrite E. replace (mem a (t_ml e)) with true; auto. symmetry. apply mem_In. apply (rep_ml _ _ _ Rp b e E). apply linked_sym. exact L. }
    rewrite X in Hu. unfold require in Hu. destruct (eqb_spec MUST_LINK t); [congruence|discriminate]. }
  assert (Set1 : forall p q, climbs (w_set_constraint p q (Some (t, 1%Q))) m /\ ctrans (fst (snd (w_set_constraint p q (Some (t, 1%Q)) m))) = ctrans m).
  { intros p q. unfold w_set_constraint. split.
    - apply climbs_bind_quiet; [read|intros]. apply climbs_write. apply below_refl.
    - rewrite bind_quiet by read. unfold bind, gets, lift. cbn [snd]. destruct (dlookup p (cdict m)); reflexivity. }
  destruct (str_leb a b).
  - destruct (Set1 a b) as [S1 S2]. apply climbs_bind; [exact S1|]. intros _ _.
    apply climbs_bind; [|intros; apply climbs_quiet; read]. eapply climbs_transitivity; [rewrite S2; exact Rp|exact NL].
  - destruct (Set1 b a) as [S1 S2]. apply climbs_bind; [exact S1|]. intros _ _.
    apply climbs_bind; [|intros; apply climbs_quiet; read]. eapply climbs_transitivity; [rewrite S2; exact Rp|exact NL].
Qed.

Lemma inferred_entry m p q r : inferred m p q (Some r) <->
  (In p (keys (ctrans m)) /\ exists e, dget q (ctrans m) = Some e /\ (if mem p (t_ml e) then r = MUST_LINK else In p (t_cl e) /\ r = CANNOT_LINK)).
Proof.
  unfold inferred, ask, get_inferred_constraint, in_trans, bind, gets, ret. destruct (mem p (keys (ctrans m))) eqn:P; cbn [require].
  2:{ split; [discriminate|]. intros [I _]. apply mem_In in I. congruence. }
  unfold ret. destruct (mem q (keys (ctrans m))) eqn:K; cbn [require].
  2:{ split; [discriminate|]. intros (_ & e & E & _). apply dget_Some_key in E. apply mem_In in E. congruence. }
  unfold ret, get_trans, bind, gets, lift, dlookup. apply mem_In in P. apply mem_In in K. apply dget_In_key in K. destruct K as [e E]. rewrite E.
  destruct (mem p (t_ml e)) eqn:M1; cbn [snd].
  - split; [intro Q; injection Q as <-; split; auto; exists e; rewrite M1; auto|]. intros (_ & e' & E' & H). assert (e' = e) by congruence. subst. rewrite M1 in H. congruence.
  - rewrite E. destruct (mem p (t_cl e)) eqn:M2; cbn [snd].
    + split; [intro Q; injection Q as <-; split; auto; exists e; rewrite M1; split; auto; split; auto; apply mem_In; auto|].
      intros (_ & e' & E' & H). assert (e' = e) by congruence. subst. rewrite M1 in H. destruct H as [_ ->]. reflexivity.
    + split; [discriminate|]. intros (_ & e' & E' & H). assert (e' = e) by congruence. subst. rewrite M1 in H. destruct H as [I _]. apply mem_In in I. congruence.
Qed.

(** A manager between two reachable ones answers between them. *)
Lemma between m m' m2 : reachable m2 -> below (ctrans m) (ctrans m') -> below (ctrans m') (ctrans m2) ->
  forall p q r, (inferred m p q (Some r) -> inferred m' p q (Some r)) /\ (inferred m' p q (Some r) -> inferred m2 p q (Some r)).
Proof.
  intros R2 B1 B2 p q r. assert (R := proj2 (proj2 (reachable_inv _ R2))).
  assert (Mono : forall T T' z, below T T' -> In z (keys T) -> In z (keys T')).
  { intros T T' z B I. apply dget_In_key in I. destruct I as [e E]. destruct (B z e E) as (e' & E' & _). eapply dget_Some_key; eauto. }
  assert (Disj : forall z e y, dget z (ctrans m2) = Some e -> In y (t_ml e) -> In y (t_cl e) -> False).
  { intros z e y E I1 I2. apply (rep_ml _ _ _ R z e E) in I1. apply (rep_cl _ _ _ R z e E) in I2. apply (rep_cons _ _ _ R y). eapply separated_linked_l; eauto. }
  assert (Up : forall n n', below (ctrans n) (ctrans n') -> below (ctrans n') (ctrans m2) -> inferred n p q (Some r) -> inferred n' p q (Some r)).
  { intros n n' C1 C2 H. apply inferred_entry in H. destruct H as (P & e & E & H). apply inferred_entry. split; [eapply Mono; eauto|].
    destruct (C1 q e E) as (e' & E' & S1 & S2). destruct (C2 q e' E') as (e2 & E2 & S3 & S4). exists e'. split; auto.
    destruct (mem p (t_ml e)) eqn:M1.
    - apply mem_In in M1. apply S1 in M1. apply mem_In in M1. rewrite M1. exact H.
    - destruct H as [I ->]. destruct (mem p (t_ml e')) eqn:M2; [|auto]. apply mem_In in M2. exfalso. eapply (Disj q e2 p E2); auto. }
  split; [apply Up; auto|]. apply Up; [auto|apply below_refl].
Qed.

(*PROP C135: a manager left by an interrupted addition of a constraint keeps every answer that get_inferred_constraint gave before, and gives none that it does not give after the whole addition. *)
Lemma C135_addition_answers_proof :
  forall m m' a b t v p q r, reachable m -> interrupted (CallAddConstraint a b t v) m m' ->
    (inferred m p q (Some r) -> inferred m' p q (Some r)) /\
    (inferred m' p q (Some r) -> inferred (fst (exec (CallAddConstraint a b t v) m)) p q (Some r)).
Proof.
  intros m m' a b t v p q r R I. assert (R2 : reachable (fst (exec (CallAddConstraint a b t v) m))) by (apply reach_call; auto).
  assert (E : fst (exec (CallAddConstraint a b t v) m) = fst (snd (w_add_constraint a b t v m))).
  { rewrite (ends_add a b t v m). cbn [exec]. unfold bind. destruct (add_constraint a b t v m) as [m1 [x|e]]; reflexivity. }
  destruct (climbs_add m a b t v R) as [C1 C2].
  destruct I as [<-|I]; [apply between; auto; [apply below_refl|rewrite E; exact C2]|].
  cbn [w_exec] in I. destruct (trace_ret (w_add_constraint a b t v) VBool m) as [T _]. rewrite T in I. destruct (C1 m' I).
  apply between; auto. rewrite E. auto.
Qed.
(*EX
(** Half way the answer for B and C depends on the order in which one asks. *)
Example C135_addition_answers_ex : interrupted link ex (half link 1) /\ inferred ex A B (Some MUST_LINK) /\
  inferred (half link 1) B C (Some CANNOT_LINK) /\ inferred (half link 1) C B None /\
  inferred (half link 1) A B (Some MUST_LINK) /\ inferred (fst (exec link ex)) C B (Some CANNOT_LINK).
Proof. split; [apply half_interrupted|]. repeat split; vm_compute; reflexivity. Qed.
EX*)

Notation A := (str "a"). Notation B := (str "b"). Notation C := (str "c").

(*PROP C135 is false: an interrupted addition stays half done.  The same call again returns True and changes nothing, and constraints that contradict each other are then accepted. *)
Lemma C135_half_done_refuted_proof :
  exists m m' c l, reachable m /\ interrupted c m m' /\ (exists v, snd (exec c m) = Ok v /\ exec c m' = (m', Ok v)) /\
    Forall succeeds (outputs l m') /\ ~ satisfiable (added_must (run l m')) (added_cannot (run l m')).
Proof.
  set (m := init [A; B; C]). set (c := CallAddConstraint A B CANNOT_LINK 1%Q). set (m' := nth 0 (fst (w_exec c m)) m).
  exists m, m', c, [CallAddConstraint A C MUST_LINK 1%Q; CallAddConstraint B C MUST_LINK 1%Q].
  split; [apply reach_init|]. split; [right; vm_compute; left; reflexivity|].
  split; [exists (VBool true); split; vm_compute; reflexivity|].
  split; [repeat constructor; eexists; vm_compute; reflexivity|].
  intros (label & H1 & H2). apply (H2 A B); [exists 1%Q; vm_compute; reflexivity|].
  transitivity (label C); [apply H1|symmetry; apply H1]; exists 1%Q; vm_compute; reflexivity.
Qed.

(*PROP C135 is false: an interrupted deletion of an ID can leave a manager that refuses to delete the ID, cannot delete a constraint between other IDs (KeyError) and is saved as a file that cannot be loaded. *)
Lemma C135_deletion_refuted_proof :
  exists m m' x a b, reachable m /\ managed m x /\ interrupted (CallDeleteDataID x) m m' /\
    snd (exec (CallDeleteDataID x) m') = Raise ValueError /\
    snd (exec (CallDeleteConstraint a b) m) = Ok (VBool true) /\ snd (exec (CallDeleteConstraint a b) m') = Raise KeyError /\
    load_text (to_json_text m') = Raise ValueError.
Proof.
  set (m := run [CallAddConstraint A C MUST_LINK 1%Q; CallAddConstraint A B CANNOT_LINK 1%Q] (init [A; B; C])).
  set (m' := nth 0 (fst (w_exec (CallDeleteDataID C) m)) m).
  exists m, m', C, A, B.
  split; [apply run_reachable|]. split; [eexists; split; [vm_compute; reflexivity|simpl; auto]|]. split; [right; vm_compute; left; reflexivity|].
  repeat split; vm_compute; reflexivity.
Qed.
