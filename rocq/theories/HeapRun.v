(** * Each method in memory simulates the method of [Manager.v] *)

From Coq Require Import List Bool Arith QArith Lia.
From Verif Require Import Base Manager Heap HeapProofs.
Import ListNotations.
Open Scope py_scope.
Open Scope nat_scope.

Definition here (s : nat) (l : list pystr) (h : heap) : Prop := nth_error (h_sets h) s = Some l.
Lemma here_stable s l : stable (here s l).
Proof. intros h h' [A _] E. apply A. auto. Qed.

Lemma dget_keys_eq {V V'} (d : dict pystr V) (d' : dict pystr V') x : keys d = keys d' -> dget x d = None -> dget x d' = None.
Proof. intros K E. apply dget_None. apply dget_None in E. congruence. Qed.

(** ** Reading *)
Lemma read_dictionary h W a m : R h W -> nth_error W a = Some m ->
  exists ct tt C T, tables h a ct tt C T /\ the_dictionary a h = (h, Ok C) /\ the_transitivity a h = (h, Ok T) /\
    rep_rows h C (cdict m) /\ rep_pairs h T (ctrans m).
Proof.
  intros HR E. destruct (R_tables _ _ _ _ HR E) as (ct & tt & C & T & HT & RR & RP). exists ct, tt, C, T.
  split; auto. destruct HT as (A1 & A2 & A3). unfold the_dictionary, the_transitivity, bind, deref. rewrite A1. simpl. rewrite A2, A3. auto.
Qed.

Lemma sim_in_dict a P x : sim a P (h_in_dict a x) (in_dict x) (fun h m b b' => b = b' /\ P h m).
Proof.
  apply sim_read. intros h W m HR E HP. destruct (read_dictionary _ _ _ _ HR E) as (ct & tt & C & T & HT & D1 & D2 & (K & _) & _).
  unfold h_in_dict, in_dict, gets, bind. rewrite D1. simpl. rewrite K. auto.
Qed.

Lemma sim_in_trans a P x : sim a P (h_in_trans a x) (in_trans x) (fun h m b b' => b = b' /\ P h m).
Proof.
  apply sim_read. intros h W m HR E HP. destruct (read_dictionary _ _ _ _ HR E) as (ct & tt & C & T & HT & D1 & D2 & _ & (K & _)).
  unfold h_in_trans, in_trans, gets, bind. rewrite D2. simpl. rewrite K. auto.
Qed.

Lemma sim_managed a P : sim a P (h_get_list_of_managed_data_IDs a) get_list_of_managed_data_IDs (fun h m l l' => l = l' /\ P h m).
Proof.
  apply sim_read. intros h W m HR E HP. destruct (read_dictionary _ _ _ _ HR E) as (ct & tt & C & T & HT & D1 & D2 & (K & _) & _).
  unfold h_get_list_of_managed_data_IDs, get_list_of_managed_data_IDs, gets, bind. rewrite D1. simpl. auto.
Qed.

Lemma sim_get_constraint a P x y : sim a P (h_get_constraint a x y) (get_constraint x y) (fun h m c c' => c = c' /\ P h m).
Proof.
  apply sim_read. intros h W m HR E HP. destruct (read_dictionary _ _ _ _ HR E) as (ct & tt & C & T & HT & D1 & D2 & (K & ND & B) & _).
  unfold h_get_constraint, get_constraint, the_row, gets, lift, bind, dlookup. rewrite D1. destruct (dget x C) eqn:G.
  - destruct (B _ _ G) as (row & Q1 & Q2). unfold deref. rewrite Q1, Q2. destruct (dget y row); simpl; auto.
  - rewrite (dget_keys_eq _ _ _ K G). simpl. auto.
Qed.

(** [self._constraints_transitivity[x]] *)
Lemma read_pair h W a m x : R h W -> nth_error W a = Some m ->
  (exists t s1 s2, dget x (ctrans m) = Some t /\ ml_of a x h = (h, Ok s1) /\ cl_of a x h = (h, Ok s2) /\ here s1 (t_ml t) h /\ here s2 (t_cl t) h) \/
  (dget x (ctrans m) = None /\ ml_of a x h = (h, Raise KeyError) /\ cl_of a x h = (h, Raise KeyError)).
Proof.
  intros HR E. destruct (read_dictionary _ _ _ _ HR E) as (ct & tt & C & T & HT & D1 & D2 & _ & (K & ND & B)).
  unfold ml_of, cl_of, the_pair, bind, lift, dlookup. rewrite D2. destruct (dget x T) eqn:G.
  - left. destruct (B _ _ G) as (t & (e & Q1 & Q2 & Q3) & Q4). exists t, (fst e), (snd e). unfold deref. rewrite Q1. simpl. auto 6.
  - right. rewrite (dget_keys_eq _ _ _ K G). auto.
Qed.

Lemma sim_ml_of a P x : sim a P (ml_of a x) (get_trans x) (fun h m s t => here s (t_ml t) h /\ P h m).
Proof.
  apply sim_read. intros h W m HR E HP. unfold get_trans, gets, lift, bind, dlookup.
  destruct (read_pair h W a m x HR E) as [(t & s1 & s2 & Q1 & Q2 & Q3 & Q4 & Q5)|(Q1 & Q2 & Q3)]; rewrite Q1, Q2; simpl; auto.
Qed.
Lemma sim_cl_of a P x : sim a P (cl_of a x) (get_trans x) (fun h m s t => here s (t_cl t) h /\ P h m).
Proof.
  apply sim_read. intros h W m HR E HP. unfold get_trans, gets, lift, bind, dlookup.
  destruct (read_pair h W a m x HR E) as [(t & s1 & s2 & Q1 & Q2 & Q3 & Q4 & Q5)|(Q1 & Q2 & Q3)]; rewrite Q1, Q3; simpl; auto.
Qed.

(** Steps of the memory alone. *)
Lemma sim_left {A B C} a (P : heap -> mgr -> Prop) (p : M heap A) (Q : heap -> mgr -> A -> Prop) (f : A -> M heap B) (q : M mgr C) Q' :
  (forall h W m, R h W -> nth_error W a = Some m -> P h m -> exists h' x, p h = (h', Ok x) /\ grows h h' /\ Q h' m x) ->
  (forall x, sim a (fun h m => Q h m x) (f x) q Q') -> sim a P (bind p f) q Q'.
Proof.
  intros H1 H2 h W m HR E HP. destruct (H1 h W m HR E HP) as (h1 & x & E1 & G & HQ).
  destruct (H2 x h1 W m (grows_R _ _ _ G HR) E HQ) as (h2 & m2 & r & r' & F1 & F2 & HR2 & X & O).
  exists h2, m2, r, r'. unfold bind. rewrite E1. sim_split; auto. eapply ext_trans; [apply grows_ext; eauto|auto].
Qed.
(** Steps of the manager alone. *)
Lemma sim_right {A B C} a (P : heap -> mgr -> Prop) (q : M mgr B) (y : B) (g : B -> M mgr C) (p : M heap A) Q' :
  (forall h m, P h m -> q m = (m, Ok y)) -> sim a P p (g y) Q' -> sim a P p (bind q g) Q'.
Proof.
  intros H1 H2 h W m HR E HP. destruct (H2 h W m HR E HP) as (h2 & m2 & r & r' & F1 & F2 & X).
  exists h2, m2, r, r'. unfold bind. rewrite (H1 _ _ HP). auto.
Qed.
Lemma sim_fail {A B} a (P : heap -> mgr -> Prop) (p : M heap A) (q : M mgr B) Q' e :
  (forall h W m, R h W -> nth_error W a = Some m -> P h m -> p h = (h, Raise e) /\ q m = (m, Raise e)) -> sim a P p q Q'.
Proof.
  intros H1 h W m HR E HP. destruct (H1 h W m HR E HP). exists h, m, (Raise e), (Raise e). rewrite put_id; auto. sim_split; auto using ext_refl.
Qed.
Lemma sim_cases {A B} a (P : heap -> mgr -> Prop) (p : M heap A) (q : M mgr B) Q' (X : mgr -> option trans) :
  (forall t, sim a (fun h m => P h m /\ X m = Some t) p q Q') -> sim a (fun h m => P h m /\ X m = None) p q Q' -> sim a P p q Q'.
Proof. intros H1 H2 h W m HR E HP. destruct (X m) eqn:G; [eapply H1|eapply H2]; eauto. Qed.

Lemma grows_new_set h l : grows h (fst (new_set l h)).
Proof. unfold new_set. simpl. repeat split; simpl; auto. intros; apply nth_app1; auto. Qed.
Lemma grows_new_row h l : grows h (fst (new_row l h)).
Proof. unfold new_row. simpl. repeat split; simpl; auto. intros; apply nth_app1; auto. Qed.
Lemma grows_new_pair h l : grows h (fst (new_pair l h)).
Proof. unfold new_pair. simpl. repeat split; simpl; auto. intros; apply nth_app1; auto. Qed.
Lemma grows_new_table h l : grows h (fst (new_table l h)).
Proof. unfold new_table. simpl. repeat split; simpl; auto. intros; apply nth_app1; auto. Qed.

(** [{**s1, **s2}] *)
Lemma run_merged h s1 s2 l1 l2 : here s1 l1 h -> here s2 l2 h ->
  exists h' s, merged s1 s2 h = (h', Ok s) /\ grows h h' /\ here s (ounion l1 l2) h'.
Proof.
  intros A B. exists (fst (new_set (ounion l1 l2) h)), (length (h_sets h)). unfold merged, bind, deref. rewrite A, B. split; [reflexivity|].
  split; [apply grows_new_set|]. unfold here, new_set. simpl. apply nth_app_new.
Qed.

(** ** Assignments *)
Lemma ext_with_rows f h : ext h (with_rows f h).
Proof. split; simpl; eauto. Qed.
Lemma ext_with_pairs f h : ext h (with_pairs f h).
Proof. split; simpl; eauto. Qed.
Lemma ext_with_tables f h : ext h (with_tables f h).
Proof. split; simpl; eauto. Qed.

Lemma sim_set_constraint a P x y v : stable P -> sim a (fun h _ => P h) (h_set_constraint a x y v) (set_constraint x y v) (fun h _ _ _ => P h).
Proof.
  intros SP h W m HR E HP. destruct (read_dictionary _ _ _ _ HR E) as (ct & tt0 & C & T & HT & D1 & D2 & (K & ND & B) & RP).
  unfold h_set_constraint, set_constraint, the_row, gets, lift, bind, dlookup, put_row, modify. rewrite D1. destruct (dget x C) eqn:G.
  - destruct (B _ _ G) as (row & Q1 & Q2). unfold deref. rewrite Q1, Q2.
    exists (with_rows (put n (dset y v row)) h), (mkMgr (dset x (dset y v row) (cdict m)) (ctrans m)), (Ok tt), (Ok tt).
    sim_split; auto. + eapply put_row_R; eauto. + apply ext_with_rows. + eapply SP; [apply ext_with_rows|eauto].
  - rewrite (dget_keys_eq _ _ _ K G). exists h, m, (Raise KeyError), (Raise KeyError). rewrite put_id; auto. sim_split; auto using ext_refl.
Qed.

Lemma sim_set_ml a P x s l : stable P -> (forall h, P h -> here s l h) ->
  sim a (fun h _ => P h) (h_set_ml a x s) (set_ml x l) (fun h _ _ _ => P h).
Proof.
  intros SP HS h W m HR E HP. destruct (read_dictionary _ _ _ _ HR E) as (ct & tt0 & C & T & HT & D1 & D2 & RR & (K & ND & B)).
  unfold h_set_ml, set_ml, get_trans, the_pair, gets, lift, bind, dlookup, put_pair, modify. rewrite D2. destruct (dget x T) eqn:G.
  - destruct (B _ _ G) as (t & (e & Q1 & Q2 & Q3) & Q4). unfold deref. rewrite Q1, Q4.
    exists (with_pairs (put n (s, snd e)) h), (mkMgr (cdict m) (dset x (mkTrans l (t_cl t)) (ctrans m))), (Ok tt), (Ok tt).
    sim_split; auto. + eapply put_pair_R; eauto. simpl. apply HS; auto. + apply ext_with_pairs. + eapply SP; [apply ext_with_pairs|eauto].
  - rewrite (dget_keys_eq _ _ _ K G). exists h, m, (Raise KeyError), (Raise KeyError). rewrite put_id; auto. sim_split; auto using ext_refl.
Qed.

Lemma sim_set_cl a P x s l : stable P -> (forall h, P h -> here s l h) ->
  sim a (fun h _ => P h) (h_set_cl a x s) (set_cl x l) (fun h _ _ _ => P h).
Proof.
  intros SP HS h W m HR E HP. destruct (read_dictionary _ _ _ _ HR E) as (ct & tt0 & C & T & HT & D1 & D2 & RR & (K & ND & B)).
  unfold h_set_cl, set_cl, get_trans, the_pair, gets, lift, bind, dlookup, put_pair, modify. rewrite D2. destruct (dget x T) eqn:G.
  - destruct (B _ _ G) as (t & (e & Q1 & Q2 & Q3) & Q4). unfold deref. rewrite Q1, Q4.
    exists (with_pairs (put n (fst e, s)) h), (mkMgr (cdict m) (dset x (mkTrans (t_ml t) l) (ctrans m))), (Ok tt), (Ok tt).
    sim_split; auto. + eapply put_pair_R; eauto. simpl. apply HS; auto. + apply ext_with_pairs. + eapply SP; [apply ext_with_pairs|eauto].
  - rewrite (dget_keys_eq _ _ _ K G). exists h, m, (Raise KeyError), (Raise KeyError). rewrite put_id; auto. sim_split; auto using ext_refl.
Qed.

Lemma stable_and P Q : stable P -> stable Q -> stable (fun h => P h /\ Q h).
Proof. intros A B h h' E [X Y]. split; eauto. Qed.

Lemma deref_here s l h : here s l h -> deref h_sets s h = (h, Ok l).
Proof. unfold deref, here. intro E. rewrite E. auto. Qed.

Lemma sim_pre {A B} a (P P' : heap -> mgr -> Prop) (p : M heap A) (q : M mgr B) Q : sim a P p q Q -> (forall h m, P' h m -> P h m) -> sim a P' p q Q.
Proof. intros S HP. eapply sim_conseq; eauto. Qed.

(** ** [_add_constraint_transitivity] *)
Lemma sim_transitivity a P x y ty : stable P ->
  sim a (fun h _ => P h) (h_add_constraint_transitivity a x y ty) (add_constraint_transitivity x y ty) (fun h _ b b' => b = b' /\ P h).
Proof.
  intro SP. unfold h_add_constraint_transitivity, add_constraint_transitivity.
  eapply sim_bind with (Q := fun h _ _ _ => P h); [|intros _ _; apply sim_ret; auto].
  apply sim_cases with (X := fun m => dget x (ctrans m)).
  2:{ apply sim_fail with (e := KeyError). intros h W m HR E [HP G].
      destruct (read_pair h W a m x HR E) as [(t & s1 & s2 & Q1 & _)|(Q1 & Q2 & Q3)]; [congruence|].
      destruct (eqb ty MUST_LINK); unfold get_trans, gets, lift, bind, dlookup; rewrite G; [rewrite Q2|rewrite Q3]; auto. }
  intro t1. apply sim_cases with (X := fun m => dget y (ctrans m)).
  2:{ apply sim_fail with (e := KeyError). intros h W m HR E [[HP G1] G].
      destruct (read_pair h W a m y HR E) as [(t & s1 & s2 & Q1 & _)|(Q1 & Q2 & Q3)]; [congruence|].
      destruct (read_pair h W a m x HR E) as [(t & s1 & s2 & Q1' & Q2' & Q3' & _)|(Q1' & _)]; [|congruence].
      destruct (eqb ty MUST_LINK); unfold get_trans, gets, lift, bind, dlookup; rewrite G, G1; [rewrite Q2', Q2|rewrite Q3', Q2]; auto. }
  intro t2.
  assert (forall z t (P' : heap -> mgr -> Prop) (C D : Type) (p : M heap C) (g : trans -> M mgr D) Q', (forall h m, P' h m -> dget z (ctrans m) = Some t) -> sim a P' p (g t) Q' -> sim a P' p (bind (get_trans z) g) Q') as RT.
  { intros z t P' C D p g Q' HP' S. apply sim_right with (y := t); auto. intros h m Hp. unfold get_trans, gets, lift, bind. unfold dlookup. rewrite (HP' _ _ Hp). auto. }
  assert (forall z t (Pm : mgr -> Prop) (Ph : heap -> Prop) (C D : Type) (f : nat -> M heap C) (q : M mgr D) Q', stable Ph ->
    (forall m, Pm m -> dget z (ctrans m) = Some t) ->
    (forall s, sim a (fun h m => (Ph h /\ here s (t_ml t) h) /\ Pm m) (f s) q Q') -> sim a (fun h m => Ph h /\ Pm m) (bind (ml_of a z) f) q Q') as LM.
  { intros z t Pm Ph C D f q Q' SPh HPm S. eapply sim_left; [|exact S]. intros h W m HR E [H1 H2]. simpl.
    destruct (read_pair h W a m z HR E) as [(t' & s1 & s2 & Q1 & Q2 & Q3 & Q4 & Q5)|(Q1 & _)]; [|rewrite (HPm m H2) in Q1; discriminate].
    exists h, s1. split; auto. split; [apply grows_refl|]. split; auto. split; auto. rewrite (HPm m H2) in Q1. congruence. }
  assert (forall z t (Pm : mgr -> Prop) (Ph : heap -> Prop) (C D : Type) (f : nat -> M heap C) (q : M mgr D) Q', stable Ph ->
    (forall m, Pm m -> dget z (ctrans m) = Some t) ->
    (forall s, sim a (fun h m => (Ph h /\ here s (t_cl t) h) /\ Pm m) (f s) q Q') -> sim a (fun h m => Ph h /\ Pm m) (bind (cl_of a z) f) q Q') as LC.
  { intros z t Pm Ph C D f q Q' SPh HPm S. eapply sim_left; [|exact S]. intros h W m HR E [H1 H2]. simpl.
    destruct (read_pair h W a m z HR E) as [(t' & s1 & s2 & Q1 & Q2 & Q3 & Q4 & Q5)|(Q1 & _)]; [|rewrite (HPm m H2) in Q1; discriminate].
    exists h, s2. split; auto. split; [apply grows_refl|]. split; auto. split; auto. rewrite (HPm m H2) in Q1. congruence. }
  assert (forall s1 s2 l1 l2 (Pm : mgr -> Prop) (Ph : heap -> Prop) (C D : Type) (f : nat -> M heap C) (q : M mgr D) Q', stable Ph ->
    (forall h, Ph h -> here s1 l1 h /\ here s2 l2 h) ->
    (forall s, sim a (fun h m => (Ph h /\ here s (ounion l1 l2) h) /\ Pm m) (f s) q Q') -> sim a (fun h m => Ph h /\ Pm m) (bind (merged s1 s2) f) q Q') as LG.
  { intros s1 s2 l1 l2 Pm Ph C D f q Q' SPh HPh S. eapply sim_left; [|exact S]. intros h W m HR E [H1 H2]. simpl.
    destruct (HPh h H1) as [A1 A2]. destruct (run_merged h s1 s2 l1 l2 A1 A2) as (h' & s & E1 & G & E2). exists h', s. split; auto. split; auto.
    split; auto. split; auto. eapply SPh; [apply grows_ext; eauto|auto]. }
  set (Pm := fun m => dget x (ctrans m) = Some t1 /\ dget y (ctrans m) = Some t2).
  apply sim_pre with (P := fun h m => P h /\ Pm m); [|unfold Pm; intros; tauto].
  destruct (eqb ty MUST_LINK).
  - apply RT with (t := t1); [intros h m [_ [Q _]]; auto|]. apply RT with (t := t2); [intros h m [_ [_ Q]]; auto|].
    apply LM with (t := t1); auto; [intros m [Q _]; auto|]. intro s1.
    apply LM with (t := t2); auto using stable_and, here_stable; [intros m [_ Q]; auto|]. intro s2.
    apply LG with (l1 := t_ml t1) (l2 := t_ml t2); auto 6 using stable_and, here_stable; [intros h Q; tauto|]. intro sm.
    apply LC with (t := t1); auto 6 using stable_and, here_stable; [intros m [Q _]; auto|]. intro s3.
    apply LC with (t := t2); auto 7 using stable_and, here_stable; [intros m [_ Q]; auto|]. intro s4.
    apply LG with (l1 := t_cl t1) (l2 := t_cl t2); auto 8 using stable_and, here_stable; [intros h Q; tauto|]. intro sc.
    cbv zeta. set (nml := ounion (t_ml t1) (t_ml t2)). set (ncl := ounion (t_cl t1) (t_cl t2)).
    set (Ph := fun h => P h /\ here sm nml h /\ here sc ncl h).
    assert (stable Ph) as SPh by (apply stable_and; auto; apply stable_and; apply here_stable).
    apply sim_pre with (P := fun h _ => Ph h); [|unfold Ph; intros; tauto].
    eapply sim_bind with (Q := fun h _ _ _ => Ph h).
    + apply sim_for_keys with (P := fun h _ => Ph h); [intros h W m _ _ (_ & Q & _); apply deref_here; auto|].
      intros z _. eapply sim_bind; [apply sim_set_ml; auto; unfold Ph; intros h Q; tauto|].
      intros [] []. apply sim_set_cl; auto. unfold Ph; intros h Q; tauto.
    + intros [] []. eapply sim_conseq; [apply sim_for_keys with (P := fun h _ => Ph h)|auto|unfold Ph; simpl; tauto].
      * intros h W m _ _ (_ & _ & Q). apply deref_here; auto.
      * intros z _. eapply sim_bind; [apply sim_cl_of with (P := fun h _ => Ph h)|]. intros s t. simpl.
        apply sim_pre with (P := fun h m => (Ph h /\ here s (t_cl t) h) /\ True); [|simpl; tauto].
        apply LG with (l1 := t_cl t) (l2 := nml); auto using stable_and, here_stable; [unfold Ph; tauto|].
        intro s'. eapply sim_conseq; [apply sim_set_cl with (P := fun h => (Ph h /\ here s (t_cl t) h) /\ here s' (ounion (t_cl t) nml) h)| |]; auto using stable_and, here_stable; simpl; tauto.
  - apply RT with (t := t1); [intros h m [_ [Q _]]; auto|]. apply RT with (t := t2); [intros h m [_ [_ Q]]; auto|]. cbv zeta.
    apply LC with (t := t1); auto; [intros m [Q _]; auto|]. intro s1.
    apply LM with (t := t2); auto using stable_and, here_stable; [intros m [_ Q]; auto|]. intro s2.
    apply LG with (l1 := t_cl t1) (l2 := t_ml t2); auto 6 using stable_and, here_stable; [intros h Q; tauto|]. intro sm.
    apply LC with (t := t2); auto 6 using stable_and, here_stable; [intros m [_ Q]; auto|]. intro s3.
    apply LM with (t := t1); auto 7 using stable_and, here_stable; [intros m [Q _]; auto|]. intro s4.
    apply LG with (l1 := t_cl t2) (l2 := t_ml t1); auto 8 using stable_and, here_stable; [intros h Q; tauto|]. intro sc.
    set (n1 := ounion (t_cl t1) (t_ml t2)). set (n2 := ounion (t_cl t2) (t_ml t1)).
    set (Ph := fun h => P h /\ here sm n1 h /\ here sc n2 h).
    assert (stable Ph) as SPh by (apply stable_and; auto; apply stable_and; apply here_stable).
    apply sim_pre with (P := fun h _ => Ph h); [|unfold Ph; intros; tauto].
    eapply sim_bind; [apply sim_ml_of with (P := fun h _ => Ph h)|]. intros s t. simpl.
    eapply sim_bind with (Q := fun h _ _ _ => here s (t_ml t) h /\ Ph h).
    + apply sim_for_keys with (P := fun h _ => here s (t_ml t) h /\ Ph h); [intros h W m _ _ (Q & _); apply deref_here; auto|].
      intros z _. apply sim_set_cl; auto using stable_and, here_stable. unfold Ph; intros h Q; tauto.
    + intros [] []. eapply sim_bind; [apply sim_ml_of with (P := fun h _ => here s (t_ml t) h /\ Ph h)|]. intros s' t'. simpl.
      eapply sim_conseq; [apply sim_for_keys with (P := fun h _ => here s' (t_ml t') h /\ Ph h)|simpl; tauto|unfold Ph; simpl; tauto].
      * intros h W m _ _ (Q & _). apply deref_here; auto.
      * intros z _. apply sim_set_cl; auto using stable_and, here_stable. unfold Ph; intros h Q; tauto.
Qed.
