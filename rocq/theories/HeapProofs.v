(** * The managers in memory behave like the managers of [Manager.v]: a simulation. *)

From Coq Require Import List Bool Arith QArith Lia.
From Verif Require Import Base Manager Heap.
Import ListNotations.
Open Scope py_scope.
Open Scope nat_scope.

(** ** [put] *)
Lemma put_length {A} (v : A) : forall l n, length (put n v l) = length l.
Proof. induction l; destruct n; simpl; auto. Qed.

Lemma nth_put {A} (v : A) : forall l n i, nth_error (put n v l) i = if Nat.eqb i n then (if Nat.ltb n (length l) then Some v else None) else nth_error l i.
Proof.
  induction l as [|x l IH]; intros n i.
  - simpl. destruct n; simpl; destruct i; simpl; auto; destruct (Nat.eqb _ _); auto.
  - destruct n; destruct i; simpl; auto. rewrite IH. simpl.
    change (Nat.ltb (S n) (S (length l))) with (Nat.ltb n (length l)). auto.
Qed.

Lemma nth_put_same {A} (v : A) l n x : nth_error l n = Some x -> nth_error (put n v l) n = Some v.
Proof.
  intro E. rewrite nth_put, Nat.eqb_refl. assert (n < length l) as L by (apply nth_error_Some; congruence).
  apply Nat.ltb_lt in L. rewrite L. auto.
Qed.

Lemma nth_put_other {A} (v : A) l n i : i <> n -> nth_error (put n v l) i = nth_error l i.
Proof. intro N. rewrite nth_put. apply Nat.eqb_neq in N. rewrite N. auto. Qed.

Lemma put_put {A} (v w : A) : forall l n, put n v (put n w l) = put n v l.
Proof. induction l; destruct n; simpl; auto. f_equal; auto. Qed.

Lemma put_id {A} (v : A) : forall l n, nth_error l n = Some v -> put n v l = l.
Proof. induction l; destruct n; simpl; intro E; auto; try congruence. f_equal; auto. Qed.

Lemma nth_app1 {A} (l l' : list A) n x : nth_error l n = Some x -> nth_error (l ++ l') n = Some x.
Proof. intro E. rewrite nth_error_app1; auto. apply nth_error_Some. congruence. Qed.

Lemma nth_app_new {A} (l : list A) x : nth_error (l ++ [x]) (length l) = Some x.
Proof. rewrite nth_error_app2, Nat.sub_diag; auto. Qed.

Lemma nth_lt {A} (l : list A) n x : nth_error l n = Some x -> n < length l.
Proof. intro E. apply nth_error_Some. congruence. Qed.

Lemma nth_app_inv {A} (l : list A) y n x : nth_error (l ++ [y]) n = Some x -> nth_error l n = Some x \/ (n = length l /\ x = y).
Proof.
  intro E. destruct (lt_dec n (length l)).
  - rewrite nth_error_app1 in E; auto.
  - rewrite nth_error_app2 in E by lia. destruct (n - length l) eqn:F; simpl in E.
    + right. split; [lia|congruence].
    + destruct n1; discriminate.
Qed.

(** ** Dictionaries with equal keys and equal values *)
Lemma dset_keys_eq {K V V'} `{EqB K} k (v : V) (v' : V') : forall (d : dict K V) (d' : dict K V'), keys d = keys d' -> keys (dset k v d) = keys (dset k v' d').
Proof.
  induction d as [|[a b] d IH]; destruct d' as [|[a' b'] d']; simpl; intro E; inversion E; auto.
  subst. destruct (eqb k a'); simpl; f_equal; auto.
Qed.

Lemma dpop_keys_eq {K V V'} `{EqB K} k : forall (d : dict K V) (d' : dict K V'), keys d = keys d' -> keys (dpop k d) = keys (dpop k d').
Proof.
  induction d as [|[a b] d IH]; destruct d' as [|[a' b'] d']; simpl; intro E; inversion E; auto.
  subst. destruct (eqb k a'); simpl; f_equal; auto.
Qed.

(** ** What an address stands for *)

(** The pair at [p] holds [t]. *)
Definition holds (h : heap) (p : nat) (t : trans) : Prop :=
  exists e, nth_error (h_pairs h) p = Some e /\
    nth_error (h_sets h) (fst e) = Some (t_ml t) /\ nth_error (h_sets h) (snd e) = Some (t_cl t).

Definition rep_rows (h : heap) (C : dict pystr nat) (d : dict pystr (dict pystr (option constr))) : Prop :=
  keys C = keys d /\ NoDup (keys C) /\
  forall x r, dget x C = Some r -> exists row, nth_error (h_rows h) r = Some row /\ dget x d = Some row.

Definition rep_pairs (h : heap) (T : dict pystr nat) (d : dict pystr trans) : Prop :=
  keys T = keys d /\ NoDup (keys T) /\
  forall x p, dget x T = Some p -> exists t, holds h p t /\ dget x d = Some t.

(** The tables of manager [a]. *)
Definition tables (h : heap) (a ct tt : nat) (C T : dict pystr nat) : Prop :=
  nth_error (h_managers h) a = Some (ct, tt) /\ nth_error (h_tables h) ct = Some C /\ nth_error (h_tables h) tt = Some T.

Definition rep (h : heap) (a : nat) (m : mgr) : Prop :=
  exists ct tt C T, tables h a ct tt C T /\ rep_rows h C (cdict m) /\ rep_pairs h T (ctrans m).

(** No object that is changed in place has two owners. *)
Definition table_of (h : heap) (a : nat) (b : bool) (t : nat) : Prop :=
  exists mg, nth_error (h_managers h) a = Some mg /\ t = if b then fst mg else snd mg.
Definition entry_of (h : heap) (b : bool) (a : nat) (x : pystr) (r : nat) : Prop :=
  exists t T, table_of h a b t /\ nth_error (h_tables h) t = Some T /\ dget x T = Some r.

Definition separate (h : heap) : Prop :=
  (forall a a' b b' t, table_of h a b t -> table_of h a' b' t -> a = a' /\ b = b') /\
  (forall b a a' x x' r, entry_of h b a x r -> entry_of h b a' x' r -> a = a' /\ x = x').

Definition R (h : heap) (W : list mgr) : Prop :=
  length (h_managers h) = length W /\ (forall a m, nth_error W a = Some m -> rep h a m) /\ separate h.

(** Sets are never changed, managers keep their first table. *)
Definition ext (h h' : heap) : Prop :=
  (forall s l, nth_error (h_sets h) s = Some l -> nth_error (h_sets h') s = Some l) /\
  (forall a ct tt, nth_error (h_managers h) a = Some (ct, tt) -> exists tt', nth_error (h_managers h') a = Some (ct, tt')).

Lemma ext_refl h : ext h h.
Proof. split; eauto. Qed.
Lemma ext_trans h1 h2 h3 : ext h1 h2 -> ext h2 h3 -> ext h1 h3.
Proof.
  intros [A B] [C D]. split; eauto. intros a ct tt E. apply B in E. destruct E as [tt' E]. eauto.
Qed.

Lemma holds_sets h h' p t :
  (forall s l, nth_error (h_sets h) s = Some l -> nth_error (h_sets h') s = Some l) ->
  nth_error (h_pairs h') p = nth_error (h_pairs h) p -> holds h p t -> holds h' p t.
Proof. intros A B (e & E & F & G). exists e. rewrite B. auto. Qed.

(** A memory that only holds more objects. *)
Definition grows (h h' : heap) : Prop :=
  h_managers h' = h_managers h /\
  (forall s l, nth_error (h_sets h) s = Some l -> nth_error (h_sets h') s = Some l) /\
  (forall s l, nth_error (h_rows h) s = Some l -> nth_error (h_rows h') s = Some l) /\
  (forall s l, nth_error (h_pairs h) s = Some l -> nth_error (h_pairs h') s = Some l) /\
  (forall s l, nth_error (h_tables h) s = Some l -> nth_error (h_tables h') s = Some l).

Lemma grows_refl h : grows h h.
Proof. repeat split; auto. Qed.
Lemma grows_trans h1 h2 h3 : grows h1 h2 -> grows h2 h3 -> grows h1 h3.
Proof. intros (A & B & C & D & E) (A' & B' & C' & D' & E'). repeat split; auto; congruence. Qed.

Lemma grows_ext h h' : grows h h' -> ext h h'.
Proof. intros (A & B & C & D & E). split; auto. intros a ct tt F. rewrite A. eauto. Qed.

Lemma grows_holds h h' p t : grows h h' -> holds h p t -> holds h' p t.
Proof. intros (A & B & C & D & E) (e & F & G & I). exists e. auto. Qed.

Lemma grows_rep_rows h h' C d : grows h h' -> rep_rows h C d -> rep_rows h' C d.
Proof.
  intros (A & B & E & _) (K & N & F). split; auto. split; auto. intros x r I. destruct (F x r I) as (row & J & L). eauto.
Qed.
Lemma grows_rep_pairs h h' C d : grows h h' -> rep_pairs h C d -> rep_pairs h' C d.
Proof.
  intros G (K & N & F). split; auto. split; auto. intros x r I. destruct (F x r I) as (row & J & L).
  exists row. split; auto. eapply grows_holds; eauto.
Qed.

Lemma R_tables h W a m : R h W -> nth_error W a = Some m ->
  exists ct tt C T, tables h a ct tt C T /\ rep_rows h C (cdict m) /\ rep_pairs h T (ctrans m).
Proof. intros (L & F & S) E. apply F in E. auto. Qed.

Lemma table_exists h W a b t : R h W -> table_of h a b t -> exists T, nth_error (h_tables h) t = Some T.
Proof.
  intros (L & F & S) (mg & E & ->). assert (exists m, nth_error W a = Some m) as (m & Em).
  { apply nth_lt in E. destruct (nth_error W a) eqn:Q; eauto. apply nth_error_None in Q. lia. }
  destruct (F a m Em) as (ct & tt & C & T & (A1 & A2 & A3) & _). rewrite E in A1. inversion A1; subst. destruct b; simpl; eauto.
Qed.

Lemma grows_R h h' W : grows h h' -> R h W -> R h' W.
Proof.
  intros G HR. pose proof HR as (L & F & S). pose proof G as (A & B & C & D & E). split; [congruence|]. split.
  - intros a m Q. apply F in Q. destruct Q as (ct & tt & C0 & T0 & (Q1 & Q2 & Q3) & Q4 & Q5).
    exists ct, tt, C0, T0. split; [split; [congruence|]; split; auto|]. split; [eapply grows_rep_rows|eapply grows_rep_pairs]; eauto.
  - assert (forall a b t, table_of h' a b t -> table_of h a b t) as TO by (intros a b t (mg & Q & ->); exists mg; rewrite <- A; auto).
    assert (forall b a x r, entry_of h' b a x r -> entry_of h b a x r) as EO.
    { intros b a x r (t & T & Q1 & Q2 & Q3). apply TO in Q1. destruct (table_exists _ _ _ _ _ HR Q1) as (T' & Q4).
      exists t, T'. rewrite (E _ _ Q4) in Q2. inversion Q2; subst. auto. }
    destruct S as [S1 S2]. split; eauto.
Qed.

(** ** Simulation of a call on manager [a] *)
Definition sim {A B} (a : nat) (P : heap -> mgr -> Prop) (p : M heap A) (q : M mgr B) (Q : heap -> mgr -> A -> B -> Prop) : Prop :=
  forall h W m, R h W -> nth_error W a = Some m -> P h m ->
    exists h' m' r r', p h = (h', r) /\ q m = (m', r') /\ R h' (put a m' W) /\ ext h h' /\
      match r, r' with Ok x, Ok y => Q h' m' x y | Raise e, Raise e' => e = e' | _, _ => False end.

Ltac sim_split := split; [|split; [|split; [|split]]].

Lemma sim_bind {A B C D} a P (p : M heap A) (q : M mgr B) Q (f : A -> M heap C) (g : B -> M mgr D) Q' :
  sim a P p q Q -> (forall x y, sim a (fun h m => Q h m x y) (f x) (g y) Q') -> sim a P (bind p f) (bind q g) Q'.
Proof.
  intros S1 S2 h W m HR E HP. destruct (S1 h W m HR E HP) as (h1 & m1 & r & r' & E1 & E2 & HR1 & X1 & O).
  unfold bind. rewrite E1, E2. destruct r as [x|e], r' as [y|e']; try contradiction.
  - assert (nth_error (put a m1 W) a = Some m1) as Em by (eapply nth_put_same; eauto).
    destruct (S2 x y h1 _ m1 HR1 Em O) as (h2 & m2 & s & s' & F1 & F2 & HR2 & X2 & O2).
    exists h2, m2, s, s'. rewrite put_put in HR2. sim_split; auto. eapply ext_trans; eauto.
  - subst. exists h1, m1, (Raise e'), (Raise e'). sim_split; auto.
Qed.

Lemma sim_conseq {A B} a (P P' : heap -> mgr -> Prop) (p : M heap A) (q : M mgr B) (Q Q' : heap -> mgr -> A -> B -> Prop) :
  sim a P p q Q -> (forall h m, P' h m -> P h m) -> (forall h m x y, Q h m x y -> Q' h m x y) -> sim a P' p q Q'.
Proof.
  intros S HP HQ h W m HR E HP'. destruct (S h W m HR E (HP _ _ HP')) as (h1 & m1 & r & r' & E1 & E2 & HR1 & X1 & O).
  exists h1, m1, r, r'. sim_split; auto. destruct r, r'; auto.
Qed.

(** Facts that survive. *)
Definition stable (F : heap -> Prop) : Prop := forall h h', ext h h' -> F h -> F h'.

Lemma sim_frame {A B} a (F : heap -> Prop) P (p : M heap A) (q : M mgr B) Q :
  stable F -> sim a P p q Q -> sim a (fun h m => P h m /\ F h) p q (fun h m x y => Q h m x y /\ F h).
Proof.
  intros HF S h W m HR E [HP Fh]. destruct (S h W m HR E HP) as (h1 & m1 & r & r' & E1 & E2 & HR1 & X1 & O).
  exists h1, m1, r, r'. sim_split; auto. destruct r, r'; eauto.
Qed.

Lemma sim_frame_mgr {A B} a (F : mgr -> Prop) P (p : M heap A) (q : M mgr B) Q :
  (forall m, F m -> F (fst (q m))) -> sim a P p q Q -> sim a (fun h m => P h m /\ F m) p q (fun h m x y => Q h m x y /\ F m).
Proof.
  intros HF S h W m HR E [HP Fh]. destruct (S h W m HR E HP) as (h1 & m1 & r & r' & E1 & E2 & HR1 & X1 & O).
  exists h1, m1, r, r'. sim_split; auto. pose proof (HF _ Fh) as G. rewrite E2 in G. destruct r, r'; auto.
Qed.

Lemma sim_ret {A B} a (P : heap -> mgr -> Prop) (x : A) (y : B) (Q : heap -> mgr -> A -> B -> Prop) :
  (forall h m, P h m -> Q h m x y) -> sim a P (ret x) (ret y) Q.
Proof.
  intros HQ h W m HR E HP. exists h, m, (Ok x), (Ok y). rewrite put_id; auto. sim_split; auto using ext_refl.
Qed.

Lemma sim_raise {A B} a P e (Q : heap -> mgr -> A -> B -> Prop) : sim a P (raise e) (raise e) Q.
Proof. intros h W m HR E HP. exists h, m, (Raise e), (Raise e). rewrite put_id; auto. sim_split; auto using ext_refl. Qed.

Lemma sim_require a P b : sim a P (require b) (require b) (fun h m _ _ => P h m).
Proof. destruct b. apply sim_ret; auto. apply sim_raise. Qed.

(** Reading: neither side changes anything. *)
Lemma sim_read {A B} a (P : heap -> mgr -> Prop) (p : M heap A) (q : M mgr B) (Q : heap -> mgr -> A -> B -> Prop) :
  (forall h W m, R h W -> nth_error W a = Some m -> P h m ->
     fst (p h) = h /\ fst (q m) = m /\
     match snd (p h), snd (q m) with Ok x, Ok y => Q h m x y | Raise e, Raise e' => e = e' | _, _ => False end) ->
  sim a P p q Q.
Proof.
  intros HQ h W m HR E HP. destruct (HQ h W m HR E HP) as (A1 & A2 & A3).
  destruct (p h) as [h1 r] eqn:E1, (q m) as [m1 r'] eqn:E2. simpl in *. subst h1 m1.
  exists h, m, r, r'. rewrite put_id; auto. sim_split; auto using ext_refl.
Qed.

(** Loops over the keys of an object that keeps its keys. *)
Lemma sim_live a (P : heap -> mgr -> Prop) (current : M heap (list pystr)) (ks : list pystr) (body : pystr -> M heap unit) (gbody : pystr -> M mgr unit) :
  (forall h W m, R h W -> nth_error W a = Some m -> P h m -> current h = (h, Ok ks)) ->
  (forall x, In x ks -> sim a P (body x) (gbody x) (fun h m _ _ => P h m)) ->
  forall rest fuel i, skipn i ks = rest -> length rest <= fuel ->
    sim a P (live_loop fuel (length ks) i current body) (for_ rest gbody) (fun h m _ _ => P h m).
Proof.
  intros HC HB rest. induction rest as [|x rest IH]; intros fuel i E L.
  - intros h W m HR Em HP. pose proof (HC _ _ _ HR Em HP) as C.
    assert (nth_error ks i = None) as N.
    { apply nth_error_None. assert (length (skipn i ks) = 0) by (rewrite E; auto). rewrite skipn_length in *. lia. }
    exists h, m, (Ok tt), (Ok tt). rewrite put_id; auto. sim_split; auto using ext_refl.
    destruct fuel; simpl; unfold bind; rewrite C, Nat.eqb_refl, N; auto.
  - destruct fuel; [simpl in L; lia|]. simpl in L.
    assert (nth_error ks i = Some x) as N.
    { rewrite <- (firstn_skipn i ks), E. assert (i < length ks) by (assert (length (skipn i ks) = S (length rest)) by (rewrite E; auto); rewrite skipn_length in *; lia).
      rewrite nth_error_app2; rewrite firstn_length_le by lia; [rewrite Nat.sub_diag; auto|lia]. }
    assert (skipn (S i) ks = rest) as E'.
    { clear - E. revert i E. induction ks; intros [|i] E; simpl in *; try discriminate; [congruence|]. apply IHks; auto. }
    assert (sim a P (body x ;; live_loop fuel (length ks) (S i) current body) (gbody x ;; for_ rest gbody) (fun h m _ _ => P h m)) as S0.
    { eapply sim_bind; [apply HB; eapply nth_error_In; eauto|]. intros [] []. apply IH; auto. lia. }
    intros h W m HR Em HP. pose proof (HC _ _ _ HR Em HP) as C.
    destruct (S0 h W m HR Em HP) as (h1 & m1 & r & r' & E1 & E2 & HR1 & X1 & O).
    exists h1, m1, r, r'. split; [|auto]. cbn [live_loop]. unfold bind at 1. rewrite C, Nat.eqb_refl, N. exact E1.
Qed.

Lemma sim_for_keys a (P : heap -> mgr -> Prop) (current : M heap (list pystr)) (ks : list pystr) (body : pystr -> M heap unit) (gbody : pystr -> M mgr unit) :
  (forall h W m, R h W -> nth_error W a = Some m -> P h m -> current h = (h, Ok ks)) ->
  (forall x, In x ks -> sim a P (body x) (gbody x) (fun h m _ _ => P h m)) ->
  sim a P (for_keys current body) (for_ ks gbody) (fun h m _ _ => P h m).
Proof.
  intros HC HB h W m HR Em HP. pose proof (HC _ _ _ HR Em HP) as C.
  destruct (sim_live a P current ks body gbody HC HB ks (length ks) 0 eq_refl (le_n _) h W m HR Em HP) as (h1 & m1 & r & r' & E1 & E).
  exists h1, m1, r, r'. split; auto. unfold for_keys, bind. rewrite C. exact E1.
Qed.

(** ** Changing one object *)
Definition with_rows (f : list (dict pystr (option constr)) -> list (dict pystr (option constr))) (h : heap) : heap :=
  mkHeap (h_sets h) (f (h_rows h)) (h_pairs h) (h_tables h) (h_managers h).
Definition with_pairs (f : list (nat * nat) -> list (nat * nat)) (h : heap) : heap :=
  mkHeap (h_sets h) (h_rows h) (f (h_pairs h)) (h_tables h) (h_managers h).
Definition with_tables (f : list (dict pystr nat) -> list (dict pystr nat)) (h : heap) : heap :=
  mkHeap (h_sets h) (h_rows h) (h_pairs h) (f (h_tables h)) (h_managers h).
Definition with_managers (f : list (nat * nat) -> list (nat * nat)) (h : heap) : heap :=
  mkHeap (h_sets h) (h_rows h) (h_pairs h) (h_tables h) (f (h_managers h)).

Lemma tables_entry_true h a ct tt C T x r : tables h a ct tt C T -> dget x C = Some r -> entry_of h true a x r.
Proof. intros (A & B & _) E. exists ct, C. split; auto. exists (ct, tt). auto. Qed.
Lemma tables_entry_false h a ct tt C T x r : tables h a ct tt C T -> dget x T = Some r -> entry_of h false a x r.
Proof. intros (A & _ & B) E. exists tt, T. split; auto. exists (ct, tt). auto. Qed.

Lemma R_manager h W a mg : R h W -> nth_error (h_managers h) a = Some mg -> exists m, nth_error W a = Some m.
Proof.
  intros (L & _) E. apply nth_lt in E. destruct (nth_error W a) eqn:Q; eauto. apply nth_error_None in Q. lia.
Qed.

Lemma entry_bound_true h W a x r : R h W -> entry_of h true a x r -> r < length (h_rows h).
Proof.
  intros HR (t & T & (mg & E & ->) & F & G). destruct (R_manager _ _ _ _ HR E) as (m & Em).
  destruct (R_tables _ _ _ _ HR Em) as (ct & tt & C & T' & (A1 & A2 & A3) & (_ & _ & B) & _).
  rewrite E in A1. inversion A1; subst. simpl in F. assert (C = T) as -> by congruence.
  destruct (B _ _ G) as (row & Q & _). apply nth_lt in Q. auto.
Qed.
Lemma entry_bound_false h W a x r : R h W -> entry_of h false a x r -> r < length (h_pairs h).
Proof.
  intros HR (t & T & (mg & E & ->) & F & G). destruct (R_manager _ _ _ _ HR E) as (m & Em).
  destruct (R_tables _ _ _ _ HR Em) as (ct & tt & C & T' & (A1 & A2 & A3) & _ & (_ & _ & B)).
  rewrite E in A1. inversion A1; subst. simpl in F. assert (T' = T) as -> by congruence.
  destruct (B _ _ G) as (t & (e & Q & _) & _). apply nth_lt in Q. auto.
Qed.
Lemma table_bound h W a b t : R h W -> table_of h a b t -> t < length (h_tables h).
Proof. intros HR E. destruct (table_exists _ _ _ _ _ HR E) as (T & Q). apply nth_lt in Q. auto. Qed.

Lemma separate_same h h' : h_managers h' = h_managers h -> h_tables h' = h_tables h -> separate h -> separate h'.
Proof.
  intros A B [S1 S2].
  assert (forall a b t, table_of h' a b t -> table_of h a b t) as TO by (intros a b t (mg & Q & ->); exists mg; rewrite <- A; auto).
  split; [eauto|]. intros b a a' x x' r (t & T & Q1 & Q2 & Q3) (t' & T' & Q1' & Q2' & Q3'). rewrite B in *.
  eapply S2; [exists t, T|exists t', T']; eauto.
Qed.

(** [self._constraints_dictionary[x] ...]: a row is changed. *)
Lemma put_row_R h W a m ct tt C T x r row :
  R h W -> nth_error W a = Some m -> tables h a ct tt C T -> dget x C = Some r ->
  R (with_rows (put r row) h) (put a (mkMgr (dset x row (cdict m)) (ctrans m)) W).
Proof.
  intros HR Em HT E. pose proof HR as (L & F & S). split; [|split].
  - simpl. rewrite put_length. auto.
  - intros b m' Eb. destruct (Nat.eq_dec b a) as [->|N].
    + rewrite (nth_put_same _ _ _ _ Em) in Eb. inversion Eb; subst m'. clear Eb.
      destruct (F a m Em) as (ct0 & tt0 & C0 & T0 & HT0 & (K & ND & B) & RP).
      assert (ct0 = ct /\ tt0 = tt) as [-> ->] by (destruct HT as (X & _), HT0 as (Y & _); rewrite X in Y; inversion Y; auto).
      assert (C0 = C /\ T0 = T) as [-> ->] by (destruct HT as (_ & X1 & X2), HT0 as (_ & Y1 & Y2); split; congruence).
      exists ct, tt, C, T. split; [exact HT|]. split.
      * split; [|split; auto].
        -- simpl. rewrite keys_dset_in; auto. rewrite <- K. eapply dget_Some_key; eauto.
        -- intros y s Ey. simpl. rewrite nth_put, dget_dset. destruct (B _ _ E) as (row0 & Q0 & _). destruct (eqb_spec y x) as [->|Ny].
           ++ assert (s = r) as -> by congruence. rewrite Nat.eqb_refl. apply nth_lt in Q0. apply Nat.ltb_lt in Q0. rewrite Q0. eauto.
           ++ destruct (Nat.eqb_spec s r) as [->|Ns]; [|apply B; auto].
              exfalso. apply Ny. apply (proj2 S true a a y x r); eapply tables_entry_true; eauto.
      * exact RP.
    + rewrite nth_put_other in Eb by auto. destruct (F b m' Eb) as (ct0 & tt0 & C0 & T0 & HT0 & (K & ND & B) & RP).
      exists ct0, tt0, C0, T0. split; [exact HT0|]. split; [|exact RP]. split; auto. split; auto. intros y s Ey. simpl. rewrite nth_put_other; [apply B; auto|].
      intros ->. apply N. apply (proj2 S true b a y x r); eapply tables_entry_true; eauto.
  - eapply separate_same; [| |exact S]; auto.
Qed.

(** [self._constraints_transitivity[x][...] = ...]: a pair is changed. *)
Lemma put_pair_R h W a m ct tt C T x p e t :
  R h W -> nth_error W a = Some m -> tables h a ct tt C T -> dget x T = Some p ->
  nth_error (h_sets h) (fst e) = Some (t_ml t) -> nth_error (h_sets h) (snd e) = Some (t_cl t) ->
  R (with_pairs (put p e) h) (put a (mkMgr (cdict m) (dset x t (ctrans m))) W).
Proof.
  intros HR Em HT E H1 H2. pose proof HR as (L & F & S). split; [|split].
  - simpl. rewrite put_length. auto.
  - intros b m' Eb. destruct (Nat.eq_dec b a) as [->|N].
    + rewrite (nth_put_same _ _ _ _ Em) in Eb. inversion Eb; subst m'. clear Eb.
      destruct (F a m Em) as (ct0 & tt0 & C0 & T0 & HT0 & RR & (K & ND & B)).
      assert (ct0 = ct /\ tt0 = tt) as [-> ->] by (destruct HT as (X & _), HT0 as (Y & _); rewrite X in Y; inversion Y; auto).
      assert (C0 = C /\ T0 = T) as [-> ->] by (destruct HT as (_ & X1 & X2), HT0 as (_ & Y1 & Y2); split; congruence).
      exists ct, tt, C, T. split; [exact HT|]. split; [exact RR|].
      split; [|split; auto].
      * simpl. rewrite keys_dset_in; auto. rewrite <- K. eapply dget_Some_key; eauto.
      * intros y s Ey. simpl. rewrite dget_dset. destruct (B _ _ E) as (t0 & (e0 & Q0 & _) & _). destruct (eqb_spec y x) as [->|Ny].
        -- assert (s = p) as -> by congruence. exists t. split; auto. exists e. simpl. split; auto. eapply nth_put_same; eauto.
        -- destruct (B _ _ Ey) as (t1 & (e1 & Q1 & Q2) & Q3). exists t1. split; auto. exists e1. simpl. split; auto.
           rewrite nth_put_other; auto. intros ->. apply Ny. apply (proj2 S false a a y x p); eapply tables_entry_false; eauto.
    + rewrite nth_put_other in Eb by auto. destruct (F b m' Eb) as (ct0 & tt0 & C0 & T0 & HT0 & RR & (K & ND & B)).
      exists ct0, tt0, C0, T0. split; [exact HT0|]. split; [exact RR|]. split; auto. split; auto. intros y s Ey.
      destruct (B _ _ Ey) as (t1 & (e1 & Q1 & Q2) & Q3). exists t1. split; auto. exists e1. simpl. split; auto.
      rewrite nth_put_other; auto. intros ->. apply N. apply (proj2 S false b a y x p); eapply tables_entry_false; eauto.
  - eapply separate_same; [| |exact S]; auto.
Qed.

(** A table of manager [a] is changed; its new entries belong to nobody else. *)
Lemma separate_put_table h W a b0 t0 T0 T' :
  R h W -> table_of h a b0 t0 -> nth_error (h_tables h) t0 = Some T0 ->
  (forall x r, dget x T' = Some r -> dget x T0 = Some r \/ forall a' x', ~ entry_of h b0 a' x' r) ->
  (forall x x' r, dget x T' = Some r -> dget x' T' = Some r -> x = x') ->
  separate (with_tables (put t0 T') h).
Proof.
  intros HR T E N I. pose proof HR as (L & F & [S1 S2]). split; [exact S1|].
  intros b a1 a2 x1 x2 r (t1 & T1 & A1 & A2 & A3) (t2 & T2 & B1 & B2 & B3).
  change (table_of h a1 b t1) in A1. change (table_of h a2 b t2) in B1. simpl in A2, B2.
  rewrite nth_put in A2, B2. assert (t0 <? length (h_tables h) = true) as Lt by (apply Nat.ltb_lt; eapply nth_lt; eauto). rewrite Lt in *.
  destruct (Nat.eqb_spec t1 t0) as [->|N1], (Nat.eqb_spec t2 t0) as [->|N2].
  - inversion A2; inversion B2; subst. destruct (S1 _ _ _ _ _ A1 B1) as [-> _]. split; auto. eapply I; eauto.
  - inversion A2; subst T1. destruct (S1 _ _ _ _ _ A1 T) as [-> ->]. assert (entry_of h b0 a2 x2 r) as EO by (exists t2, T2; auto).
    destruct (N _ _ A3) as [G|G]; [|exfalso; eapply G; eauto]. apply (S2 b0 a a2 x1 x2 r); auto. exists t0, T0. auto.
  - inversion B2; subst T2. destruct (S1 _ _ _ _ _ B1 T) as [-> ->]. assert (entry_of h b0 a1 x1 r) as EO by (exists t1, T1; auto).
    destruct (N _ _ B3) as [G|G]; [|exfalso; eapply G; eauto]. apply (S2 b0 a1 a x1 x2 r); auto. exists t0, T0. auto.
  - eapply S2; [exists t1, T1|exists t2, T2]; eauto.
Qed.

Lemma put_rows_table_R h W a m ct tt C T C' d' :
  R h W -> nth_error W a = Some m -> tables h a ct tt C T -> rep_rows h C' d' ->
  (forall x r, dget x C' = Some r -> dget x C = Some r \/ forall a' x', ~ entry_of h true a' x' r) ->
  (forall x x' r, dget x C' = Some r -> dget x' C' = Some r -> x = x') ->
  R (with_tables (put ct C') h) (put a (mkMgr d' (ctrans m)) W).
Proof.
  intros HR Em HT RR N I. pose proof HR as (L & F & S). pose proof HT as (T1 & T2 & T3).
  assert (table_of h a true ct) as TC by (exists (ct, tt); auto).
  assert (table_of h a false tt) as TT by (exists (ct, tt); auto).
  assert (tt <> ct) as NT by (intros ->; destruct (proj1 S _ _ _ _ _ TC TT); discriminate).
  split; [simpl; rewrite put_length; auto|]. split.
  - intros b m' Eb. destruct (Nat.eq_dec b a) as [->|Nb].
    + rewrite (nth_put_same _ _ _ _ Em) in Eb. inversion Eb; subst m'.
      destruct (F a m Em) as (ct0 & tt0 & C0 & T0 & (X1 & X2 & X3) & _ & RP).
      rewrite T1 in X1. inversion X1; subst ct0 tt0. assert (T0 = T) as -> by congruence.
      exists ct, tt, C', T. split; [|split; auto]. split; [exact T1|]. simpl. split; [eapply nth_put_same; eauto|]. rewrite nth_put_other; auto.
    + rewrite nth_put_other in Eb by auto. destruct (F b m' Eb) as (ct0 & tt0 & C0 & T0 & (X1 & X2 & X3) & RR0 & RP).
      exists ct0, tt0, C0, T0. split; [|split; auto]. split; [exact X1|]. simpl. split; rewrite nth_put_other; auto.
      * intros ->. apply Nb. apply (proj1 S b a true true ct); auto. exists (ct, tt0). auto.
      * intros ->. apply Nb. apply (proj1 S b a false true ct); auto. exists (ct0, ct). auto.
  - eapply separate_put_table; eauto.
Qed.

Lemma put_pairs_table_R h W a m ct tt C T T' d' :
  R h W -> nth_error W a = Some m -> tables h a ct tt C T -> rep_pairs h T' d' ->
  (forall x r, dget x T' = Some r -> dget x T = Some r \/ forall a' x', ~ entry_of h false a' x' r) ->
  (forall x x' r, dget x T' = Some r -> dget x' T' = Some r -> x = x') ->
  R (with_tables (put tt T') h) (put a (mkMgr (cdict m) d') W).
Proof.
  intros HR Em HT RR N I. pose proof HR as (L & F & S). pose proof HT as (T1 & T2 & T3).
  assert (table_of h a true ct) as TC by (exists (ct, tt); auto).
  assert (table_of h a false tt) as TT by (exists (ct, tt); auto).
  assert (ct <> tt) as NT by (intros ->; destruct (proj1 S _ _ _ _ _ TC TT); discriminate).
  split; [simpl; rewrite put_length; auto|]. split.
  - intros b m' Eb. destruct (Nat.eq_dec b a) as [->|Nb].
    + rewrite (nth_put_same _ _ _ _ Em) in Eb. inversion Eb; subst m'.
      destruct (F a m Em) as (ct0 & tt0 & C0 & T0 & (X1 & X2 & X3) & RR0 & _).
      rewrite T1 in X1. inversion X1; subst ct0 tt0. assert (C0 = C) as -> by congruence.
      exists ct, tt, C, T'. split; [|split; auto]. split; [exact T1|]. simpl. split; [rewrite nth_put_other; auto|]. eapply nth_put_same; eauto.
    + rewrite nth_put_other in Eb by auto. destruct (F b m' Eb) as (ct0 & tt0 & C0 & T0 & (X1 & X2 & X3) & RR0 & RP).
      exists ct0, tt0, C0, T0. split; [|split; auto]. split; [exact X1|]. simpl. split; rewrite nth_put_other; auto.
      * intros ->. apply Nb. apply (proj1 S b a true false tt); auto. exists (tt, tt0). auto.
      * intros ->. apply Nb. apply (proj1 S b a false false tt); auto. exists (ct0, tt). auto.
  - eapply separate_put_table; eauto.
Qed.

(** [self._constraints_transitivity = ...]: a new table. *)
Lemma rebind_R h W a m ct tt C T t' T' d' :
  R h W -> nth_error W a = Some m -> tables h a ct tt C T ->
  nth_error (h_tables h) t' = Some T' -> (forall a' b', ~ table_of h a' b' t') -> rep_pairs h T' d' ->
  (forall x r, dget x T' = Some r -> forall a' x', ~ entry_of h false a' x' r) ->
  (forall x x' r, dget x T' = Some r -> dget x' T' = Some r -> x = x') ->
  R (with_managers (put a (ct, t')) h) (put a (mkMgr (cdict m) d') W).
Proof.
  intros HR Em HT E NL RP N I. pose proof HR as (L & F & [S1 S2]). pose proof HT as (T1 & T2 & T3).
  assert (forall a0 b0 t0, table_of (with_managers (put a (ct, t')) h) a0 b0 t0 -> table_of h a0 b0 t0 \/ (a0 = a /\ b0 = false /\ t0 = t')) as TO.
  { intros a0 b0 t0 (mg & Q1 & ->). simpl in Q1. destruct (Nat.eq_dec a0 a) as [->|Na].
    - rewrite (nth_put_same _ _ _ _ T1) in Q1. inversion Q1; subst. destruct b0; simpl; auto. left. exists (ct, tt). auto.
    - rewrite nth_put_other in Q1 by auto. left. exists mg. auto. }
  split; [simpl; rewrite !put_length; auto|]. split.
  - intros b m' Eb. destruct (Nat.eq_dec b a) as [->|Nb].
    + rewrite (nth_put_same _ _ _ _ Em) in Eb. inversion Eb; subst m'.
      destruct (F a m Em) as (ct0 & tt0 & C0 & T0 & (X1 & X2 & X3) & RR0 & _).
      rewrite T1 in X1. inversion X1; subst ct0 tt0.
      exists ct, t', C0, T'. split; [|split; auto]. split; [simpl; eapply nth_put_same; eauto|]. auto.
    + rewrite nth_put_other in Eb by auto. destruct (F b m' Eb) as (ct0 & tt0 & C0 & T0 & (X1 & X2 & X3) & RR0 & RP0).
      exists ct0, tt0, C0, T0. split; [|split; auto]. split; [simpl; rewrite nth_put_other; auto|]. auto.
  - split.
    + intros a1 a2 b1 b2 t Q1 Q2. destruct (TO _ _ _ Q1) as [Q1'|(Z1 & Z2 & Z3)], (TO _ _ _ Q2) as [Q2'|(Y1 & Y2 & Y3)]; [eauto|subst; exfalso; eapply NL; eauto..|subst; auto].
    + intros b a1 a2 x1 x2 r (t1 & U1 & A1 & A2 & A3) (t2 & U2 & B1 & B2 & B3). simpl in A2, B2.
      destruct (TO _ _ _ A1) as [Q1'|(Y1 & Y2 & Y3)], (TO _ _ _ B1) as [Q2'|(Z1 & Z2 & Z3)].
      * eapply S2; [exists t1, U1|exists t2, U2]; eauto.
      * subst. exfalso. assert (U2 = T') as -> by congruence. eapply (N _ _ B3). exists t1, U1. eauto.
      * subst. exfalso. assert (U1 = T') as -> by congruence. eapply (N _ _ A3). exists t2, U2. eauto.
      * subst. split; auto. assert (U1 = T') as -> by congruence. assert (U2 = T') as -> by congruence. eapply I; eauto.
Qed.

(** A new manager. *)
Lemma new_manager_R h W ct tt C T m :
  R h W -> ct <> tt -> nth_error (h_tables h) ct = Some C -> nth_error (h_tables h) tt = Some T ->
  (forall a' b', ~ table_of h a' b' ct) -> (forall a' b', ~ table_of h a' b' tt) ->
  rep_rows h C (cdict m) -> rep_pairs h T (ctrans m) ->
  (forall x r, dget x C = Some r -> forall a' x', ~ entry_of h true a' x' r) ->
  (forall x r, dget x T = Some r -> forall a' x', ~ entry_of h false a' x' r) ->
  (forall x x' r, dget x C = Some r -> dget x' C = Some r -> x = x') ->
  (forall x x' r, dget x T = Some r -> dget x' T = Some r -> x = x') ->
  R (with_managers (fun l => l ++ [(ct, tt)]) h) (W ++ [m]).
Proof.
  intros HR NT E1 E2 N1 N2 RR RP L1 L2 I1 I2. pose proof HR as (L & F & [S1 S2]).
  assert (forall a0 b0 t0, table_of (with_managers (fun l => l ++ [(ct, tt)]) h) a0 b0 t0 ->
            table_of h a0 b0 t0 \/ (a0 = length (h_managers h) /\ t0 = if b0 then ct else tt)) as TO.
  { intros a0 b0 t0 (mg & Q1 & ->). simpl in Q1. apply nth_app_inv in Q1. destruct Q1 as [Q1|[-> ->]].
    - left. exists mg. auto.
    - right. destruct b0; auto. }
  split; [simpl; rewrite !app_length; simpl; lia|]. split.
  - intros b m' Eb. apply nth_app_inv in Eb. destruct Eb as [Eb|[-> ->]].
    + destruct (F b m' Eb) as (ct0 & tt0 & C0 & T0 & (X1 & X2 & X3) & RR0 & RP0).
      exists ct0, tt0, C0, T0. split; [|split; auto]. split; [simpl; apply nth_app1; auto|]. auto.
    + exists ct, tt, C, T. split; [|split; auto]. split; [simpl; rewrite <- L; apply nth_app_new|]. auto.
  - split.
    + intros a1 a2 b1 b2 t Q1 Q2. destruct (TO _ _ _ Q1) as [Q1'|(-> & Z1)], (TO _ _ _ Q2) as [Q2'|(-> & Z2)]; eauto.
      * exfalso. destruct b2; subst t; [eapply N1|eapply N2]; eauto.
      * exfalso. destruct b1; subst t; [eapply N1|eapply N2]; eauto.
      * split; auto. destruct b1, b2; congruence.
    + intros b a1 a2 x1 x2 r (t1 & U1 & A1 & A2 & A3) (t2 & U2 & B1 & B2 & B3). simpl in A2, B2.
      assert (forall t U x, t = (if b then ct else tt) -> nth_error (h_tables h) t = Some U -> dget x U = Some r -> forall a' x', ~ entry_of h b a' x' r) as NL.
      { intros t U x -> Q1 Q2. destruct b; [assert (U = C) as -> by congruence; eauto|assert (U = T) as -> by congruence; eauto]. }
      destruct (TO _ _ _ A1) as [Q1'|(-> & Z1)], (TO _ _ _ B1) as [Q2'|(-> & Z2)].
      * eapply S2; [exists t1, U1|exists t2, U2]; eauto.
      * exfalso. eapply (NL _ _ _ Z2 B2 B3). exists t1, U1. eauto.
      * exfalso. eapply (NL _ _ _ Z1 A2 A3). exists t2, U2. eauto.
      * split; auto. subst t1 t2. assert (U1 = U2) as -> by congruence.
        destruct b; [assert (U2 = C) as -> by congruence; eauto|assert (U2 = T) as -> by congruence; eauto].
Qed.
