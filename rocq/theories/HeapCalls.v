(** * The remaining methods, and whole programs *)

From Coq Require Import List Bool Arith QArith Lia.
From Verif Require Import Base Manager Heap HeapProofs HeapRun.
Import ListNotations.
Open Scope py_scope.
Open Scope nat_scope.

Lemma sim_bind_eq {A C D} a P (p : M heap A) (q : M mgr A) (Q : heap -> mgr -> A -> Prop) (f : A -> M heap C) (g : A -> M mgr D) Q' :
  sim a P p q (fun h m x y => x = y /\ Q h m x) -> (forall x, sim a (fun h m => Q h m x) (f x) (g x) Q') -> sim a P (bind p f) (bind q g) Q'.
Proof. intros S1 S2. eapply sim_bind; [exact S1|]. intros x y h W m HR E [-> HQ]. apply S2; auto. Qed.

Lemma filter_true {A} (l : list A) : filter (fun _ => true) l = l.
Proof. induction l; simpl; congruence. Qed.

(** ** Dictionary comprehensions *)
Definition push (ks : list pystr) (x : pystr) : list pystr := if mem x ks then ks else ks ++ [x].

Lemma fold_push l : forall ks, fold_left push l ks = ks ++ filter (fun x => negb (mem x ks)) (dedup l).
Proof.
  induction l as [|x l IH]; intro ks; simpl; [rewrite app_nil_r; auto|]. rewrite IH. unfold push. destruct (mem x ks) eqn:E; simpl.
  - f_equal. clear IH. induction (dedup l) as [|y d IHd]; simpl; auto. destruct (eqb_spec x y) as [->|N]; simpl.
    + rewrite E. simpl. auto.
    + destruct (mem y ks); simpl; auto. f_equal. auto.
  - rewrite <- app_assoc. f_equal. simpl. f_equal. clear IH.
    induction (dedup l) as [|y d IHd]; simpl; auto.
    assert (mem y (ks ++ [x]) = mem y ks || eqb x y) as -> .
    { destruct (mem y (ks ++ [x])) eqn:F.
      - apply mem_In in F. apply in_app_or in F. destruct F as [F|[F|[]]].
        + apply mem_In in F. rewrite F. auto.
        + subst. rewrite eqb_refl, orb_true_r. auto.
      - apply mem_nIn in F. symmetry. apply orb_false_iff. split; [apply mem_nIn|apply eqb_neq]; intro G; apply F; apply in_or_app; [auto|subst; simpl; auto]. }
    destruct (eqb_spec x y) as [->|N]; simpl.
    + rewrite orb_true_r. simpl. auto.
    + rewrite orb_false_r. destruct (mem y ks); simpl; auto. f_equal. auto.
Qed.

Lemma keys_dset_push {V} x (v : V) d : keys (dset x v d) = push (keys d) x.
Proof.
  unfold push. destruct (mem x (keys d)) eqn:E.
  - apply mem_In in E. apply keys_dset_in; auto.
  - apply mem_nIn in E. apply keys_dset_out; auto.
Qed.

Section Comprehension.
  Variable size : heap -> nat.
  Variable good : heap -> pystr -> nat -> Prop.
  Variable f : pystr -> M heap nat.
  Hypothesis size_grows : forall h h', grows h h' -> size h <= size h'.
  Hypothesis good_grows : forall h h' x v, grows h h' -> good h x v -> good h' x v.
  Hypothesis f_run : forall h x, exists h', f x h = (h', Ok (size h)) /\ grows h h' /\ size h' = S (size h) /\ good h' x (size h).

  Lemma comprehension_run base : forall l acc h,
    base <= size h ->
    (forall x v, dget x acc = Some v -> base <= v < size h /\ good h x v) ->
    (forall x x' v, dget x acc = Some v -> dget x' acc = Some v -> x = x') ->
    exists h' d, comprehension f l acc h = (h', Ok d) /\ grows h h' /\ keys d = fold_left push l (keys acc) /\
      (forall x v, dget x d = Some v -> base <= v < size h' /\ good h' x v) /\
      (forall x x' v, dget x d = Some v -> dget x' d = Some v -> x = x').
  Proof.
    induction l as [|x l IH]; intros acc h Hb HG HI; simpl.
    - exists h, acc. split; auto. split; [apply grows_refl|]. auto.
    - destruct (f_run h x) as (h1 & E & G & S1 & Gd). unfold bind. rewrite E.
      destruct (IH (dset x (size h) acc) h1) as (h2 & d & E2 & G2 & K & H1 & H2).
      + lia.
      + intros y v Ey. rewrite dget_dset in Ey. destruct (eqb_spec y x) as [->|N].
        * inversion Ey; subst. split; auto. lia.
        * destruct (HG _ _ Ey) as [A B]. split; [lia|]. eapply good_grows; eauto.
      + intros y y' v. rewrite !dget_dset. destruct (eqb_spec y x) as [->|N], (eqb_spec y' x) as [->|N']; intros A B; auto.
        * inversion A; subst. apply HG in B. lia.
        * inversion B; subst. apply HG in A. lia.
        * eauto.
      + exists h2, d. split; auto. split; [eapply grows_trans; eauto|]. rewrite keys_dset_push in K. auto.
  Qed.
End Comprehension.

Lemma grows_pairs h h' : grows h h' -> length (h_pairs h) <= length (h_pairs h').
Proof.
  intros (_ & _ & _ & D & _). destruct (le_lt_dec (length (h_pairs h)) (length (h_pairs h'))) as [|L]; auto.
  destruct (nth_error (h_pairs h) (length (h_pairs h'))) eqn:E.
  - apply D in E. apply nth_lt in E. lia.
  - apply nth_error_None in E. lia.
Qed.
Lemma grows_rows h h' : grows h h' -> length (h_rows h) <= length (h_rows h').
Proof.
  intros (_ & _ & D & _). destruct (le_lt_dec (length (h_rows h)) (length (h_rows h'))) as [|L]; auto.
  destruct (nth_error (h_rows h) (length (h_rows h'))) eqn:E.
  - apply D in E. apply nth_lt in E. lia.
  - apply nth_error_None in E. lia.
Qed.

Lemma fresh_trans_run h x : exists h', h_fresh_trans x h = (h', Ok (length (h_pairs h))) /\ grows h h' /\
  length (h_pairs h') = S (length (h_pairs h)) /\ holds h' (length (h_pairs h)) (fresh_trans x) /\ h_tables h' = h_tables h.
Proof.
  eexists. split; [reflexivity|]. simpl. split; [|split; [|split]]; auto.
  - repeat split; simpl; auto; intros; repeat apply nth_app1; auto.
  - rewrite app_length. simpl. lia.
  - exists (length (h_sets h), length (h_sets h ++ [[x]])). simpl. split; [apply nth_app_new|]. split.
    + apply nth_app1. apply nth_app_new.
    + apply nth_app_new.
Qed.

Lemma fresh_comprehension h l :
  exists h' d, comprehension h_fresh_trans l [] h = (h', Ok d) /\ grows h h' /\ rep_pairs h' d (dcomp fresh_trans l) /\
    (forall x v, dget x d = Some v -> length (h_pairs h) <= v) /\
    (forall x x' v, dget x d = Some v -> dget x' d = Some v -> x = x').
Proof.
  destruct (comprehension_run (fun h => length (h_pairs h)) (fun h x v => holds h v (fresh_trans x)) h_fresh_trans) with (base := length (h_pairs h)) (l := l) (acc := @nil (pystr * nat)) (h := h)
    as (h' & d & E & G & K & H1 & H2).
  - intros h0 x v w; eapply grows_holds; eauto.
  - intros h0 x. destruct (fresh_trans_run h0 x) as (h1 & A & B & C & D & _). eauto.
  - lia.
  - discriminate.
  - discriminate.
  - exists h', d. split; auto. split; auto. rewrite fold_push in K. simpl in K.
    rewrite filter_true in K.
    split; [|split; auto; intros x v Ev; apply H1 in Ev; lia].
    split; [rewrite keys_dcomp; auto|]. split; [rewrite K; apply dedup_NoDup|]. intros x v Ev. exists (fresh_trans x). split; [apply H1; auto|].
    rewrite dget_dcomp. assert (In x (keys d)) as I by (eapply dget_Some_key; eauto). rewrite K in I. apply (proj1 (dedup_In _ _)) in I. apply mem_In in I. rewrite I. auto.
Qed.

Lemma row_comprehension (g : pystr -> dict pystr (option constr)) h l :
  exists h' d, comprehension (fun x => new_row (g x)) l [] h = (h', Ok d) /\ grows h h' /\ rep_rows h' d (dcomp g l) /\
    (forall x v, dget x d = Some v -> length (h_rows h) <= v) /\
    (forall x x' v, dget x d = Some v -> dget x' d = Some v -> x = x').
Proof.
  destruct (comprehension_run (fun h => length (h_rows h)) (fun h x v => nth_error (h_rows h) v = Some (g x)) (fun x => new_row (g x))) with (base := length (h_rows h)) (l := l) (acc := @nil (pystr * nat)) (h := h)
    as (h' & d & E & G & K & H1 & H2).
  - intros h0 h1 x v (_ & _ & A & _) Q. auto.
  - intros h0 x. exists (fst (new_row (g x) h0)). split; [reflexivity|]. split; [apply grows_new_row|]. simpl. split; [rewrite app_length; simpl; lia|apply nth_app_new].
  - lia.
  - discriminate.
  - discriminate.
  - exists h', d. split; auto. split; auto. rewrite fold_push in K. simpl in K.
    rewrite filter_true in K.
    split; [|split; auto; intros x v Ev; apply H1 in Ev; lia].
    split; [rewrite keys_dcomp; auto|]. split; [rewrite K; apply dedup_NoDup|]. intros x v Ev. exists (g x). split; [apply H1; auto|].
    rewrite dget_dcomp. assert (In x (keys d)) as I by (eapply dget_Some_key; eauto). rewrite K in I. apply (proj1 (dedup_In _ _)) in I. apply mem_In in I. rewrite I. auto.
Qed.

(** ** Calls that change neither rows nor tables *)
Definition keeps {A} (p : M heap A) : Prop := forall h,
  h_rows (fst (p h)) = h_rows h /\ h_tables (fst (p h)) = h_tables h /\ h_managers (fst (p h)) = h_managers h.

Lemma keeps_bind {A B} (p : M heap A) (f : A -> M heap B) : keeps p -> (forall x, keeps (f x)) -> keeps (bind p f).
Proof.
  intros H1 H2 h. unfold bind. specialize (H1 h). destruct (p h) as [h1 [x|e]]; simpl in *; auto.
  destruct (H2 x h1) as (A1 & A2 & A3), H1 as (B1 & B2 & B3). rewrite A1, A2, A3. auto.
Qed.
Lemma keeps_ret {A} (x : A) : keeps (ret x).
Proof. intro h. auto. Qed.
Lemma keeps_lift {A} (r : res A) : keeps (lift r).
Proof. intro h. auto. Qed.
Lemma keeps_raise {A} e : keeps (@raise heap A e).
Proof. intro h. auto. Qed.
Lemma keeps_deref {A} (s : heap -> list A) a : keeps (deref s a).
Proof. intro h. unfold deref. destruct (nth_error (s h) a); auto. Qed.
Lemma keeps_new_set l : keeps (new_set l).
Proof. intro h. simpl. auto. Qed.
Lemma keeps_put_pair a p : keeps (put_pair a p).
Proof. intro h. simpl. auto. Qed.
Lemma keeps_live c body : keeps c -> (forall x, keeps (body x)) -> forall fuel size i, keeps (live_loop fuel size i c body).
Proof.
  intros H1 H2. induction fuel; intros size i; simpl; apply keeps_bind; auto; intro ks; destruct (Nat.eqb _ _); auto using keeps_raise;
    destruct (nth_error ks i); auto using keeps_ret, keeps_raise. apply keeps_bind; auto.
Qed.
Lemma keeps_for c body : keeps c -> (forall x, keeps (body x)) -> keeps (for_keys c body).
Proof. intros. apply keeps_bind; auto. intro. apply keeps_live; auto. Qed.

Ltac keep := repeat first [apply keeps_for; [|intro] | apply keeps_bind; [|intro] | apply keeps_ret | apply keeps_lift | apply keeps_deref | apply keeps_new_set | apply keeps_put_pair | apply keeps_for; [|intro]].

Lemma keeps_transitivity a x y t : keeps (h_add_constraint_transitivity a x y t).
Proof.
  unfold h_add_constraint_transitivity, ml_of, cl_of, merged, the_pair, the_transitivity, h_set_cl, h_set_ml. apply keeps_bind; [|intro; apply keeps_ret].
  destruct (eqb t MUST_LINK); unfold the_pair, the_transitivity; keep.
Qed.

Lemma sim_frame_keeps {A B} a (F : heap -> Prop) P (p : M heap A) (q : M mgr B) Q :
  keeps p -> (forall h h', h_rows h' = h_rows h -> h_tables h' = h_tables h -> h_managers h' = h_managers h -> F h -> F h') ->
  sim a P p q Q -> sim a (fun h m => P h m /\ F h) p q (fun h m x y => Q h m x y /\ F h).
Proof.
  intros HK HF S h W m HR E [HP Fh]. destruct (S h W m HR E HP) as (h1 & m1 & r & r' & E1 & E2 & HR1 & X1 & O).
  exists h1, m1, r, r'. sim_split; auto. destruct (HK h) as (A1 & A2 & A3). rewrite E1 in *. simpl in *.
  assert (F h1) by (eapply HF; eauto). destruct r, r'; auto.
Qed.

(** The rows are not changed by [_add_constraint_transitivity]. *)
Definition same_rows {A} (q : M mgr A) : Prop := forall m, cdict (fst (q m)) = cdict m.
Lemma same_rows_bind {A B} (p : M mgr A) (f : A -> M mgr B) : same_rows p -> (forall x, same_rows (f x)) -> same_rows (bind p f).
Proof. intros H1 H2 m. unfold bind. specialize (H1 m). destruct (p m) as [m1 [x|e]]; simpl in *; auto. rewrite H2. auto. Qed.
Lemma same_rows_for {A} (l : list A) f : (forall x, same_rows (f x)) -> same_rows (for_ l f).
Proof. intro Hf. induction l; simpl; [intro m; auto|]. apply same_rows_bind; auto. Qed.
Lemma same_rows_get x : same_rows (get_trans x).
Proof. intro m. unfold get_trans, gets, lift, bind. destruct (dlookup x (ctrans m)); auto. Qed.
Lemma same_rows_set_ml x l : same_rows (set_ml x l).
Proof. apply same_rows_bind; [apply same_rows_get|]. intros t m. auto. Qed.
Lemma same_rows_set_cl x l : same_rows (set_cl x l).
Proof. apply same_rows_bind; [apply same_rows_get|]. intros t m. auto. Qed.
Lemma same_rows_ret {A} (x : A) : same_rows (ret x).
Proof. intro m. auto. Qed.
Lemma same_rows_transitivity x y t : same_rows (add_constraint_transitivity x y t).
Proof.
  unfold add_constraint_transitivity. apply same_rows_bind; [|intro; apply same_rows_ret].
  destruct (eqb t MUST_LINK); repeat first [apply same_rows_get | apply same_rows_set_ml | apply same_rows_set_cl | apply same_rows_for; intro | apply same_rows_bind; [|intro]].
Qed.

(** ** [_generate_constraints_transitivity] *)
Definition owns (a ct : nat) (h : heap) : Prop := exists tt', nth_error (h_managers h) a = Some (ct, tt').
Lemma owns_stable a ct : stable (owns a ct).
Proof. intros h h' [_ A] (t & E). apply A in E. auto. Qed.

Lemma run_table_keys h W a m ct : R h W -> nth_error W a = Some m -> owns a ct h -> table_keys ct h = (h, Ok (keys (cdict m))).
Proof.
  intros HR E (t & G). destruct (R_tables _ _ _ _ HR E) as (ct0 & tt0 & C & T & (A1 & A2 & A3) & (K & _) & _).
  rewrite G in A1. inversion A1; subst. unfold table_keys, bind, deref. rewrite A2. simpl. rewrite K. auto.
Qed.

Lemma run_row h W a m ct x : R h W -> nth_error W a = Some m -> owns a ct h ->
  (exists r row C t, nth_error (h_managers h) a = Some (ct, t) /\ nth_error (h_tables h) ct = Some C /\ dget x C = Some r /\
     the_row a x h = (h, Ok r) /\ nth_error (h_rows h) r = Some row /\ dget x (cdict m) = Some row) \/
  (the_row a x h = (h, Raise KeyError) /\ dget x (cdict m) = None).
Proof.
  intros HR E (t & G). destruct (read_dictionary _ _ _ _ HR E) as (ct0 & tt0 & C & T & (A1 & A2 & A3) & D1 & D2 & (K & ND & B) & _).
  rewrite G in A1. inversion A1; subst. unfold the_row, bind, lift, dlookup. rewrite D1. destruct (dget x C) eqn:Q.
  - left. destruct (B _ _ Q) as (row & Q1 & Q2). exists n, row, C, tt0. repeat split; auto.
  - right. split; auto. eapply dget_keys_eq; eauto.
Qed.

Lemma sim_regenerate a ct d0 :
  sim a (fun h m => owns a ct h /\ cdict m = d0)
    (for_keys (table_keys ct) (fun data_ID1 =>
       r <- the_row a data_ID1 ;;
       for_keys (row_keys r) (fun data_ID2 =>
         constraint <- h_get_constraint a data_ID1 data_ID2 ;;
         match constraint with
         | Some c => h_add_constraint_transitivity a data_ID1 data_ID2 (fst c) ;; ret tt
         | None => ret tt
         end)))
    (for_ (keys d0) (fun data_ID1 =>
       row <- gets (fun m => dlookup data_ID1 (cdict m)) ;;
       row <- lift row ;;
       for_ (keys row) (fun data_ID2 =>
         constraint <- get_constraint data_ID1 data_ID2 ;;
         match constraint with
         | Some c => add_constraint_transitivity data_ID1 data_ID2 (fst c) ;; ret tt
         | None => ret tt
         end)))
    (fun h m _ _ => owns a ct h /\ cdict m = d0).
Proof.
  apply sim_for_keys with (P := fun h m => owns a ct h /\ cdict m = d0).
  - intros h W m HR E [O <-]. eapply run_table_keys; eauto.
  - intros x _ h W m HR E [O D]. destruct (run_row h W a m ct x HR E O) as [(r & row & C & t & Q1 & Q2 & Q3 & Q4 & Q5 & Q6)|[Q1 Q2]].
    2:{ exists h, m, (Raise KeyError), (Raise KeyError). unfold bind, gets, lift, dlookup. rewrite Q1, Q2. rewrite put_id; auto. sim_split; auto using ext_refl. }
    set (F := fun h => nth_error (h_rows h) r = Some row).
    assert (sim a (fun h m => ((owns a ct h) /\ cdict m = d0) /\ F h)
      (for_keys (row_keys r) (fun data_ID2 =>
         constraint <- h_get_constraint a x data_ID2 ;;
         match constraint with
         | Some c => h_add_constraint_transitivity a x data_ID2 (fst c) ;; ret tt
         | None => ret tt
         end))
      (for_ (keys row) (fun data_ID2 =>
         constraint <- get_constraint x data_ID2 ;;
         match constraint with
         | Some c => add_constraint_transitivity x data_ID2 (fst c) ;; ret tt
         | None => ret tt
         end)) (fun h m _ _ => (owns a ct h /\ cdict m = d0) /\ F h)) as S0.
    { apply sim_for_keys with (P := fun h m => (owns a ct h /\ cdict m = d0) /\ F h).
      - intros h0 W0 m0 _ _ [_ Fh]. unfold row_keys, bind, deref. unfold F in Fh. rewrite Fh. auto.
      - intros y _. eapply sim_bind; [apply sim_get_constraint with (P := fun h m => (owns a ct h /\ cdict m = d0) /\ F h)|].
        intros c c'. simpl. destruct c' as [c'|].
        + destruct c as [c|]; [|intros ? ? ? ? ? [? _]; discriminate].
          assert (sim a (fun h m => (owns a ct h /\ cdict m = d0) /\ F h) (h_add_constraint_transitivity a x y (fst c');; ret tt) (add_constraint_transitivity x y (fst c');; ret tt) (fun h m _ _ => (owns a ct h /\ cdict m = d0) /\ F h)) as S1.
          { eapply sim_bind with (Q := fun h m _ _ => (owns a ct h /\ cdict m = d0) /\ F h); [|intros _ _; apply sim_ret; auto].
            eapply sim_conseq; [apply sim_frame_keeps with (F := F); [apply keeps_transitivity| |apply sim_frame_mgr with (F := fun m => cdict m = d0); [|apply sim_transitivity with (P := owns a ct); apply owns_stable]]| |].
            - intros h0 h1 A1 A2 A3. unfold F. congruence.
            - intros m0 <-. apply same_rows_transitivity.
            - simpl. tauto.
            - simpl. tauto. }
          intros h0 W0 m0 HR0 E0 [Ec HP]. inversion Ec; subst c. apply S1; auto.
        + destruct c as [c|]; [intros ? ? ? ? ? [? _]; discriminate|]. apply sim_ret. tauto. }
    destruct (S0 h W m HR E (conj (conj O D) Q5)) as (h1 & m1 & r1 & r1' & E1 & E2 & HR1 & X1 & Oo).
    exists h1, m1, r1, r1'. unfold bind at 1. rewrite Q4. split; [exact E1|]. split.
    + unfold bind at 1, gets. unfold bind at 1, lift, dlookup. rewrite Q6. exact E2.
    + split; auto. split; auto. destruct r1, r1'; tauto.
Qed.

Lemma not_live_false h h' W v : R h W -> grows h h' -> length (h_pairs h) <= v -> forall a' x', ~ entry_of h' false a' x' v.
Proof.
  intros HR G L a' x' (t & T & (mg & A & ->) & B & C). pose proof G as (G1 & _ & _ & _ & G5). rewrite G1 in A.
  assert (table_of h a' false (snd mg)) as TO by (exists mg; auto). destruct (table_exists _ _ _ _ _ HR TO) as (T' & Q).
  assert (entry_of h false a' x' v) as EO. { exists (snd mg), T'. split; auto. split; auto. apply G5 in Q. simpl in B. assert (T' = T) as -> by congruence. auto. }
  apply (entry_bound_false _ _ _ _ _ HR) in EO. lia.
Qed.
Lemma not_live_true h h' W v : R h W -> grows h h' -> length (h_rows h) <= v -> forall a' x', ~ entry_of h' true a' x' v.
Proof.
  intros HR G L a' x' (t & T & (mg & A & ->) & B & C). pose proof G as (G1 & _ & _ & _ & G5). rewrite G1 in A.
  assert (table_of h a' true (fst mg)) as TO by (exists mg; auto). destruct (table_exists _ _ _ _ _ HR TO) as (T' & Q).
  assert (entry_of h true a' x' v) as EO. { exists (fst mg), T'. split; auto. split; auto. apply G5 in Q. simpl in B. assert (T' = T) as -> by congruence. auto. }
  apply (entry_bound_true _ _ _ _ _ HR) in EO. lia.
Qed.
Lemma not_live_table h h' W t : R h W -> h_managers h' = h_managers h -> length (h_tables h) <= t -> forall a' b', ~ table_of h' a' b' t.
Proof.
  intros HR G L a' b' (mg & A & B). rewrite G in A. assert (table_of h a' b' t) as TO by (exists mg; auto).
  apply (table_bound _ _ _ _ _ HR) in TO. lia.
Qed.

Lemma sim_generate a : sim a (fun _ _ => True) (h_generate_constraints_transitivity a) generate_constraints_transitivity (fun _ _ _ _ => True).
Proof.
  intros h W m HR E _. destruct (R_tables _ _ _ _ HR E) as (ct & tt0 & C & T & HT & RR & RP). pose proof HT as (T1 & T2 & T3).
  destruct (fresh_comprehension h (keys C)) as (h1 & d & E1 & G1 & RP1 & B1 & I1).
  set (h2 := fst (new_table d h1)). assert (grows h1 h2) as G2 by apply grows_new_table.
  assert (grows h h2) as G by (eapply grows_trans; eauto).
  set (m1 := mkMgr (cdict m) (dcomp fresh_trans (keys (cdict m)))).
  set (h3 := with_managers (put a (ct, length (h_tables h1))) h2).
  assert (K : keys C = keys (cdict m)) by apply RR.
  assert (tables h2 a ct tt0 C T) as HT2 by (pose proof G as (X1 & _ & _ & _ & X5); split; [congruence|split; auto]).
  assert (length (h_tables h) <= length (h_tables h1)) as LT.
  { pose proof G1 as (_ & _ & _ & _ & X5). destruct (le_lt_dec (length (h_tables h)) (length (h_tables h1))) as [|L]; auto.
    destruct (nth_error (h_tables h) (length (h_tables h1))) eqn:Q; [apply X5 in Q; apply nth_lt in Q; lia|apply nth_error_None in Q; lia]. }
  assert (R h3 (put a m1 W)) as HR3.
  { eapply rebind_R with (tt := tt0) (C := C) (T := T) (T' := d); eauto.
    - eapply grows_R; eauto.
    - unfold h2, new_table. simpl. apply nth_app_new.
    - intros a' b'. apply (not_live_table h h2 W); auto. destruct G; auto.
    - rewrite <- K. eapply grows_rep_pairs; [exact G2|auto].
    - intros x r Er. eapply not_live_false; eauto. }
  assert (ext h h3) as X3.
  { split; simpl. - apply G. - intros b ct' t' Q. destruct (Nat.eq_dec b a) as [->|N].
      + rewrite T1 in Q. inversion Q; subst. eexists. eapply nth_put_same. destruct G1 as (X & _). rewrite X. eauto.
      + rewrite nth_put_other; auto. destruct G1 as (X & _). rewrite X. eauto. }
  assert (nth_error (put a m1 W) a = Some m1) as Em1 by (eapply nth_put_same; eauto).
  assert (owns a ct h3) as O3. { exists (length (h_tables h1)). simpl. eapply nth_put_same. destruct G1 as (X & _). rewrite X. eauto. }
  destruct (sim_regenerate a ct (cdict m) h3 _ m1 HR3 Em1 (conj O3 eq_refl)) as (h4 & m4 & r & r' & F1 & F2 & HR4 & X4 & Oo).
  exists h4, m4, r, r'. rewrite put_put in HR4. split; [|split; [|split; [auto|split; [eapply ext_trans; eauto|destruct r, r'; auto]]]].
  - unfold h_generate_constraints_transitivity. unfold bind at 1, deref at 1. rewrite T1. simpl fst. unfold bind at 1, deref at 1. rewrite T2.
    unfold bind at 1. rewrite E1. unfold bind at 1. change (new_table d h1) with (h2, @Ok nat (length (h_tables h1))). unfold bind at 1.
    change (put_manager a (ct, length (h_tables h1)) h2) with (h3, Ok tt). exact F1.
  - unfold generate_constraints_transitivity. unfold bind at 1, modify. unfold bind at 1, gets at 1. exact F2.
Qed.

(** ** [add_data_ID], [delete_data_ID] *)
Lemma keys_set_constraint x y v m : In x (keys (cdict m)) -> keys (cdict (fst (set_constraint x y v m))) = keys (cdict m).
Proof.
  intro I. unfold set_constraint, gets, lift, bind, dlookup, modify. destruct (dget x (cdict m)) eqn:E; simpl; auto. apply keys_dset_in; auto.
Qed.

Lemma keys_set_constraint' x y v m ks : keys (cdict m) = ks -> keys (cdict (fst (set_constraint x y v m))) = ks.
Proof.
  intros <-. unfold set_constraint, gets, lift, bind, dlookup, modify. destruct (dget x (cdict m)) eqn:E; simpl; auto.
  apply keys_dset_in. eapply dget_Some_key; eauto.
Qed.

Lemma sim_add_trans a x : sim a (fun _ _ => True)
  (p <- h_fresh_trans x ;; mg <- deref h_managers a ;; t <- deref h_tables (snd mg) ;; put_table (snd mg) (dset x p t) ;; ret true)
  (modify (fun m => mkMgr (cdict m) (dset x (fresh_trans x) (ctrans m))) ;; ret true)
  (fun _ _ b b' => b = b').
Proof.
  intros h W m HR E _. destruct (R_tables _ _ _ _ HR E) as (ct & tt0 & C & T & HT & RR & RP). pose proof HT as (T1 & T2 & T3).
  destruct (fresh_trans_run h x) as (h1 & E1 & G & L & Hd & TT).
  assert (tables h1 a ct tt0 C T) as HT1 by (pose proof G as (X1 & _ & _ & _ & X5); split; [congruence|split; auto]). pose proof HT1 as (U1 & U2 & U3).
  exists (with_tables (put tt0 (dset x (length (h_pairs h)) T)) h1), (mkMgr (cdict m) (dset x (fresh_trans x) (ctrans m))), (Ok true), (Ok true).
  assert (RP1 : rep_pairs h1 T (ctrans m)) by (eapply grows_rep_pairs; eauto). destruct RP1 as (K & ND & B).
  sim_split; auto.
  - unfold bind at 1. rewrite E1. unfold bind at 1, deref at 1. rewrite U1. simpl snd. unfold bind at 1, deref at 1. rewrite U3. reflexivity.
  - eapply put_pairs_table_R; eauto using grows_R.
    + split; [apply dset_keys_eq; auto|]. split; [apply NoDup_keys_dset; auto|]. intros y p Ey. rewrite dget_dset in Ey. rewrite dget_dset. destruct (eqb_spec y x) as [->|N].
      * inversion Ey; subst. exists (fresh_trans x). auto.
      * auto.
    + intros y p Ey. rewrite dget_dset in Ey. destruct (eqb_spec y x) as [->|N]; auto. inversion Ey; subst. right. eapply not_live_false; eauto.
    + assert (forall y p, dget y T = Some p -> p < length (h_pairs h)) as LB.
      { intros y p Ey. eapply (entry_bound_false h W a y); eauto. eapply tables_entry_false; eauto. }
      intros y y' p. rewrite !dget_dset. destruct (eqb_spec y x) as [->|N], (eqb_spec y' x) as [->|N']; intros A1 A2; auto.
      * inversion A1; subst. apply LB in A2. lia.
      * inversion A2; subst. apply LB in A1. lia.
      * destruct HR as (_ & _ & [_ S2]). apply (S2 false a a y y' p); eapply tables_entry_false; eauto.
  - eapply ext_trans; [apply grows_ext; eauto|apply ext_with_tables].
Qed.

Lemma sim_add_data_ID a x : sim a (fun _ _ => True) (h_add_data_ID a x) (add_data_ID x) (fun _ _ b b' => b = b').
Proof.
  unfold h_add_data_ID, add_data_ID.
  eapply sim_bind; [apply sim_in_dict with (P := fun _ _ => True)|]. intros b b'.
  eapply sim_bind with (Q := fun _ m _ _ => True).
  { intros h W m HR E [-> _]. destruct (sim_require a (fun _ _ => True) (negb b') h W m HR E I) as (h1 & m1 & r & r' & X). exists h1, m1, r, r'. exact X. }
  intros _ _ h W m HR E _. destruct (R_tables _ _ _ _ HR E) as (ct & tt0 & C & T & HT & RR & RP). pose proof HT as (T1 & T2 & T3).
  set (h1 := fst (new_row [] h)). assert (grows h h1) as G by apply grows_new_row.
  assert (tables h1 a ct tt0 C T) as HT1 by exact HT.
  set (h2 := with_tables (put ct (dset x (length (h_rows h)) C)) h1). set (m1 := mkMgr (dset x [] (cdict m)) (ctrans m)).
  assert (R h2 (put a m1 W)) as HR2.
  { assert (RR1 : rep_rows h1 C (cdict m)) by (eapply grows_rep_rows; eauto). destruct RR1 as (K & ND & B).
    eapply put_rows_table_R; eauto using grows_R.
    + split; [apply dset_keys_eq; auto|]. split; [apply NoDup_keys_dset; auto|]. intros y p Ey. rewrite dget_dset in Ey. rewrite dget_dset. destruct (eqb_spec y x) as [->|N].
      * inversion Ey; subst. exists []. split; auto. unfold h1, new_row. simpl. apply nth_app_new.
      * auto.
    + intros y p Ey. rewrite dget_dset in Ey. destruct (eqb_spec y x) as [->|N]; auto. inversion Ey; subst. right. eapply not_live_true; eauto.
    + assert (forall y p, dget y C = Some p -> p < length (h_rows h)) as LB.
      { intros y p Ey. eapply (entry_bound_true h W a y); eauto. eapply tables_entry_true; eauto. }
      intros y y' p. rewrite !dget_dset. destruct (eqb_spec y x) as [->|N], (eqb_spec y' x) as [->|N']; intros A1 A2; auto.
      * inversion A1; subst. apply LB in A2. lia.
      * inversion A2; subst. apply LB in A1. lia.
      * destruct HR as (_ & _ & [_ S2]). apply (S2 true a a y y' p); eapply tables_entry_true; eauto. }
  assert (nth_error (put a m1 W) a = Some m1) as Em1 by (eapply nth_put_same; eauto).
  set (ks := keys (cdict m1)).
  assert (sim a (fun h m => owns a ct h /\ keys (cdict m) = ks)
    (for_keys (table_keys ct) (fun other_data_ID =>
      if eqb x other_data_ID then h_set_constraint a x x (Some (MUST_LINK, 1%Q))
      else if str_ltb x other_data_ID then h_set_constraint a x other_data_ID None
      else h_set_constraint a other_data_ID x None) ;;
     p <- h_fresh_trans x ;; mg <- deref h_managers a ;; t <- deref h_tables (snd mg) ;; put_table (snd mg) (dset x p t) ;; ret true)
    (for_ ks (fun other_data_ID =>
      if eqb x other_data_ID then set_constraint x x (Some (MUST_LINK, 1%Q))
      else if str_ltb x other_data_ID then set_constraint x other_data_ID None
      else set_constraint other_data_ID x None) ;;
     modify (fun m => mkMgr (cdict m) (dset x (fresh_trans x) (ctrans m))) ;; ret true)
    (fun _ _ b b' => b = b')) as S0.
  { eapply sim_bind; [apply sim_for_keys with (P := fun h m => owns a ct h /\ keys (cdict m) = ks)|].
    - intros h0 W0 m0 HR0 E0 [O Q]. rewrite (run_table_keys _ _ _ _ _ HR0 E0 O), Q. reflexivity.
    - intros y _. destruct (eqb x y); [|destruct (str_ltb x y)];
        (eapply sim_conseq; [apply sim_frame_mgr with (F := fun m => keys (cdict m) = ks); [|apply sim_set_constraint with (P := owns a ct); apply owns_stable]|simpl; tauto|simpl; tauto];
         intros m0 K0; apply keys_set_constraint'; auto).
    - intros ? ?. eapply sim_pre; [apply sim_add_trans|]. intros; exact I. }
  destruct (S0 h2 _ m1 HR2 Em1 (conj (ex_intro _ tt0 T1) eq_refl)) as (h4 & m4 & r & r' & F1 & F2 & HR4 & X4 & Oo).
  exists h4, m4, r, r'. rewrite put_put in HR4. sim_split; auto.
  - unfold bind at 1, deref at 1. rewrite T1. simpl fst. unfold bind at 1. change (new_row [] h) with (h1, @Ok nat (length (h_rows h))).
    unfold bind at 1, deref at 1. change (h_tables h1) with (h_tables h). rewrite T2. unfold bind at 1.
    change (put_table ct (dset x (length (h_rows h)) C) h1) with (h2, Ok tt). exact F1.
Qed.

Lemma sim_pop_row a P x y : stable P -> sim a (fun h _ => P h)
  (r <- the_row a x ;; row <- deref h_rows r ;; put_row r (dpop y row))
  (row <- gets (fun m => dlookup x (cdict m)) ;; row <- lift row ;; modify (fun m => mkMgr (dset x (dpop y row) (cdict m)) (ctrans m)))
  (fun h _ _ _ => P h).
Proof.
  intros SP h W m HR E HP. destruct (read_dictionary _ _ _ _ HR E) as (ct & tt0 & C & T & HT & D1 & D2 & (K & ND & B) & RP).
  unfold the_row, gets, lift, bind, dlookup, put_row, modify. rewrite D1. destruct (dget x C) eqn:G.
  - destruct (B _ _ G) as (row & Q1 & Q2). unfold deref. rewrite Q1, Q2.
    exists (with_rows (put n (dpop y row)) h), (mkMgr (dset x (dpop y row) (cdict m)) (ctrans m)), (Ok tt), (Ok tt).
    sim_split; auto. + eapply put_row_R; eauto. + apply ext_with_rows. + eapply SP; [apply ext_with_rows|eauto].
  - rewrite (dget_keys_eq _ _ _ K G). exists h, m, (Raise KeyError), (Raise KeyError). rewrite put_id; auto. sim_split; auto using ext_refl.
Qed.

Lemma dget_dpop_Some {V} x y (d : dict pystr V) v : NoDup (keys d) -> dget y (dpop x d) = Some v -> y <> x /\ dget y d = Some v.
Proof.
  intros ND E. destruct (eq_dec_of y x) as [->|N].
  - rewrite dget_dpop_same in E by auto. discriminate.
  - rewrite dget_dpop_other in E by auto. auto.
Qed.

Lemma sim_delete_data_ID a x : sim a (fun _ _ => True) (h_delete_data_ID a x) (delete_data_ID x) (fun _ _ b b' => b = b').
Proof.
  unfold h_delete_data_ID, delete_data_ID.
  eapply sim_bind; [apply sim_in_dict with (P := fun _ _ => True)|]. intros b b'.
  eapply sim_bind with (Q := fun _ m _ _ => True).
  { intros h W m HR E [-> _]. destruct (sim_require a (fun _ _ => True) b' h W m HR E I) as (h1 & m1 & r & r' & X). exists h1, m1, r, r'. exact X. }
  intros _ _ h W m HR E _. destruct (R_tables _ _ _ _ HR E) as (ct & tt0 & C & T & HT & RR & RP). pose proof HT as (T1 & T2 & T3).
  set (h2 := with_tables (put ct (dpop x C)) h). set (m1 := mkMgr (dpop x (cdict m)) (ctrans m)).
  assert (R h2 (put a m1 W)) as HR2.
  { destruct RR as (K & ND & B). assert (NoDup (keys (cdict m))) as ND' by congruence. eapply put_rows_table_R; eauto.
    + split; [apply dpop_keys_eq; auto|]. split; [rewrite keys_dpop by auto; apply NoDup_filter_list; auto|].
      intros y p Ey. apply dget_dpop_Some in Ey; auto. destruct Ey as [N Ey]. rewrite dget_dpop_other; auto.
    + intros y p Ey. apply dget_dpop_Some in Ey; auto. left. tauto.
    + intros y y' p A1 A2. apply dget_dpop_Some in A1; auto. apply dget_dpop_Some in A2; auto.
      destruct HR as (_ & _ & [_ S2]). apply (S2 true a a y y' p); eapply tables_entry_true; try apply A1; try apply A2; eauto. }
  assert (nth_error (put a m1 W) a = Some m1) as Em1 by (eapply nth_put_same; eauto).
  set (ks := keys (cdict m1)).
  assert (sim a (fun h m => owns a ct h /\ keys (cdict m) = ks)
    (for_keys (table_keys ct) (fun other_data_ID =>
       r <- the_row a other_data_ID ;; row <- deref h_rows r ;; put_row r (dpop x row)) ;;
     h_generate_constraints_transitivity a ;; ret true)
    (for_ ks (fun other_data_ID =>
       row <- gets (fun m => dlookup other_data_ID (cdict m)) ;; row <- lift row ;;
       modify (fun m => mkMgr (dset other_data_ID (dpop x row) (cdict m)) (ctrans m))) ;;
     generate_constraints_transitivity ;; ret true)
    (fun _ _ b b' => b = b')) as S0.
  { eapply sim_bind; [apply sim_for_keys with (P := fun h m => owns a ct h /\ keys (cdict m) = ks)|].
    - intros h0 W0 m0 HR0 E0 [O Q]. rewrite (run_table_keys _ _ _ _ _ HR0 E0 O), Q. reflexivity.
    - intros y _. eapply sim_conseq; [apply sim_frame_mgr with (F := fun m => keys (cdict m) = ks); [|apply sim_pop_row with (P := owns a ct); apply owns_stable]|simpl; tauto|simpl; tauto].
      intros m0 Q0. rewrite <- Q0. unfold gets, lift, bind, dlookup, modify. destruct (dget y (cdict m0)) eqn:Q; simpl; auto. apply keys_dset_in. eapply dget_Some_key; eauto.
    - intros ? ?. eapply sim_bind; [eapply sim_pre; [apply sim_generate|intros; exact I]|]. intros v v'. apply sim_ret. reflexivity. }
  destruct (S0 h2 _ m1 HR2 Em1 (conj (ex_intro _ tt0 T1) eq_refl)) as (h4 & m4 & r & r' & F1 & F2 & HR4 & X4 & Oo).
  exists h4, m4, r, r'. rewrite put_put in HR4. sim_split; auto.
  - unfold bind at 1, deref at 1. rewrite T1. simpl fst. unfold bind at 1, deref at 1. rewrite T2. unfold bind at 1.
    change (put_table ct (dpop x C) h) with (h2, Ok tt). exact F1.
Qed.

(** ** Queries and constraints *)
Lemma sim_inferred a x y : sim a (fun _ _ => True) (h_get_inferred_constraint a x y) (get_inferred_constraint x y) (fun _ _ r r' => r = r').
Proof.
  apply sim_read. intros h W m HR E _. unfold h_get_inferred_constraint, get_inferred_constraint, h_in_trans, in_trans, gets.
  destruct (read_dictionary _ _ _ _ HR E) as (ct & tt & C & T & HT & D1 & D2 & RR & (K & ND & B)).
  unfold bind. rewrite D2. simpl. rewrite K. destruct (mem x (keys (ctrans m))); simpl; auto. rewrite D2. simpl. rewrite K.
  destruct (mem y (keys (ctrans m))); simpl; auto. unfold get_trans, gets, bind, lift, dlookup.
  destruct (read_pair h W a m y HR E) as [(t & s1 & s2 & Q1 & Q2 & Q3 & Q4 & Q5)|(Q1 & Q2 & Q3)]; rewrite Q1, Q2; simpl; auto.
  rewrite (deref_here _ _ _ Q4). destruct (mem x (t_ml t)); simpl; auto. rewrite Q3, (deref_here _ _ _ Q5), Q1. destruct (mem x (t_cl t)); simpl; auto.
Qed.

Lemma sim_added a x y : sim a (fun _ _ => True) (h_get_added_constraint a x y) (get_added_constraint x y) (fun _ _ r r' => r = r').
Proof.
  unfold h_get_added_constraint, get_added_constraint.
  eapply sim_bind_eq; [apply sim_in_dict with (P := fun _ _ => True)|]. intro b. eapply sim_bind; [apply sim_require|]. intros ? ?.
  eapply sim_bind_eq; [apply sim_in_dict with (P := fun _ _ => True)|]. intro c. eapply sim_bind; [apply sim_require|]. intros ? ?.
  destruct (str_leb x y); (eapply sim_conseq; [apply sim_get_constraint with (P := fun _ _ => True)| |]; simpl; tauto).
Qed.

Lemma true_stable : stable (fun _ => True).
Proof. intros h h' _ _. auto. Qed.

Lemma sim_add_constraint a x y t v : sim a (fun _ _ => True) (h_add_constraint a x y t v) (add_constraint x y t v) (fun _ _ r r' => r = r').
Proof.
  unfold h_add_constraint, add_constraint.
  eapply sim_bind_eq; [apply sim_in_dict with (P := fun _ _ => True)|]. intro b. eapply sim_bind; [apply sim_require|]. intros ? ?.
  eapply sim_bind_eq; [apply sim_in_dict with (P := fun _ _ => True)|]. intro c. eapply sim_bind; [apply sim_require|]. intros ? ?.
  eapply sim_bind; [apply sim_require|]. intros ? ?.
  eapply sim_bind_eq with (Q := fun _ _ _ => True); [eapply sim_conseq; [apply sim_inferred|auto|simpl; auto]|]. intro r.
  eapply sim_bind with (Q := fun _ _ _ _ => True).
  { destruct r; [apply sim_require|apply sim_ret; auto]. }
  intros ? ?. eapply sim_bind_eq with (Q := fun _ _ _ => True); [eapply sim_conseq; [apply sim_added|auto|simpl; auto]|]. intro r'.
  destruct r'; [apply sim_ret; auto|].
  eapply sim_bind with (Q := fun _ _ _ _ => True).
  { destruct (str_leb x y); apply sim_set_constraint with (P := fun _ => True); apply true_stable. }
  intros ? ?. eapply sim_bind; [apply sim_transitivity with (P := fun _ => True); apply true_stable|]. intros u u'. apply sim_ret. auto.
Qed.

Lemma sim_delete_constraint a x y : sim a (fun _ _ => True) (h_delete_constraint a x y) (delete_constraint x y) (fun _ _ r r' => r = r').
Proof.
  unfold h_delete_constraint, delete_constraint.
  eapply sim_bind_eq; [apply sim_in_dict with (P := fun _ _ => True)|]. intro b. eapply sim_bind; [apply sim_require|]. intros ? ?.
  eapply sim_bind_eq; [apply sim_in_dict with (P := fun _ _ => True)|]. intro c. eapply sim_bind; [apply sim_require|]. intros ? ?.
  eapply sim_bind with (Q := fun _ _ _ _ => True).
  { destruct (str_leb x y); apply sim_set_constraint with (P := fun _ => True); apply true_stable. }
  intros ? ?. eapply sim_bind; [apply sim_generate|]. intros u u'. apply sim_ret. auto.
Qed.

Lemma collect_run h W a m : R h W -> nth_error W a = Some m ->
  forall ids acc, h_collect_components a ids acc h = (h, collect_components (ctrans m) ids acc).
Proof.
  intros HR E. induction ids as [|x ids IH]; intro acc; simpl; auto. unfold bind, rbind, dlookup.
  destruct (read_pair h W a m x HR E) as [(t & s1 & s2 & Q1 & Q2 & Q3 & Q4 & Q5)|(Q1 & Q2 & Q3)]; rewrite Q1, Q2; auto.
  rewrite (deref_here _ _ _ Q4). apply IH.
Qed.

Lemma sim_components a : sim a (fun _ _ => True) (h_get_connected_components a) get_connected_components (fun _ _ r r' => r = r').
Proof.
  apply sim_read. intros h W m HR E _. unfold h_get_connected_components, get_connected_components, gets, lift.
  destruct (read_dictionary _ _ _ _ HR E) as (ct & tt & C & T & HT & D1 & D2 & RR & (K & ND & B)). unfold bind. rewrite D2.
  rewrite (collect_run h W a m HR E), K. simpl. split; auto. split; auto. destruct (collect_components _ _ _); auto.
Qed.

Lemma complete_run h W a m : R h W -> nth_error W a = Some m ->
  forall ids, h_all_complete a ids h = (h, all_complete (ctrans m) ids).
Proof.
  intros HR E. destruct (read_dictionary _ _ _ _ HR E) as (ct & tt & C & T & HT & D1 & D2 & RR & (K & ND & B)).
  induction ids as [|x ids IH]; cbn [h_all_complete all_complete]; auto. unfold bind, rbind, dlookup.
  destruct (read_pair h W a m x HR E) as [(t & s1 & s2 & Q1 & Q2 & Q3 & Q4 & Q5)|(Q1 & Q2 & Q3)]; rewrite Q1, Q2; auto.
  rewrite (deref_here _ _ _ Q4), Q3, (deref_here _ _ _ Q5), D2, K. destruct (Nat.eqb _ _); auto.
Qed.

Lemma sim_completude a : sim a (fun _ _ => True) (h_check_completude_of_constraints a) check_completude_of_constraints (fun _ _ r r' => r = r').
Proof.
  apply sim_read. intros h W m HR E _. unfold h_check_completude_of_constraints, check_completude_of_constraints, gets, lift.
  destruct (read_dictionary _ _ _ _ HR E) as (ct & tt & C & T & HT & D1 & D2 & RR & (K & ND & B)). unfold bind. rewrite D2.
  rewrite (complete_run h W a m HR E), K. simpl. split; auto. split; auto. destruct (all_complete _ _); auto.
Qed.

Lemma sim_conflict a x y t : sim a (fun _ _ => True) (h_conflict a x y t) (get_list_of_involved_data_IDs_in_a_constraint_conflict x y t) (fun _ _ r r' => r = r').
Proof.
  unfold h_conflict, get_list_of_involved_data_IDs_in_a_constraint_conflict.
  eapply sim_bind_eq; [apply sim_in_dict with (P := fun _ _ => True)|]. intro b. eapply sim_bind; [apply sim_require|]. intros ? ?.
  eapply sim_bind_eq; [apply sim_in_dict with (P := fun _ _ => True)|]. intro c. eapply sim_bind; [apply sim_require|]. intros ? ?.
  eapply sim_bind; [apply sim_require|]. intros ? ?.
  eapply sim_bind_eq with (Q := fun _ _ _ => True); [eapply sim_conseq; [apply sim_inferred|auto|simpl; auto]|]. intro r.
  destruct (match r with Some t0 => _ | None => false end); [|apply sim_ret; auto].
  eapply sim_bind_eq with (Q := fun _ _ _ => True); [eapply sim_conseq; [apply sim_components|auto|simpl; auto]|]. intro r'. apply sim_ret. auto.
Qed.

Lemma sim_exec a c : sim a (fun _ _ => True) (h_exec a c) (exec c) (fun _ _ r r' => r = r').
Proof.
  destruct c; cbn [h_exec exec]; (eapply sim_bind_eq with (Q := fun _ _ _ => True); [|intro; apply sim_ret; auto]);
    (eapply sim_conseq; [first [apply sim_add_data_ID | apply sim_delete_data_ID | apply sim_managed with (P := fun _ _ => True) | apply sim_add_constraint | apply sim_delete_constraint
      | apply sim_added | apply sim_inferred | apply sim_components | apply sim_completude | apply sim_conflict]|auto|simpl; tauto]).
Qed.

(** ** New managers *)
Lemma init_run h W ids : R h W -> R (fst (h_init ids h)) (W ++ [init ids]) /\ snd (h_init ids h) = Ok (length (h_managers h)).
Proof.
  intro HR. unfold h_init. set (g := fun data_ID1 : pystr => dcomp (fun data_ID2 => if eqb data_ID1 data_ID2 then Some (MUST_LINK, 1%Q) else None) (filter (fun data_ID2 => str_leb data_ID1 data_ID2) ids)).
  destruct (row_comprehension g h ids) as (h1 & C & E1 & G1 & RR & L1 & I1). unfold bind at 1. unfold g in E1. rewrite E1.
  set (h2 := fst (new_table C h1)). assert (grows h1 h2) as G2 by apply grows_new_table.
  unfold bind at 1. change (new_table C h1) with (h2, @Ok nat (length (h_tables h1))).
  destruct (fresh_comprehension h2 ids) as (h3 & T & E3 & G3 & RP & L3 & I3). unfold bind at 1. rewrite E3.
  set (h4 := fst (new_table T h3)). assert (grows h3 h4) as G4 by apply grows_new_table.
  unfold bind at 1. change (new_table T h3) with (h4, @Ok nat (length (h_tables h3))).
  assert (grows h h4) as G by eauto 6 using grows_trans. assert (grows h2 h4) as G24 by eauto using grows_trans.
  assert (nth_error (h_tables h2) (length (h_tables h1)) = Some C) as EC by (unfold h2, new_table; simpl; apply nth_app_new).
  assert (nth_error (h_tables h3) (length (h_tables h1)) = Some C) as EC3 by (apply G3; auto).
  assert (GT : forall a b, grows a b -> length (h_tables a) <= length (h_tables b)).
  { intros x y (_ & _ & _ & _ & X5). destruct (le_lt_dec (length (h_tables x)) (length (h_tables y))) as [|L]; auto.
    destruct (nth_error (h_tables x) (length (h_tables y))) eqn:Q; [apply X5 in Q; apply nth_lt in Q; lia|apply nth_error_None in Q; lia]. }
  assert (length (h_tables h) <= length (h_tables h1) /\ length (h_tables h1) < length (h_tables h3)) as [LT1 LT2] by (split; [auto|apply nth_lt in EC3; auto]).
  split.
  - change (R (with_managers (fun l => l ++ [(length (h_tables h1), length (h_tables h3))]) h4) (W ++ [init ids])).
    eapply new_manager_R with (C := C) (T := T).
    + eapply grows_R; [exact G|auto].
    + lia.
    + apply G4. auto.
    + unfold h4, new_table; simpl; apply nth_app_new.
    + intros a' b'. apply (not_live_table h h4 W); auto. apply G.
    + intros a' b'. apply (not_live_table h h4 W); auto; [apply G|lia].
    + apply grows_rep_rows with (h := h1); auto. eauto using grows_trans.
    + eapply grows_rep_pairs; [exact G4|auto].
    + intros x r Er. apply (not_live_true h h4 W); eauto.
    + intros x r Er. apply (not_live_false h h4 W); auto. apply L3 in Er. assert (length (h_pairs h) <= length (h_pairs h2)) by (apply grows_pairs; apply grows_trans with (h2 := h1); assumption). lia.
    + exact I1.
    + exact I3.
  - assert (snd (new_manager (length (h_tables h1), length (h_tables h3)) h4) = Ok (length (h_managers h))) as <-.
    { destruct G as (X & _). rewrite <- X. reflexivity. }
    unfold bind at 1. rewrite E1. unfold bind at 1. change (new_table C h1) with (h2, @Ok nat (length (h_tables h1))).
    unfold bind at 1. rewrite E3. reflexivity.
Qed.
