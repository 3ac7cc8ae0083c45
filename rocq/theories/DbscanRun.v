(** * The whole run of the constrained DBScan, and the groups behind the numbers. *)

From Coq Require Import String List Bool Arith ZArith Lia Permutation Sorted.
From Verif Require Import Base Manager Spec Closure ManagerProofs ManagerInv ManagerQueries ManagerThms
  Sampling SamplingSpec SamplingProofs SamplingThms Rename ClusterSpec RenameThms ClusterProofs KMeans KMeansProofs
  Hierarchical HierSpec HierProofs Spectral Dbscan DbscanSpec DbscanProofs.
Import ListNotations.
Open Scope nat_scope.
Open Scope py_scope.

(** ** Groups *)
Definition group := (nat + pystr)%type.
(** [g] names the groups behind the numbers of [d], all below [n]. *)
Record named (d : dict pystr Z) (n : Z) (g : pystr -> option group) : Prop := {
  nm_nodup : NoDup (keys d);
  nm_pos : (0 <= n)%Z;
  nm_none : forall x, dget x d = None <-> g x = None;
  nm_below : forall x v, dget x d = Some v -> (0 <= v < n)%Z;
  nm_same : forall x y, g x <> None -> (dget x d = dget y d <-> g x = g y) }.

Lemma named_ext d n g g' : (forall x, g x = g' x) -> named d n g -> named d n g'.
Proof. intros E [A B C F G]. constructor; auto; intros; rewrite <- ?E in *; auto. Qed.

Lemma named_assign d n g pts u : named d n g -> (forall x, g x <> Some u) ->
  named (assign_all d pts n) (n + 1) (fun x => if mem x pts then Some u else g x).
Proof.
  intros [A B C F G] N. constructor.
  - apply (NoDup_keys_fold_dset (fun _ => n)); auto.
  - lia.
  - intro x. rewrite dget_assign_all. destruct (mem x pts); [split; discriminate|auto].
  - intros x v. rewrite dget_assign_all. destruct (mem x pts); intro E; [injection E as <-; lia|]. apply F in E. lia.
  - intros x y X. rewrite !dget_assign_all. destruct (mem x pts), (mem y pts).
    + tauto.
    + split; intro E; [symmetry in E; apply F in E; lia|]. exfalso. apply (N y). auto.
    + split; intro E; [apply F in E; lia|]. exfalso. apply (N x). auto.
    + auto.
Qed.

(** Index of the last list that has [x]. *)
Fixpoint lastidx (cs : list (list pystr)) (x : pystr) : option nat :=
  match cs with
  | [] => None
  | c :: cs' => match lastidx cs' x with Some t => Some (S t) | None => if mem x c then Some 0 else None end
  end.
Lemma lastidx_Some cs x : forall t, lastidx cs x = Some t <-> (exists c, nth_error cs t = Some c /\ In x c) /\ forall t' c, nth_error cs t' = Some c -> In x c -> t' <= t.
Proof.
  induction cs as [|c cs IH]; intro t; cbn [lastidx].
  - split; [discriminate|]. intros [(c & Q & _) _]. destruct t; discriminate.
  - destruct (lastidx cs x) as [t0|] eqn:E.
    + destruct (proj1 (IH t0) eq_refl) as [(c0 & C0 & X0) M0]. split.
      * intro Q. injection Q as <-. split; [exists c0; auto|]. intros [|t'] c' H X; [lia|]. apply M0 in H; auto. lia.
      * intros [(c1 & C1 & X1) M1]. f_equal. pose proof (M1 (S t0) c0 C0 X0). destruct t as [|t]; [lia|]. cbn in C1. apply M0 in C1; auto. lia.
    + assert (NO : forall t' c', nth_error cs t' = Some c' -> ~ In x c').
      { clear IH. revert E. induction cs as [|a cs IHc]; intros E t' c' H X; [destruct t'; discriminate|]. cbn [lastidx] in E. destruct (lastidx cs x); [discriminate|].
        destruct (mem x a) eqn:Ma; [discriminate|]. destruct t' as [|t']; cbn in H; [injection H as ->; apply mem_nIn in Ma; contradiction|]. eapply IHc; eauto. }
      destruct (mem x c) eqn:Mx; [apply mem_In in Mx|apply mem_nIn in Mx]; split.
      * intro Q. injection Q as <-. split; [exists c; auto|]. intros [|t'] c' H X; [lia|]. exfalso. eapply NO; eauto.
      * intros [(c' & H & X) _]. destruct t as [|t]; auto. exfalso. eapply NO; eauto.
      * discriminate.
      * intros [(c' & H & X) _]. destruct t as [|t]; cbn in H; [injection H as <-; contradiction|]. exfalso. eapply NO; eauto.
Qed.
Lemma lastidx_None cs x : lastidx cs x = None <-> forall c, In c cs -> ~ In x c.
Proof.
  induction cs as [|c cs IH]; cbn [lastidx]; [split; [intros _ c []|auto]|]. destruct (lastidx cs x) as [t|].
  - split; [discriminate|]. intro H. exfalso. assert (Q : Some t = None) by (apply IH; intros c' C'; apply H; simpl; auto). discriminate.
  - destruct (mem x c) eqn:Mx; [apply mem_In in Mx|apply mem_nIn in Mx].
    + split; [discriminate|]. intro H. exfalso. apply (H c); simpl; auto.
    + split; [|auto]. intros _ c' [<-|C']; auto. apply (proj1 IH eq_refl); auto.
Qed.

Lemma final_core_named cs : forall d n g t, named d n g -> (forall x t', t <= t' -> g x <> Some (inl t')) ->
  named (fst (final_core cs (d, n))) (snd (final_core cs (d, n)))
    (fun x => match lastidx cs x with Some j => Some (inl (t + j)) | None => g x end).
Proof.
  induction cs as [|c cs IH]; intros d n g t N F; cbn [final_core lastidx fst snd].
  - auto.
  - apply named_ext with (g := fun x => match lastidx cs x with Some j => Some (inl (S t + j)) | None => if mem x c then Some (inl t) else g x end).
    + intro x. destruct (lastidx cs x) as [j|]; [do 2 f_equal; lia|]. destruct (mem x c); auto. do 2 f_equal. lia.
    + apply IH; [apply named_assign; auto|]. intros x t' L. destruct (mem x c); [intro Q; injection Q as Q; lia|]. apply F. lia.
Qed.

Definition is_none {A} (o : option A) : bool := match o with None => true | Some _ => false end.

Section Local.
  Variable D : Type.
  Variable leb : D -> D -> bool.
  Variable of_nat : nat -> D.
  Variable p : db_params D.
  Definition big (n : nat) : bool := leb (db_eps D p) (of_nat n).

  (** What each remaining local cluster finds left, and the groups after that. *)
  Fixpoint left_over (lc : dict pystr (list pystr)) (g : pystr -> option group) : dict pystr (list pystr) :=
    match lc with
    | [] => []
    | (k, pts) :: lc' =>
        let T := filter (fun x => is_none (g x)) pts in
        (k, T) :: left_over lc' (if big (length T) then fun x => if mem x T then Some (inr k) else g x else g)
    end.
  Fixpoint local_groups (lc : dict pystr (list pystr)) (g : pystr -> option group) : pystr -> option group :=
    match lc with
    | [] => g
    | (k, pts) :: lc' =>
        let T := filter (fun x => is_none (g x)) pts in
        local_groups lc' (if big (length T) then fun x => if mem x T then Some (inr k) else g x else g)
    end.

  Lemma final_local_named lc : forall d n g, NoDup (keys lc) -> named d n g -> (forall x k, In k (keys lc) -> g x <> Some (inr k)) ->
    named (fst (final_local D leb of_nat p (vals lc) (d, n))) (snd (final_local D leb of_nat p (vals lc) (d, n))) (local_groups lc g).
  Proof.
    induction lc as [|[k pts] lc IH]; intros d n g NK N F; cbn [vals map snd final_local local_groups fst]; [auto|]. cbv zeta.
    assert (ET : filter (fun x => negb (mem x (keys d))) pts = filter (fun x => is_none (g x)) pts).
    { apply filter_ext. intro x. pose proof (nm_none _ _ _ N x) as Q. unfold is_none. destruct (dget x d) eqn:E.
      - destruct (g x); [|destruct Q; discriminate (H0 eq_refl)]. apply dget_Some_key in E. rewrite (mem_true _ _ E). auto.
      - rewrite (proj1 Q eq_refl). apply dget_None in E. rewrite (mem_false _ _ E). auto. }
    rewrite ET. inversion NK as [|? ? N1 N2]; subst. fold (big (length (filter (fun x => is_none (g x)) pts))). destruct (big _).
    - apply IH; auto.
      + apply named_assign; auto. intro x. apply F. simpl; auto.
      + intros x k' K'. destruct (mem x _); [intro Q; injection Q as ->; contradiction|]. apply F. simpl; auto.
    - apply IH; auto. intros x k' K'. apply F. simpl; auto.
  Qed.

  Lemma left_over_keys lc : forall g, keys (left_over lc g) = keys lc.
  Proof. induction lc as [|[k pts] lc IH]; intro g; cbn [left_over keys map fst]; auto. f_equal. apply IH. Qed.

  Definition taken (lc : dict pystr (list pystr)) (g : pystr -> option group) (r : pystr) : list pystr :=
    match dget r (left_over lc g) with Some T => T | None => [] end.

  Lemma local_groups_old lc : forall g x, g x <> None -> local_groups lc g x = g x.
  Proof.
    induction lc as [|[k pts] lc IH]; intros g x N; cbn [local_groups]; auto. cbv zeta. destruct (big _); [|auto].
    assert (Q : mem x (filter (fun x => is_none (g x)) pts) = false).
    { apply mem_nIn. intro Q. apply filter_In in Q as [_ Q]. destruct (g x); [discriminate|congruence]. }
    rewrite IH; rewrite Q; auto.
  Qed.

  Lemma taken_spec lc : forall g, NoDup (keys lc) -> (forall k pts, In (k, pts) lc -> NoDup pts) -> forall r pts, dget r lc = Some pts ->
    NoDup (taken lc g r) /\
    forall y, In y (taken lc g r) <-> In y pts /\ g y = None /\
      (forall r', before (keys lc) r' r -> big (length (taken lc g r')) = true -> ~ In y (taken lc g r')).
  Proof.
    induction lc as [|[k pts0] lc IH]; intros g NK NP r pts E; [discriminate|]. inversion NK as [|? ? N1 N2]; subst.
    set (T := filter (fun x => is_none (g x)) pts0). set (g' := if big (length T) then fun x => if mem x T then Some (inr k) else g x else g).
    assert (TI : forall y, In y T <-> In y pts0 /\ g y = None) by (intro y; unfold T; rewrite filter_In; destruct (g y); cbn; split; intros [? ?]; split; auto; discriminate).
    assert (NT : NoDup T) by (unfold T; apply NoDup_filter_list; apply (NP k); simpl; auto).
    assert (TK : forall r', taken ((k, pts0) :: lc) g r' = if eqb r' k then T else taken lc g' r').
    { intros r'. unfold taken. cbn [left_over]. cbv zeta. fold T g'. cbn [dget]. destruct (eqb r' k); auto. }
    rewrite TK. setoid_rewrite TK. cbn [dget] in E. destruct (eqb_spec r k) as [->|Q].
    - injection E as ->. split; auto. intro y. rewrite TI. split; [|tauto]. intros [A B]. split; auto. split; auto. intros r' Br. exfalso.
      cbn [keys map fst] in Br. apply before_cons_inv in Br as [[-> J]|J]; [contradiction|]. apply before_In in J. tauto.
    - destruct (IH g' N2 (fun k' pts' J => NP k' pts' (or_intror J)) r pts E) as [A B]. split; auto. intro y. rewrite B.
      assert (Rk : In r (keys lc)) by (eapply dget_Some_key; eauto).
      assert (G' : g' y = None <-> g y = None /\ (big (length T) = true -> ~ In y T)).
      { unfold g'. destruct (big _) eqn:BG.
        - destruct (mem y T) eqn:MY; [apply mem_In in MY|apply mem_nIn in MY].
          + split; [discriminate|]. intros [_ Z]. exfalso. apply Z; auto.
          + split; [intro; auto|tauto].
        - split; [intro Z; split; auto; discriminate|tauto]. }
      rewrite G'. split.
      + intros (X1 & [X2 X3] & X4). split; auto. split; auto. intros r' Br. cbn [keys map fst] in Br. apply before_cons_inv in Br as [[-> J]|J]; [rewrite eqb_refl; auto|].
        destruct (eqb_spec r' k) as [->|Q']; auto.
      + intros (X1 & X2 & X3). split; auto. split.
        * split; auto. intro BG. specialize (X3 k). rewrite eqb_refl in X3. apply X3; auto. apply before_head. auto.
        * intros r' Br. specialize (X3 r' (before_cons k _ _ _ Br)). destruct (eqb_spec r' k) as [Q'|Q']; [|exact X3]. exfalso. rewrite Q' in Br. apply before_In in Br. tauto.
  Qed.

  Lemma local_groups_new lc : forall g r, NoDup (keys lc) -> (forall x k, In k (keys lc) -> g x <> Some (inr k)) -> forall x,
    local_groups lc g x = Some (inr r) <-> g x = Some (inr r) \/ (In r (keys lc) /\ big (length (taken lc g r)) = true /\ In x (taken lc g r)).
  Proof.
    induction lc as [|[k pts] lc IH]; intros g r NK F x; cbn [local_groups].
    - split; auto. intros [Q|[[] _]]. auto.
    - cbv zeta. inversion NK as [|? ? N1 N2]; subst. set (T := filter (fun x => is_none (g x)) pts). set (g' := if big (length T) then fun x => if mem x T then Some (inr k) else g x else g).
      assert (TG : forall z, In z T -> g z = None) by (intros z Z; apply filter_In in Z as [_ Z]; destruct (g z); [discriminate|auto]).
      change (local_groups lc g' x = Some (inr r) <-> g x = Some (inr r) \/ (In r (keys ((k, pts) :: lc)) /\ big (length (taken ((k, pts) :: lc) g r)) = true /\ In x (taken ((k, pts) :: lc) g r))).
      rewrite IH; auto.
      2:{ intros z k' K'. unfold g'. destruct (big _); [|apply F; simpl; auto]. destruct (mem z _); [|apply F; simpl; auto]. intro Q. assert (k = k') by congruence. subst k'. contradiction. }
      assert (TK : forall r', In r' (keys lc) -> taken ((k, pts) :: lc) g r' = taken lc g' r').
      { intros r' R. unfold taken. cbn [left_over]. cbv zeta. fold T g'. cbn [dget]. destruct (eqb_spec r' k) as [->|Q]; [contradiction|auto]. }
      assert (TH : taken ((k, pts) :: lc) g k = T) by (unfold taken; cbn [left_over]; cbv zeta; cbn [dget]; rewrite eqb_refl; auto).
      assert (G' : g' x = Some (inr r) <-> g x = Some (inr r) \/ (r = k /\ big (length T) = true /\ In x T)).
      { unfold g'. destruct (big _) eqn:BG.
        - destruct (mem x T) eqn:MX; [apply mem_In in MX|apply mem_nIn in MX].
          + split; [intro Q; injection Q as ->; auto|]. intros [Q|(-> & _)]; auto. rewrite TG in Q by auto. discriminate.
          + split; auto. intros [Q|(_ & _ & Q)]; auto. contradiction.
        - split; auto. intros [Q|(_ & Q & _)]; auto. discriminate. }
      rewrite G'. cbn [keys map fst In]. split.
      + intros [[Q|(-> & Q1 & Q2)]|(Q1 & Q2 & Q3)]; auto.
        * right. split; auto. rewrite TH. auto.
        * right. split; auto. rewrite TK by auto. auto.
      + intros [Q|([Q1|Q1] & Q2 & Q3)]; auto.
        * subst r. rewrite TH in Q2, Q3. left. right. auto.
        * rewrite TK in Q2, Q3 by auto. right. auto.
  Qed.

  Lemma local_groups_inl lc : forall g x t, local_groups lc g x = Some (inl t) <-> g x = Some (inl t).
  Proof.
    induction lc as [|[k pts] lc IH]; intros g x t; cbn [local_groups]; [tauto|]. cbv zeta. rewrite IH. destruct (big _); [|tauto].
    destruct (mem x _) eqn:MX; [|tauto]. apply mem_In, filter_In in MX as [_ MX]. destruct (g x); [discriminate|]. split; discriminate.
  Qed.

  Lemma local_groups_ext lc : forall g g', (forall x, g x = g' x) -> forall x, local_groups lc g x = local_groups lc g' x.
  Proof.
    induction lc as [|[k pts] lc IH]; intros g g' E x; cbn [local_groups]; auto. cbv zeta.
    assert (ET : filter (fun x => is_none (g x)) pts = filter (fun x => is_none (g' x)) pts) by (apply filter_ext; intro; rewrite E; auto).
    rewrite ET. apply IH. intro y. destruct (big _); auto. destruct (mem y _); auto.
  Qed.
End Local.

(** ** The result after renaming and ignored points *)
Lemma nth_error_countdown k n : countdown k n = map (fun i => (k - Z.of_nat i)%Z) (seq 0 n).
Proof.
  revert k. induction n as [|n IH]; intro k; [reflexivity|]. cbn [countdown seq map]. f_equal; [lia|]. rewrite IH, <- seq_shift, map_map. apply map_ext. intro i. lia.
Qed.
Lemma countdown_negatives n : countdown (-1) n = negatives n.
Proof. apply nth_error_countdown. Qed.
Lemma negatives_length n : length (negatives n) = n.
Proof. unfold negatives. rewrite map_length, seq_length. auto. Qed.
Lemma negatives_neg n v : In v (negatives n) -> (v < 0)%Z.
Proof. intro J. apply in_map_iff in J as (i & <- & _). lia. Qed.
Lemma negatives_NoDup n : NoDup (negatives n).
Proof. unfold negatives. apply FinFun.Injective_map_NoDup; [intros i j E; lia|apply seq_NoDup]. Qed.

Section Final.
  Variable l : list pystr.
  Hypothesis ND : NoDup l.
  Variables raw rr : dict pystr Z.
  Variable n : Z.
  Variable g : pystr -> option group.
  Hypothesis NM : named raw n g.
  Hypothesis SUB : incl (keys raw) l.
  Hypothesis REN : rename_clusters_by_order raw = Ok rr.

  Definition ignored : dict pystr Z := combine (missing l rr) (negatives (length (missing l rr))).
  Definition final : dict pystr Z := rr ++ ignored.

  Lemma rr_ok : keys rr = sorted_strings (keys raw) /\ canonical rr /\ same_partition raw rr.
  Proof. destruct (rename_run raw (nm_nodup _ _ _ NM)) as (d & E & Q). rewrite REN in E. injection E as <-. auto. Qed.
  Lemma rr_keys x : In x (keys rr) <-> g x <> None.
  Proof.
    destruct rr_ok as (_ & _ & [K _]). rewrite <- K. rewrite <- (nm_none _ _ _ NM x). rewrite dget_None. split; [tauto|]. intro Q.
    destruct (in_dec eq_dec_of x (keys raw)); auto. contradiction.
  Qed.
  Lemma first_appearance_pos l0 : forall k v, first_appearance k l0 -> In v l0 -> (0 <= v)%Z.
  Proof.
    induction l0 as [|w l0 IH]; intros k v F J; [destruct J|]. cbn [first_appearance] in F. destruct F as [F1 F2]. destruct J as [<-|J]; [lia|eauto].
  Qed.
  Lemma rr_pos x v : dget x rr = Some v -> (0 <= v)%Z.
  Proof.
    intro E. destruct rr_ok as (_ & [_ F] & _). apply (first_appearance_pos (vals rr) 0%Z); auto. apply dget_In in E. apply in_map_iff. exists (x, v). auto.
  Qed.
  Lemma keys_ignored : keys ignored = missing l rr.
  Proof.
    unfold ignored, keys. assert (L : length (negatives (length (missing l rr))) = length (missing l rr)) by apply negatives_length.
    revert L. generalize (negatives (length (missing l rr))). induction (missing l rr) as [|x xs IH]; intros [|v vs] L; try discriminate; cbn [combine map fst]; auto. f_equal. apply IH. auto.
  Qed.
  Lemma vals_ignored : vals ignored = negatives (length (missing l rr)).
  Proof.
    unfold ignored, vals. assert (L : length (negatives (length (missing l rr))) = length (missing l rr)) by apply negatives_length.
    revert L. generalize (negatives (length (missing l rr))). induction (missing l rr) as [|x xs IH]; intros [|v vs] L; try discriminate; cbn [combine map snd]; auto. f_equal. apply IH. auto.
  Qed.
  Lemma rr_nodup : NoDup (keys rr).
  Proof. destruct rr_ok as (_ & [S _] & _). apply sorted_NoDup; auto. Qed.
  Lemma missing_In x : In x (missing l rr) <-> In x l /\ ~ In x (keys rr).
  Proof. unfold missing. rewrite filter_In, negb_true_iff. rewrite mem_nIn. tauto. Qed.
  Lemma keys_final : keys final = keys rr ++ missing l rr.
  Proof. unfold final, keys. rewrite map_app. f_equal. apply keys_ignored. Qed.
  Lemma final_nodup : NoDup (keys final).
  Proof.
    rewrite keys_final. apply NoDup_app_intro; [apply rr_nodup|apply NoDup_filter_list; auto|]. intros x X Y. apply missing_In in Y. tauto.
  Qed.
  Lemma final_keys_In x : In x (keys final) <-> In x l.
  Proof.
    rewrite keys_final, in_app_iff, missing_In. split.
    - intros [Q|Q]; [|tauto]. destruct rr_ok as (_ & _ & [K _]). apply SUB, K; auto.
    - intro J. destruct (in_dec eq_dec_of x (keys rr)); auto.
  Qed.
  Lemma dget_final_old x : In x (keys rr) -> dget x final = dget x rr.
  Proof.
    intro J. destruct (dget_In_key _ _ J) as [v E]. rewrite E. apply In_dget; [apply final_nodup|]. unfold final. apply in_or_app. left. apply dget_In; auto.
  Qed.
  Lemma dget_final_new x : In x l -> ~ In x (keys rr) -> exists v, dget x final = Some v /\ (v < 0)%Z.
  Proof.
    intros J N. assert (Q : In x (keys ignored)) by (rewrite keys_ignored; apply missing_In; auto). apply dget_In_key in Q as [v E]. apply dget_In in E.
    exists v. split; [apply In_dget; [apply final_nodup|]; unfold final; apply in_or_app; auto|]. apply (negatives_neg (length (missing l rr))). rewrite <- vals_ignored. apply in_map_iff. exists (x, v). auto.
  Qed.
  Lemma final_none x : In x l -> g x = None -> exists v, dget x final = Some v /\ (v < 0)%Z.
  Proof. intros J E. apply dget_final_new; auto. rewrite rr_keys. auto. Qed.
  Lemma final_some x : g x <> None -> exists v, dget x final = Some v /\ (0 <= v)%Z.
  Proof.
    intro G. assert (Kx := proj2 (rr_keys x) G). rewrite (dget_final_old x Kx). destruct (dget x rr) as [v|] eqn:E; [|apply dget_None in E; tauto].
    exists v. split; auto. eapply rr_pos; eauto.
  Qed.
  Lemma final_same x y : In x l -> In y l -> g x <> None -> (dget x final = dget y final <-> g x = g y).
  Proof.
    intros X Y G. assert (Kx := proj2 (rr_keys x) G). rewrite (dget_final_old x Kx). destruct rr_ok as (_ & _ & [K P]).
    destruct (g y) eqn:Gy.
    - assert (Ky : In y (keys rr)) by (apply rr_keys; congruence). rewrite (dget_final_old y Ky), <- P by (apply K; auto). rewrite (nm_same _ _ _ NM x y G), Gy. tauto.
    - destruct (final_none y Y Gy) as (v & -> & Nv). split; [|congruence]. intro Q. apply rr_pos in Q. lia.
  Qed.
  Lemma final_distinct x y v : In x l -> In y l -> g x = None -> dget x final = Some v -> dget y final = Some v -> x = y.
  Proof.
    intros X Y G Ex Ey. destruct (final_none x X G) as (v' & E' & N). rewrite Ex in E'. injection E' as <-.
    assert (Ny : g y = None).
    { destruct (g y) eqn:Gy; auto. assert (Ky : In y (keys rr)) by (apply rr_keys; congruence). rewrite (dget_final_old y Ky) in Ey. apply rr_pos in Ey. lia. }
    assert (B : forall z, In z l -> g z = None -> dget z final = Some v -> In (z, v) ignored).
    { intros z Z Gz Ez. apply dget_In in Ez. unfold final in Ez. apply in_app_or in Ez as [Ez|Ez]; auto.
      exfalso. assert (Kz : In z (keys rr)) by (apply in_map_iff; exists (z, v); auto). apply rr_keys in Kz. contradiction. }
    apply B in Ex, Ey; auto. clear - Ex Ey ND.
    assert (NV : NoDup (vals ignored)) by (rewrite vals_ignored; apply negatives_NoDup). revert Ex Ey NV. generalize ignored.
    induction d as [|[z w] d IH]; intros Ex Ey NV; [destruct Ex|]. cbn [vals map snd] in NV. inversion NV as [|? ? N1 N2]; subst.
    assert (Q : forall z', In (z', v) d -> In v (map snd d)) by (intros z' J; apply in_map_iff; exists (z', v); auto).
    destruct Ex as [Ex|Ex], Ey as [Ey|Ey]; [congruence| | |auto]; exfalso; apply N1.
    - injection Ex as _ ->. apply (Q y); auto.
    - injection Ey as _ ->. apply (Q x); auto.
  Qed.
  Lemma final_count : nb_clusters_of final = nb_clusters_of rr + length (missing l rr).
  Proof.
    unfold nb_clusters_of, final. unfold vals at 1. rewrite map_app. fold (vals rr) (vals ignored).
    rewrite vals_ignored. set (N := negatives (length (missing l rr))). rewrite <- (negatives_length (length (missing l rr))). fold N.
    rewrite <- app_length. apply Permutation_length. apply NoDup_Permutation.
    - apply NoDup_nodup.
    - apply NoDup_app_intro; [apply NoDup_nodup|apply negatives_NoDup|]. intros v V1 V2. apply nodup_In in V1. apply negatives_neg in V2.
      destruct rr_ok as (_ & [_ F] & _). apply (first_appearance_pos (vals rr) 0%Z) in V1; auto. lia.
    - intro v. rewrite nodup_In, !in_app_iff, nodup_In. tauto.
  Qed.
  Lemma final_count_dedup : nb_clusters_of rr = length (dedup (vals rr)).
  Proof.
    unfold nb_clusters_of. apply Permutation_length, NoDup_Permutation; [apply NoDup_nodup|apply dedup_NoDup|]. intro v. rewrite nodup_In, dedup_In. tauto.
  Qed.
  Lemma final_ignored_eq : final_ignored l rr = (final, (-1 - Z.of_nat (length (missing l rr)))%Z).
  Proof. rewrite final_ignored_run by auto. rewrite countdown_negatives. reflexivity. Qed.
End Final.
