(** * Executing [sample]: what it computes, as plain list functions. *)

From Coq Require Import String List Bool Arith ZArith Lia Permutation.
From Verif Require Import Base Manager Spec Closure ManagerProofs ManagerInv ManagerQueries ManagerThms Sampling SamplingSpec.
Import ListNotations.
Open Scope py_scope.
Notation ids m := (keys (cdict m)).

(** ** Lists: [before], sorting. *)
Lemma before_cons {A} (z : A) l x y : before l x y -> before (z :: l) x y.
Proof. intros (l1 & l2 & E & I). exists (z :: l1), l2. subst. auto. Qed.

Lemma before_head {A} (x : A) l y : In y l -> before (x :: l) x y.
Proof. intro I. exists [], l. auto. Qed.

Lemma before_cons_inv {A} (z : A) l x y : before (z :: l) x y -> (x = z /\ In y l) \/ before l x y.
Proof.
  intros (l1 & l2 & E & I). destruct l1; simpl in E; injection E; intros; subst; auto.
  right. exists l1, l2. auto.
Qed.

Lemma before_In {A} (l : list A) x y : before l x y -> In x l /\ In y l.
Proof. intros (l1 & l2 & E & I). subst. split; apply in_or_app; simpl; auto. Qed.

Lemma before_app_r {A} (l l' : list A) x y : before l' x y -> before (l ++ l') x y.
Proof. induction l; simpl; auto using before_cons. Qed.

Lemma before_app_l {A} (l l' : list A) x y : before l x y -> before (l ++ l') x y.
Proof.
  intros (l1 & l2 & E & I). subst. exists l1, (l2 ++ l'). rewrite <- app_assoc. simpl. split; auto.
  apply in_or_app; auto.
Qed.

Lemma before_app_m {A} (l l' : list A) x y : In x l -> In y l' -> before (l ++ l') x y.
Proof.
  intros I J. apply in_split in I. destruct I as (l1 & l2 & ->). exists l1, (l2 ++ l').
  rewrite <- app_assoc. simpl. split; auto. apply in_or_app; auto.
Qed.

Lemma before_total {A} (l : list A) : forall x y, In x l -> In y l -> x <> y -> before l x y \/ before l y x.
Proof.
  induction l as [|z l IH]; simpl; [tauto|]. intros x y [->|I] [->|J] N.
  - congruence.
  - left. apply before_head; auto.
  - right. apply before_head; auto.
  - destruct (IH x y I J N); auto using before_cons.
Qed.

Lemma before_asym {A} (l : list A) : NoDup l -> forall x y, before l x y -> before l y x -> False.
Proof.
  induction 1 as [|z l N ND IH]; intros x y B1 B2.
  - destruct B1 as ([|] & ? & E & _); discriminate.
  - apply before_cons_inv in B1. apply before_cons_inv in B2.
    destruct B1 as [[-> I]|B1], B2 as [[-> J]|B2]; eauto.
    + apply before_In in B2. tauto.
    + apply before_In in B1. tauto.
Qed.

Lemma before_firstn {A} (l : list A) n : forall x y, NoDup l -> before l x y -> In y (firstn n l) -> before (firstn n l) x y.
Proof.
  revert n. induction l as [|z l IH]; intros [|n] x y ND B I; simpl in *; try tauto.
  inversion ND; subst. apply before_cons_inv in B. destruct B as [[-> J]|B].
  - destruct I as [->|I]; [tauto|]. apply before_head; auto.
  - destruct I as [->|I].
    + apply before_In in B. tauto.
    + apply before_cons, IH; auto.
Qed.

Lemma before_filter {A} (f : A -> bool) l x y : before l x y -> f x = true -> f y = true -> before (filter f l) x y.
Proof.
  intros (l1 & l2 & -> & I) Fx Fy. exists (filter f l1), (filter f l2).
  rewrite filter_app. simpl. rewrite Fx. split; auto. apply filter_In; auto.
Qed.

Lemma before_map {A B} (f : A -> B) l x y : before l x y -> before (map f l) (f x) (f y).
Proof.
  intros (l1 & l2 & -> & I). exists (map f l1), (map f l2). rewrite map_app. split; auto. apply in_map; auto.
Qed.

Lemma insert_perm {A} (lt : A -> A -> bool) x l : Permutation (x :: l) (insert_before lt x l).
Proof.
  induction l as [|y l IH]; simpl; auto. destruct (lt y x); auto.
  rewrite perm_swap. apply perm_skip, IH.
Qed.

Lemma sorted_perm {A} (lt : A -> A -> bool) l : Permutation l (sorted_by lt l).
Proof. induction l; simpl; auto. rewrite <- insert_perm. auto. Qed.

Lemma insert_before_old {A} (lt : A -> A -> bool) x l p q : before l p q -> before (insert_before lt x l) p q.
Proof.
  induction l as [|y l IH]; simpl; intro B.
  - apply before_cons; auto.
  - destruct (lt y x); [|apply before_cons; auto].
    apply before_cons_inv in B. destruct B as [[-> I]|B].
    + apply before_head. apply (Permutation_in _ (insert_perm lt x l)). right; auto.
    + apply before_cons; auto.
Qed.

Lemma insert_before_new {A} (lt : A -> A -> bool) x l q : In q l -> lt q x = false -> before (insert_before lt x l) x q.
Proof.
  induction l as [|y l IH]; simpl; [tauto|]. intros [->|I] F.
  - rewrite F. apply before_head. left; auto.
  - destruct (lt y x). apply before_cons; auto. apply before_head. right; auto.
Qed.

Section Sorting.
  Context {A : Type} (lt : A -> A -> bool).
  Hypothesis neg_trans : forall x y z, lt x z = true -> lt x y = true \/ lt y z = true.

  Lemma insert_before_last x l p :
    (forall y z, before l y z -> lt z y = false) -> In p l -> lt p x = true -> before (insert_before lt x l) p x.
  Proof.
    induction l as [|y l IH]; simpl; [tauto|]. intros S I F. destruct (lt y x) eqn:E.
    - destruct I as [->|I].
      + apply before_head. apply (Permutation_in _ (insert_perm lt x l)). left; auto.
      + apply before_cons, IH; auto. intros. apply S, before_cons; auto.
    - destruct I as [->|I]; [congruence|].
      assert (Z := S y p (before_head y l p I)). destruct (neg_trans p y x F); congruence.
  Qed.

  Hypothesis irrefl : forall x, lt x x = false.
  Hypothesis trans : forall x y z, lt x y = true -> lt y z = true -> lt x z = true.

  (** What precedes what in a sorted list. *)
  Lemma sorted_before l : NoDup l ->
    (forall p q, In p l -> In q l -> lt p q = true \/ (lt q p = false /\ before l p q) -> before (sorted_by lt l) p q) /\
    (forall p q, before (sorted_by lt l) p q -> lt q p = false).
  Proof.
    induction 1 as [|x l N ND [IH1 IH2]]; simpl.
    - split; [tauto|]. intros p q ([|] & ? & E & _); discriminate.
    - assert (P := sorted_perm lt l). fold (sorted_by lt l).
      assert (H1 : forall p q, (x = p \/ In p l) -> (x = q \/ In q l) -> lt p q = true \/ (lt q p = false /\ before (x :: l) p q) ->
                   before (insert_before lt x (sorted_by lt l)) p q).
      { intros p q [<-|Ip] [<-|Iq] C.
        - destruct C as [C|[_ C]]; [congruence|].
          apply before_cons_inv in C. destruct C as [[_ C]|C]; [|apply before_In in C]; tauto.
        - apply insert_before_new.
          + apply (Permutation_in _ P); auto.
          + destruct C as [C|[C _]]; auto. destruct (lt q x) eqn:E; auto.
            assert (X := trans _ _ _ E C). congruence.
        - apply insert_before_last; auto.
          + apply (Permutation_in _ P); auto.
          + destruct C as [C|[_ C]]; auto. apply before_cons_inv in C. destruct C as [[-> _]|C]; [tauto|].
            apply before_In in C. tauto.
        - apply insert_before_old, IH1; auto. destruct C as [C|[C D]]; auto. right. split; auto.
          apply before_cons_inv in D. destruct D as [[-> _]|D]; tauto. }
      split; auto.
      intros p q B. destruct (lt q p) eqn:E; auto. exfalso.
      assert (NDs : NoDup (insert_before lt x (sorted_by lt l))).
      { eapply Permutation_NoDup. apply insert_perm. constructor; auto.
        - intro I. apply N. apply (Permutation_in _ (Permutation_sym P)); auto.
        - apply (Permutation_NoDup P); auto. }
      eapply before_asym; eauto. apply before_In in B. destruct B as [Ip Iq].
      assert (Q := Permutation_sym (insert_perm lt x (sorted_by lt l))).
      apply (Permutation_in _ Q) in Ip. apply (Permutation_in _ Q) in Iq.
      apply H1; auto.
      + destruct Iq as [->|Iq]; auto. right. apply (Permutation_in _ (Permutation_sym P)); auto.
      + destruct Ip as [->|Ip]; auto. right. apply (Permutation_in _ (Permutation_sym P)); auto.
  Qed.
End Sorting.

(** ** Executing the loop. *)
Definition kept {S A} (f : A -> M S bool) (w : S) (x : A) : bool :=
  match snd (f x w) with Ok true => true | _ => false end.

Lemma mfilter_run {S A} (f : A -> M S bool) w l : (forall x, In x l -> fst (f x w) = w) ->
  fst (mfilter f l w) = w /\
  (forall r, snd (mfilter f l w) = Ok r -> r = filter (kept f w) l /\ forall x, In x l -> exists b, snd (f x w) = Ok b) /\
  ((forall x, In x l -> exists b, snd (f x w) = Ok b) -> exists r, snd (mfilter f l w) = Ok r).
Proof.
  induction l as [|x l IH]; intro P.
  - simpl. split; auto. split; [|eauto]. intros r E. injection E; intros; subst. split; auto. simpl; tauto.
  - destruct IH as (I1 & I2 & I3); [intros; apply P; right; auto|].
    assert (Px := P x (or_introl eq_refl)). simpl. unfold bind, kept at 1.
    destruct (f x w) as [w' [b|e]] eqn:E; simpl in Px; subst w'.
    + destruct (mfilter f l w) as [w'' [r|e]] eqn:F; simpl in *; subst w''.
      * split; auto. destruct (I2 r eq_refl) as (-> & K). split.
        -- intros r' E'. unfold ret in E'. simpl in E'. injection E'; intros; subst.
           split; [destruct b; auto|]. intros y [<-|J]; auto. rewrite E. simpl; eauto.
        -- intros. unfold ret. simpl; eauto.
      * split; auto. split; [discriminate|]. intro K. destruct I3 as [r Er]; [|discriminate].
        intros y J. apply K; auto.
    + simpl. split; auto. split; [discriminate|]. intro K. destruct (K x (or_introl eq_refl)) as [b Eb].
      rewrite E in Eb. discriminate.
Qed.

Section WithOracles.
  Variables vec D : Type.
  Variable pairwise : list vec -> nat -> nat -> D.
  Variable ltb : D -> D -> bool.
  Variable draw : list (pystr * pystr) -> nat -> list (pystr * pystr).
  Notation sampler := (sampler vec D).
  Notation keep := (keep vec D).

  Definition is_some {A} (o : option A) : bool := match o with Some _ => true | None => false end.

  (** The two parts of the loop body. *)
  Definition skip_clusters (o : options) (a b : pystr) : M (world vec D) bool :=
    mor _ _ (mand _ _ (opt_is (o_clusters o) SAME_CLUSTER)
                (c1 <- cluster_of _ _ a ;; c2 <- cluster_of _ _ b ;; ret (negb (Z.eqb c1 c2))))
            (mand _ _ (opt_is (o_clusters o) DIFFERENT_CLUSTERS)
                (c1 <- cluster_of _ _ a ;; c2 <- cluster_of _ _ b ;; ret (Z.eqb c1 c2))).
  Definition skip_known (o : options) (a b : pystr) : M (world vec D) bool :=
    mor _ _ (mand _ _ (o_without_added o)
                (c <- on_mgr _ _ (get_added_constraint a b) ;; ret (match c with Some _ => true | None => false end)))
            (mand _ _ (o_without_inferred o)
                (c <- on_mgr _ _ (get_inferred_constraint a b) ;; ret (match c with Some _ => true | None => false end))).

  Lemma keep_eq o a b : keep o (a, b) =
    if str_leb b a then ret false
    else (skip <- skip_clusters o a b ;; if skip then ret false else (skip <- skip_known o a b ;; ret (negb skip))).
  Proof. reflexivity. Qed.

  Lemma cluster_of_run x (s : sampler) m : cluster_of vec D x (s, m) =
    ((s, m), match s_clustering _ _ s with None => Raise AttributeError | Some c => dlookup x c end).
  Proof. unfold cluster_of, attr, bind, gets, lift, ret, raise. simpl. destruct (s_clustering _ _ s); auto. Qed.

  Lemma skip_known_run o a b s m : Inv m -> In a (ids m) -> In b (ids m) ->
    skip_known o a b (s, m) = ((s, m), Ok ((o_without_added o && is_some (addf m a b)) || (o_without_inferred o && is_some (infer m a b)))).
  Proof.
    intros I Ia Ib. assert (B : both m a b = true) by (apply both_true; auto).
    assert (RA := run_added m a b I). assert (RI := run_inferred m a b I). rewrite B in RA, RI.
    unfold skip_known, mor, mand, bind, on_mgr, ret.
    destruct (o_without_added o), (o_without_inferred o); cbn [fst snd]; rewrite ?RA; cbn [fst snd andb orb is_some];
      rewrite ?RI; cbn [andb orb is_some]; auto; destruct (addf m a b); cbn [fst snd andb orb is_some]; rewrite ?RI; auto.
  Qed.

  (** The clusters restriction on two looked-up labels. *)
  Definition clash (o : options) (z1 z2 : Z) : bool :=
    (opt_is (o_clusters o) SAME_CLUSTER && negb (Z.eqb z1 z2)) || (opt_is (o_clusters o) DIFFERENT_CLUSTERS && Z.eqb z1 z2).

  Definition reads_clusters (o : options) : bool :=
    opt_is (o_clusters o) SAME_CLUSTER || opt_is (o_clusters o) DIFFERENT_CLUSTERS.

  Lemma opt_is_eq o s : opt_is o s = true <-> o = Some s.
  Proof. destruct o; simpl; [rewrite eqb_eq|]; split; congruence. Qed.

  Lemma opt_excl o : opt_is o SAME_CLUSTER = true -> opt_is o DIFFERENT_CLUSTERS = false.
  Proof. intro E. apply opt_is_eq in E. subst. reflexivity. Qed.

  Lemma skip_clusters_run o a b (s : sampler) m :
    skip_clusters o a b (s, m) =
    ((s, m), if reads_clusters o
             then match s_clustering _ _ s with
                  | None => Raise AttributeError
                  | Some c => z1 <-- dlookup a c ;;; z2 <-- dlookup b c ;;; Ok (clash o z1 z2)
                  end
             else Ok false).
  Proof.
    unfold skip_clusters, reads_clusters, clash, mor, mand, bind, ret.
    destruct (opt_is (o_clusters o) SAME_CLUSTER) eqn:E1.
    - rewrite (opt_excl _ E1). simpl. rewrite cluster_of_run.
      destruct (s_clustering _ _ s) as [c|] eqn:Es; auto.
      destruct (dlookup a c); simpl; auto. rewrite cluster_of_run, Es. destruct (dlookup b c); simpl; auto.
      destruct (Z.eqb a0 a1); simpl; auto.
    - simpl. destruct (opt_is (o_clusters o) DIFFERENT_CLUSTERS) eqn:E2; auto.
      rewrite cluster_of_run. destruct (s_clustering _ _ s) as [c|] eqn:Es; auto.
      destruct (dlookup a c); simpl; auto. rewrite cluster_of_run, Es. destruct (dlookup b c); simpl; auto.
  Qed.

  Lemma keep_run o a b (s : sampler) m : Inv m -> In a (ids m) -> In b (ids m) ->
    keep o (a, b) (s, m) =
    ((s, m), if str_leb b a then Ok false
             else z <-- snd (skip_clusters o a b (s, m)) ;;;
                  Ok (negb z && negb ((o_without_added o && is_some (addf m a b)) || (o_without_inferred o && is_some (infer m a b))))).
  Proof.
    intros I Ia Ib. rewrite keep_eq. destruct (str_leb b a); [reflexivity|].
    unfold bind at 1. rewrite skip_clusters_run. cbn [snd].
    match goal with |- match ?e with _ => _ end = _ => destruct e as [[]|] end; cbn [rbind negb andb]; auto.
    unfold bind. rewrite skip_known_run by auto. unfold ret. auto.
  Qed.

  Lemma same_diff : Some SAME_CLUSTER <> Some DIFFERENT_CLUSTERS.
  Proof. intro X. apply (f_equal (fun o => opt_is o DIFFERENT_CLUSTERS)) in X. discriminate. Qed.

  Lemma keep_spec o a b (s : sampler) m cr r : Inv m -> In a (ids m) -> In b (ids m) ->
    (o_clusters o <> None -> s_clustering _ _ s = cr) ->
    snd (keep o (a, b) (s, m)) = Ok r -> (r = true <-> eligible o m cr (a, b)).
  Proof.
    intros I Ia Ib C E. rewrite keep_run in E by auto. cbn [snd] in E. unfold eligible.
    rewrite !managed_ids, str_ltb_negb.
    assert (AD : (exists t, added m t a b) <-> is_some (addf m a b) = true).
    { destruct (addf m a b) as [[t v]|] eqn:F; simpl; split; try congruence; intro At.
      - exists t. unfold added, ask. rewrite run_added by auto.
        assert (B : both m a b = true) by (apply both_true; auto). rewrite B. rewrite F. simpl. eauto.
      - destruct At as [t [v At]]. unfold ask in At. rewrite run_added in At by auto.
        assert (B : both m a b = true) by (apply both_true; auto). rewrite B, F in At. discriminate. }
    
    assert (IN : inferred m a b None <-> is_some (infer m a b) = false).
    { rewrite inferred_spec by auto. destruct (infer m a b); simpl; split; congruence. }
    rewrite AD, IN. clear AD IN.
    destruct (str_leb b a) eqn:L; simpl in E.
    { injection E; intros; subst. simpl. split; intro H; [discriminate|]. destruct H as (_ & _ & H & _). discriminate. }
    rewrite skip_clusters_run in E. cbn [snd] in E.
    assert (K : exists z, r = (negb z && negb ((o_without_added o && is_some (addf m a b)) || (o_without_inferred o && is_some (infer m a b))))
        /\ (z = false <-> (o_clusters o = Some SAME_CLUSTER -> label_of cr a = label_of cr b) /\
                          (o_clusters o = Some DIFFERENT_CLUSTERS -> label_of cr a <> label_of cr b))).
    { destruct (reads_clusters o) eqn:R.
      - destruct (o_clusters o) as [u|] eqn:O; [|unfold reads_clusters in R; rewrite O in R; discriminate].
        rewrite C in E by discriminate. destruct cr as [c|]; [|discriminate]. simpl.
        unfold dlookup in E. destruct (dget a c) as [z1|]; [|discriminate]. simpl in E.
        destruct (dget b c) as [z2|]; [|discriminate]. simpl in E. injection E; intros.
        exists (clash o z1 z2). split; auto. unfold clash, reads_clusters in *. rewrite O in *. simpl in *.
        destruct (eqb u SAME_CLUSTER) eqn:U1.
        + apply eqb_eq in U1. subst u. replace (eqb SAME_CLUSTER DIFFERENT_CLUSTERS) with false by reflexivity.
          destruct (Z.eqb_spec z1 z2); simpl; split; auto.
          * intros _. split; [congruence|]. intro X. destruct (same_diff X).
          * discriminate.
          * intros [H1 _]. specialize (H1 eq_refl). congruence.
        + simpl in R. rewrite R. apply eqb_eq in R. subst u. simpl.
          destruct (Z.eqb_spec z1 z2); simpl; split; auto.
          * discriminate.
          * intros [_ H1]. subst. exfalso. apply H1; auto.
          * intros _. split; try congruence. intro X. destruct (same_diff (eq_sym X)).
      - simpl in E. injection E; intros. exists false. split; [simpl; auto|]. split; auto. intros _.
        unfold reads_clusters in R. apply orb_false_iff in R. destruct R as [R1 R2].
        split; intro X; rewrite X in *; discriminate. }
    destruct K as (z & -> & K).
    rewrite andb_true_iff, !negb_true_iff, K, orb_false_iff, !andb_false_iff.
    destruct (o_without_added o), (o_without_inferred o), (is_some (addf m a b)), (is_some (infer m a b)); simpl; intuition congruence.
  Qed.

  (** ** [sample] as a function of its arguments and the manager only. *)
  Definition keepr (o : options) (m : mgr) (cr : option (dict pystr Z)) (p : pystr * pystr) : res bool :=
    snd (keep o p (mkSampler vec D cr None None, m)).

  Definition table (rows : list vec) (l : list pystr) : dict pystr (dict pystr D) :=
    fold_left (fun d e => dset (snd e)
                 (fold_left (fun d' e' => dset (snd e') (pairwise rows (fst e) (fst e')) d') (enum l) []) d)
              (enum l) [].

  Definition look (t : dict pystr (dict pystr D)) (p : pystr * pystr) : res D :=
    row <-- dlookup (fst p) t ;;; dlookup (snd p) row.

  Definition keyed (t : dict pystr (dict pystr D)) (l : list (pystr * pystr)) : res (list (D * (pystr * pystr))) :=
    rmap (fun p => k <-- look t p ;;; Ok (k, p)) l.

  Definition select (o : options) (nb : Z) (rows : option (list vec)) (l : list pystr) (pairs : list (pystr * pystr)) : res (list (pystr * pystr)) :=
    match rows with
    | None => Ok (draw pairs (Nat.min (Z.to_nat nb) (length pairs)))
    | Some [] => Raise ValueError
    | Some rows =>
      if opt_is (o_distance o) CLOSEST then
        k <-- keyed (table rows l) pairs ;;;
        Ok (firstn (Z.to_nat nb) (map snd (sorted_by (fun p q => ltb (fst p) (fst q)) k)))
      else if opt_is (o_distance o) FARTHEST then
        k <-- keyed (table rows l) pairs ;;;
        Ok (firstn (Z.to_nat nb) (map snd (sorted_by (fun p q => ltb (fst q) (fst p)) k)))
      else Ok (draw pairs (Nat.min (Z.to_nat nb) (length pairs)))
    end.

  Definition psample (o : options) (nb : Z) (cr : option (dict pystr Z)) (vs : option (dict pystr vec)) (m : mgr) : res (list (pystr * pystr)) :=
    if (nb <? 0)%Z then Raise ValueError
    else if (nb =? 0)%Z then Ok []
    else match o_clusters o, cr with
         | Some _, None => Raise ValueError
         | _, _ =>
           match o_distance o, vs with
           | Some _, None => Raise ValueError
           | _, _ =>
             pairs <-- rfilter (keepr o m cr) (list_prod (ids m) (ids m)) ;;;
             match o_distance o, vs with
             | Some _, Some v => rows <-- rmap (fun x => dlookup x v) (ids m) ;;; select o nb (Some rows) (ids m) pairs
             | _, _ => select o nb None (ids m) pairs
             end
           end
         end.

  Lemma keep_keepr o p (s : sampler) m cr : Inv m -> In (fst p) (ids m) -> In (snd p) (ids m) ->
    (o_clusters o <> None -> s_clustering _ _ s = cr) -> keep o p (s, m) = ((s, m), keepr o m cr p).
  Proof.
    destruct p as [a b]. cbn [fst snd]. intros I Ia Ib C. unfold keepr. rewrite !keep_run by auto. cbn [snd]. f_equal.
    rewrite !skip_clusters_run. cbn [snd s_clustering].
    destruct (reads_clusters o) eqn:R; auto.
    rewrite C; auto. intro X. unfold reads_clusters in R. rewrite X in R. discriminate.
  Qed.

  Lemma mfilter_rfilter {S A} (f : A -> M S bool) (g : A -> res bool) w l :
    (forall x, In x l -> f x w = (w, g x)) -> mfilter f l w = (w, rfilter g l).
  Proof.
    induction l as [|x l IH]; intro P; simpl; auto. unfold bind. rewrite (P x (or_introl eq_refl)).
    destruct (g x); simpl; auto. rewrite IH by (intros; apply P; right; auto). destruct (rfilter g l); auto.
  Qed.

  Lemma with_keys_run t (s : sampler) m l : s_distances _ _ s = Some t ->
    with_keys vec D l (s, m) = ((s, m), keyed t l).
  Proof.
    intro E. unfold keyed. induction l as [|p l IH]; simpl; auto.
    unfold bind at 1. unfold distance_of, attr, bind, gets, lift, ret. simpl. rewrite E. simpl.
    unfold look. destruct (dlookup (fst p) t); simpl; auto. destruct (dlookup (snd p) a); simpl; auto.
    rewrite IH. destruct (rmap _ l); auto.
  Qed.

  Lemma compute_distances_run l (s : sampler) m v : s_vectors _ _ s = Some v ->
    compute_distances vec D pairwise l (s, m) =
    match rmap (fun x => dlookup x v) l with
    | Raise e => ((s, m), Raise e)
    | Ok [] => ((s, m), Raise ValueError)
    | Ok rows => ((mkSampler vec D (s_clustering _ _ s) (s_vectors _ _ s) (Some (table rows l)), m), Ok tt)
    end.
  Proof.
    intro E. unfold compute_distances, attr, bind, gets, ret, lift, raise, modify. cbn [fst snd]. rewrite E.
    destruct (rmap (fun x => dlookup x v) l) as [[|r rows]|e]; auto. cbn [fst snd]. rewrite E. reflexivity.
  Qed.

  Notation sample := (sample vec D pairwise ltb draw).

  Lemma sample_psample o nb cr vs s m : Inv m ->
    exists s', sample o nb cr vs (s, m) = ((s', m), psample o nb cr vs m).
  Proof.
    intro I. unfold sample, psample. destruct (nb <? 0)%Z; [eexists; reflexivity|]. destruct (nb =? 0)%Z; [eexists; reflexivity|].
    assert (T : forall s2 : sampler, (o_clusters o <> None -> s_clustering _ _ s2 = cr) ->
       (o_distance o <> None -> s_vectors _ _ s2 = vs /\ vs <> None) ->
       exists s', (ids <- on_mgr vec D get_list_of_managed_data_IDs ;;
        pairs <- mfilter (keep o) (list_prod ids ids) ;;
        (match o_distance o with None => ret tt | Some _ => compute_distances vec D pairwise ids end) ;;
        if opt_is (o_distance o) CLOSEST then
          keyed <- with_keys vec D pairs ;;
          ret (firstn (Z.to_nat nb) (map snd (sorted_by (fun p q => ltb (fst p) (fst q)) keyed)))
        else if opt_is (o_distance o) FARTHEST then
          keyed <- with_keys vec D pairs ;;
          ret (firstn (Z.to_nat nb) (map snd (sorted_by (fun p q => ltb (fst q) (fst p)) keyed)))
        else ret (draw pairs (Nat.min (Z.to_nat nb) (length pairs)))) (s2, m)
       = ((s', m), pairs <-- rfilter (keepr o m cr) (list_prod (ids m) (ids m)) ;;;
             match o_distance o, vs with
             | Some _, Some v => rows <-- rmap (fun x => dlookup x v) (ids m) ;;; select o nb (Some rows) (ids m) pairs
             | _, _ => select o nb None (ids m) pairs
             end)).
    { intros s2 C2 V2. unfold bind at 1, on_mgr. cbn [snd fst]. rewrite run_managed.
      unfold bind at 1. rewrite (mfilter_rfilter _ (keepr o m cr)).
      2:{ intros p Ip. destruct p as [a b]. apply in_prod_iff in Ip. apply keep_keepr; simpl; tauto. }
      destruct (rfilter (keepr o m cr) (list_prod (ids m) (ids m))) as [pairs|e]; [|eexists; reflexivity].
      cbn [rbind]. destruct (o_distance o) as [u|] eqn:U.
      - destruct V2 as [V2 NV]; [discriminate|]. destruct vs as [v|]; [|congruence].
        unfold bind at 1. rewrite (compute_distances_run _ _ _ v) by auto.
        destruct (rmap (fun x => dlookup x v) (ids m)) as [[|r0 rows]|e]; cbn [rbind fst snd]; try (eexists; reflexivity).
        unfold select.
        rewrite U.
        destruct (opt_is (Some u) CLOSEST).
        + unfold bind. erewrite with_keys_run by reflexivity. destruct (keyed _ pairs); eexists; reflexivity.
        + destruct (opt_is (Some u) FARTHEST).
          * unfold bind. erewrite with_keys_run by reflexivity. destruct (keyed _ pairs); eexists; reflexivity.
          * eexists; reflexivity.
      - eexists; reflexivity. }
    unfold bind at 1.
    destruct (o_clusters o) as [u|] eqn:U; [destruct cr as [c|]; [|eexists; reflexivity]|]; unfold modify at 1 || unfold ret at 1; cbn [fst snd];
      unfold bind at 1; (destruct (o_distance o) as [u'|] eqn:U'; [destruct vs as [v|]; [|eexists; reflexivity]|]);
      unfold modify at 1 || unfold ret at 1; cbn [fst snd]; apply T; cbn; auto; try congruence; split; congruence.
  Qed.
End WithOracles.
