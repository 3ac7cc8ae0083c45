(** * Managers that cannot be told apart, and sessions that go on after a reload *)

From Coq Require Import String List Bool Arith ZArith QArith Permutation Sorted Lia.
From Verif Require Import Base Manager Spec Closure ManagerInv ManagerProofs ManagerSem ManagerQueries ManagerThms
  Json JsonSpec JsonProofs JsonThms Sampling SamplingSpec SamplingProofs MinMax MinMaxThms ClusterSpec ClusterProofs KMeans KMeansSpec
  SameSpec SameComps SameThms Loop Usage ColoringSpec ResumeSpec.
From Verif Require Hierarchical HierThms KMeansProofs.
Import ListNotations.
Open Scope nat_scope.
Open Scope py_scope.

(** ** Managers that agree on the added constraints of the pairs in [P] *)
Definition near (P : pystr -> pystr -> Prop) (m1 m2 : mgr) : Prop :=
  ids m1 = ids m2 /\ forall p q, P p q -> addf m1 p q = addf m2 p q.

Definition all_pairs (p q : pystr) : Prop := True.
Definition distinct_pairs (p q : pystr) : Prop := p <> q.

Lemma addf_outside m p q : Inv m -> ~ (In p (ids m) /\ In q (ids m)) -> addf m p q = None.
Proof.
  intros I N. rewrite addf_lo_hi. destruct (sget (cdict m) (lo p q) (hi p q)) eqn:S; auto.
  destruct (sget_keys _ _ _ _ (proj1 I) S) as (K1 & K2 & _).
  exfalso. apply N. unfold lo, hi in *. destruct (str_leb p q); auto.
Qed.

Lemma both_ids m1 m2 : ids m1 = ids m2 -> forall a b, both m1 a b = both m2 a b.
Proof. intros E a b. unfold both. rewrite E. auto. Qed.

Lemma near_ask (P : pystr -> pystr -> Prop) m1 m2 : Inv m1 -> Inv m2 ->
  near P m1 m2 <->
  (ask get_list_of_managed_data_IDs m1 = ask get_list_of_managed_data_IDs m2 /\
   forall a b, P a b -> ask (get_added_constraint a b) m1 = ask (get_added_constraint a b) m2).
Proof.
  intros I1 I2. unfold near, ask. rewrite !run_managed. cbn [snd]. split; intros [E A].
  - split; [congruence|]. intros a b Pab. rewrite !run_added by auto. rewrite (both_ids m1 m2), A by auto. auto.
  - assert (E' : ids m1 = ids m2) by congruence. split; auto. intros p q Ppq. specialize (A p q Ppq).
    rewrite !run_added in A by auto. rewrite (both_ids m1 m2 E') in A. cbn [snd] in A.
    destruct (both m2 p q) eqn:B; [congruence|].
    assert (N : ~ (In p (ids m2) /\ In q (ids m2))) by (rewrite <- both_true; congruence).
    rewrite !addf_outside; auto. rewrite E'; auto.
Qed.

Lemma near_distinct (P : pystr -> pystr -> Prop) m1 m2 : (forall p q, p <> q -> P p q) -> near P m1 m2 -> near distinct_pairs m1 m2.
Proof. intros H [E A]. split; [exact E|]. intros p q N. apply A, H, N. Qed.

Lemma near_added m1 m2 : Inv m1 -> Inv m2 -> near distinct_pairs m1 m2 ->
  forall t p q, p <> q -> added m1 t p q <-> added m2 t p q.
Proof. intros I1 I2 [E A] t p q N. rewrite !addf_added by auto. rewrite E, A by auto. tauto. Qed.

Lemma no_self_cannot m x : Inv m -> ~ added_cannot m x x.
Proof. intros I C. destruct (stored_labels m I) as (f & _ & S). apply (S x x C). auto. Qed.

Lemma near_linked m1 m2 : Inv m1 -> Inv m2 -> near distinct_pairs m1 m2 ->
  forall x y, linked (sml m1) x y -> linked (sml m2) x y.
Proof.
  intros I1 I2 N x y. rewrite <- !added_linked by auto. apply self_linked. intros p q H.
  destruct (eqb_spec p q) as [->|NE]; auto. left. apply (near_added m1 m2); auto.
Qed.

Lemma near_sym P m1 m2 : near P m1 m2 -> near P m2 m1.
Proof. intros [E A]. split; [auto|]. intros p q H. symmetry. auto. Qed.

Lemma near_separated m1 m2 : Inv m1 -> Inv m2 -> near distinct_pairs m1 m2 ->
  forall x y, separated (sml m1) (scl m1) x y -> separated (sml m2) (scl m2) x y.
Proof.
  intros I1 I2 N x y. rewrite <- !added_separated by auto. intros (p & q & L1 & L2 & C). exists p, q.
  assert (L : forall u v, linked (added_must m1) u v -> linked (added_must m2) u v).
  { intros u v. rewrite !added_linked by auto. apply near_linked; auto. }
  split; auto. split; auto.
  destruct C as [C|C]; [left|right]; (apply (near_added m1 m2); auto; intros ->; apply (no_self_cannot m1 _ I1 C)).
Qed.

Lemma near_answers m1 m2 : Inv m1 -> Inv m2 -> near distinct_pairs m1 m2 -> same_answers m1 m2.
Proof.
  intros I1 I2 N. assert (N' := near_sym _ _ _ N). apply same_answers_from_relations; auto.
  - intro x. rewrite (proj1 N). tauto.
  - intros a b. split; apply near_linked; auto.
  - intros a b. split; apply near_separated; auto.
Qed.

Lemma near_knowledge m1 m2 : Inv m1 -> Inv m2 -> near distinct_pairs m1 m2 -> same_knowledge m1 m2.
Proof.
  intros I1 I2 N. split.
  - unfold ask. rewrite !run_managed. cbn [snd]. rewrite (proj1 N). auto.
  - apply near_answers; auto.
Qed.

Lemma near_infer m1 m2 a b : Inv m1 -> Inv m2 -> near distinct_pairs m1 m2 -> both m1 a b = true -> infer m1 a b = infer m2 a b.
Proof.
  intros I1 I2 N B. assert (K := proj2 (near_knowledge _ _ I1 I2 N) a b). unfold ask in K. rewrite !run_inferred in K by auto.
  rewrite <- (both_ids m1 m2 (proj1 N)), B in K. cbn [snd] in K. congruence.
Qed.

Lemma near_accepts m1 m2 a b t : Inv m1 -> Inv m2 -> near distinct_pairs m1 m2 -> accepts m1 a b t = accepts m2 a b t.
Proof.
  intros I1 I2 N. unfold accepts. rewrite <- (both_ids m1 m2 (proj1 N)). destruct (both m1 a b) eqn:B; auto.
  rewrite (near_infer m1 m2 a b); auto.
Qed.

(** ** Effects *)
Section Effects.
  Variable P : pystr -> pystr -> Prop.
  Hypothesis P_distinct : forall p q, p <> q -> P p q.
  Hypothesis P_sym : forall p q, P p q -> P q p.

  Lemma P_pair a b p q : same_pair a b (lo p q) (hi p q) = true -> P p q -> P a b.
  Proof. intros S H. apply same_pair_spec in S. destruct S as [[-> ->]|[-> ->]]; auto. Qed.

  Definition both_near (s1 s2 : mgr) : Prop := Inv s1 /\ Inv s2 /\ near P s1 s2.

  Lemma add_near m1 m2 a b t v : both_near m1 m2 ->
    snd (add_constraint a b t v m1) = snd (add_constraint a b t v m2) /\
    both_near (fst (add_constraint a b t v m1)) (fst (add_constraint a b t v m2)).
  Proof.
    intros (I1 & I2 & N). assert (ND := near_distinct P m1 m2 P_distinct N). destruct (accepts m1 a b t) eqn:A.
    - assert (A2 := A). rewrite (near_accepts m1 m2) in A2 by auto.
      destruct (run_add_constraint m1 a b t v I1 A) as (n1 & -> & J1 & K1 & S1 & _).
      destruct (run_add_constraint m2 a b t v I2 A2) as (n2 & -> & J2 & K2 & S2 & _). cbn [fst snd]. split; auto.
      split; auto. split; auto. split; [rewrite K1, K2; apply N|]. intros p q Ppq.
      rewrite (addf_lo_hi n1), (addf_lo_hi n2), S1, S2. destruct (same_pair a b (lo p q) (hi p q)) eqn:S.
      + rewrite (proj2 N a b) by (eapply P_pair; eauto). auto.
      + rewrite <- !addf_lo_hi. apply N; auto.
    - assert (A2 := A). rewrite (near_accepts m1 m2) in A2 by auto.
      rewrite (run_add_constraint_raise m1), (run_add_constraint_raise m2) by auto. cbn [fst snd]. unfold both_near. auto.
  Qed.

  Lemma exec_near m1 m2 c : both_near m1 m2 -> both_near (fst (exec c m1)) (fst (exec c m2)).
  Proof.
    intros B. assert (B' := B). destruct B' as (I1 & I2 & N). assert (EI := proj1 N). destruct c; cbn [exec]; unfold bind.
    - assert (K1 := run_add_data_ID m1 x I1). assert (K2 := run_add_data_ID m2 x I2). rewrite <- EI in K2.
      destruct (mem x (ids m1)); [rewrite K1, K2; exact B|].
      destruct K1 as (n1 & -> & J1 & K1 & S1). destruct K2 as (n2 & -> & J2 & K2 & S2). cbn [fst ret].
      split; auto. split; auto. split; [congruence|]. intros p q Ppq.
      rewrite (addf_lo_hi n1), (addf_lo_hi n2), S1, S2.
      destruct (_ && str_leb (lo p q) (hi p q)); auto. rewrite <- !addf_lo_hi. apply N; auto.
    - assert (K1 := run_delete_data_ID m1 x I1). assert (K2 := run_delete_data_ID m2 x I2). rewrite <- EI in K2.
      destruct (mem x (ids m1)); [|rewrite K1, K2; exact B].
      destruct K1 as (n1 & -> & J1 & K1 & S1). destruct K2 as (n2 & -> & J2 & K2 & S2). cbn [fst ret].
      split; auto. split; auto. split; [congruence|]. intros p q Ppq.
      rewrite (addf_lo_hi n1), (addf_lo_hi n2), S1, S2.
      destruct (eqb (lo p q) x || eqb (hi p q) x); auto. rewrite <- !addf_lo_hi. apply N; auto.
    - exact B.
    - destruct (add_near m1 m2 a b t v B) as [E H].
      destruct (add_constraint a b t v m1) as [n1 r1], (add_constraint a b t v m2) as [n2 r2]. cbn [fst snd] in *. subst r2.
      destruct r1; exact H.
    - assert (K1 := run_delete_constraint m1 a b I1). assert (K2 := run_delete_constraint m2 a b I2).
      rewrite <- (both_ids m1 m2 EI) in K2. destruct (both m1 a b); [|rewrite K1, K2; exact B].
      destruct K1 as (n1 & -> & J1 & K1 & S1). destruct K2 as (n2 & -> & J2 & K2 & S2). cbn [fst ret].
      split; auto. split; auto. split; [congruence|]. intros p q Ppq.
      rewrite (addf_lo_hi n1), (addf_lo_hi n2), S1, S2.
      destruct (same_pair a b (lo p q) (hi p q)); auto. rewrite <- !addf_lo_hi. apply N; auto.
    - rewrite !run_added by auto. rewrite (both_ids m1 m2 EI). destruct (both m2 a b); exact B.
    - rewrite !run_inferred by auto. rewrite (both_ids m1 m2 EI). destruct (both m2 a b); exact B.
    - rewrite !run_components by auto. exact B.
    - destruct (run_completude m1 I1) as (? & -> & _). destruct (run_completude m2 I2) as (? & -> & _). exact B.
    - rewrite !run_conflict by auto. rewrite (both_ids m1 m2 EI). destruct (both m2 a b && _); exact B.
  Qed.

  Lemma conflict_perm a b l1 l2 : Forall2 (@Permutation pystr) l1 l2 ->
    Permutation (flat_map (fun c => if mem a c || mem b c then c else []) l1)
                (flat_map (fun c => if mem a c || mem b c then c else []) l2).
  Proof.
    induction 1 as [|c1 c2 l1 l2 H _ IH]; cbn [flat_map]; [constructor|].
    assert (E : mem a c1 || mem b c1 = mem a c2 || mem b c2).
    { f_equal; apply mem_iff; split; apply Permutation_in; auto; apply Permutation_sym; auto. }
    rewrite E. destruct (mem a c2 || mem b c2); [apply Permutation_app; auto|exact IH].
  Qed.

  Lemma exec_output m1 m2 c : both_near m1 m2 -> (forall a b, c = CallGetAdded a b -> P a b) ->
    same_output (snd (exec c m1)) (snd (exec c m2)).
  Proof.
    intros B G. assert (B' := B). destruct B' as (I1 & I2 & N). assert (EI := proj1 N).
    assert (ND := near_distinct P m1 m2 P_distinct N). assert (SA := near_answers m1 m2 I1 I2 ND).
    assert (SC := same_comps m1 m2 I1 I2 (near_knowledge m1 m2 I1 I2 ND)).
    destruct c; cbn [exec]; unfold bind.
    - assert (K1 := run_add_data_ID m1 x I1). assert (K2 := run_add_data_ID m2 x I2). rewrite <- EI in K2.
      destruct (mem x (ids m1)); [rewrite K1, K2; reflexivity|].
      destruct K1 as (n1 & -> & _). destruct K2 as (n2 & -> & _). reflexivity.
    - assert (K1 := run_delete_data_ID m1 x I1). assert (K2 := run_delete_data_ID m2 x I2). rewrite <- EI in K2.
      destruct (mem x (ids m1)); [|rewrite K1, K2; reflexivity].
      destruct K1 as (n1 & -> & _). destruct K2 as (n2 & -> & _). reflexivity.
    - rewrite !run_managed. cbn. congruence.
    - destruct (add_near m1 m2 a b t v B) as [E H].
      destruct (add_constraint a b t v m1) as [n1 r1], (add_constraint a b t v m2) as [n2 r2]. cbn [fst snd] in *. subst r2.
      destruct r1; reflexivity.
    - assert (K1 := run_delete_constraint m1 a b I1). assert (K2 := run_delete_constraint m2 a b I2).
      rewrite <- (both_ids m1 m2 EI) in K2. destruct (both m1 a b); [|rewrite K1, K2; reflexivity].
      destruct K1 as (n1 & -> & _). destruct K2 as (n2 & -> & _). reflexivity.
    - rewrite !run_added by auto. rewrite (both_ids m1 m2 EI). destruct (both m2 a b); cbn; auto.
      rewrite (proj2 N a b) by auto. auto.
    - rewrite !run_inferred by auto. rewrite <- (both_ids m1 m2 EI). destruct (both m1 a b) eqn:B1; cbn; auto.
      rewrite (near_infer m1 m2 a b) by auto. auto.
    - rewrite !run_components by auto. cbn. exact SC.
    - assert (K := proj1 (proj2 SA)). unfold ask in K.
      destruct (run_completude m1 I1) as (? & E1 & _). destruct (run_completude m2 I2) as (? & E2 & _). rewrite E1, E2 in *.
      cbn in *. congruence.
    - rewrite !run_conflict by auto. rewrite <- (both_ids m1 m2 EI), <- (near_accepts m1 m2) by auto.
      destruct (both m1 a b && _); cbn; auto. destruct (accepts m1 a b t); cbn; auto. apply conflict_perm; auto.
  Qed.

  Lemma outputs_near l : forall m1 m2, both_near m1 m2 -> Forall (fun c => forall a b, c = CallGetAdded a b -> P a b) l ->
    Forall2 same_output (outputs l m1) (outputs l m2) /\ both_near (run l m1) (run l m2).
  Proof.
    induction l as [|c l IH]; intros m1 m2 B G; cbn [outputs]; [split; [constructor|exact B]|].
    inversion G; subst. destruct (IH _ _ (exec_near m1 m2 c B)) as [O R]; auto.
    split; [constructor; auto; apply exec_output; auto|exact R].
  Qed.
End Effects.

(** ** The range of numbers of clusters *)
Lemma filter_Forall2 {A B} (R : A -> B -> Prop) f g l1 l2 : (forall x y, R x y -> f x = g y) -> Forall2 R l1 l2 ->
  Forall2 R (filter f l1) (filter g l2).
Proof. intros H. induction 1 as [|x y l1 l2 Q _ IH]; simpl; auto. rewrite (H x y Q). destruct (g y); auto. Qed.

Lemma prod_Forall2 {A B} (R : A -> B -> Prop) l1 l2 : Forall2 R l1 l2 -> forall k1 k2, Forall2 R k1 k2 ->
  Forall2 (fun x y => R (fst x) (fst y) /\ R (snd x) (snd y)) (list_prod l1 k1) (list_prod l2 k2).
Proof.
  induction 1 as [|x y l1 l2 Q _ IH]; intros k1 k2 K; simpl; auto. apply Forall2_app; auto.
  clear IH. induction K; simpl; auto.
Qed.

Lemma enum_Forall2 {A B} (R : A -> B -> Prop) l1 l2 : Forall2 R l1 l2 ->
  Forall2 (fun x y => fst x = fst y /\ R (snd x) (snd y)) (enumerate l1) (enumerate l2).
Proof.
  unfold enumerate. generalize 0. intros n H. revert n. induction H; intro n; simpl; auto.
Qed.

Lemma map_Forall2 {A B C} (R : A -> B -> Prop) (f : A -> C) g l1 l2 : (forall x y, R x y -> f x = g y) -> Forall2 R l1 l2 ->
  map f l1 = map g l2.
Proof. intro H. induction 1; simpl; f_equal; auto. Qed.

Section Range.
  Variables m1 m2 : mgr.
  Hypothesis I1 : Inv m1.
  Hypothesis I2 : Inv m2.
  Hypothesis SK : same_knowledge m1 m2.

  Definition same_head (x y : pystr) : Prop := In x (ids m1) /\ In y (ids m1) /\ linked (sml m1) x y.

  Lemma know_infer a b : In a (ids m1) -> In b (ids m1) -> infer m1 a b = infer m2 a b.
  Proof.
    intros A B. assert (E := same_ids_eq _ _ SK). assert (X := proj2 SK a b). unfold ask in X.
    rewrite (run_inferred m1 a b I1), (run_inferred m2 a b I2) in X.
    assert (B1 : both m1 a b = true) by (apply both_true; auto). assert (B2 : both m2 a b = true) by (apply both_true; rewrite <- E; auto).
    rewrite B1, B2 in X. cbn [snd] in X. congruence.
  Qed.

  Lemma know_separated a b : In a (ids m1) -> In b (ids m1) ->
    separated (sml m1) (scl m1) a b <-> separated (sml m2) (scl m2) a b.
  Proof.
    intros A B. assert (E := same_ids_eq _ _ SK). rewrite <- !infer_CL by (auto; rewrite <- E; auto). rewrite know_infer by auto. tauto.
  Qed.
  Lemma know_linked a b : In a (ids m1) -> In b (ids m1) -> linked (sml m1) a b <-> linked (sml m2) a b.
  Proof.
    intros A B. assert (E := same_ids_eq _ _ SK). rewrite <- !infer_ML by (auto; rewrite <- E; auto). rewrite know_infer by auto. tauto.
  Qed.

  Lemma same_heads : Forall2 same_head (heads m1) (heads m2).
  Proof.
    assert (SC := same_comps m1 m2 I1 I2 SK). unfold heads.
    assert (G : forall c, In c (comps m1) -> c <> [] /\ forall x y, In x c -> In y c -> same_head x y).
    { intros c H. apply comps_In in H as (z & Z & ->). split.
      - assert (S := self_comp m1 z I1 Z). intro Q. rewrite Q in S. destruct S.
      - intros x y X Y. apply comp_of_In in X, Y; auto. split; [eapply linked_ids; eauto|]. split; [eapply linked_ids; eauto|].
        eapply linked_trans; [apply linked_sym|]; eauto. }
    revert G. generalize (comps m1) (comps m2) SC. clear. intros l1 l2 SC. induction SC as [|c1 c2 l1 l2 P _ IH]; intro G; simpl; constructor.
    - destruct (G c1 (or_introl eq_refl)) as [NE Q]. apply Q.
      + destruct c1; [congruence|left; auto].
      + apply Permutation_sym in P. eapply Permutation_in; [exact P|]. destruct c2; [|left; auto].
        apply Permutation_nil in P. congruence.
    - apply IH. intros c H. apply G. right; auto.
  Qed.

  Lemma same_cl x y v : same_head x y -> In v (cl_of m1 x) <-> In v (cl_of m2 y).
  Proof.
    intros (X & Y & L). assert (E := same_ids_eq _ _ SK). rewrite !cl_of_In by (auto; rewrite <- E; auto).
    assert (Q : separated (sml m1) (scl m1) x v <-> separated (sml m1) (scl m1) y v).
    { split; intros (p & q & L1 & L2 & C); exists p, q; (split; [|auto]).
      - eapply linked_trans; [apply linked_sym|]; eauto.
      - eapply linked_trans; eauto. }
    rewrite Q. split; intro S.
    - apply know_separated; auto. eapply separated_ids in S; eauto. tauto.
    - apply know_separated; auto. eapply separated_ids in S; [|exact I2]. rewrite E. tauto.
  Qed.

  Lemma same_cl_length x y : same_head x y -> length (cl_of m1 x) = length (cl_of m2 y).
  Proof.
    intro S. apply Permutation_length. apply NoDup_Permutation; try apply cl_of_NoDup; auto. intro v. apply same_cl; auto.
  Qed.

  Lemma same_kept : Forall2 same_head (MinMaxThms.kept m1) (MinMaxThms.kept m2).
  Proof. unfold MinMaxThms.kept. apply filter_Forall2; [|apply same_heads]. intros x y S. rewrite (same_cl_length x y S). auto. Qed.

  Lemma same_edges : edges m1 = edges m2.
  Proof.
    unfold edges. assert (E := enum_Forall2 _ _ _ same_kept).
    eapply map_Forall2; [|apply filter_Forall2; [|apply prod_Forall2; exact E]].
    - intros x y ((Q1 & _) & (Q2 & _)). rewrite Q1, Q2. auto.
    - intros [[i x] [j y]] [[i' x'] [j' y']] ((Q1 & S1) & (Q2 & S2)). cbn [fst snd] in *. subst. f_equal.
      apply mem_iff. rewrite (same_cl x x' y S1). destruct S1 as (A1 & A2 & A3), S2 as (B1 & B2 & B3).
      assert (E' := same_ids_eq _ _ SK). assert (A2' : In x' (ids m2)) by (rewrite <- E'; auto). rewrite !cl_of_In by auto.
      assert (L : linked (sml m2) y y') by (apply know_linked; auto).
      split; intros (p & q & L1 & L2 & C); exists p, q; (split; [auto|split; [|auto]]).
      + eapply linked_trans; [apply linked_sym|]; eauto.
      + eapply linked_trans; eauto.
  Qed.

  Lemma same_comps_length : length (comps m1) = length (comps m2).
  Proof. assert (SC := same_comps m1 m2 I1 I2 SK). induction SC; simpl; auto. Qed.
End Range.

(** Only the nodes on edges get a colour other than 0, and the colours of these do not depend on the others. *)
Definition indices (D : dict node nat) : dict node nat := filter (fun e => is_index (fst e)) D.

Lemma indices_dset u c D : indices (dset u c D) = if is_index u then dset u c (indices D) else indices D.
Proof.
  induction D as [|[k v] D IH]; simpl.
  - destruct (is_index u); auto.
  - destruct (eqb_spec u k) as [<-|NE]; simpl.
    + destruct (is_index u) eqn:U; simpl; auto. rewrite eqb_refl. auto.
    + fold (indices (dset u c D)). rewrite IH. destruct (is_index k), (is_index u); simpl; auto.
      destruct (eqb_spec u k); [congruence|auto].
Qed.

Definition index_edges (g : graph) : Prop := forall e, In e (g_edges g) -> is_index (fst e) = true /\ is_index (snd e) = true.

Lemma index_adjacent g u v : index_edges g -> adjacent g u v = true -> is_index u = true /\ is_index v = true.
Proof.
  intros H A. apply existsb_exists in A as (e & E & Q). destruct (H e E) as [Q1 Q2].
  rewrite orb_true_iff, !andb_true_iff, !eqb_eq in Q. destruct Q as [[<- <-]|[<- <-]]; auto.
Qed.

Lemma greedy_indices g l : index_edges g -> forall D,
  indices (fold_left (greedy_step g) l D) = fold_left (greedy_step g) (filter is_index l) (indices D).
Proof.
  intro H. induction l as [|u l IH]; intro D; cbn [fold_left filter]; auto. rewrite IH.
  assert (E : indices (greedy_step g D u) = if is_index u then greedy_step g (indices D) u else indices D).
  { unfold greedy_step. rewrite indices_dset. destruct (is_index u) eqn:U; auto.
    assert (F : filter (fun e => adjacent g u (fst e)) (indices D) = filter (fun e => adjacent g u (fst e)) D).
    { unfold indices. clear IH. induction D as [|[k v] D IH]; simpl; auto.
      destruct (is_index k) eqn:K; simpl; rewrite IH; auto.
      destruct (adjacent g u k) eqn:A; auto. apply index_adjacent in A; auto. destruct A; congruence. }
    rewrite F. auto. }
  rewrite E. destruct (is_index u); auto.
Qed.

Lemma dset_In_inv {V} (u : node) (c : V) D v w : In (v, w) (dset u c D) -> In (v, w) D \/ (v = u /\ w = c).
Proof.
  induction D as [|[k x] D IH]; simpl.
  - intros [E|[]]. injection E as -> ->. auto.
  - destruct (eqb_spec u k) as [<-|NE]; simpl; intros [E|E]; auto.
    + injection E as -> ->. auto.
    + destruct (IH E); auto.
Qed.

Lemma greedy_names g l : index_edges g -> forall D, (forall u c, In (u, c) D -> is_index u = false -> c = 0) ->
  forall u c, In (u, c) (fold_left (greedy_step g) l D) -> is_index u = false -> c = 0.
Proof.
  intro H. induction l as [|u l IH]; intros D Z; cbn [fold_left]; auto. apply IH. intros v c V F. unfold greedy_step in V.
  apply dset_In_inv in V. destruct V as [V|[-> ->]]; [eapply Z; eauto|].
  assert (N : filter (fun e => adjacent g u (fst e)) D = []).
  { clear - H F. induction D as [|[k w] D IH]; simpl; auto. destruct (adjacent g u k) eqn:A; auto. apply index_adjacent in A; auto. destruct A; congruence. }
  rewrite N. reflexivity.
Qed.

Lemma the_graph_index_edges m : index_edges (the_graph m).
Proof. intros e E. cbn in E. apply in_map_iff in E as (x & <- & _). auto. Qed.

Lemma same_colors order i m1 m2 : valid_orders order -> ignores_names order -> Inv m1 -> Inv m2 -> same_knowledge m1 m2 ->
  colors_used order i (the_graph m1) = colors_used order i (the_graph m2).
Proof.
  intros VO IN I1 I2 SK. assert (EI := same_ids_eq _ _ SK). destruct (ids m1) as [|x l] eqn:Q.
  - assert (Z : forall m, Inv m -> ids m = [] -> colors_used order i (the_graph m) = Raise ValueError).
    { intros m I E. unfold colors_used. assert (N : g_nodes (the_graph m) = []).
      { assert (C : comps m = []) by (unfold comps; rewrite E; reflexivity).
        unfold the_graph, edges, MinMaxThms.kept, heads. rewrite C. reflexivity. }
      assert (P := VO i (the_graph m)). rewrite N in P. apply Permutation_sym, Permutation_nil in P. rewrite P. reflexivity. }
    rewrite !Z; auto.
  - assert (N1 : ids m1 <> []) by (rewrite Q; discriminate). assert (N2 : ids m2 <> []) by (rewrite <- EI; discriminate).
    destruct (colors_used_ok order VO i m1 N1 I1) as (c1 & E1 & U1 & (u1 & D1)).
    destruct (colors_used_ok order VO i m2 N2 I2) as (c2 & E2 & U2 & (u2 & D2)). rewrite E1, E2. f_equal.
    assert (EX : indices (coloring order i m1) = indices (coloring order i m2)).
    { unfold coloring, greedy_color. rewrite !greedy_indices by apply the_graph_index_edges. cbn [indices filter].
      unfold the_graph. rewrite (same_edges m1 m2 I1 I2 SK).
      assert (L : length (heads m1) = length (heads m2)) by (unfold heads; rewrite !map_length; apply same_comps_length; auto).
      rewrite (IN i (heads m1) (heads m2) (edges m2) (heads_NoDup m1 I1) (heads_NoDup m2 I2) L). reflexivity. }
    assert (H : forall ma mb ca cb u, indices (coloring order i ma) = indices (coloring order i mb) ->
      dget u (coloring order i ma) = Some ca -> (forall u a, dget u (coloring order i mb) = Some a -> a <= cb) -> ca <= cb).
    { intros ma mb ca cb u E D U. destruct (is_index u) eqn:X.
      - assert (J : In (u, ca) (indices (coloring order i mb))).
        { rewrite <- E. apply filter_In. split; auto. apply dget_In in D. auto. }
        apply filter_In in J as [J _]. apply (U u). apply In_dget; auto. rewrite (proj2 (coloring_proper order VO i mb)). apply order_nodup; auto.
      - apply dget_In in D. rewrite (greedy_names (the_graph ma) _ (the_graph_index_edges ma) [] ltac:(intros ? ? []) u ca D X). lia. }
    apply Nat.le_antisymm; [apply (H m1 m2 c1 c2 u1)|apply (H m2 m1 c2 c1 u2)]; auto.
Qed.

(** ** C96 *)
(*HEADER
From Coq Require Import String List Bool Arith ZArith QArith Permutation Lia.
From Verif Require Import Base Manager Spec ManagerThms Json JsonSpec Sampling SamplingSpec MinMax ClusterSpec KMeans KMeansSpec
  Hierarchical HierSpec SameSpec Loop Usage ColoringSpec ResumeSpec ResumeThms.
From Verif Require ManagerInv ManagerQueries.
Import ListNotations.
Open Scope nat_scope.
Open Scope py_scope.

Definition A : pystr := str "a".
Definition B : pystr := str "b".
Definition C : pystr := str "c".
Definition E : pystr := str "d".
(** Two histories that end with the same constraints. *)
Definition ex1 : mgr := run [CallAddConstraint A C MUST_LINK 1%Q; CallAddConstraint A B MUST_LINK 1%Q; CallAddConstraint C E CANNOT_LINK 1%Q] (init [A; B; C; E]).
Definition ex2 : mgr := run [CallAddDataID C; CallAddConstraint E B MUST_LINK 1%Q; CallDeleteConstraint B E; CallAddConstraint B A MUST_LINK 1%Q;
  CallAddDataID E; CallAddConstraint C E CANNOT_LINK 1%Q; CallAddConstraint C A MUST_LINK 1%Q] (init [A; B]).
HEADER*)

(*PROP C96: managers with the same IDs and added constraints give the same answers and errors in every later history of calls, up to the order inside components and conflicts, and end with the same content; and only those do. *)
Lemma C96_indistinguishable_proof :
  forall m1 m2, reachable m1 -> reachable m2 ->
    (same_content m1 m2 <-> forall l, Forall2 same_output (outputs l m1) (outputs l m2)) /\
    (same_content m1 m2 -> forall l, same_content (run l m1) (run l m2)).
Proof.
  intros m1 m2 R1 R2. assert (I1 := reachable_inv _ R1). assert (I2 := reachable_inv _ R2).
  assert (F : same_content m1 m2 -> forall l, Forall2 same_output (outputs l m1) (outputs l m2) /\ same_content (run l m1) (run l m2)).
  { intros S l. assert (N : near all_pairs m1 m2) by (apply near_ask; auto; split; [apply S|intros; apply S]).
    destruct (outputs_near all_pairs (fun _ _ _ => I) (fun _ _ _ => I) l m1 m2 (conj I1 (conj I2 N))) as [O (J1 & J2 & N')].
    - apply Forall_forall. intros c _ a b _. exact I.
    - split; auto. apply near_ask in N'; auto. destruct N' as [E A]. split; auto. intros a b. apply A. exact I. }
  split; [split|]; [intros S l; apply F; auto| |intros S l; apply F; auto].
  intro O. split.
  - specialize (O [CallManagedIDs]). inversion O as [|? ? ? ? Q _]; subst. cbn in Q. unfold ask. rewrite !run_managed. cbn. congruence.
  - intros a b. specialize (O [CallGetAdded a b]). inversion O as [|? ? ? ? Q _]; subst. cbn in Q. unfold bind in Q.
    unfold ask. rewrite !run_added in * by auto. cbn [snd] in *. destruct (both m1 a b), (both m2 a b); cbn in Q; congruence.
Qed.

(*EX
Definition later : list call := [CallComponents; CallConflict B E MUST_LINK; CallDeleteConstraint A C; CallGetInferred C E; CallAddConstraint B E MUST_LINK 1%Q; CallCompletude;
  CallAddConstraint C B MUST_LINK 1%Q; CallDeleteDataID E; CallManagedIDs].
Lemma same_ex : same_content ex1 ex2.
Proof.
  assert (R1 : reachable ex1) by apply run_reachable. assert (R2 : reachable ex2) by apply run_reachable.
  split; [vm_compute; reflexivity|]. intros a b. unfold ask.
  rewrite (ManagerInv.run_added ex1 a b (ManagerQueries.reachable_inv ex1 R1)), (ManagerInv.run_added ex2 a b (ManagerQueries.reachable_inv ex2 R2)).
  change (ManagerInv.both ex2 a b) with (ManagerInv.both ex1 a b). destruct (ManagerInv.both ex1 a b); reflexivity.
Qed.
Example C96_ex : reachable ex1 /\ reachable ex2 /\ same_content ex1 ex2 /\ ex1 <> ex2 /\
  outputs later ex1 = [Ok (VComponents [[A; C; B]; [E]]); Ok (VConflict (Some [A; C; B; E])); Ok (VBool true); Ok (VInferred (Some CANNOT_LINK)); Ok (VBool true); Ok (VBool true);
    Raise ValueError; Ok (VBool true); Ok (VIds [A; B; C])] /\
  Forall2 same_output (outputs later ex1) (outputs later ex2) /\ outputs later ex1 <> outputs later ex2.
Proof.
  split; [apply run_reachable|]. split; [apply run_reachable|]. split; [exact same_ex|]. split; [vm_compute; discriminate|]. split; [vm_compute; reflexivity|].
  split; [|vm_compute; discriminate].
  apply C96_indistinguishable_proof; [apply run_reachable|apply run_reachable|exact same_ex].
Qed.
EX*)

(*PROP C96: a manager loaded from the file of another one cannot be told apart from it by any later calls, except by asking for the added constraint of an ID with itself (C22_round_trip_refuted shows why). *)
Lemma C96_reloaded_proof :
  forall m l, reachable m -> (forall x, managed m x -> python_string x /\ ~ splits_a_character x) -> Forall not_self l ->
    exists m', load_text (to_json_text m) = Ok m' /\ reachable m' /\ same_between_IDs m' m /\
      Forall2 same_output (outputs l m') (outputs l m) /\ same_between_IDs (run l m') (run l m).
Proof.
  intros m l R H NS. destruct (C22_round_trip_partial_proof m R H) as (m' & L & R' & EI & _ & EA & _).
  exists m'. split; auto. split; auto. split; [split; auto|].
  assert (I := reachable_inv _ R). assert (I' := reachable_inv _ R').
  assert (N : near distinct_pairs m' m) by (apply near_ask; auto).
  destruct (outputs_near distinct_pairs (fun _ _ H => H) (fun _ _ N => not_eq_sym N) l m' m (conj I' (conj I N))) as [O (J1 & J2 & N')].
  - eapply Forall_impl; [|exact NS]. intros c Q a b ->. exact Q.
  - split; auto. apply near_ask in N'; auto.
Qed.

(*EX
(** A deleted constraint of an ID with itself comes back; the history below does not notice. *)
Definition ex3 : mgr := fst (exec (CallDeleteConstraint B B) ex1).
Example C96_reloaded_ex : exists m', load_text (to_json_text ex3) = Ok m' /\ m' <> ex3 /\ Forall not_self later /\
  ask (get_added_constraint B B) m' <> ask (get_added_constraint B B) ex3 /\ outputs later m' = outputs later ex3.
Proof.
  destruct (load_text (to_json_text ex3)) as [m'|] eqn:Q; [|vm_compute in Q; discriminate].
  exists m'. split; auto. vm_compute in Q. injection Q as <-. split; [vm_compute; discriminate|].
  split; [repeat constructor|]. split; vm_compute; [discriminate|reflexivity].
Qed.
EX*)

(*PROP C96: with colouring strategies that do not look at the names of components, managers with the same IDs and inferred constraints give the same range of numbers of clusters. *)
Lemma C96_range_proof :
  forall order m1 m2, valid_orders order -> ignores_names order -> reachable m1 -> reachable m2 -> same_knowledge m1 m2 ->
    ask (get_min_and_max_number_of_clusters order) m1 = ask (get_min_and_max_number_of_clusters order) m2.
Proof.
  intros order m1 m2 VO IN R1 R2 SK. assert (I1 := reachable_inv _ R1). assert (I2 := reachable_inv _ R2).
  unfold ask. rewrite !run_minmax by auto. unfold tail_of.
  rewrite !(same_colors order _ m1 m2 VO IN I1 I2 SK), (same_comps_length m1 m2 I1 I2 SK). unfold bind, lift, ret.
  destruct (colors_used order 0 _); auto. destruct (colors_used order 1 _); auto. destruct (colors_used order 2 _); auto.
  destruct (colors_used order 3 _); auto. destruct (colors_used order 4 _); auto.
Qed.

(** Two strategies of networkx. *)
Lemma graph_nodes names edges : NoDup names ->
  g_nodes (make_graph names edges) = map NId names ++ dedup (flat_map (fun e => [NIdx (fst e); NIdx (snd e)]) edges).
Proof.
  intro N. cbn [g_nodes make_graph]. set (X := flat_map _ _).
  assert (HX : forall x, ~ In (NId x) X).
  { intros x H. apply in_flat_map in H as (e & _ & [V|[V|[]]]); discriminate. }
  clearbody X. induction N as [|x names NI ND IH]; [reflexivity|]. cbn [map app dedup]. f_equal. rewrite IH.
  apply KMeansProofs.filter_all. intros u U. apply negb_true_iff. destruct (eqb_spec (NId x) u) as [<-|]; auto. exfalso.
  apply in_app_iff in U as [U|U]; [apply in_map_iff in U as (y & E & Y); congruence|].
  apply (proj1 (dedup_In _ _)) in U. apply (HX x U).
Qed.

Lemma names_no_index names X : filter is_index (map NId names ++ X) = filter is_index X.
Proof. induction names; simpl; auto. Qed.

Section SortKey.
  Variable A : Type.
  Variable key : A -> nat.
  Let lt (y x : A) : bool := key x <? key y.
  Let desc (a b : A) : Prop := key b <= key a.

  Lemma insert_In x y s : In y (insert_before lt x s) <-> y = x \/ In y s.
  Proof.
    induction s as [|z s IH]; simpl; [intuition|]. destruct (lt z x); simpl; [rewrite IH|]; intuition.
  Qed.
  Lemma insert_sorted x s : StronglySorted desc s -> StronglySorted desc (insert_before lt x s).
  Proof.
    induction 1 as [|y s S IH F]; simpl; [constructor; constructor|]. unfold lt at 1. destruct (Nat.ltb_spec (key x) (key y)).
    - constructor; auto. rewrite Forall_forall in *. intros z Z. apply insert_In in Z as [->|Z]; [unfold desc; lia|auto].
    - constructor; [constructor; auto|]. rewrite Forall_forall in *. intros z [<-|Z]; unfold desc; [lia|]. assert (W := F z Z). unfold desc in W. lia.
  Qed.
  Lemma sorted_desc l : StronglySorted desc (sorted_by lt l).
  Proof. induction l; simpl; [constructor|apply insert_sorted; auto]. Qed.

  Lemma insert_first x s : (forall y, In y s -> key y <= key x) -> insert_before lt x s = x :: s.
  Proof.
    intro H. destruct s as [|y s]; auto. simpl. unfold lt. destruct (Nat.ltb_spec (key x) (key y)); auto.
    specialize (H y (or_introl eq_refl)). lia.
  Qed.

  Lemma filter_insert p x s : StronglySorted desc s ->
    filter p (insert_before lt x s) = if p x then insert_before lt x (filter p s) else filter p s.
  Proof.
    induction 1 as [|y s S IH F]; simpl; [destruct (p x); auto|]. destruct (lt y x) eqn:L.
    - simpl. rewrite IH. destruct (p y) eqn:Y, (p x) eqn:X; auto. simpl. rewrite L. auto.
    - cbn [filter]. destruct (p x) eqn:X; auto. unfold lt in L. apply Nat.ltb_ge in L.
      assert (E : (if p y then y :: filter p s else filter p s) = filter p (y :: s)) by reflexivity. rewrite E. clear E.
      symmetry. apply insert_first. intros z Z. apply filter_In in Z as [Z _]. destruct Z as [<-|Z]; auto.
      rewrite Forall_forall in F. assert (W := F z Z). unfold desc in W. lia.
  Qed.

  Lemma filter_sorted p l : filter p (sorted_by lt l) = sorted_by lt (filter p l).
  Proof.
    induction l as [|x l IH]; [reflexivity|]. cbn [sorted_by fold_right]. fold (sorted_by lt l). rewrite filter_insert by apply sorted_desc.
    cbn [filter]. rewrite IH. destruct (p x); reflexivity.
  Qed.
End SortKey.

Lemma insert_ext {A} (f g : A -> A -> bool) x l : (forall y, In y l -> f y x = g y x) -> insert_before f x l = insert_before g x l.
Proof.
  induction l as [|y l IH]; intro H; simpl; auto. rewrite (H y) by (left; auto). rewrite IH; auto. intros; apply H; right; auto.
Qed.
Lemma sorted_ext {A} (f g : A -> A -> bool) l : (forall x y, In x l -> In y l -> f x y = g x y) -> sorted_by f l = sorted_by g l.
Proof.
  induction l as [|x l IH]; intro H; [reflexivity|]. cbn [sorted_by fold_right]. fold (sorted_by f l) (sorted_by g l).
  rewrite IH by (intros; apply H; right; auto). apply insert_ext. intros y Y. apply H; [|left; auto].
  right. eapply Permutation_in; [apply Permutation_sym, sorted_perm|exact Y].
Qed.

Lemma make_index_edges names edges : index_edges (make_graph names edges).
Proof. intros e E. cbn in E. apply in_map_iff in E as (x & <- & _). auto. Qed.

(*PROP C96: two strategies of networkx that do not look at the names: largest first, and random orders that depend only on the number of nodes. *)
Lemma C96_strategies_proof :
  ignores_names (fun _ g => largest_first g) /\ (forall positions, ignores_names (fun i g => shuffled (positions i) g)).
Proof.
  split.
  - intros i n1 n2 edges N1 N2 L. unfold largest_first. set (g1 := make_graph n1 edges). set (g2 := make_graph n2 edges).
    rewrite (filter_sorted _ (degree_in g1 (g_nodes g1))), (filter_sorted _ (degree_in g2 (g_nodes g2))).
    assert (EN : forall n, NoDup n -> filter is_index (g_nodes (make_graph n edges)) = filter is_index (dedup (flat_map (fun e => [NIdx (fst e); NIdx (snd e)]) edges))).
    { intros n N. rewrite graph_nodes by auto. apply names_no_index. }
    unfold g1, g2. rewrite (EN n1 N1), (EN n2 N2). apply sorted_ext.
    assert (ED : forall n u, NoDup n -> degree_in (make_graph n edges) (g_nodes (make_graph n edges)) u =
      length (filter (adjacent (make_graph [] edges) u) (filter is_index (dedup (flat_map (fun e => [NIdx (fst e); NIdx (snd e)]) edges))))).
    { intros n u N. unfold degree_in. rewrite <- (EN n N). f_equal. change (adjacent (make_graph [] edges) u) with (adjacent (make_graph n edges) u).
      generalize (g_nodes (make_graph n edges)). intro l. induction l as [|v l IH]; simpl; auto.
      destruct (is_index v) eqn:V; simpl; rewrite IH; auto. destruct (adjacent (make_graph n edges) u v) eqn:A; auto.
      apply index_adjacent in A; [|apply make_index_edges]. destruct A; congruence. }
    intros x y _ _. rewrite !(ED n1), !(ED n2) by auto. auto.
  - intros positions i n1 n2 edges N1 N2 L. unfold shuffled. rewrite !graph_nodes by auto. set (X := dedup _).
    rewrite !app_length, !map_length, L. induction (positions i (length n2 + length X)) as [|k ks IH]; [reflexivity|]. cbn [map filter].
    assert (E : forall n, length n = length n2 -> nth k (map NId n ++ X) (NId []) =
       if k <? length n2 then NId (nth k n []) else nth (k - length n2) X (NId [])).
    { intros n E. destruct (Nat.ltb_spec k (length n2)).
      - rewrite app_nth1 by (rewrite map_length; lia). apply map_nth.
      - rewrite app_nth2 by (rewrite map_length; lia). rewrite map_length, E. auto. }
    rewrite !E by auto. rewrite IH. destruct (k <? length n2); auto.
Qed.

(** ** C97 *)
Section Session.
  Variables vec D : Type.
  Variable sd : list vec -> nat -> nat -> D.
  Variable ltb : D -> D -> bool.
  Variable draws : nat -> list (pystr * pystr) -> nat -> list (pystr * pystr).
  Variable node_orders : nat -> nat -> graph -> list node.
  Variable truth : pystr -> nat.
  Variable o : options.
  Variable nb : Z.
  Variable vectors : dict pystr vec.
  Variable step : nat -> Z -> M mgr (dict pystr Z).
  Hypothesis VN : forall i, valid_orders (node_orders i).
  Hypothesis IN : forall i, ignores_names (node_orders i).
  Hypothesis RK : reads_knowledge step.

  Definition twins (m1 m2 : mgr) : Prop := reachable m1 /\ reachable m2 /\ near distinct_pairs m1 m2.

  Lemma twins_bn m1 m2 : twins m1 m2 -> both_near distinct_pairs m1 m2.
  Proof. intros (R1 & R2 & N). split; [apply reachable_inv; auto|]. split; [apply reachable_inv; auto|exact N]. Qed.
  Lemma twins_sk m1 m2 : twins m1 m2 -> same_knowledge m1 m2.
  Proof. intro T. destruct (twins_bn _ _ T) as (I1 & I2 & N). apply near_knowledge; auto. Qed.

  Lemma add_reach m a b t v : reachable m -> reachable (fst (add_constraint a b t v m)).
  Proof.
    intro R. assert (X := reach_call m (CallAddConstraint a b t v) R). cbn [exec] in X. unfold bind in X.
    destruct (add_constraint a b t v m) as [n [r|e]]; exact X.
  Qed.

  Lemma annotations_near l : forall m1 m2, twins m1 m2 ->
    snd (add_annotations l m1) = snd (add_annotations l m2) /\ twins (fst (add_annotations l m1)) (fst (add_annotations l m2)).
  Proof.
    induction l as [|c l IH]; intros m1 m2 T; cbn [add_annotations]; [cbn; auto|].
    destruct (add_near distinct_pairs (fun _ _ H => H) (fun p q N => not_eq_sym N) m1 m2 (fst (fst c)) (snd (fst c)) (snd c) 1%Q (twins_bn _ _ T)) as [E N].
    assert (A1 := add_reach m1 (fst (fst c)) (snd (fst c)) (snd c) 1%Q (proj1 T)).
    assert (A2 := add_reach m2 (fst (fst c)) (snd (fst c)) (snd c) 1%Q (proj1 (proj2 T))).
    destruct (add_constraint _ _ _ 1%Q m1) as [n1 r1], (add_constraint _ _ _ 1%Q m2) as [n2 r2]. cbn [fst snd] in *. subst r2.
    assert (T' : twins n1 n2) by (split; auto; split; auto; apply N).
    destruct r1 as [b|e]; [apply IH; auto|]. destruct e; try (cbn; auto; fail).
    destruct (IH n1 n2 T') as [E' T'']. unfold bind. destruct (add_annotations l n1) as [k1 q1], (add_annotations l n2) as [k2 q2].
    cbn [fst snd] in *. subst q2. destruct q1; cbn; auto.
  Qed.

  Definition agree {T} (x y : mgr * res T) : Prop := snd x = snd y /\ twins (fst x) (fst y).

  Lemma agree_bind {T U} (x : M mgr T) (f : T -> M mgr U) m1 m2 : agree (x m1) (x m2) ->
    (forall a n1 n2, twins n1 n2 -> agree (f a n1) (f a n2)) -> agree (bind x f m1) (bind x f m2).
  Proof.
    intros [E T'] F. unfold bind. destruct (x m1) as [n1 r1], (x m2) as [n2 r2]. cbn [fst snd] in *. subst r2.
    destruct r1; [apply F; auto|split; auto].
  Qed.

  Lemma completude_same m1 m2 : twins m1 m2 -> agree (check_completude_of_constraints m1) (check_completude_of_constraints m2).
  Proof.
    intro T. destruct (twins_bn _ _ T) as (I1 & I2 & N). assert (CP := proj1 (proj2 (near_answers m1 m2 I1 I2 N))). unfold ask in CP.
    destruct (run_completude m1 I1) as (b1 & E1 & _). destruct (run_completude m2 I2) as (b2 & E2 & _).
    rewrite E1, E2 in *. split; auto.
  Qed.

  Lemma sampling_same i d m1 m2 : twins m1 m2 ->
    agree (sampling_step vec D sd ltb draws o nb vectors i d m1) (sampling_step vec D sd ltb draws o nb vectors i d m2).
  Proof.
    intro T. destruct (twins_bn _ _ T) as (I1 & I2 & N). unfold sampling_step.
    assert (X := C89_sample_depends_proof vec D sd ltb (draws i) o nb (Some d) (Some d) (Some vectors) (Some vectors) m1 m2
        (fresh_sampler vec D) (fresh_sampler vec D) (proj1 T) (proj1 (proj2 T)) (twins_sk _ _ T)).
    assert (Y : forall a b, a <> b -> ask (get_added_constraint a b) m1 = Ok None <-> ask (get_added_constraint a b) m2 = Ok None).
    { apply near_ask in N; auto. intros a b NE. rewrite (proj2 N a b NE). tauto. }
    specialize (X Y (fun _ _ => eq_refl) (fun _ _ => eq_refl)).
    destruct (sample_psample vec D sd ltb (draws i) o nb (Some d) (Some vectors) (fresh_sampler vec D) m1 I1) as [t1 E1].
    destruct (sample_psample vec D sd ltb (draws i) o nb (Some d) (Some vectors) (fresh_sampler vec D) m2 I2) as [t2 E2].
    rewrite E1, E2 in *. split; auto.
  Qed.

  Lemma range_same i m1 m2 : twins m1 m2 -> agree (suggested_number (node_orders i) m1) (suggested_number (node_orders i) m2).
  Proof.
    intro T. destruct (twins_bn _ _ T) as (I1 & I2 & N).
    assert (RG := C96_range_proof (node_orders i) m1 m2 (VN i) (IN i) (proj1 T) (proj1 (proj2 T)) (twins_sk _ _ T)). unfold ask in RG.
    assert (MM : forall m, Inv m -> fst (get_min_and_max_number_of_clusters (node_orders i) m) = m).
    { intros m I. rewrite run_minmax by auto. unfold tail_of, bind, lift, ret.
      destruct (colors_used _ 0 _); auto. destruct (colors_used _ 1 _); auto. destruct (colors_used _ 2 _); auto.
      destruct (colors_used _ 3 _); auto. destruct (colors_used _ 4 _); auto. }
    apply agree_bind; [split; auto; rewrite !MM; auto|]. intros a n1 n2 T'. split; auto.
  Qed.

  Lemma step_same i k m1 m2 : twins m1 m2 -> agree (step i k m1) (step i k m2).
  Proof.
    intro T. destruct (RK i k m1 m2 (proj1 T) (proj1 (proj2 T)) (twins_sk _ _ T)) as [F1 S1].
    destruct (RK i k m2 m2 (proj1 (proj2 T)) (proj1 (proj2 T)) (conj eq_refl (fun _ _ => eq_refl))) as [F2 _].
    split; auto. rewrite F1, F2. auto.
  Qed.

  Lemma loop_same fuel : forall i d m1 m2, twins m1 m2 ->
    let loop := iterations vec D sd ltb draws node_orders truth o nb vectors step fuel i d in agree (loop m1) (loop m2).
  Proof.
    induction fuel as [|fuel IH]; intros i d m1 m2 T; cbv zeta; cbn [iterations]; [split; auto|].
    apply agree_bind; [apply completude_same; auto|]. clear m1 m2 T. intros b m1 m2 T. destruct b; [split; auto|].
    apply agree_bind; [apply sampling_same; auto|]. clear m1 m2 T. intros sel m1 m2 T.
    apply agree_bind; [apply annotations_near; auto|]. clear m1 m2 T. intros refused m1 m2 T.
    apply agree_bind; [apply range_same; auto|]. clear m1 m2 T. intros k m1 m2 T.
    apply agree_bind; [apply step_same; auto|]. clear m1 m2 T. intros cl m1 m2 T.
    apply agree_bind; [apply IH; auto|]. clear m1 m2 T. intros r m1 m2 T. split; auto.
  Qed.
End Session.

(*PROP C97: a session that goes on from its second or a later step with another manager, with the same IDs and the same added constraints between different IDs, does the same: the same number of iterations, the same last clustering, the same refused annotations or the same error, and managers with the same IDs and constraints at the end.  The clustering may use the inferred constraints in any way, the sampling may be any of the sampler, and the colouring strategies must not look at the names of components. *)
Lemma C97_resume_proof :
  forall vec D sampling_distances ltb draws node_orders truth o nb_to_select (vectors : dict pystr vec) clustering fuel i last m1 m2,
    (forall i, valid_orders (node_orders i)) -> (forall i, ignores_names (node_orders i)) -> reads_knowledge clustering ->
    reachable m1 -> reachable m2 -> same_between_IDs m1 m2 ->
    let rest := iterations vec D sampling_distances ltb draws node_orders truth o nb_to_select vectors clustering fuel i last in
    result rest m1 = result rest m2 /\ same_between_IDs (fst (rest m1)) (fst (rest m2)).
Proof.
  intros vec D sd ltb draws nos truth o nb vectors step fuel i last m1 m2 VN IN RK R1 R2 S rest.
  assert (T : twins m1 m2) by (split; auto; split; auto; apply near_ask; auto using reachable_inv).
  destruct (loop_same vec D sd ltb draws nos truth o nb vectors step VN IN RK fuel i last m1 m2 T) as [E (Q1 & Q2 & N)].
  split; [exact E|]. apply near_ask in N; auto using reachable_inv.
Qed.

(*PROP C97: in particular a session can be saved and loaded again between two iterations. *)
Lemma C97_reloaded_proof :
  forall vec D sampling_distances ltb draws node_orders truth o nb_to_select (vectors : dict pystr vec) clustering fuel i last m,
    (forall i, valid_orders (node_orders i)) -> (forall i, ignores_names (node_orders i)) -> reads_knowledge clustering ->
    reachable m -> (forall x, managed m x -> python_string x /\ ~ splits_a_character x) ->
    let rest := iterations vec D sampling_distances ltb draws node_orders truth o nb_to_select vectors clustering fuel i last in
    exists m', load_text (to_json_text m) = Ok m' /\ result rest m' = result rest m /\ same_between_IDs (fst (rest m')) (fst (rest m)).
Proof.
  intros vec D sd ltb draws nos truth o nb vectors step fuel i last m VN IN RK R H rest.
  destruct (C96_reloaded_proof m [] R H (Forall_nil _)) as (m' & L & R' & S & _). exists m'. split; auto. apply C97_resume_proof; auto.
Qed.

(*PROP C97: constrained KMeans reads only the IDs and the inferred constraints. *)
Lemma C97_kmeans_reads_proof :
  forall vec D (eqD : EqB D) pairwise ltb dsum mean shuffles set_orders p (vectors : dict pystr vec),
    (forall i, valid_shuffle (shuffles i)) ->
    reads_knowledge (clustering_step vec D pairwise ltb dsum mean shuffles set_orders p vectors).
Proof.
  intros vec D eqD pw ltb dsum mean shuffles sos p vectors VS i k m1 m2 _ _ SK. split; [reflexivity|]. unfold clustering_step. cbn [snd].
  f_equal. apply C88_kmeans_proof; auto. intros x _. auto.
Qed.

(*PROP C97: and so does hierarchical clustering when sums do not depend on the order of the terms, distances are symmetric and totally ordered. *)
Lemma C97_hierarchical_reads_proof :
  forall vec D (eqD : EqB D) pairwise cdistance ltb dsum ddiv inf mean linkage (vectors : dict pystr vec),
    HierSpec.strict_total_order ltb -> order_free dsum -> order_free mean -> (forall rows i j, pairwise rows i j = pairwise rows j i) ->
    reads_knowledge (hierarchical_step vec D pairwise cdistance ltb dsum ddiv inf mean linkage vectors).
Proof.
  intros vec D eqD pw cd ltb dsum ddiv inf mean linkage vectors STO OS OM SY i k m1 m2 R1 R2 SK. split; [reflexivity|]. unfold hierarchical_step. cbn [snd].
  apply (C88_hierarchical_partial_proof vec D eqD pw cd ltb dsum ddiv inf mean linkage m1 m2 vectors vectors (Some k) (Hierarchical.fresh_hier vec)); auto.
  intros x _. auto.
Qed.

(*EX
Definition pw (X Y : list Z) (i j : nat) : Z := Z.abs (nth i X 0 - nth j Y 0)%Z.
Definition zmean (l : list Z) : Z := (fold_right Z.add 0 l / Z.of_nat (length l))%Z.
Definition zsum (l : list Z) : Z := fold_right Z.add 0%Z l.
Definition truth x := if eqb x E then 2 else if eqb x (str "e") then 2 else 1.
Definition vecs : dict pystr Z := [(A, 0); (B, 1); (C, 10); (E, 12); (str "e", 5)]%Z.
Definition kstep := clustering_step Z Z pw Z.ltb zsum zmean (fun _ l => l) (fun _ => nodup Z.eq_dec) (mkKParams Z 5 1%Z) vecs.
(** Insertion order: the components first, then the integers on the edges. *)
Lemma nodes_ignore_names : forall i : nat, ignores_names ((fun _ _ g => g_nodes g) i).
Proof.
  intros _ i n1 n2 edges _ _ _. cbn [g_nodes make_graph]. set (X := flat_map _ _).
  assert (H : forall n, filter is_index (dedup (map NId n ++ X)) = filter is_index (dedup X)).
  { induction n as [|h n IH]; [reflexivity|]. cbn [map app dedup filter is_index]. rewrite <- IH. generalize (dedup (map NId n ++ X)). intro L.
    induction L as [|[x|k] L IL]; [reflexivity| |]; cbn [filter].
    - destruct (negb _); cbn [filter is_index]; exact IL.
    - change (eqb (NId h) (NIdx k)) with false. cbn [negb filter is_index]. rewrite IL. reflexivity. }
  rewrite !H. reflexivity.
Qed.
Definition rest := iterations Z Z (fun X => pw X X) Z.ltb (fun _ l k => firstn k l) (fun _ _ g => g_nodes g) truth (mkOptions None None true true) 1%Z vecs kstep 10 3 [].
Definition ex5 : mgr := fst (exec (CallAddDataID (str "e")) ex3).
Example C97_ex : (forall i : nat, ignores_names ((fun _ _ g => g_nodes g) i)) /\ reads_knowledge kstep /\
  exists m', load_text (to_json_text ex5) = Ok m' /\ m' <> ex5 /\
    result rest m' = Ok (5, [(A, 0); (B, 0); (C, 0); (E, 1); (str "e", 1)]%Z, []) /\ result rest m' = result rest ex5.
Proof.
  split; [exact nodes_ignore_names|]. split; [apply C97_kmeans_reads_proof; intros i l; apply Permutation_refl|].
  destruct (load_text (to_json_text ex5)) as [m'|] eqn:Q; [|vm_compute in Q; discriminate].
  exists m'. split; auto. vm_compute in Q. injection Q as <-. split; [vm_compute; discriminate|]. split; vm_compute; reflexivity.
Qed.
EX*)
