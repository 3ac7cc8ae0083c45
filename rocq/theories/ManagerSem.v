(** * Labellings: the closure is sound and complete for entailment. *)

From Coq Require Import List Bool Arith NArith QArith Lia Permutation.
From Verif Require Import Base Manager Spec Closure ManagerProofs ManagerInv ManagerQueries.
Import ListNotations.
Open Scope nat_scope.
Open Scope py_scope.

(** Position of the first element satisfying [p]. *)
Fixpoint first_pos {A} (p : A -> bool) (l : list A) : nat :=
  match l with [] => 0 | x :: l' => if p x then 0 else S (first_pos p l') end.

Lemma first_pos_ext {A} (p q : A -> bool) l : (forall x, In x l -> p x = q x) -> first_pos p l = first_pos q l.
Proof.
  induction l as [|x l IH]; simpl; intro E; auto. rewrite (E x) by auto. destruct (q x); auto.
Qed.

Lemma first_pos_hit {A} (p : A -> bool) l : (exists x, In x l /\ p x = true) ->
  exists x, nth_error l (first_pos p l) = Some x /\ p x = true /\ In x l.
Proof.
  induction l as [|x l IH]; intros (y & I & P); simpl in *; [tauto|].
  destruct (p x) eqn:E.
  - exists x. simpl. auto.
  - destruct I as [->|I]; [congruence|]. destruct IH as (z & N & Pz & Iz); eauto.
Qed.

(** One label per component. *)
Definition comp_label (m : mgr) (x : pystr) : nat :=
  first_pos (fun y => match infer m x y with Some t => eqb t MUST_LINK | None => false end) (ids m).

Lemma is_ML m x y : Inv m -> In x (ids m) -> In y (ids m) ->
  match infer m x y with Some t => eqb t MUST_LINK | None => false end = true <-> linked (sml m) x y.
Proof.
  intros I Ix Iy. rewrite <- (infer_ML m x y) by auto.
  destruct (infer m x y) as [t|]; [rewrite eqb_eq; split; congruence|split; discriminate].
Qed.

Lemma comp_label_eq m x y : Inv m -> In x (ids m) -> In y (ids m) ->
  comp_label m x = comp_label m y <-> linked (sml m) x y.
Proof.
  intros I Ix Iy. unfold comp_label. split.
  - intro E.
    destruct (first_pos_hit (fun z => match infer m x z with Some t => eqb t MUST_LINK | None => false end) (ids m))
      as (u & Nu & Pu & Iu). { exists x. split; auto. apply is_ML; auto. apply linked_refl. }
    destruct (first_pos_hit (fun z => match infer m y z with Some t => eqb t MUST_LINK | None => false end) (ids m))
      as (v & Nv & Pv & Iv). { exists y. split; auto. apply is_ML; auto. apply linked_refl. }
    rewrite E in Nu. assert (u = v) by congruence. subst v.
    apply is_ML in Pu; auto. apply is_ML in Pv; auto.
    eapply linked_trans; [exact Pu|apply linked_sym; exact Pv].
  - intro L. apply first_pos_ext. intros z Iz.
    match goal with |- ?a = ?b => destruct a eqn:A; destruct b eqn:B; auto end; exfalso.
    + apply is_ML in A; auto. assert (linked (sml m) y z) by (eapply linked_trans; [apply linked_sym; exact L|exact A]).
      apply is_ML in H; auto. congruence.
    + apply is_ML in B; auto. assert (linked (sml m) x z) by (eapply linked_trans; [exact L|exact B]).
      apply is_ML in H; auto. congruence.
Qed.

Notation am m := (added_must m).
Notation ac m := (added_cannot m).

Lemma added_ids m t a b : Inv m -> added m t a b -> In a (ids m) /\ In b (ids m).
Proof.
  intros I H. apply added_stored in H; auto.
  destruct H as [H|H]; apply (stored_keys _ _ _ _ (proj1 I)) in H; tauto.
Qed.

Lemma comp_label_satisfies m : Inv m -> satisfies (am m) (ac m) (comp_label m).
Proof.
  intro I. split; intros a b H; destruct (added_ids _ _ _ _ I H) as [Ia Ib].
  - apply comp_label_eq; auto. apply added_linked; auto. apply linked_one; auto.
  - intro E. apply comp_label_eq in E; auto. apply (rep_excl m a b); auto.
    apply added_separated; auto. exists a, b. split; [apply linked_refl|]. split; [apply linked_refl|auto].
Qed.

Lemma inv_satisfiable m : Inv m -> satisfiable (am m) (ac m).
Proof. intro I. exists (comp_label m). apply comp_label_satisfies; auto. Qed.

(** Merging two components that are not separated. *)
Definition merged_label (m : mgr) (a b x : pystr) : nat :=
  if Nat.eqb (comp_label m x) (comp_label m b) then comp_label m a else comp_label m x.

Lemma merged_label_satisfies m a b : Inv m -> In a (ids m) -> In b (ids m) ->
  ~ separated (sml m) (scl m) a b -> satisfies (am m) (ac m) (merged_label m a b).
Proof.
  intros I Ia Ib NS. destruct (comp_label_satisfies m I) as [S1 S2].
  split; intros x y H; unfold merged_label.
  - rewrite (S1 x y H). auto.
  - destruct (added_ids _ _ _ _ I H) as [Ix Iy].
    assert (Sep : separated (sml m) (scl m) x y).
    { apply added_separated; auto. exists x, y. split; [apply linked_refl|]. split; [apply linked_refl|auto]. }
    specialize (S2 x y H).
    destruct (Nat.eqb_spec (comp_label m x) (comp_label m b)) as [Ex|Ex];
      destruct (Nat.eqb_spec (comp_label m y) (comp_label m b)) as [Ey|Ey]; auto.
    + congruence.
    + intro E. apply NS. apply comp_label_eq in Ex; auto. symmetry in E. apply comp_label_eq in E; auto.
      eapply separated_linked_l; [exact E|]. eapply separated_linked_r; [exact Ex|]. apply separated_sym; auto.
    + intro E. apply NS. apply comp_label_eq in Ey; auto. apply comp_label_eq in E; auto.
      eapply separated_linked_l; [exact E|]. eapply separated_linked_r; [exact Ey|]. auto.
Qed.

Lemma merged_label_same m a b : merged_label m a b a = merged_label m a b b.
Proof.
  unfold merged_label. rewrite Nat.eqb_refl. destruct (Nat.eqb (comp_label m a) (comp_label m b)); auto.
Qed.

Lemma sat_linked m label a b : Inv m -> satisfies (am m) (ac m) label -> linked (sml m) a b -> label a = label b.
Proof. intros I S L. eapply satisfies_linked; eauto. apply added_linked; auto. Qed.

Lemma sat_separated m label a b : Inv m -> satisfies (am m) (ac m) label ->
  separated (sml m) (scl m) a b -> label a <> label b.
Proof. intros I S L. eapply satisfies_separated; eauto. apply added_separated; auto. Qed.

Lemma accepts_satisfiable m a b t : Inv m -> In a (ids m) -> In b (ids m) -> t = MUST_LINK \/ t = CANNOT_LINK ->
  accepts m a b t = true <-> satisfiable (must_with m t a b) (cannot_with m t a b).
Proof.
  intros I Ia Ib T. unfold accepts.
  assert (B : both m a b = true) by (apply both_true; auto).
  assert (T' : mem t allowed_types = true) by (apply allowed_spec; auto).
  rewrite B, T'. simpl. destruct T as [-> | ->].
  - split.
    + intro A. assert (NS : ~ separated (sml m) (scl m) a b).
      { intro S. apply infer_CL in S; auto. rewrite S in A. discriminate. }
      exists (merged_label m a b). destruct (merged_label_satisfies m a b I Ia Ib NS) as [S1 S2].
      split; intros x y [H|(H & -> & ->)]; auto; try discriminate. apply merged_label_same.
    + intros (f & S1 & S2). destruct (infer_cases m a b) as [E|[E|E]]; rewrite E; auto.
      exfalso. apply infer_CL in E; auto. eapply (sat_separated m f a b); auto.
      * split; intros x y H; [apply S1; left; auto|apply S2; left; auto].
      * apply S1. right; auto.
  - split.
    + intro A. assert (NL : ~ linked (sml m) a b).
      { intro S. apply infer_ML in S; auto. rewrite S in A. discriminate. }
      exists (comp_label m). destruct (comp_label_satisfies m I) as [S1 S2].
      split; intros x y [H|(H & -> & ->)]; auto; try discriminate.
      intro E. apply comp_label_eq in E; auto.
    + intros (f & S1 & S2). destruct (infer_cases m a b) as [E|[E|E]]; rewrite E; auto.
      exfalso. apply infer_ML in E; auto. eapply S2; [right; auto|].
      eapply (sat_linked m f a b); auto.
      split; intros x y H; [apply S1; left; auto|apply S2; left; auto].
Qed.
