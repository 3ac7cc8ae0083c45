(** * Facts on chains of annotations (pure, no manager). *)

From Coq Require Import List Bool.
From Verif Require Import Base Manager Spec.
Import ListNotations.

Section Facts.
  Variable must : pystr -> pystr -> Prop.
  Notation linked := (linked must).

  Lemma linked_one x y : must x y -> linked x y.
  Proof. intro H. eapply linked_step. apply linked_refl. auto. Qed.

  Lemma linked_trans x y z : linked x y -> linked y z -> linked x z.
  Proof.
    intros A B. revert A. induction B as [|a b c _ IH S]; intro A; auto.
    eapply linked_step; [exact (IH A)|exact S].
  Qed.

  Lemma linked_sym x y : linked x y -> linked y x.
  Proof.
    induction 1 as [|x y z _ IH S]. apply linked_refl.
    eapply linked_trans; [|apply IH]. eapply linked_step. apply linked_refl. tauto.
  Qed.

  Lemma linked_closed (P : pystr -> Prop) x y :
    (forall a b, must a b -> P a /\ P b) -> P x -> linked x y -> P y.
  Proof. intros C Px L. induction L as [|a b c _ IH S]; auto. destruct S as [S|S]; apply C in S; tauto. Qed.

  Variable cannot : pystr -> pystr -> Prop.
  Notation separated := (separated must cannot).

  Lemma separated_sym a b : separated a b -> separated b a.
  Proof. intros (x & y & A & B & C). exists y, x. tauto. Qed.

  Lemma separated_linked_l a a' b : linked a a' -> separated a b -> separated a' b.
  Proof.
    intros L (x & y & A & B & C). exists x, y. split; auto.
    eapply linked_trans; [apply linked_sym|]; eauto.
  Qed.

  Lemma separated_linked_r a b b' : linked b b' -> separated a b -> separated a b'.
  Proof. intros. apply separated_sym. eapply separated_linked_l; eauto. apply separated_sym; auto. Qed.

  Lemma separated_closed (P : pystr -> Prop) a b :
    (forall a b, must a b -> P a /\ P b) -> (forall a b, cannot a b -> P a /\ P b) ->
    separated a b -> P b.
  Proof.
    intros C1 C2 (x & y & A & B & C). apply linked_sym in B.
    eapply (linked_closed P); [exact C1| |exact B]. destruct C as [C|C]; apply C2 in C; tauto.
  Qed.

  (** Labellings. *)
  Lemma satisfies_linked label a b : satisfies must cannot label -> linked a b -> label a = label b.
  Proof.
    intros [S _] L. induction L as [|u v w _ IH H]; auto. destruct H as [H|H]; apply S in H; congruence.
  Qed.

  Lemma satisfies_separated label a b : satisfies must cannot label -> separated a b -> label a <> label b.
  Proof.
    intros S (x & y & A & B & C).
    rewrite (satisfies_linked _ _ _ S A), (satisfies_linked _ _ _ S B).
    destruct S as [_ S]. destruct C as [C|C]; apply S in C; congruence.
  Qed.

  Lemma satisfiable_consistent a b : satisfiable must cannot -> linked a b -> separated a b -> False.
  Proof.
    intros [f S] L P. eapply satisfies_separated; eauto. eapply satisfies_linked; eauto.
  Qed.
End Facts.

(** Chains only depend on the set of annotations. *)
Lemma linked_mono (m1 m2 : pystr -> pystr -> Prop) a b :
  (forall x y, m1 x y -> m2 x y \/ m2 y x) -> linked m1 a b -> linked m2 a b.
Proof.
  intros S L. induction L as [|u v w _ IH H]. apply linked_refl. eapply linked_step; [exact IH|].
  destruct H as [H|H]; apply S in H; tauto.
Qed.

Lemma separated_mono (m1 m2 c1 c2 : pystr -> pystr -> Prop) a b :
  (forall x y, m1 x y -> m2 x y \/ m2 y x) ->
  (forall x y, c1 x y -> c2 x y \/ c2 y x) ->
  separated m1 c1 a b -> separated m2 c2 a b.
Proof.
  intros S1 S2 (x & y & A & B & C). exists x, y.
  split; [eapply linked_mono; eauto|]. split; [eapply linked_mono; eauto|].
  destruct C as [C|C]; apply S2 in C; tauto.
Qed.

Section Add.
  Variable must : pystr -> pystr -> Prop.
  Variables x y : pystr.

  (** Adding MUST_LINK x y. *)
  Definition joined a := linked must a x \/ linked must a y.

  Lemma linked_plus a b :
    linked (plus must x y) a b <-> linked must a b \/ (joined a /\ joined b).
  Proof.
    split.
    - intro L. induction L as [a|a b c _ IH S].
      + left. apply linked_refl.
      + assert (St : linked must b c \/ (b = x /\ c = y) \/ (b = y /\ c = x)).
        { destruct S as [[S|S]|[S|S]]; try (right; tauto).
          - left. eapply linked_step; [apply linked_refl|auto].
          - left. eapply linked_step; [apply linked_refl|auto]. }
        assert (JJ : joined b -> joined c).
        { intro J. destruct St as [St|[[-> ->]|[-> ->]]].
          - destruct J as [J|J]; [left|right]; (eapply linked_trans; [apply linked_sym; exact St|exact J]).
          - right. apply linked_refl.
          - left. apply linked_refl. }
        destruct IH as [IH|[J1 J2]]; [|right; auto].
        destruct St as [St|[[-> ->]|[-> ->]]].
        * left. eapply linked_trans; eauto.
        * right. split. left; auto. right; apply linked_refl.
        * right. split. right; auto. left; apply linked_refl.
    - intros [L|[J1 J2]].
      + eapply linked_mono; [|exact L]. unfold plus; auto.
      + assert (Up : forall u v, linked must u v -> linked (plus must x y) u v).
        { intros; eapply linked_mono; [|eassumption]. unfold plus; auto. }
        assert (XY : linked (plus must x y) x y) by (apply linked_one; right; auto).
        assert (forall u, joined u -> linked (plus must x y) u x).
        { intros u [J|J]; auto. eapply linked_trans; [apply Up; exact J|]. apply linked_sym; auto. }
        eapply linked_trans; [apply H; auto|]. apply linked_sym. auto.
  Qed.

  Lemma joined_linked a b : linked must a b -> joined a -> joined b.
  Proof. intros L [J|J]; [left|right]; (eapply linked_trans; [apply linked_sym; exact L|exact J]). Qed.

  Variable cannot : pystr -> pystr -> Prop.

  Lemma joined_sep_any a b :
    joined a -> separated must cannot a b -> separated must cannot x b \/ separated must cannot y b.
  Proof. intros [J|J] S; [left|right]; eapply separated_linked_l; eauto. Qed.

  Hypothesis Cons : forall a, ~ separated must cannot a a.
  Hypothesis Nsep : ~ separated must cannot x y.

  Lemma joined_not_separated a b : joined a -> joined b -> ~ separated must cannot a b.
  Proof.
    intros Ja Jb S. apply joined_sep_any in S; auto.
    assert (T : exists u v, (u = x \/ u = y) /\ (v = x \/ v = y) /\ separated must cannot u v).
    { destruct Jb as [Jb|Jb], S as [S|S];
        match type of S with separated _ _ ?u _ => exists u end;
        match type of Jb with linked _ _ ?v => exists v end;
        (split; [auto|split; [auto|eapply separated_linked_r; eauto]]). }
    destruct T as (u & v & [->| ->] & [->| ->] & T).
    - eapply Cons; eauto.
    - auto.
    - apply separated_sym in T; auto.
    - eapply Cons; eauto.
  Qed.

  Lemma separated_plus_joined a b :
    joined a ->
    (separated (plus must x y) cannot a b <-> separated must cannot x b \/ separated must cannot y b).
  Proof.
    intro J. split.
    - intros (p & q & A & B & C). apply linked_plus in A. apply linked_plus in B.
      assert (Jp : joined p). { destruct A as [A|[_ A]]; auto. eapply joined_linked; eauto. }
      destruct B as [B|[_ Jq]].
      + apply (joined_sep_any p); auto. exists p, q. split; [apply linked_refl|auto].
      + exfalso. apply (joined_not_separated p q); auto. exists p, q.
        split; [apply linked_refl|]. split; [apply linked_refl|auto].
    - intro S. assert (L : forall u, joined u -> linked (plus must x y) a u).
      { intros. apply linked_plus. auto. }
      assert (Up : forall u v, separated must cannot u v -> separated (plus must x y) cannot u v).
      { intros u v. apply separated_mono; unfold plus; auto. }
      destruct S as [S|S]; apply Up in S.
      + eapply separated_linked_l; [|exact S]. apply linked_sym, L. left; apply linked_refl.
      + eapply separated_linked_l; [|exact S]. apply linked_sym, L. right; apply linked_refl.
  Qed.

  Lemma separated_plus_other a b :
    ~ joined a ->
    (separated (plus must x y) cannot a b <->
     separated must cannot a b \/ (joined b /\ (separated must cannot x a \/ separated must cannot y a))).
  Proof.
    intro NJ. split.
    - intros (p & q & A & B & C). apply linked_plus in A. destruct A as [A|[A _]]; [|tauto].
      apply linked_plus in B. destruct B as [B|[Jb Jq]].
      + left. exists p, q; auto.
      + right. split; auto. apply (joined_sep_any q); auto.
        exists q, p. split; [apply linked_refl|]. split; auto. tauto.
    - intros [S|[Jb S]].
      + eapply separated_mono; [| |exact S]; unfold plus; auto.
      + apply separated_sym. apply separated_plus_joined; auto.
  Qed.

  Lemma plus_must_consistent a : ~ separated (plus must x y) cannot a a.
  Proof.
    intro S.
    destruct S as (p & q & A & B & C). apply linked_plus in A. apply linked_plus in B.
    assert (SS : separated must cannot p q).
    { exists p, q. split; [apply linked_refl|]. split; [apply linked_refl|auto]. }
    destruct A as [A|[A1 A2]], B as [B|[B1 B2]].
    - apply (Cons a). exists p, q. auto.
    - apply (joined_not_separated p q); auto. eapply joined_linked; eauto.
    - apply (joined_not_separated p q); auto. eapply joined_linked; eauto.
    - apply (joined_not_separated p q); auto.
  Qed.
End Add.

Section AddCannot.
  Variables must cannot : pystr -> pystr -> Prop.
  Variables x y : pystr.

  Lemma separated_plus_cannot a b :
    separated must (plus cannot x y) a b <->
    separated must cannot a b \/ (linked must x a /\ linked must y b) \/ (linked must y a /\ linked must x b).
  Proof.
    split.
    - intros (p & q & A & B & C). unfold plus in C.
      assert (D : (cannot p q \/ cannot q p) \/ (p = x /\ q = y) \/ (p = y /\ q = x)) by tauto.
      destruct D as [D|[[-> ->]|[-> ->]]].
      + left. exists p, q; auto.
      + right; left. split; apply linked_sym; auto.
      + right; right. split; apply linked_sym; auto.
    - intros [S|[[A B]|[A B]]].
      + eapply separated_mono; [| |exact S]; unfold plus; auto.
      + exists x, y. split; [apply linked_sym; auto|]. split; [apply linked_sym; auto|]. unfold plus; auto.
      + exists y, x. split; [apply linked_sym; auto|]. split; [apply linked_sym; auto|]. unfold plus; auto.
  Qed.

  Lemma plus_cannot_consistent a :
    (forall a, ~ separated must cannot a a) -> ~ linked must x y ->
    ~ separated must (plus cannot x y) a a.
  Proof.
    intros Cons NL S. apply separated_plus_cannot in S. destruct S as [S|[[A B]|[A B]]].
    - eapply Cons; eauto.
    - apply NL. eapply linked_trans; [exact A|apply linked_sym; exact B].
    - apply NL. eapply linked_trans; [exact B|apply linked_sym; exact A].
  Qed.
End AddCannot.
