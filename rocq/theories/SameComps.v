(** * Managers with the same knowledge list the same components, up to the order inside. *)

From Coq Require Import String List Bool Arith ZArith Permutation Lia.
From Verif Require Import Base Manager Spec Closure ManagerInv ManagerProofs ManagerSem ManagerQueries ManagerThms
  Sampling SamplingSpec ClusterSpec ClusterProofs SameSpec.
Import ListNotations.
Open Scope nat_scope.
Open Scope py_scope.

Section Components.
  Variables m1 m2 : mgr.
  Hypothesis I1 : Inv m1.
  Hypothesis I2 : Inv m2.
  Hypothesis SK : same_knowledge m1 m2.

  Lemma same_ids_eq : ids m1 = ids m2.
  Proof. destruct SK as [E _]. change (Ok (ids m1) = Ok (ids m2)) in E. congruence. Qed.

  Lemma comp_of_inferred m a b : Inv m -> In a (ids m) -> In b (ids m) ->
    In b (comp_of m a) <-> inferred m a b (Some MUST_LINK).
  Proof.
    intros I A B. rewrite inferred_ml by auto. rewrite ml_linked by auto. apply comp_of_In; auto.
  Qed.
  Lemma comp_of_ids m a b : Inv m -> In a (ids m) -> In b (comp_of m a) -> In b (ids m).
  Proof. intros I A J. apply comp_of_In in J; auto. eapply linked_ids; eauto. Qed.

  Lemma same_comp_In a b : In a (ids m1) -> In b (comp_of m1 a) <-> In b (comp_of m2 a).
  Proof.
    intro A. assert (A2 : In a (ids m2)) by (rewrite <- same_ids_eq; auto). split; intro J.
    - assert (B := comp_of_ids _ _ _ I1 A J). assert (B2 : In b (ids m2)) by (rewrite <- same_ids_eq; auto).
      apply comp_of_inferred in J; auto. apply comp_of_inferred; auto. unfold inferred. rewrite <- (proj2 SK). auto.
    - assert (B2 := comp_of_ids _ _ _ I2 A2 J). assert (B : In b (ids m1)) by (rewrite same_ids_eq; auto).
      apply comp_of_inferred in J; auto. apply comp_of_inferred; auto. unfold inferred. rewrite (proj2 SK). auto.
  Qed.
  Lemma same_comp_perm a : In a (ids m1) -> Permutation (comp_of m1 a) (comp_of m2 a).
  Proof.
    intro A. apply NoDup_Permutation; try apply comp_of_NoDup; auto. intro b. apply same_comp_In; auto.
  Qed.

  Lemma comp_eq m a b : Inv m -> In a (ids m) -> In b (ids m) -> comp_of m a = comp_of m b <-> In a (comp_of m b).
  Proof.
    intros I A B. split; intro E; [rewrite <- E; apply self_comp; auto|apply comp_of_share; auto].
  Qed.

  Lemma same_comps_aux l : incl l (ids m1) -> forall reps, incl reps (ids m1) ->
    exists reps', incl reps' (ids m1) /\
      comps_aux m1 l (map (comp_of m1) reps) = map (comp_of m1) reps' /\
      comps_aux m2 l (map (comp_of m2) reps) = map (comp_of m2) reps'.
  Proof.
    induction l as [|x l IH]; intros L reps R; simpl; [exists reps; auto|].
    assert (X : In x (ids m1)) by (apply L; left; auto).
    assert (E : mem (comp_of m1 x) (map (comp_of m1) reps) = mem (comp_of m2 x) (map (comp_of m2) reps)).
    { apply eq_true_iff_eq. rewrite !mem_In, !in_map_iff. split; intros (r & Q & J); exists r; (split; [|auto]).
      - symmetry in Q. apply comp_eq in Q; auto. symmetry. apply comp_eq; auto; try (rewrite <- same_ids_eq; auto). apply same_comp_In; auto.
      - symmetry in Q. apply comp_eq in Q; auto; try (rewrite <- same_ids_eq; auto). symmetry. apply comp_eq; auto. apply same_comp_In; auto. }
    rewrite E. destruct (mem (comp_of m2 x) (map (comp_of m2) reps)).
    - apply IH; auto. intros z Z. apply L; right; auto.
    - change (map (comp_of m1) reps ++ [comp_of m1 x]) with (map (comp_of m1) reps ++ map (comp_of m1) [x]).
      change (map (comp_of m2) reps ++ [comp_of m2 x]) with (map (comp_of m2) reps ++ map (comp_of m2) [x]).
      rewrite <- !map_app. apply IH; [intros z Z; apply L; right; auto|]. intros z Z. apply in_app_iff in Z. destruct Z as [Z|[<-|[]]]; auto.
  Qed.

  Lemma same_comps : Forall2 (@Permutation pystr) (comps m1) (comps m2).
  Proof.
    destruct (same_comps_aux (ids m1) (incl_refl _) [] ltac:(intros z [])) as (reps & R & E1 & E2). simpl in E1, E2.
    unfold comps. rewrite <- same_ids_eq, E1, E2. clear E1 E2. induction reps as [|r reps IH]; simpl; constructor.
    - apply same_comp_perm. apply R. left; auto.
    - apply IH. intros z Z. apply R. right; auto.
  Qed.
End Components.
