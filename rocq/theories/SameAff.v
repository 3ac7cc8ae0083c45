(** * Affinity propagation reads only the IDs, the components and the vectors. *)

From Coq Require Import String List Bool Arith ZArith Permutation Lia.
From Verif Require Import Base Manager Spec Closure ManagerInv ManagerProofs ManagerSem ManagerQueries ManagerThms
  Sampling SamplingSpec SamplingProofs SamplingThms Rename ClusterSpec ClusterProofs KMeans KMeansSpec KMeansProofs
  Hierarchical HierSpec HierProofs Spectral Affinity AffinitySpec AffinityProofs AffinityRun AffinityThms SameSpec Same SameComps SameHier.
Import ListNotations.
Open Scope nat_scope.
Open Scope py_scope.

Lemma list_set_comm {A} (v : A) : forall l i j, list_set (list_set l i v) j v = list_set (list_set l j v) i v.
Proof. induction l as [|x l IH]; intros [|i] [|j]; simpl; auto. f_equal. auto. Qed.

Section Aff.
  Context {D : Type}.
  Variable o : ops D.
  Hypothesis OF : order_free (o_pymax D o).
  Variables mls mls' : list (list nat).
  Hypothesis P : Forall2 (@Permutation nat) mls mls'.

  Lemma rrel_Forall2_eq {A} (r r' : res (list A)) : rrel (Forall2 eq) r r' -> r = r'.
  Proof.
    intros [l l' F|e]; auto. f_equal. induction F; auto. congruence.
  Qed.
  Lemma meta_perm W : meta_similarities o W mls = meta_similarities o W mls'.
  Proof.
    unfold meta_similarities. apply rrel_Forall2_eq. eapply rmap_rel; [exact P|]. intros a a' A. apply rrel_eq, rrel_Forall2_eq.
    eapply rmap_rel; [exact P|]. intros b b' B. apply rrel_eq. assert (Q := Permutation_prod _ _ _ _ A B).
    destruct (list_prod a b) as [|p l]; [apply Permutation_nil in Q as ->; auto|].
    destruct (list_prod a' b') as [|p' l']; [apply Permutation_sym, Permutation_nil in Q; discriminate|].
    f_equal. apply OF, Permutation_map. auto.
  Qed.
  Lemma mixed_perm W : mixed_similarities o W mls = mixed_similarities o W mls'.
  Proof.
    unfold mixed_similarities. apply rmap_ext. intros i _. apply rrel_Forall2_eq. eapply rmap_rel; [exact P|]. intros a a' Q. apply rrel_eq.
    rewrite (existsb_Permutation _ _ _ Q). destruct (existsb _ a'); auto.
    destruct a as [|p l]; [apply Permutation_nil in Q as ->; auto|].
    destruct a' as [|p' l']; [apply Permutation_sym, Permutation_nil in Q; discriminate|].
    f_equal. apply OF, Permutation_map. auto.
  Qed.
  Lemma fold_set_perm (v : Z) l l' : Permutation l l' -> forall real,
    fold_left (fun real i => list_set real i v) l real = fold_left (fun real i => list_set real i v) l' real.
  Proof.
    induction 1; cbn [fold_left]; intro real; auto.
    - rewrite list_set_comm. auto.
    - rewrite IHPermutation1. auto.
  Qed.
  Lemma member_perm n labels : member_labels n labels mls = member_labels n labels mls'.
  Proof.
    unfold member_labels. generalize (repeat (-1)%Z n). revert labels.
    induction P as [|a a' l l' Q F IH]; intros labels real; destruct labels as [|x labels]; cbn [combine fold_left]; auto.
    rewrite IH by auto. f_equal. apply fold_set_perm; auto.
  Qed.
  Lemma affinity_perm W cls b mi ci :
    affinity_propagation_constrained o W mls cls b mi ci = affinity_propagation_constrained o W mls' cls b mi ci.
  Proof.
    unfold affinity_propagation_constrained. destruct (_ || _); auto. destruct b.
    - rewrite meta_perm. apply rbind_ext. intros S _. apply rbind_ext. intros l _. destruct l; auto. rewrite member_perm. auto.
    - rewrite mixed_perm, (Forall2_len _ _ _ P). auto.
  Qed.
End Aff.

Section Indices.
  Variables m1 m2 : mgr.
  Hypothesis I1 : Inv m1.
  Hypothesis I2 : Inv m2.
  Hypothesis SK : same_knowledge m1 m2.

  Lemma indices_perm : rrel (Forall2 (@Permutation nat)) (must_link_indices m1 (ids m1)) (must_link_indices m2 (ids m1)).
  Proof.
    unfold must_link_indices. rewrite !ask_components by auto. cbn [rbind].
    set (d := fold_left _ _ _).
    assert (SC : Forall2 (fun l l' => Permutation l l' /\ in_managed m1 l) (comps m1) (comps m2)).
    { eapply Forall2_imp; [|apply same_comps; auto]. intros l l' L P. split; auto. apply comps_In in L as (x & X & ->).
      intros y Y. eapply comp_of_ids; eauto. }
    eapply rmap_rel; [exact SC|]. intros l l' [P J]. apply (rows_rel nat m1 d d); auto. intros x _. reflexivity.
  Qed.

  Lemma same_affinity vec D (o : ops D) similarity p v1 v2 nb s : same_vectors m1 v1 v2 -> order_free (o_pymax D o) ->
    Affinity.cluster vec D o similarity p m1 v1 nb s = Affinity.cluster vec D o similarity p m2 v2 nb s.
  Proof.
    intros SV OF. unfold cluster, bind, lift, modify. rewrite !ask_managed by auto. assert (EI := same_ids_eq _ _ SK). rewrite <- EI.
    destruct nb; [reflexivity|]. rewrite <- (same_managed_rows m1 v1 v2 SV (ids m1) eq_refl (ids m1) (incl_refl _)).
    destruct (rmap _ (ids m1)) as [rows|e] eqn:ER; [|reflexivity].
    destruct rows as [|r rows]; [reflexivity|]. cbn [ret].
    destruct indices_perm as [mls mls' P|e]; [|reflexivity].
    destruct (cannot_link_pairs_run m1 I1) as (c1 & E1 & B1). destruct (cannot_link_pairs_run m2 I2) as (c2 & E2 & B2).
    rewrite <- EI in E2, B2. rewrite E1, E2.
    assert (LR := rmap_length _ _ _ ER).
    rewrite (affinity_cl o _ mls c1 c2); [|unfold cl_below; rewrite nrows_mtab, LR; auto..].
    rewrite (affinity_perm o OF mls mls' P). reflexivity.
  Qed.
End Indices.
