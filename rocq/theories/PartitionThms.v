(** * What a sampler makes of a clustering (C130) *)

From Coq Require Import String List Bool Arith ZArith Lia Permutation.
(*HEADER
From Coq Require Import String List Bool Arith ZArith QArith Permutation.
From Verif Require Import Base Manager Spec ManagerThms Sampling SamplingSpec PartitionSpec PartitionThms.
Import ListNotations.
Open Scope nat_scope.

Definition a := str "a". Definition b := str "b". Definition c := str "c". Definition d := str "d".
Definition some_mgr : mgr := run [CallAddConstraint a c MUST_LINK 1%Q] (init [a; b; c; d]).
Definition groups : dict pystr Z := [(a, 0); (b, 0); (c, 1); (d, 2)]%Z.
Definition renamed : dict pystr Z := [(d, -5); (c, 7); (str "z", 7); (b, 2); (a, 2)]%Z.
Definition ask_pairs (r : option pystr) (g : dict pystr Z) := result (sample nat nat (fun rows i j => i + j) Nat.ltb (fun l k => firstn k (rev l))
  (mkOptions r None false true) 9 (Some g) None) (fresh_sampler nat nat, some_mgr).
HEADER*)
From Verif Require Import Base Manager Spec Closure ManagerProofs ManagerInv ManagerQueries ManagerThms
  Sampling SamplingSpec SamplingProofs SamplingThms StaleSpec StaleThms PartitionSpec.
Import ListNotations.
Open Scope nat_scope.
Open Scope py_scope.

(*PROP C130: the numbers of the clusters do not matter to a sampler, only which data are together: the pairs, their order, and the errors are the same. *)
Lemma C130_numbers_proof :
  forall vec D pairwise ltb draw o nb clustering clustering' vectors s s' m, reachable m -> same_groups m clustering clustering' ->
    result (sample vec D pairwise ltb draw o nb clustering vectors) (s, m) =
    result (sample vec D pairwise ltb draw o nb clustering' vectors) (s', m).
Proof.
  intros vec D pw ltb draw o nb cr cr' vs s s' m R AC. apply reachable_inv in R. rewrite !ask_sample by auto.
  unfold SamplingProofs.psample. destruct (nb <? 0)%Z; auto. destruct (nb =? 0)%Z; auto.
  assert (K : rfilter (keepr vec D o m cr) (list_prod (ids m) (ids m)) = rfilter (keepr vec D o m cr') (list_prod (ids m) (ids m))).
  { apply rfilter_ext. intros [x y] Ip. apply in_prod_iff in Ip as [X Y]. unfold keepr. rewrite !keep_run by auto. cbn [snd].
    destruct (str_leb y x); auto. rewrite !skip_clusters_run. cbn [snd s_clustering]. destruct (reads_clusters o) eqn:RC; auto.
    destruct cr as [g|], cr' as [g'|]; auto; try contradiction. destruct AC as [A1 A2].
    assert (Ix := proj2 (managed_ids m x) X). assert (Iy := proj2 (managed_ids m y) Y).
    assert (Q : forall z, managed m z -> (dget z g = None <-> dget z g' = None)).
    { intros z Z. rewrite !dget_None, (A1 z Z). tauto. }
    assert (Qx := Q x Ix). assert (Qy := Q y Iy). assert (E := A2 x y Ix Iy). unfold dlookup.
    destruct (dget x g) as [z1|], (dget x g') as [z1'|]; try (exfalso; intuition discriminate); auto.
    destruct (dget y g) as [z2|], (dget y g') as [z2'|]; try (exfalso; intuition discriminate); auto. cbn [rbind].
    replace (clash o z1' z2') with (clash o z1 z2); auto. unfold clash.
    replace (Z.eqb z1' z2') with (Z.eqb z1 z2); auto. apply eq_true_iff_eq. rewrite !Z.eqb_eq. destruct E as [E E']. clear - E E'. split; intro Q; subst; [injection E|injection E']; auto. }
  rewrite K. clear K. destruct (o_clusters o), cr, cr'; auto; contradiction.
Qed.

(*EX
Example C130_numbers_ex : reachable some_mgr /\ same_groups some_mgr (Some groups) (Some renamed) /\
  ask_pairs (Some DIFFERENT_CLUSTERS) renamed = Ok [(c, d); (b, d); (b, c); (a, d)].
Proof.
  split; [apply run_reachable|]. split; [|vm_compute; reflexivity].
  assert (M : forall x, managed some_mgr x -> x = a \/ x = b \/ x = c \/ x = d).
  { intros x (l & E & X). vm_compute in E. injection E as <-. simpl in X. intuition. }
  split.
  - intros x X. apply M in X. destruct X as [->|[->|[->| ->]]]; vm_compute; tauto.
  - intros x y X Y. apply M in X, Y. destruct X as [->|[->|[->| ->]]], Y as [->|[->|[->| ->]]]; vm_compute; split; intro Q; auto; discriminate Q.
Qed.
EX*)

(** A sampling that does not reach its number of pairs returns all eligible pairs. *)
Lemma all_eligible vec D pw ltb draw o nb cr vs s m l : valid_draw draw -> Inv m ->
  result (sample vec D pw ltb draw o nb cr vs) (s, m) = Ok l -> (0 < nb)%Z ->
  exists pairs, NoDup pairs /\ (forall p, In p pairs <-> eligible o m cr p) /\
    length l = Nat.min (Z.to_nat nb) (length pairs) /\ exists rest, Permutation pairs (l ++ rest).
Proof.
  intros VD I E N. rewrite ask_sample in E by auto. apply psample_Ok in E. destruct E as [[Q _]|(_ & pairs & E & S)]; [lia|].
  apply eligible_pairs_spec in E; auto. destruct E as (ND & EL & _). apply selected_part in S; auto. exists pairs. intuition.
Qed.

Lemma whole (pairs l rest : list (pystr * pystr)) n : length l = Nat.min n (length pairs) -> Permutation pairs (l ++ rest) -> length pairs < n ->
  Permutation pairs l.
Proof.
  intros L P N. assert (Q := Permutation_length P). rewrite app_length in Q.
  assert (rest = []) as -> by (apply length_zero_iff_nil; lia). rewrite app_nil_r in P. auto.
Qed.

Lemma eligible_split o m cr p : eligible (with_clusters None o) m cr p <->
  eligible (with_clusters (Some SAME_CLUSTER) o) m cr p \/ eligible (with_clusters (Some DIFFERENT_CLUSTERS) o) m cr p.
Proof.
  assert (X := same_diff). destruct p as [x y]. unfold eligible, with_clusters. cbn [o_clusters o_without_added o_without_inferred].
  split.
  - intros (A & B & C & _ & _ & E & F).
    assert (T : label_of cr x = label_of cr y \/ label_of cr x <> label_of cr y).
    { destruct (label_of cr x) as [z|], (label_of cr y) as [z'|]; try (right; congruence); auto.
      destruct (Z.eq_dec z z'); [left|right]; congruence. }
    destruct T; [left|right]; repeat split; auto; intros; try congruence; try contradiction; exfalso; auto.
  - intros [H|H]; repeat split; try tauto; discriminate.
Qed.

Lemma eligible_apart o m cr p : eligible (with_clusters (Some SAME_CLUSTER) o) m cr p -> ~ eligible (with_clusters (Some DIFFERENT_CLUSTERS) o) m cr p.
Proof. destruct p as [x y]. unfold eligible, with_clusters. cbn [o_clusters]. intros (_ & _ & _ & A & _) (_ & _ & _ & _ & B & _). apply B; auto. Qed.

(*PROP C130: the two restrictions on clusters split the pairs: with a number of pairs that is not reached, what is sampled in the same cluster and what is sampled in different clusters is together exactly what is sampled without this restriction. *)
Lemma C130_split_proof :
  forall vec D pairwise ltb draw o nb clustering vectors s1 s2 s3 m l ls ld, valid_draw draw -> reachable m ->
    result (sample vec D pairwise ltb draw (with_clusters None o) nb clustering vectors) (s1, m) = Ok l ->
    result (sample vec D pairwise ltb draw (with_clusters (Some SAME_CLUSTER) o) nb clustering vectors) (s2, m) = Ok ls ->
    result (sample vec D pairwise ltb draw (with_clusters (Some DIFFERENT_CLUSTERS) o) nb clustering vectors) (s3, m) = Ok ld ->
    (Z.of_nat (length l) < nb)%Z ->
    Permutation (ls ++ ld) l.
Proof.
  intros vec D pw ltb draw o nb cr vs s1 s2 s3 m l ls ld VD R E1 E2 E3 Len.
  assert (I := reachable_inv _ R). assert (N : (0 < nb)%Z) by lia.
  eapply all_eligible in E1; eauto. eapply all_eligible in E2; eauto. eapply all_eligible in E3; eauto.
  destruct E1 as (p1 & N1 & L1 & C1 & r1 & P1), E2 as (p2 & N2 & L2 & C2 & r2 & P2), E3 as (p3 & N3 & L3 & C3 & r3 & P3).
  assert (K1 : length p1 < Z.to_nat nb) by lia.
  assert (I2 : incl p2 p1). { intros p Ip. apply L1, eligible_split. left. apply L2; auto. }
  assert (I3 : incl p3 p1). { intros p Ip. apply L1, eligible_split. right. apply L3; auto. }
  apply NoDup_incl_length in I2, I3; auto.
  apply whole with (n := Z.to_nat nb) in P1; auto. apply whole with (n := Z.to_nat nb) in P2; [|auto|lia].
  apply whole with (n := Z.to_nat nb) in P3; [|auto|lia].
  rewrite <- P1, <- P2, <- P3. apply NoDup_Permutation; auto.
  - apply NoDup_app_intro; auto. intros p Ip Jp. apply L2 in Ip. apply L3 in Jp. apply (eligible_apart _ _ _ _ Ip Jp).
  - intro p. rewrite in_app_iff, L1, L2, L3, eligible_split. tauto.
Qed.

(*EX
Example C130_split_ex : reachable some_mgr /\ ask_pairs None groups = Ok [(c, d); (b, d); (b, c); (a, d); (a, b)] /\
  ask_pairs (Some SAME_CLUSTER) groups = Ok [(a, b)] /\ ask_pairs (Some DIFFERENT_CLUSTERS) groups = Ok [(c, d); (b, d); (b, c); (a, d)].
Proof. split; [apply run_reachable|]. vm_compute. auto. Qed.
EX*)
