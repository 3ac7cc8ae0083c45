(** * What a sampler that has nothing to ask says about the clusters (C150). *)

From Coq Require Import String List Bool Arith ZArith QArith Lia.
(*HEADER
From Coq Require Import String List Bool Arith ZArith QArith Lia Permutation.
From Verif Require Import Base Manager Spec ManagerThms ManagerInv ManagerQueries ClusterSpec Sampling SamplingSpec WrongSpec SureSpec ExhaustSpec ExhaustThms.
Import ListNotations.
Open Scope nat_scope.
HEADER*)
From Verif Require Import Base Manager Spec Closure ManagerProofs ManagerInv ManagerQueries ManagerSem ManagerThms ClusterSpec Sampling SamplingSpec SamplingProofs SamplingThms WrongSpec WrongThms SureSpec SureThms ExhaustSpec.
Import ListNotations.
Open Scope nat_scope.

(** With at least one pair asked for, nothing is returned exactly when no pair is eligible. *)
Lemma nothing_eligible vec D pairwise ltb draw o nb clustering vectors s m : valid_draw draw -> reachable m ->
    valid_arguments (vec := vec) o m nb clustering vectors -> (1 <= nb)%Z ->
    (result (sample vec D pairwise ltb draw o nb clustering vectors) (s, m) = Ok [] <-> forall p, ~ eligible o m clustering p).
Proof.
  intros V R VA N. assert (I := reachable_inv _ R).
  destruct (C28_sampling_count_proof vec D pairwise ltb draw o nb clustering vectors s m V R VA) as (l & E & L). rewrite E.
  rewrite ask_sample in E by auto. apply psample_Ok in E. destruct E as [[-> _]|(_ & pairs & E & S)]; [lia|].
  apply eligible_pairs_spec in E; auto. destruct E as (ND & EL & _). specialize (L pairs ND EL). split.
  - intros K p H. injection K as ->. apply EL in H. destruct pairs; [destruct H|]. cbn in L. destruct (Z.to_nat nb) eqn:Z; [lia|discriminate].
  - intro H. destruct pairs as [|p pairs]; [|exfalso; apply (H p); apply EL; left; auto]. cbn in L. rewrite Nat.min_0_r in L. f_equal. apply length_zero_iff_nil; auto.
Qed.

Lemma undecided_sym m a b : reachable m -> managed m a -> managed m b -> inferred m a b None -> inferred m b a None.
Proof.
  intros R Ma Mb. assert (I := reachable_inv _ R). apply managed_ids in Ma, Mb. rewrite !inferred_spec by auto. rewrite infer_sym by auto. auto.
Qed.
Lemma undecided_distinct m a : reachable m -> managed m a -> ~ inferred m a a None.
Proof.
  intros R Ma. assert (I := reachable_inv _ R). apply managed_ids in Ma. rewrite inferred_spec by auto. intro K.
  assert (infer m a a = Some MUST_LINK) by (apply infer_ML; auto; constructor). congruence.
Qed.
Lemma undecided_not_added m a b t : reachable m -> managed m a -> managed m b -> inferred m a b None -> ~ added m t a b.
Proof.
  intros R Ma Mb U A. assert (I := reachable_inv _ R). apply managed_ids in Ma, Mb. apply inferred_spec in U; auto. apply addf_added in A; auto. destruct A as (_ & _ & A). apply addf_infer in A; auto; [congruence|].
  apply both_true; auto.
Qed.

(** An undecided pair is eligible, in one of its two orders, when the clusters allow it. *)
Lemma undecided_eligible o m clustering a b : reachable m -> managed m a -> managed m b -> inferred m a b None ->
    (o_clusters o = Some SAME_CLUSTER -> label_of clustering a = label_of clustering b) -> (o_clusters o = Some DIFFERENT_CLUSTERS -> label_of clustering a <> label_of clustering b) ->
    exists p, eligible o m clustering p.
Proof.
  intros R Ma Mb U S1 S2. assert (U' := undecided_sym m a b R Ma Mb U). destruct (str_leb b a) eqn:L1.
  - destruct (str_leb a b) eqn:L2.
    + exfalso. rewrite (str_leb_antisym _ _ L1 L2) in *. apply (undecided_distinct m a); auto.
    + exists (b, a). repeat split; auto; [rewrite str_ltb_negb, L2; auto|intro K; symmetry; auto|intros K E; apply (S2 K); auto|intros _ [t A]; eapply (undecided_not_added m b a); eauto].
  - exists (a, b). repeat split; auto; [rewrite str_ltb_negb, L1; auto|intros _ [t A]; eapply (undecided_not_added m a b); eauto].
Qed.

(*PROP **C150.** Some clusters respect the CANNOT_LINK constraints. A sampler that asks about pairs of the same cluster (without the inferred ones) has nothing to ask exactly when every cluster is a part of a true cluster, whatever the true clusters that the constraints allow. *)
Lemma C150_same_proof :
  forall vec D pairwise ltb draw o nb d vectors s m, valid_draw draw -> reachable m -> respects_cannot_links m d ->
    valid_arguments (vec := vec) o m nb (Some d) vectors -> o_clusters o = Some SAME_CLUSTER -> o_without_inferred o = true -> (1 <= nb)%Z ->
    (result (sample vec D pairwise ltb draw o nb (Some d) vectors) (s, m) = Ok [] <-> for_every_truth m (fun e => finer m d e)).
Proof.
  intros vec D pw ltb draw o nb d vs s m V R RC VA OC OI N. rewrite nothing_eligible by auto. split.
  - intros H e CE [E1 E2] a b Ma Mb S. destruct (known_cases m a b R Ma Mb) as [Q|[Q|Q]]; auto.
    + exfalso. apply (RC a b Ma Mb Q S).
    + exfalso. destruct (undecided_eligible o m (Some d) a b R Ma Mb Q) as [p P]; [auto|rewrite OC; discriminate|]. apply (H p P).
  - intros H [a b] (Ma & Mb & _ & S & _ & _ & U). destruct (C144_each_undecided_proof m d a b R Ma Mb (U OI)) as (e & CE & RE & W).
    apply W. specialize (S OC). cbn in S. split; auto. intros _. apply (H e CE RE a b Ma Mb S).
Qed.
(*EX
(** "a" and "b" are linked; the clusters are {a, b} and {c}. *)
Definition qa := str "a". Definition qb := str "b". Definition qc := str "c".
Definition linked_ab := run [CallAddConstraint qa qb MUST_LINK 1%Q] (init [qa; qb; qc]).
Definition clusters150 : dict pystr Z := [(qa, 0%Z); (qb, 0%Z); (qc, 1%Z)].
Definition whole : dict pystr Z := [(qa, 0%Z); (qb, 0%Z); (qc, 0%Z)].
Definition take_first (l : list (pystr * pystr)) (k : nat) := firstn k l.
Lemma take_first_valid : valid_draw take_first.
Proof. intros l k H. split; [apply firstn_length_le; auto|]. exists (skipn k l). unfold take_first. rewrite firstn_skipn. apply Permutation_refl. Qed.
Definition in_same := mkOptions (Some SAME_CLUSTER) None true true.
Definition in_different := mkOptions (Some DIFFERENT_CLUSTERS) None true true.
Definition ask_one (o : options) (d : dict pystr Z) := result (sample nat nat (fun _ _ _ => 0) Nat.ltb take_first o 1 (Some d) None) (fresh_sampler nat nat, linked_ab).
Lemma only_three x : managed linked_ab x -> x = qa \/ x = qb \/ x = qc.
Proof. intro M. apply managed_ids in M. vm_compute in M. destruct M as [M|[M|[M|[]]]]; auto. Qed.
Lemma respects150 : respects linked_ab clusters150 /\ respects linked_ab whole.
Proof. split; split; intros a b Ma Mb; apply only_three in Ma, Mb; destruct Ma as [-> |[-> | ->]], Mb as [-> |[-> | ->]]; vm_compute; congruence. Qed.
Lemma valid150 o d : o_distance o = None -> (forall x, managed linked_ab x -> In x (keys d)) -> valid_arguments (vec := nat) o linked_ab 1 (Some d) None.
Proof. intros H K. split; [discriminate|]. split; [intros _; exists d; auto|congruence]. Qed.
Lemma all_keys150 x : managed linked_ab x -> In x (keys clusters150) /\ In x (keys whole).
Proof. intro M. apply only_three in M. cbn. intuition. Qed.
Example C150_same_ex : ask_one in_same clusters150 = Ok [] /\ for_every_truth linked_ab (fun e => finer linked_ab clusters150 e) /\ ask_one in_same whole = Ok [(qa, qc)].
Proof.
  split; [reflexivity|]. split; [|reflexivity].
  apply (proj1 (C150_same_proof nat nat (fun _ _ _ => 0) Nat.ltb take_first in_same 1%Z clusters150 None (fresh_sampler nat nat) linked_ab take_first_valid (run_reachable _ _) (proj2 (proj1 respects150))
    (valid150 in_same clusters150 eq_refl (fun x M => proj1 (all_keys150 x M))) eq_refl eq_refl ltac:(lia))). reflexivity.
Qed.
EX*)

(*PROP Some clusters respect the MUST_LINK constraints. A sampler that asks about pairs of different clusters has nothing to ask exactly when every true cluster is a part of a cluster. *)
Lemma C150_different_proof :
  forall vec D pairwise ltb draw o nb d vectors s m, valid_draw draw -> reachable m -> respects_must_links m d ->
    valid_arguments (vec := vec) o m nb (Some d) vectors -> o_clusters o = Some DIFFERENT_CLUSTERS -> o_without_inferred o = true -> (1 <= nb)%Z ->
    (result (sample vec D pairwise ltb draw o nb (Some d) vectors) (s, m) = Ok [] <-> for_every_truth m (fun e => finer m e d)).
Proof.
  intros vec D pw ltb draw o nb d vs s m V R RC VA OC OI N. rewrite nothing_eligible by auto. split.
  - intros H e CE [E1 E2] a b Ma Mb S. destruct (known_cases m a b R Ma Mb) as [Q|[Q|Q]]; auto.
    + exfalso. apply (E2 a b Ma Mb Q S).
    + destruct (label_dec (dget a d) (dget b d)) as [Y|Y]; auto.
      exfalso. destruct (undecided_eligible o m (Some d) a b R Ma Mb Q) as [p P]; [rewrite OC; discriminate|auto|]. apply (H p P).
  - intros H [a b] (Ma & Mb & _ & _ & S & _ & U). destruct (C144_each_undecided_proof m d a b R Ma Mb (U OI)) as (e & CE & RE & W).
    apply W. specialize (S OC). cbn in S. split; [tauto|]. apply (H e CE RE a b Ma Mb).
Qed.
(*EX
Example C150_different_ex : ask_one in_different whole = Ok [] /\ ask_one in_different clusters150 = Ok [(qa, qc)] /\ respects_must_links linked_ab clusters150 /\
  valid_arguments (vec := nat) in_different linked_ab 1 (Some clusters150) None.
Proof. split; [reflexivity|]. split; [reflexivity|]. split; [apply respects150|]. apply valid150; auto. intros x M. apply all_keys150. auto. Qed.
EX*)

(*PROP So the clusters are sure exactly when neither of two such samplers has something to ask. *)
Lemma C150_both_proof :
  forall vec D pairwise ltb draw o nb vectors s vec' D' pairwise' ltb' draw' o' nb' vectors' s' d m, valid_draw draw -> valid_draw draw' -> reachable m -> respects m d ->
    valid_arguments (vec := vec) o m nb (Some d) vectors -> o_clusters o = Some SAME_CLUSTER -> o_without_inferred o = true -> (1 <= nb)%Z ->
    valid_arguments (vec := vec') o' m nb' (Some d) vectors' -> o_clusters o' = Some DIFFERENT_CLUSTERS -> o_without_inferred o' = true -> (1 <= nb')%Z ->
    (result (sample vec D pairwise ltb draw o nb (Some d) vectors) (s, m) = Ok [] /\ result (sample vec' D' pairwise' ltb' draw' o' nb' (Some d) vectors') (s', m) = Ok []
     <-> sure m d).
Proof.
  intros vec D pw ltb draw o nb vs s vec' D' pw' ltb' draw' o' nb' vs' s' d m V V' R [D1 D2] VA OC OI N VA' OC' OI' N'.
  rewrite C150_same_proof by auto. rewrite C150_different_proof by auto. split.
  - intros [H1 H2] e CE RE a b Ma Mb. split; [apply (H1 e CE RE a b Ma Mb)|apply (H2 e CE RE a b Ma Mb)].
  - intro S. split; intros e CE RE a b Ma Mb; apply (S e CE RE a b Ma Mb).
Qed.
(*EX
Example C150_both_ex : let m := run [CallAddConstraint qb qc CANNOT_LINK 1%Q] linked_ab in
  result (sample nat nat (fun _ _ _ => 0) Nat.ltb take_first in_same 1 (Some clusters150) None) (fresh_sampler nat nat, m) = Ok [] /\
  result (sample nat nat (fun _ _ _ => 0) Nat.ltb take_first in_different 1 (Some clusters150) None) (fresh_sampler nat nat, m) = Ok [].
Proof. split; reflexivity. Qed.
EX*)

(*PROP And every pair that the clusters may be wrong about can be asked by one of the two: the one for the same cluster if the data are together, the other one if not. *)
Lemma C150_asked_proof :
  forall o o' d e m a b, reachable m -> respects m d -> respects m e -> managed m a -> managed m b -> disagree d e a b ->
    o_clusters o = Some SAME_CLUSTER -> o_clusters o' = Some DIFFERENT_CLUSTERS ->
    (dget a d = dget b d -> eligible o m (Some d) (a, b) \/ eligible o m (Some d) (b, a)) /\
    (dget a d <> dget b d -> eligible o' m (Some d) (a, b) \/ eligible o' m (Some d) (b, a)).
Proof.
  intros o o' d e m a b R [D1 D2] [E1 E2] Ma Mb W OC OC'.
  assert (U : inferred m a b None).
  { destruct (known_cases m a b R Ma Mb) as [Q|[Q|Q]]; auto; exfalso; apply W; [split; intros _; auto|]. specialize (D2 a b Ma Mb Q). specialize (E2 a b Ma Mb Q). tauto. }
  assert (U' := undecided_sym m a b R Ma Mb U).
  assert (NA : forall t, ~ added m t a b) by (intros t A; eapply (undecided_not_added m a b); eauto). assert (NA' : forall t, ~ added m t b a) by (intros t A; eapply (undecided_not_added m b a); eauto).
  assert (T : str_ltb a b = true \/ str_ltb b a = true).
  { rewrite !str_ltb_negb. destruct (str_leb b a) eqn:L1; auto. destruct (str_leb a b) eqn:L2; auto. exfalso. rewrite (str_leb_antisym _ _ L1 L2) in *. apply (undecided_distinct m a); auto. }
  split; intro S; (destruct T as [T|T]; [left|right]); unfold eligible; rewrite ?OC, ?OC'; repeat split; auto; try discriminate; intros _ [t A]; [eapply NA|eapply NA'|eapply NA|eapply NA']; eauto.
Qed.
(*EX
Example C150_asked_ex : reachable linked_ab /\ respects linked_ab clusters150 /\ respects linked_ab whole /\ ~ (dget qa clusters150 = dget qc clusters150 <-> dget qa whole = dget qc whole).
Proof. split; [apply run_reachable|]. split; [apply respects150|]. split; [apply respects150|]. vm_compute. intros [_ H]. specialize (H eq_refl). discriminate. Qed.
EX*)
