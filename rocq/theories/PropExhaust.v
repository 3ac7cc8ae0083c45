(** Generated from ExhaustThms.v by tools/gen_props.py: theorem statements,
    each closed by the lemma of the same name proved there. *)

From Coq Require Import String List Bool Arith ZArith QArith Lia Permutation.
From Verif Require Import Base Manager Spec ManagerThms ManagerInv ManagerQueries ClusterSpec Sampling SamplingSpec WrongSpec SureSpec ExhaustSpec ExhaustThms.
Import ListNotations.
Open Scope nat_scope.

(** **C150.** Some clusters respect the CANNOT_LINK constraints. A sampler that asks about pairs of the same cluster (without the inferred ones) has nothing to ask exactly when every cluster is a part of a true cluster, whatever the true clusters that the constraints allow. *)
Theorem C150_same :
  forall vec D pairwise ltb draw o nb d vectors s m, valid_draw draw -> reachable m -> respects_cannot_links m d ->
    valid_arguments (vec := vec) o m nb (Some d) vectors -> o_clusters o = Some SAME_CLUSTER -> o_without_inferred o = true -> (1 <= nb)%Z ->
    (result (sample vec D pairwise ltb draw o nb (Some d) vectors) (s, m) = Ok [] <-> for_every_truth m (fun e => finer m d e)).
Proof. exact C150_same_proof. Qed.
Print Assumptions C150_same.

(** "a" and "b" are linked; the clusters are {a, b} and {c}. *)
Definition qa := str "a". Definition qb := str "b". Definition qc := str "c".
Definition linked_ab := run [CallAddConstraint qa qb MUST_LINK 1%Q] (init [qa; qb; qc]).
Definition clusters150 : dict pystr Z := [(qa, 0%Z); (qb, 0%Z); (qc, 1%Z)].
Definition whole : dict pystr Z := [(qa, 0%Z); (qb, 0%Z); (qc, 0%Z)].
Definition take_first (l : list (pystr * pystr)) (k : nat) := firstn k l.
Lemma take_first_valid : valid_draw take_first.
Proof. intros l k H. split; [apply firstn_length_le; auto|]. exists (skipn k l). unfold take_first. rewrite firstn_skipn. apply Permutation_refl. Qed.
Definition in_same := mkOptions (Some SAME_CLUSTER) None true true.
Definition in_different := mkOptions (Some DIFFERENT_CLUSTERS) None true true.
Definition ask_one (o : options) (d : dict pystr Z) := result (sample nat nat (fun _ _ _ => 0) Nat.ltb take_first o 1 (Some d) None) (fresh_sampler nat nat, linked_ab).
Lemma only_three x : managed linked_ab x -> x = qa \/ x = qb \/ x = qc.
Proof. intro M. apply managed_ids in M. vm_compute in M. destruct M as [M|[M|[M|[]]]]; auto. Qed.
Lemma respects150 : respects linked_ab clusters150 /\ respects linked_ab whole.
Proof. split; split; intros a b Ma Mb; apply only_three in Ma, Mb; destruct Ma as [-> |[-> | ->]], Mb as [-> |[-> | ->]]; vm_compute; congruence. Qed.
Lemma valid150 o d : o_distance o = None -> (forall x, managed linked_ab x -> In x (keys d)) -> valid_arguments (vec := nat) o linked_ab 1 (Some d) None.
Proof. intros H K. split; [discriminate|]. split; [intros _; exists d; auto|congruence]. Qed.
Lemma all_keys150 x : managed linked_ab x -> In x (keys clusters150) /\ In x (keys whole).
Proof. intro M. apply only_three in M. cbn. intuition. Qed.
Example C150_same_ex : ask_one in_same clusters150 = Ok [] /\ for_every_truth linked_ab (fun e => finer linked_ab clusters150 e) /\ ask_one in_same whole = Ok [(qa, qc)].
Proof.
  split; [reflexivity|]. split; [|reflexivity].
  apply (proj1 (C150_same_proof nat nat (fun _ _ _ => 0) Nat.ltb take_first in_same 1%Z clusters150 None (fresh_sampler nat nat) linked_ab take_first_valid (run_reachable _ _) (proj2 (proj1 respects150))
    (valid150 in_same clusters150 eq_refl (fun x M => proj1 (all_keys150 x M))) eq_refl eq_refl ltac:(lia))). reflexivity.
Qed.

(** Some clusters respect the MUST_LINK constraints. A sampler that asks about pairs of different clusters has nothing to ask exactly when every true cluster is a part of a cluster. *)
Theorem C150_different :
  forall vec D pairwise ltb draw o nb d vectors s m, valid_draw draw -> reachable m -> respects_must_links m d ->
    valid_arguments (vec := vec) o m nb (Some d) vectors -> o_clusters o = Some DIFFERENT_CLUSTERS -> o_without_inferred o = true -> (1 <= nb)%Z ->
    (result (sample vec D pairwise ltb draw o nb (Some d) vectors) (s, m) = Ok [] <-> for_every_truth m (fun e => finer m e d)).
Proof. exact C150_different_proof. Qed.
Print Assumptions C150_different.

Example C150_different_ex : ask_one in_different whole = Ok [] /\ ask_one in_different clusters150 = Ok [(qa, qc)] /\ respects_must_links linked_ab clusters150 /\
  valid_arguments (vec := nat) in_different linked_ab 1 (Some clusters150) None.
Proof. split; [reflexivity|]. split; [reflexivity|]. split; [apply respects150|]. apply valid150; auto. intros x M. apply all_keys150. auto. Qed.

(** So the clusters are sure exactly when neither of two such samplers has something to ask. *)
Theorem C150_both :
  forall vec D pairwise ltb draw o nb vectors s vec' D' pairwise' ltb' draw' o' nb' vectors' s' d m, valid_draw draw -> valid_draw draw' -> reachable m -> respects m d ->
    valid_arguments (vec := vec) o m nb (Some d) vectors -> o_clusters o = Some SAME_CLUSTER -> o_without_inferred o = true -> (1 <= nb)%Z ->
    valid_arguments (vec := vec') o' m nb' (Some d) vectors' -> o_clusters o' = Some DIFFERENT_CLUSTERS -> o_without_inferred o' = true -> (1 <= nb')%Z ->
    (result (sample vec D pairwise ltb draw o nb (Some d) vectors) (s, m) = Ok [] /\ result (sample vec' D' pairwise' ltb' draw' o' nb' (Some d) vectors') (s', m) = Ok []
     <-> sure m d).
Proof. exact C150_both_proof. Qed.
Print Assumptions C150_both.

Example C150_both_ex : let m := run [CallAddConstraint qb qc CANNOT_LINK 1%Q] linked_ab in
  result (sample nat nat (fun _ _ _ => 0) Nat.ltb take_first in_same 1 (Some clusters150) None) (fresh_sampler nat nat, m) = Ok [] /\
  result (sample nat nat (fun _ _ _ => 0) Nat.ltb take_first in_different 1 (Some clusters150) None) (fresh_sampler nat nat, m) = Ok [].
Proof. split; reflexivity. Qed.

(** And every pair that the clusters may be wrong about can be asked by one of the two: the one for the same cluster if the data are together, the other one if not. *)
Theorem C150_asked :
  forall o o' d e m a b, reachable m -> respects m d -> respects m e -> managed m a -> managed m b -> disagree d e a b ->
    o_clusters o = Some SAME_CLUSTER -> o_clusters o' = Some DIFFERENT_CLUSTERS ->
    (dget a d = dget b d -> eligible o m (Some d) (a, b) \/ eligible o m (Some d) (b, a)) /\
    (dget a d <> dget b d -> eligible o' m (Some d) (a, b) \/ eligible o' m (Some d) (b, a)).
Proof. exact C150_asked_proof. Qed.
Print Assumptions C150_asked.

Example C150_asked_ex : reachable linked_ab /\ respects linked_ab clusters150 /\ respects linked_ab whole /\ ~ (dget qa clusters150 = dget qc clusters150 <-> dget qa whole = dget qc whole).
Proof. split; [apply run_reachable|]. split; [apply respects150|]. split; [apply respects150|]. vm_compute. intros [_ H]. specialize (H eq_refl). discriminate. Qed.
