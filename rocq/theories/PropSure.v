(** Generated from SureThms.v by tools/gen_props.py: theorem statements,
    each closed by the lemma of the same name proved there. *)

From Coq Require Import String List Bool Arith ZArith QArith Lia.
From Verif Require Import Base Manager Spec ManagerThms ManagerInv ManagerQueries ClusterSpec EffortSpec WrongSpec SureSpec SureThms.
Import ListNotations.
Open Scope nat_scope.

(** **C149.** Some clusters respect the constraints. They are sure - no true clusters that the constraints allow are different - exactly when the constraints are complete. *)
Theorem C149_sure :
  forall m d, reachable m -> respects m d -> (sure m d <-> complete m).
Proof. exact C149_sure_proof. Qed.
Print Assumptions C149_sure.

Open Scope string_scope.
Definition a149 : pystr := str "a".  Definition b149 : pystr := str "b".  Definition c149 : pystr := str "c".
Close Scope string_scope.
Definition three := [a149; b149; c149].
Definition two_clusters : dict pystr Z := [(a149, 0%Z); (b149, 0%Z); (c149, 1%Z)].
Definition known149 := run [CallAddConstraint a149 b149 MUST_LINK 1%Q; CallAddConstraint b149 c149 CANNOT_LINK 1%Q] (init three).
Definition known_less := run [CallAddConstraint a149 b149 MUST_LINK 1%Q] (init three).
Lemma three_only m : ids m = three -> forall x, managed m x -> x = a149 \/ x = b149 \/ x = c149.
Proof. intros E x M. apply managed_ids in M. rewrite E in M. destruct M as [M|[M|[M|[]]]]; auto. Qed.
Lemma respects149 : respects known149 two_clusters /\ respects known_less two_clusters.
Proof.
  assert (K1 : forall x, managed known149 x -> x = a149 \/ x = b149 \/ x = c149) by (apply three_only; vm_compute; auto).
  assert (K2 : forall x, managed known_less x -> x = a149 \/ x = b149 \/ x = c149) by (apply three_only; vm_compute; auto).
  split; split; intros a b Ma Mb; (apply K1 in Ma, Mb || apply K2 in Ma, Mb); destruct Ma as [-> |[-> | ->]], Mb as [-> |[-> | ->]]; vm_compute; congruence.
Qed.
Example C149_sure_ex : reachable known149 /\ respects known149 two_clusters /\ sure known149 two_clusters /\ ~ sure known_less two_clusters.
Proof.
  assert (R : reachable known149) by apply run_reachable. assert (R' : reachable known_less) by apply run_reachable. destruct respects149 as [D D'].
  repeat split; auto; try apply D.
  - apply (proj2 (C149_sure_proof _ _ R D) eq_refl e H H0 a b H1 H2).
  - apply (proj2 (C149_sure_proof _ _ R D) eq_refl e H H0 a b H1 H2).
  - intro S. apply (C149_sure_proof _ _ R' D') in S. vm_compute in S. discriminate.
Qed.

(** So being sure of [c] clusters of [n] data takes at least [(n - c) + c * (c - 1) / 2] constraints. *)
Theorem C149_needed :
  forall m d l, reachable m -> respects m d -> sure m d -> ask get_list_of_managed_data_IDs m = Ok l ->
  let n := length l in let c := nb_clusters_among l d in 2 * (n - c) + c * (c - 1) <= 2 * (effort m MUST_LINK + effort m CANNOT_LINK).
Proof. exact C149_needed_proof. Qed.
Print Assumptions C149_needed.

Example C149_needed_ex : nb_clusters_among three two_clusters = 2 /\ 2 * (3 - 2) + 2 * (2 - 1) = 2 * (effort known149 MUST_LINK + effort known149 CANNOT_LINK).
Proof. vm_compute. auto. Qed.

(** With fewer, some true clusters that the constraints allow are different, whatever the [c] clusters and the constraints. *)
Theorem C149_not_sure :
  forall m d l, reachable m -> respects m d -> ask get_list_of_managed_data_IDs m = Ok l ->
  let n := length l in let c := nb_clusters_among l d in 2 * (effort m MUST_LINK + effort m CANNOT_LINK) < 2 * (n - c) + c * (c - 1) ->
  exists e a b, covers_exactly m e /\ respects m e /\ managed m a /\ managed m b /\ disagree d e a b.
Proof. exact C149_not_sure_proof. Qed.
Print Assumptions C149_not_sure.

Example C149_not_sure_ex : reachable known_less /\ respects known_less two_clusters /\ ask get_list_of_managed_data_IDs known_less = Ok three /\
  2 * (effort known_less MUST_LINK + effort known_less CANNOT_LINK) < 2 * (length three - nb_clusters_among three two_clusters) + nb_clusters_among three two_clusters * (nb_clusters_among three two_clusters - 1).
Proof. split; [apply run_reachable|]. split; [apply respects149|]. vm_compute. split; auto. Qed.

(** And for every clusters that many answers are enough, if they are right. *)
Theorem C149_enough :
  forall l d, NoDup l -> let n := length l in let c := nb_clusters_among l d in
  exists answers m, 2 * length answers = 2 * (n - c) + c * (c - 1) /\ add_all answers (init l) = (m, Ok tt) /\ respects m d /\ sure m d.
Proof. exact C149_enough_proof. Qed.
Print Assumptions C149_enough.

Example C149_enough_ex : NoDup three /\ add_all [((a149, b149), MUST_LINK); ((b149, c149), CANNOT_LINK)] (init three) = (known149, Ok tt).
Proof. split; [|vm_compute; auto]. repeat constructor; cbn; intuition discriminate. Qed.
