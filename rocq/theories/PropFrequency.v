(** Generated from FrequencyThms.v by tools/gen_props.py: theorem statements,
    each closed by the lemma of the same name proved there. *)

From Coq Require Import String List Bool Arith ZArith QArith Permutation Sorted SpecFloat Lia.
From Verif Require Import Base KMeansSpec ClusterSpec Frequency FrequencyThms.
Import ListNotations.
Open Scope nat_scope.

Lemma id_set_order : valid_set_order (nodup Z.eq_dec).
Proof. intro l. split; [apply NoDup_nodup|intro x; apply nodup_In]. Qed.
Definition ex : dict pystr Z := [(str "a", 4); (str "b", 1); (str "c", 4); (str "d", 4)]%Z.

(** C52: the frequencies are about exactly the cluster numbers in use, in increasing order, and each is the number of IDs in the cluster divided by the number of IDs; no ID gives an empty dictionary.  [div] is any quotient. *)
Theorem C52_frequencies :
  forall D div set_order r,
    valid_set_order set_order -> NoDup (keys r) ->
    exists f, compute_clusters_frequency D div set_order r = Ok f /\
      StronglySorted Z.lt (keys f) /\
      (forall c, In c (keys f) <-> exists x, dget x r = Some c) /\
      (forall c v, dget c f = Some v -> v = div (count_occ Z.eq_dec (vals r) c) (length r)).
Proof. exact C52_frequencies_proof. Qed.
Print Assumptions C52_frequencies.

Example C52_ex : compute_clusters_frequency (nat * nat) pair (nodup Z.eq_dec) ex = Ok [(1, (1, 4)%nat); (4, (3, 4)%nat)]%Z /\ NoDup (keys ex).
Proof. split; [vm_compute; reflexivity|]. repeat constructor; simpl; intuition (vm_compute in *; congruence). Qed.

(** C52: in exact arithmetic the frequencies are positive, at most 1, and sum to 1. *)
Theorem C52_distribution :
  forall set_order r f,
    valid_set_order set_order -> NoDup (keys r) ->
    compute_clusters_frequency Q Qquot set_order r = Ok f ->
    (forall c v, dget c f = Some v -> 0 < v <= 1)%Q /\ (r <> [] -> Qsum (vals f) == 1)%Q /\ (r = [] -> f = []).
Proof. exact C52_distribution_proof. Qed.
Print Assumptions C52_distribution.

Example C52_distribution_ex : exists a b, compute_clusters_frequency Q Qquot (nodup Z.eq_dec) ex = Ok [(1%Z, a); (4%Z, b)] /\ (a == 1#4)%Q /\ (b == 3#4)%Q.
Proof. do 2 eexists. split; [vm_compute; reflexivity|]. split; vm_compute; reflexivity. Qed.

(** C52 (refuted for floats): the sum of the frequencies, computed by Python, is not always 1: ten clusters of one ID give 0.9999999999999999. *)
Theorem C52_float_sum_refuted :
  exists r, NoDup (keys r) /\
    forall set_order f, valid_set_order set_order ->
      compute_clusters_frequency spec_float float_quot set_order r = Ok f ->
      SFeqb (float_sum (vals f)) (float_of_nat 1) = false /\ SFltb (float_sum (vals f)) (float_of_nat 1) = true.
Proof. exact C52_float_sum_refuted_proof. Qed.
Print Assumptions C52_float_sum_refuted.
