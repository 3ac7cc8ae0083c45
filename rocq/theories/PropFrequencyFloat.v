(** Generated from FrequencyFloatThms.v by tools/gen_props.py: theorem statements,
    each closed by the lemma of the same name proved there. *)

From Coq Require Import String List Bool Arith ZArith QArith Qabs SpecFloat.
From Verif Require Import Base KMeansSpec ClusterSpec Frequency FloatSpec FrequencyThms FrequencyFloatThms.
Import ListNotations.
Open Scope nat_scope.

(** C52 (what holds for floats): with binary64 numbers and at most 2^52 data, each frequency is the exact one up to a relative error of 2^-53, and the frequencies of [k] clusters, added one after the other, give 1 up to [k * 2^-52]. *)
Theorem C52_float_sum_partial :
  forall set_order r f,
    valid_set_order set_order -> NoDup (keys r) -> r <> [] -> (Z.of_nat (length r) <= 2 ^ 52)%Z ->
    compute_clusters_frequency spec_float float_quot set_order r = Ok f ->
    (forall c v, dget c f = Some v -> exists q, stands_for v (Finite q) /\ let exact := Qquot (count_occ Z.eq_dec (vals r) c) (length r) in (0 < exact <= 1 /\ Qabs (q - exact) <= exact * 2 ^ (-53))%Q) /\
    (exists q, stands_for (float_sum (vals f)) (Finite q) /\ Qabs (q - 1) <= inject_Z (Z.of_nat (length f)) * 2 ^ (-52))%Q.
Proof. exact C52_float_sum_partial_proof. Qed.
Print Assumptions C52_float_sum_partial.

(** Ten clusters of one data: the sum is 1 - 2^-53, within the bound. *)
Example C52_float_sum_ex : NoDup (keys ten) /\ ten <> [] /\ (Z.of_nat (length ten) <= 2 ^ 52)%Z /\
  compute_clusters_frequency spec_float float_quot (nodup Z.eq_dec) ten = Ok (combine (vals ten) (ten_frequencies (vals ten))) /\
  float_sum (ten_frequencies (vals ten)) = S754_finite false 9007199254740991 (-53).
Proof. split; [apply ten_NoDup|]. split; [discriminate|]. split; [discriminate|]. split; vm_compute; reflexivity. Qed.
