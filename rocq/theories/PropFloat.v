(** Generated from FloatThms.v by tools/gen_props.py: theorem statements,
    each closed by the lemma of the same name proved there. *)

From Coq Require Import String List Bool Arith ZArith QArith SpecFloat Lia.
From Verif Require Import Base Manager Spec ManagerThms Sampling SamplingSpec HierSpec FloatSpec FloatThms.
Import ListNotations.
Open Scope nat_scope.

Definition A := str "a". Definition B := str "b". Definition C := str "c".
(** 1, 2, -1 and 2^1000 *)
Definition one := S754_finite false 4503599627370496 (-52).
Definition two := S754_finite false 4503599627370496 (-51).
Definition minus_one := S754_finite true 4503599627370496 (-52).
Definition huge := S754_finite false 4503599627370496 948.

(** C138 (values): the comparisons of two floats that are numbers compare what they stand for. *)
Theorem C138_compare_values :
  forall x y v w, binary64 x -> binary64 y -> stands_for x v -> stands_for y w ->
    (SFltb x y = true <-> less v w) /\ (SFleb x y = true <-> ~ less w v).
Proof. exact C138_compare_values_proof. Qed.
Print Assumptions C138_compare_values.

(** -1 < 1, and the largest float is less than infinity. *)
Example C138_compare_values_ex :
  let top := S754_finite false 9007199254740991 971 in
  binary64 one /\ stands_for one (Finite 1) /\ binary64 minus_one /\ stands_for minus_one (Finite (-1)) /\ SFltb minus_one one = true /\
  binary64 top /\ binary64 (S754_infinity false) /\ SFltb top (S754_infinity false) = true /\
  SFltb one S754_nan = false /\ SFleb S754_nan one = false.
Proof. repeat split. Qed.

(** C138 (orders): on floats that are numbers "<" is a strict weak order and "<=" its complement; without the second zero it is a strict total order; infinity is below nothing.  These are the hypotheses of the theorems of this development on the comparison of distances. *)
Theorem C138_orders :
  strict_weak_order lt_number /\ (forall x y, le_number x y = negb (lt_number y x)) /\
  strict_total_order lt_plain /\ (forall x, lt_plain infinite x = false).
Proof. exact C138_orders_proof. Qed.
Print Assumptions C138_orders.

(** Not a number breaks the order: it is equivalent to 1 and to 2. *)
Example C138_orders_ex : ~ strict_weak_order SFltb /\ ~ (forall x y, SFltb x y = false -> SFltb y x = false -> x = y).
Proof.
  split.
  - intros (_ & _ & W). destruct (W one S754_nan two eq_refl); discriminate.
  - intro T. specialize (T (S754_zero true) (S754_zero false) eq_refl eq_refl). discriminate.
Qed.

(** C138 (sampling): when the distances of the eligible pairs are floats that stand for numbers, sampling by distance returns the pairs sorted by what their distances stand for, leaves out no strictly better pair, and breaks ties in the order of the double loop. *)
Theorem C138_sampling :
  forall vec (pairwise : list vec -> nat -> nat -> spec_float) draw o nb clustering v s m l, reachable m ->
    o_distance o = Some CLOSEST \/ o_distance o = Some FARTHEST -> (0 < nb)%Z ->
    result (sample vec spec_float pairwise SFltb draw o nb clustering (Some v)) (s, m) = Ok l ->
    let eligible := eligible o m clustering in
    let dist p x := exists d, distance_is pairwise m v p d /\ stands_for d x in
    let first x y := (o_distance o = Some CLOSEST /\ less x y) \/ (o_distance o = Some FARTHEST /\ less y x) in
    (forall p d, eligible p -> distance_is pairwise m v p d -> binary64 d /\ d <> S754_nan) ->
    (forall p, eligible p -> exists x, dist p x /\ forall x', dist p x' -> same x' x) /\
    (forall p q x y, dist p x -> dist q y -> before l p q -> ~ first y x) /\
    (forall p q x y, dist p x -> dist q y -> In p l -> eligible q -> ~ In q l -> ~ first y x) /\
    (forall p q x y, dist p x -> dist q y -> eligible p -> In q l -> same x y -> enumerated_before m p q -> before l p q).
Proof. exact C138_sampling_proof. Qed.
Print Assumptions C138_sampling.

(** Three points on a line, at 1, 2 and -1: the pairs by distance.  Then 2^1000, 2 and 2^100: these
    finite vectors give an infinite distance, one that is not a number, and 2^100, and the pair said to be the closest
    is at an infinite distance (as with Python's sort, for which the three keys are already sorted). *)
Example C138_sampling_ex :
  let o := mkOptions None (Some CLOSEST) false false in
  let run nb v := result (sample spec_float spec_float euclidean SFltb (fun l _ => l) o nb None (Some v)) (fresh_sampler spec_float spec_float, init [A; B; C]) in
  let near := [(A, one); (B, two); (C, minus_one)] in
  let far := [(A, huge); (B, two); (C, S754_finite false 4503599627370496 48)] in
  run 3%Z near = Ok [(A, B); (A, C); (B, C)] /\
  (forall i j, i < 3 -> j < 3 -> binary64 (euclidean [one; two; minus_one] i j) /\ euclidean [one; two; minus_one] i j <> S754_nan) /\
  run 1%Z far = Ok [(A, B)] /\
  map (fun p => euclidean (map snd far) (fst p) (snd p)) [(0, 1); (0, 2); (1, 2)] =
    [S754_infinity false; S754_nan; S754_finite false 4503599627370496 48].
Proof.
  cbv zeta. split; [vm_compute; reflexivity|]. split; [|split; vm_compute; reflexivity].
  intros i j I J. unfold binary64. destruct i as [|[|[|i]]]; [..|lia]; (destruct j as [|[|[|j]]]; [..|lia]); vm_compute; split; congruence.
Qed.
