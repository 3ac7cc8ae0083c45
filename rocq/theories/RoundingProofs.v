(** * Sums and quotients of positive binary64 numbers are the exact ones, up to a relative error of 2^-53. *)

From Coq Require Import List Bool ZArith QArith Qpower Qabs Lqa SpecFloat Lia.
From Verif Require Import FloatSpec FloatThms.
Import ListNotations.
Open Scope Q_scope.

Lemma two_plus e k : 2 ^ (e + k) == 2 ^ e * 2 ^ k.
Proof. apply Qpower_plus. easy. Qed.
Lemma two_Z k : (0 <= k)%Z -> 2 ^ k == inject_Z (2 ^ k).
Proof. intro H. rewrite Zpower_Qpower by auto. reflexivity. Qed.
Lemma two_mono a b : (a <= b)%Z -> 2 ^ a <= 2 ^ b.
Proof.
  intro H. replace b with (a + (b - a))%Z by lia. rewrite two_plus. rewrite (two_Z (b - a)) by lia.
  assert (P := two_pos a). assert (K : inject_Z 1 <= inject_Z (2 ^ (b - a))). { rewrite <- Zle_Qle. assert (0 < 2 ^ (b - a))%Z by (apply Z.pow_pos_nonneg; lia). lia. }
  change (inject_Z 1) with 1 in K. nra.
Qed.
Lemma two_lt_inv a b : 2 ^ a < 2 ^ b -> (a < b)%Z.
Proof. intro H. destruct (Z.lt_ge_cases a b) as [K|K]; auto. apply two_mono in K. lra. Qed.

(** What a truncated number and its two last bits say about the exact number. *)
Definition holds (v : Q) (t : shr_record) : Prop :=
  let m := inject_Z (shr_m t) in
  match shr_r t, shr_s t with
  | false, false => v == m
  | false, true => m < v < m + (1#2)
  | true, false => v == m + (1#2)
  | true, true => m + (1#2) < v < m + 1
  end.

Lemma holds_shr_1 v t : (0 <= shr_m t)%Z -> holds v t -> holds (v * (1#2)) (shr_1 t) /\ shr_m (shr_1 t) = (shr_m t / 2)%Z.
Proof.
  destruct t as [m r s]. cbn [shr_m]. intros P H. destruct m as [|p|p]; [..|lia].
  - split; [|reflexivity]. unfold holds in *. cbn [shr_1 shr_m shr_r shr_s orb] in *. change (inject_Z 0) with 0 in *. destruct r, s; cbn [orb]; lra.
  - destruct p as [p|p|].
    + split; [|cbn [shr_1 shr_m]; rewrite (Pos2Z.inj_xI p); apply (Z.div_unique _ 2 _ 1); lia].
      unfold holds in *. cbn [shr_1 shr_m shr_r shr_s] in *. rewrite Pos2Z.inj_xI, inject_Z_plus, inject_Z_mult in H. change (inject_Z 2) with 2 in H. change (inject_Z 1) with 1 in H. destruct r, s; cbn [orb]; lra.
    + split; [|cbn [shr_1 shr_m]; rewrite (Pos2Z.inj_xO p); apply (Z.div_unique _ 2 _ 0); lia].
      unfold holds in *. cbn [shr_1 shr_m shr_r shr_s] in *. rewrite Pos2Z.inj_xO, inject_Z_mult in H. change (inject_Z 2) with 2 in H. destruct r, s; cbn [orb]; lra.
    + split; [|reflexivity]. unfold holds in *. cbn [shr_1 shr_m shr_r shr_s] in *. change (inject_Z 1) with 1 in H. change (inject_Z 0) with 0. destruct r, s; cbn [orb]; lra.
Qed.

Lemma holds_eq v w t : v == w -> holds v t -> holds w t.
Proof. intros E. unfold holds. destruct (shr_r t), (shr_s t); rewrite E; auto. Qed.

Lemma holds_iter p : forall v t, (0 <= shr_m t)%Z -> holds v t -> holds (v * 2 ^ (- Zpos p)) (iter_pos shr_1 p t) /\ shr_m (iter_pos shr_1 p t) = (shr_m t / 2 ^ Zpos p)%Z.
Proof.
  assert (DP : forall m a b, (0 <= m)%Z -> (m / 2 ^ Zpos a / 2 ^ Zpos b = m / 2 ^ (Zpos a + Zpos b))%Z).
  { intros m a b Hm. rewrite Z.div_div by (try apply Z.pow_nonzero; try apply Z.pow_pos_nonneg; lia). rewrite Z.pow_add_r by lia. auto. }
  induction p as [p IH|p IH|]; intros v t P H; cbn [iter_pos].
  - destruct (holds_shr_1 v t P H) as [H1 E1]. assert (P1 : (0 <= shr_m (shr_1 t))%Z) by (rewrite E1; apply Z.div_pos; lia).
    destruct (IH _ _ P1 H1) as [H2 E2]. assert (P2 : (0 <= shr_m (iter_pos shr_1 p (shr_1 t)))%Z) by (rewrite E2; apply Z.div_pos; [auto|apply Z.pow_pos_nonneg; lia]).
    destruct (IH _ _ P2 H2) as [H3 E3]. split.
    + eapply holds_eq; [|exact H3]. replace (- Zpos p~1)%Z with ((-1 + - Zpos p) + - Zpos p)%Z by lia. rewrite !two_plus. change (2 ^ (-1)) with (1#2). ring.
    + rewrite E3, E2, E1. rewrite DP by (apply Z.div_pos; lia). change (shr_m t / 2)%Z with (shr_m t / 2 ^ 1)%Z. rewrite Z.div_div by (try apply Z.pow_nonzero; try apply Z.pow_pos_nonneg; lia).
      rewrite <- Z.pow_add_r by lia. f_equal. f_equal. lia.
  - destruct (IH _ _ P H) as [H2 E2]. assert (P2 : (0 <= shr_m (iter_pos shr_1 p t))%Z) by (rewrite E2; apply Z.div_pos; [auto|apply Z.pow_pos_nonneg; lia]).
    destruct (IH _ _ P2 H2) as [H3 E3]. split.
    + eapply holds_eq; [|exact H3]. replace (- Zpos p~0)%Z with (- Zpos p + - Zpos p)%Z by lia. rewrite two_plus. ring.
    + rewrite E3, E2. rewrite DP by auto. f_equal. f_equal. lia.
  - destruct (holds_shr_1 v t P H) as [H1 E1]. split; auto.
Qed.

(** Shifting by [n] bits. *)
Lemma holds_shr v t e n : (0 <= shr_m t)%Z -> (0 <= n)%Z -> holds v t ->
  exists v', holds v' (fst (shr t e n)) /\ v' * 2 ^ (e + n) == v * 2 ^ e /\ shr_m (fst (shr t e n)) = (shr_m t / 2 ^ n)%Z /\ snd (shr t e n) = (e + n)%Z.
Proof.
  intros P N H. destruct n as [|p|p]; [..|lia]; cbn [shr fst snd].
  - exists v. rewrite Z.add_0_r. change (2 ^ 0)%Z with 1%Z. rewrite Z.div_1_r. split; auto. split; [reflexivity|]. split; auto.
  - destruct (holds_iter p v t P H) as [H1 E1]. exists (v * 2 ^ (- Zpos p)). repeat split; auto. rewrite <- Qmult_assoc, <- two_plus. replace (- Zpos p + (e + Zpos p))%Z with e by lia. reflexivity.
Qed.

Lemma record_of_loc m l : shr_m (shr_record_of_loc m l) = m.
Proof. destruct l as [|[]]; auto. Qed.

(** Rounding to the nearest integer. *)
Lemma round_near v t : holds v t -> Qabs (inject_Z (round_nearest_even (shr_m t) (loc_of_shr_record t)) - v) <= 1#2.
Proof.
  destruct t as [m r s]. unfold holds. cbn [shr_m shr_r shr_s]. intro H. apply Qabs_Qle_condition.
  destruct r, s; cbn [loc_of_shr_record round_nearest_even]; try destruct (Z.even m); rewrite ?inject_Z_plus; change (inject_Z 1) with 1; lra.
Qed.
Lemma round_between t : (shr_m t <= round_nearest_even (shr_m t) (loc_of_shr_record t) <= shr_m t + 1)%Z.
Proof. destruct t as [m [] []]; cbn; try destruct (Z.even m); lia. Qed.
Lemma holds_between v t : holds v t -> inject_Z (shr_m t) <= v < inject_Z (shr_m t) + 1.
Proof. unfold holds. destruct (shr_r t), (shr_s t); lra. Qed.

Lemma digits_unique p d : (2 ^ (d - 1) <= Zpos p < 2 ^ d)%Z -> Zpos (digits2_pos p) = d.
Proof.
  intros [L U]. assert (B := digits_bounds p). assert (Hd : (0 < d)%Z).
  { destruct (Z.lt_ge_cases 0 d) as [K|K]; auto. exfalso. assert (2 ^ d <= 2 ^ 0)%Z by (apply Z.pow_le_mono_r; lia). change (2 ^ 0)%Z with 1%Z in *. lia. }
  assert (A1 : (2 ^ (d - 1) < 2 ^ Zpos (digits2_pos p))%Z) by lia. apply Z.pow_lt_mono_r_iff in A1; [|lia..].
  assert (A2 : (2 ^ (Zpos (digits2_pos p) - 1) < 2 ^ d)%Z) by lia. apply Z.pow_lt_mono_r_iff in A2; lia.
Qed.

(** Rounding a positive number of the usual range. *)
Lemma round_aux_near v p l e : let x := v * 2 ^ e in holds v (shr_record_of_loc (Zpos p) l) -> (e <= fexp 53 1024 (Zpos (digits2_pos p) + e))%Z ->
  2 ^ (-1022) <= x -> x < 2 ^ 1023 ->
  exists m e', binary_round_aux 53 1024 false (Zpos p) e l = S754_finite false m e' /\ Qabs (mag m e' - x) <= x * 2 ^ (-53).
Proof.
  intros x H A L U. set (d := Zpos (digits2_pos p)) in *. assert (B := digits_bounds p). fold d in B.
  assert (HB := holds_between _ _ H). rewrite record_of_loc in HB.
  assert (Hd : (0 < d)%Z) by (unfold d; lia).
  assert (PE := two_pos e).
  assert (X1 : x < 2 ^ (d + e)).
  { rewrite two_plus. rewrite (two_Z d) by lia. unfold x. apply Qmult_lt_compat_r; auto. apply Qlt_le_trans with (inject_Z (Zpos p) + 1); [lra|]. change 1 with (inject_Z 1). rewrite <- inject_Z_plus, <- Zle_Qle. lia. }
  assert (X2 : 2 ^ (d - 1 + e) <= x).
  { rewrite two_plus. rewrite (two_Z (d - 1)) by lia. unfold x. apply Qmult_le_compat_r; [|lra]. apply Qle_trans with (inject_Z (Zpos p)); [|lra]. rewrite <- Zle_Qle. lia. }
  assert (R1 : (-1022 < d + e)%Z) by (apply two_lt_inv; lra). assert (R2 : (d - 1 + e < 1023)%Z) by (apply two_lt_inv; lra).
  unfold fexp, emin in A. assert (D53 : (53 <= d)%Z) by lia.
  unfold binary_round_aux. unfold shr_fexp at 1. change (Zdigits2 (Zpos p)) with d. unfold fexp, emin.
  replace (Z.max (d + e - 53) (3 - 1024 - 53) - e)%Z with (d - 53)%Z by lia.
  destruct (holds_shr v (shr_record_of_loc (Zpos p) l) e (d - 53)) as (v' & H' & EV & EM & EE); [rewrite record_of_loc; lia|lia|auto|].
  destruct (shr (shr_record_of_loc (Zpos p) l) e (d - 53)) as [t' e'] eqn:ES. cbn [fst snd] in *. subst e'. rewrite record_of_loc in EM.
  replace (e + (d - 53))%Z with (d + e - 53)%Z in * by lia. set (e' := (d + e - 53)%Z) in *. fold x in EV.
  assert (M1 : (2 ^ 52 <= shr_m t' < 2 ^ 53)%Z).
  { rewrite EM. assert (PP : (0 < 2 ^ (d - 53))%Z) by (apply Z.pow_pos_nonneg; lia). split.
    - apply Z.div_le_lower_bound; auto. rewrite <- Z.pow_add_r by lia. replace (d - 53 + 52)%Z with (d - 1)%Z by lia. lia.
    - apply Z.div_lt_upper_bound; auto. rewrite <- Z.pow_add_r by lia. replace (d - 53 + 53)%Z with d by lia. lia. }
  set (M := round_nearest_even (shr_m t') (loc_of_shr_record t')). assert (MB := round_between t'). fold M in MB. assert (MN := round_near v' t' H'). fold M in MN.
  assert (PE' := two_pos e').
  assert (V52 : inject_Z (2 ^ 52) <= v'). { apply Qle_trans with (inject_Z (shr_m t')); [rewrite <- Zle_Qle; lia|]. apply holds_between in H'. lra. }
  assert (ERR : Qabs (inject_Z M * 2 ^ e' - x) <= x * 2 ^ (-53)).
  { rewrite <- EV. setoid_replace (inject_Z M * 2 ^ e' - v' * 2 ^ e') with ((inject_Z M - v') * 2 ^ e') by ring. rewrite Qabs_Qmult, (Qabs_pos (2 ^ e')) by lra.
    setoid_replace (v' * 2 ^ e' * 2 ^ (-53)) with (v' * 2 ^ (-53) * 2 ^ e') by ring. apply Qmult_le_compat_r; [|lra]. apply Qle_trans with (1#2); auto.
    change (1#2) with (1#2). assert (E : inject_Z (2 ^ 52) * 2 ^ (-53) == 1#2) by (vm_compute; reflexivity). rewrite <- E. apply Qmult_le_compat_r; [auto|]. apply Qlt_le_weak, two_pos. }
  destruct (Z.eq_dec M (2 ^ 53)) as [EM2|NM].
  - rewrite EM2. exists (2 ^ 52)%positive, (e' + 1)%Z. unfold shr_fexp, fexp, emin. change (Zdigits2 (2 ^ 53)) with 54%Z.
    replace (Z.max (54 + e' - 53) (3 - 1024 - 53) - e')%Z with 1%Z by (unfold e'; lia). cbn [shr shr_record_of_loc iter_pos]. change (shr_m (shr_1 {| shr_m := 2 ^ 53; shr_r := false; shr_s := false |})) with (Zpos (2 ^ 52)).
    cbv iota beta. replace (Zle_bool (e' + 1) (1024 - 53)) with true by (symmetry; apply Zle_is_le_bool; unfold e'; lia). split; auto.
    rewrite EM2 in ERR. unfold mag. rewrite two_plus. change (2 ^ 1) with 2. setoid_replace (inject_Z (Zpos (2 ^ 52)) * (2 ^ e' * 2)) with (inject_Z (2 ^ 53) * 2 ^ e'); auto.
    change (inject_Z (2 ^ 53)) with (inject_Z (Zpos (2 ^ 52)) * 2). ring.
  - assert (M2 : (2 ^ 52 <= M < 2 ^ 53)%Z) by lia. destruct M as [|q|q] eqn:EQ; [lia| |lia].
    exists q, e'. unfold shr_fexp, fexp, emin. change (Zdigits2 (Zpos q)) with (Zpos (digits2_pos q)). rewrite (digits_unique q 53) by exact M2.
    replace (Z.max (53 + e' - 53) (3 - 1024 - 53) - e')%Z with 0%Z by (unfold e'; lia). cbn [shr shr_record_of_loc shr_m].
    replace (Zle_bool e' (1024 - 53)) with true by (symmetry; apply Zle_is_le_bool; unfold e'; lia). split; auto.
Qed.

(** Aligning a mantissa on a smaller exponent. *)
Lemma shift_pos_value d p : Zpos (shift_pos d p) = (Zpos p * 2 ^ Zpos d)%Z.
Proof. unfold shift_pos. induction d using Pos.peano_ind.
  - cbn. lia.
  - rewrite Pos.iter_succ. rewrite Pos2Z.inj_xO. rewrite IHd, Pos2Z.inj_succ, Z.pow_succ_r by lia. lia.
Qed.
Lemma shl_align_value p e e' : mag (fst (shl_align p e e')) (snd (shl_align p e e')) == mag p e /\ snd (shl_align p e e') = Z.min e e' /\
  (Zpos (digits2_pos (fst (shl_align p e e'))) + snd (shl_align p e e') = Zpos (digits2_pos p) + e)%Z.
Proof.
  unfold shl_align. destruct (e' - e)%Z as [|d|d] eqn:E; cbn [fst snd]; try (split; [reflexivity|split; [lia|lia]]).
  assert (K := shift_pos_value d p). split; [|split; [lia|]].
  - unfold mag. rewrite K, inject_Z_mult. rewrite <- two_Z by lia. rewrite <- Qmult_assoc, <- two_plus. replace (Zpos d + e')%Z with e by lia. reflexivity.
  - assert (B := digits_bounds p). rewrite (digits_unique (shift_pos d p) (Zpos (digits2_pos p) + Zpos d)); [lia|]. rewrite K.
    assert (PP : (0 < 2 ^ Zpos d)%Z) by (apply Z.pow_pos_nonneg; lia).
    replace (Zpos (digits2_pos p) + Zpos d - 1)%Z with (Zpos (digits2_pos p) - 1 + Zpos d)%Z by lia. rewrite !Z.pow_add_r by lia. nia.
Qed.

Lemma binary_round_near p e : 2 ^ (-1022) <= mag p e -> mag p e < 2 ^ 1023 ->
  exists m e', binary_round 53 1024 false p e = S754_finite false m e' /\ Qabs (mag m e' - mag p e) <= mag p e * 2 ^ (-53).
Proof.
  intros L U. unfold binary_round. destruct (shl_align_value p e (fexp 53 1024 (Zpos (digits2_pos p) + e))) as (V & E & D).
  destruct (shl_align p e (fexp 53 1024 (Zpos (digits2_pos p) + e))) as [q e1]. cbn [fst snd] in *.
  destruct (round_aux_near (inject_Z (Zpos q)) q loc_Exact e1) as (m & e' & R & K); [unfold holds; cbn; reflexivity|rewrite D; lia|change (2 ^ (-1022) <= mag q e1); rewrite V; auto|change (mag q e1 < 2 ^ 1023); rewrite V; auto|].
  exists m, e'. split; auto. fold (mag q e1) in K. rewrite V in K. exact K.
Qed.

(** Numbers that need no rounding. *)
Lemma binary_round_exact p : (Zpos p < 2 ^ 53)%Z -> exists m e, binary_round 53 1024 false p 0 = S754_finite false m e /\ mag m e == inject_Z (Zpos p).
Proof.
  intro U. unfold binary_round. assert (B := digits_bounds p). assert (D1 : (Zpos (digits2_pos p) <= 53)%Z).
  { assert (K : (2 ^ (Zpos (digits2_pos p) - 1) < 2 ^ 53)%Z) by lia. apply Z.pow_lt_mono_r_iff in K; lia. }
  destruct (shl_align_value p 0 (fexp 53 1024 (Zpos (digits2_pos p) + 0))) as (V & E & D).
  destruct (shl_align p 0 (fexp 53 1024 (Zpos (digits2_pos p) + 0))) as [q e1]. cbn [fst snd] in *. exists q, e1.
  unfold fexp, emin in E. assert (D' : Zpos (digits2_pos q) = 53%Z) by lia.
  unfold binary_round_aux. unfold shr_fexp at 1. change (Zdigits2 (Zpos q)) with (Zpos (digits2_pos q)). rewrite D'. unfold fexp, emin.
  replace (Z.max (53 + e1 - 53) (3 - 1024 - 53) - e1)%Z with 0%Z by lia. cbn [shr shr_record_of_loc shr_m loc_of_shr_record round_nearest_even].
  unfold shr_fexp. change (Zdigits2 (Zpos q)) with (Zpos (digits2_pos q)). rewrite D'. unfold fexp, emin.
  replace (Z.max (53 + e1 - 53) (3 - 1024 - 53) - e1)%Z with 0%Z by lia. cbn [shr shr_record_of_loc shr_m].
  replace (Zle_bool e1 (1024 - 53)) with true by (symmetry; apply Zle_is_le_bool; lia). split; auto.
  rewrite V. unfold mag. change (2 ^ 0) with 1. ring.
Qed.

(** Sums. *)
Lemma add_near m1 e1 m2 e2 : let x := mag m1 e1 + mag m2 e2 in 2 ^ (-1022) <= x -> x < 2 ^ 1023 ->
  exists m e, SFadd 53 1024 (S754_finite false m1 e1) (S754_finite false m2 e2) = S754_finite false m e /\ Qabs (mag m e - x) <= x * 2 ^ (-53).
Proof.
  intros x L U. unfold SFadd. destruct (shl_align_value m1 e1 (Z.min e1 e2)) as (V1 & E1 & _). destruct (shl_align_value m2 e2 (Z.min e1 e2)) as (V2 & E2 & _).
  destruct (shl_align m1 e1 (Z.min e1 e2)) as [q1 f1]. destruct (shl_align m2 e2 (Z.min e1 e2)) as [q2 f2]. cbn [fst snd] in *. subst f1 f2.
  replace (Z.min e1 (Z.min e1 e2)) with (Z.min e1 e2) in V1 by lia. replace (Z.min e2 (Z.min e1 e2)) with (Z.min e1 e2) in V2 by lia.
  cbn [cond_Zopp]. change (Zpos q1 + Zpos q2)%Z with (Zpos (q1 + q2)). cbn [binary_normalize].
  assert (V : mag (q1 + q2) (Z.min e1 e2) == x). { unfold x. rewrite <- V1, <- V2. unfold mag. rewrite Pos2Z.inj_add, inject_Z_plus. ring. }
  destruct (binary_round_near (q1 + q2) (Z.min e1 e2)) as (m & e & R & K); [rewrite V; auto..|]. exists m, e. split; auto. rewrite V in K. exact K.
Qed.

(** Quotients. *)
Lemma location_holds q r m2 : (0 < m2)%Z -> (0 <= r < m2)%Z -> holds (inject_Z q + inject_Z r / inject_Z m2) (shr_record_of_loc q (new_location m2 r)).
Proof.
  intros P [R1 R2]. assert (PQ : 0 < inject_Z m2) by (change 0 with (inject_Z 0); rewrite <- Zlt_Qlt; auto).
  assert (LE : forall a b, (a < b)%Z -> inject_Z a < inject_Z b) by (intros; rewrite <- Zlt_Qlt; auto).
  assert (DV : inject_Z r / inject_Z m2 * inject_Z m2 == inject_Z r) by (field; lra). set (w := inject_Z r / inject_Z m2) in *.
  assert (W1 : inject_Z r < inject_Z m2) by auto. assert (W1' : w < 1) by nra.
  assert (C0 : r = 0%Z -> w == 0) by (intros ->; change (inject_Z 0) with 0 in DV; nra). assert (C1 : (0 < r)%Z -> 0 < w) by (intro H; apply LE in H; change (inject_Z 0) with 0 in H; nra).
  assert (C2 : (2 * r < m2)%Z -> w < 1#2) by (intro H; apply LE in H; rewrite inject_Z_mult in H; change (inject_Z 2) with 2 in H; nra).
  assert (C3 : (m2 < 2 * r)%Z -> 1#2 < w) by (intro H; apply LE in H; rewrite inject_Z_mult in H; change (inject_Z 2) with 2 in H; nra).
  assert (C4 : (m2 = 2 * r)%Z -> w == 1#2) by (intros ->; rewrite inject_Z_mult in DV, PQ; change (inject_Z 2) with 2 in *; nra).
  unfold new_location. destruct (Z.even m2) eqn:EV.
  - unfold new_location_even. destruct (Zeq_bool r 0) eqn:Z0; [apply Zeq_bool_eq in Z0; unfold holds; cbn; rewrite C0 by auto; ring|]. apply Zeq_bool_neq in Z0. specialize (C1 ltac:(lia)).
    destruct (Z.compare_spec (2 * r) m2) as [H|H|H]; unfold holds; cbn; [specialize (C4 ltac:(lia))|specialize (C2 H)|specialize (C3 H)]; lra.
  - unfold new_location_odd. destruct (Zeq_bool r 0) eqn:Z0; [apply Zeq_bool_eq in Z0; unfold holds; cbn; rewrite C0 by auto; ring|]. apply Zeq_bool_neq in Z0. specialize (C1 ltac:(lia)).
    assert (OD : (2 * r <> m2)%Z). { intro H. rewrite <- H in EV. rewrite Z.even_mul in EV. discriminate. }
    destruct (Z.compare_spec (2 * r + 1) m2) as [H|H|H]; unfold holds; cbn; [specialize (C2 ltac:(lia))|specialize (C2 ltac:(lia))|specialize (C3 ltac:(lia))]; lra.
Qed.

Lemma div_near m1 e1 m2 e2 : let x := mag m1 e1 / mag m2 e2 in 2 ^ (-1022) <= x -> x < 2 ^ 1023 ->
  exists m e, SFdiv 53 1024 (S754_finite false m1 e1) (S754_finite false m2 e2) = S754_finite false m e /\ Qabs (mag m e - x) <= x * 2 ^ (-53).
Proof.
  intros x L U. unfold SFdiv, SFdiv_core_binary. cbn [Zdigits2 xorb].
  set (d1 := Zpos (digits2_pos m1)). set (d2 := Zpos (digits2_pos m2)). assert (B1 := digits_bounds m1). assert (B2 := digits_bounds m2). fold d1 in B1. fold d2 in B2.
  assert (G1 : (0 < d1)%Z) by (unfold d1; lia). assert (G2 : (0 < d2)%Z) by (unfold d2; lia).
  set (e' := Z.min (fexp 53 1024 (d1 + e1 - (d2 + e2))) (e1 - e2)). set (s := (e1 - e2 - e')%Z). assert (S0 : (0 <= s)%Z) by (unfold s, e'; lia).
  replace (match s with Z0 => Zpos m1 | Zpos _ => Z.shiftl (Zpos m1) s | Zneg _ => 0%Z end) with (Zpos m1 * 2 ^ s)%Z by (destruct s as [|s'|s']; [cbn; lia|rewrite Z.shiftl_mul_pow2 by lia; auto|lia]).
  set (m' := (Zpos m1 * 2 ^ s)%Z). assert (PS : (0 < 2 ^ s)%Z) by (apply Z.pow_pos_nonneg; lia).
  assert (DE := Z_div_mod m' (Zpos m2) ltac:(lia)). destruct (Z.div_eucl m' (Zpos m2)) as [q r]. destruct DE as [DE R].
  assert (P1 := mag_pos m1 e1). assert (P2 := mag_pos m2 e2).
  assert (QM2 : 0 < inject_Z (Zpos m2)) by reflexivity. assert (T1 := two_pos e1). assert (T2 := two_pos e2). assert (T' := two_pos e').
  assert (HL := location_holds q r (Zpos m2) ltac:(lia) R).
  assert (V : (inject_Z q + inject_Z r / inject_Z (Zpos m2)) * 2 ^ e' == x).
  { unfold x, mag. assert (E : inject_Z q + inject_Z r / inject_Z (Zpos m2) == inject_Z (Zpos m1) * 2 ^ s / inject_Z (Zpos m2)).
    { rewrite two_Z by auto. rewrite <- inject_Z_mult. fold m'. rewrite DE, inject_Z_plus, inject_Z_mult. field. lra. }
    rewrite E. setoid_replace (inject_Z (Zpos m1) * 2 ^ e1) with (inject_Z (Zpos m1) * 2 ^ s * 2 ^ e' * 2 ^ e2); [field; split; lra|].
    rewrite <- !Qmult_assoc, <- !two_plus. unfold s. replace (e1 - e2 - e' + (e' + e2))%Z with e1 by lia. reflexivity. }
  (* the size of the quotient *)
  assert (XU : x < 2 ^ (d1 + e1 - (d2 + e2) + 1)).
  { unfold x. apply Qlt_shift_div_r; auto. apply Qlt_le_trans with (2 ^ (d1 + e1)).
    - unfold mag. rewrite two_plus. apply Qmult_lt_compat_r; auto. rewrite two_Z by lia. rewrite <- Zlt_Qlt. lia.
    - apply Qle_trans with (2 ^ (d1 + e1 - (d2 + e2) + 1) * 2 ^ (d2 - 1 + e2)).
      + rewrite <- two_plus. apply two_mono. lia.
      + apply Qmult_le_l; [apply two_pos|]. unfold mag. rewrite two_plus. apply Qmult_le_compat_r; [|lra]. rewrite two_Z by lia. rewrite <- Zle_Qle. lia. }
  assert (DD : (-1022 < d1 + e1 - (d2 + e2) + 1)%Z) by (apply two_lt_inv; lra).
  assert (FX : (e' <= d1 + e1 - (d2 + e2) - 52)%Z) by (unfold e', fexp, emin; lia).
  assert (QB : (2 ^ (d1 + s - d2 - 1) <= q)%Z).
  { assert (EQ : q = (m' / Zpos m2)%Z) by (apply (Z.div_unique _ _ _ r); lia). rewrite EQ. apply Z.div_le_lower_bound; [lia|]. unfold m'. apply Z.le_trans with (2 ^ (d1 - 1) * 2 ^ s)%Z; [|apply Z.mul_le_mono_nonneg_r; lia].
    rewrite <- Z.pow_add_r by lia. apply Z.le_trans with (2 ^ d2 * 2 ^ (d1 + s - d2 - 1))%Z; [apply Z.mul_le_mono_nonneg_r; [apply Z.pow_nonneg; lia|lia]|]. rewrite <- Z.pow_add_r by (unfold s; lia). apply Z.pow_le_mono_r; lia. }
  assert (QP : (0 < 2 ^ (d1 + s - d2 - 1))%Z) by (apply Z.pow_pos_nonneg; unfold s; lia).
  destruct q as [|q|q]; [lia| |lia].
  assert (DQ : (d1 + s - d2 <= Zpos (digits2_pos q))%Z).
  { assert (BQ := digits_bounds q). assert (K : (2 ^ (d1 + s - d2 - 1) < 2 ^ Zpos (digits2_pos q))%Z) by lia. apply Z.pow_lt_mono_r_iff in K; [lia|lia|unfold s; lia]. }
  destruct (round_aux_near (inject_Z (Zpos q) + inject_Z r / inject_Z (Zpos m2)) q (new_location (Zpos m2) r) e') as (m & e & E & K); auto.
  - apply Z.le_trans with (fexp 53 1024 (d1 + e1 - (d2 + e2))); [unfold e'; lia|]. unfold fexp. unfold s in *. lia.
  - rewrite V; auto.
  - rewrite V; auto.
  - exists m, e. split; auto. rewrite V in K. exact K.
Qed.
