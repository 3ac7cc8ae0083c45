(** * The frequencies as Python computes them (C52). *)

From Coq Require Import String List Bool Arith ZArith QArith Qpower Qabs Lqa Sorted SpecFloat Lia.
(*HEADER
From Coq Require Import String List Bool Arith ZArith QArith Qabs SpecFloat.
From Verif Require Import Base KMeansSpec ClusterSpec Frequency FloatSpec FrequencyThms FrequencyFloatThms.
Import ListNotations.
Open Scope nat_scope.
HEADER*)
From Verif Require Import Base Sampling SamplingProofs ClusterSpec ClusterProofs KMeansSpec KMeansProofs DbscanProofs Frequency FloatSpec FloatThms RoundingProofs FrequencyThms.
Import ListNotations.
Open Scope Q_scope.

(** A positive float near a number. *)
Definition near (k : nat) (x : Q) (f : spec_float) : Prop :=
  exists m e, f = S754_finite false m e /\ x * (1 - inject_Z (Z.of_nat k) * 2 ^ (-53)) <= mag m e <= x * (1 + 2 * inject_Z (Z.of_nat k) * 2 ^ (-53)).

Lemma nat_float n : (0 < n)%nat -> (Z.of_nat n < 2 ^ 53)%Z -> exists m e, float_of_nat n = S754_finite false m e /\ mag m e == inject_Z (Z.of_nat n).
Proof.
  intros P U. unfold float_of_nat, binary_normalize. destruct (Z.of_nat n) as [|p|p] eqn:E; [lia| |lia]. apply binary_round_exact; auto.
Qed.

Lemma quot_float a n : (0 < a <= n)%nat -> (Z.of_nat n <= 2 ^ 52)%Z ->
  exists m e, float_quot a n = S754_finite false m e /\ Qabs (mag m e - Qquot a n) <= Qquot a n * 2 ^ (-53).
Proof.
  intros P U. assert (U' : (Z.of_nat n < 2 ^ 53)%Z) by (change (2 ^ 53)%Z with (2 * 2 ^ 52)%Z; lia).
  destruct (nat_float a) as (m1 & e1 & E1 & V1); [lia|lia|]. destruct (nat_float n) as (m2 & e2 & E2 & V2); [lia|lia|].
  unfold float_quot. rewrite E1, E2.
  assert (PA : 1 <= inject_Z (Z.of_nat a)) by (change 1 with (inject_Z 1); rewrite <- Zle_Qle; lia). assert (PN : inject_Z (Z.of_nat a) <= inject_Z (Z.of_nat n)) by (rewrite <- Zle_Qle; lia).
  assert (PU : inject_Z (Z.of_nat n) <= inject_Z (2 ^ 52)) by (rewrite <- Zle_Qle; lia).
  assert (V : mag m1 e1 / mag m2 e2 == Qquot a n) by (unfold Qquot; rewrite V1, V2; reflexivity).
  destruct (div_near m1 e1 m2 e2) as (m & e & E & K).
  - rewrite V. unfold Qquot. apply Qle_shift_div_l; [lra|]. apply Qle_trans with (2 ^ (-1022) * inject_Z (2 ^ 52)); [apply Qmult_le_l; [apply two_pos|auto]|]. apply Qle_trans with 1; [vm_compute; discriminate|auto].
  - rewrite V. unfold Qquot. apply Qlt_shift_div_r; [lra|]. apply Qle_lt_trans with (1 * inject_Z (Z.of_nat n)); [lra|]. apply Qmult_lt_compat_r; [lra|]. vm_compute. reflexivity.
  - exists m, e. split; auto. rewrite V in K. exact K.
Qed.

Lemma near_quot a n : (0 < a <= n)%nat -> (Z.of_nat n <= 2 ^ 52)%Z -> near 1 (Qquot a n) (float_quot a n).
Proof.
  intros P U. destruct (quot_float a n P U) as (m & e & E & K). exists m, e. split; auto. apply Qabs_Qle_condition in K. change (inject_Z (Z.of_nat 1)) with 1.
  assert (0 <= Qquot a n). { unfold Qquot. apply Qle_shift_div_l; [change 0 with (inject_Z 0); rewrite <- Zlt_Qlt; lia|]. rewrite Qmult_0_l. change 0 with (inject_Z 0). rewrite <- Zle_Qle. lia. }
  assert (T := two_pos (-53)). nra.
Qed.

(** One more term. *)
Lemma near_add k x y s t : (Z.of_nat k < 2 ^ 52)%Z -> (1 <= k)%nat -> 0 < x -> 2 ^ (-52) <= y -> x + y <= 1 -> near k x s -> near 1 y t -> near (S k) (x + y) (SFadd 53 1024 s t).
Proof.
  intros U K1 PX PY XY (m1 & e1 & -> & L1 & U1) (m2 & e2 & -> & L2 & U2). change (inject_Z (Z.of_nat 1)) with 1 in *.
  assert (T := two_pos (-53)). set (u := 2 ^ (-53)) in *. set (c := inject_Z (Z.of_nat k)) in *.
  assert (C1 : 1 <= c) by (unfold c; change 1 with (inject_Z 1); rewrite <- Zle_Qle; lia).
  assert (CU : c * u <= 1#2). { apply Qle_trans with (inject_Z (2 ^ 52) * u); [apply Qmult_le_compat_r; [unfold c; rewrite <- Zle_Qle; lia|lra]|]. unfold u. vm_compute. discriminate. }
  assert (Y0 : 2 ^ (-52) == 2 * u) by (unfold u; vm_compute; reflexivity). assert (SM : u <= 1#4) by (unfold u; vm_compute; discriminate).
  assert (XC : 0 <= x * (c * u)) by nra. assert (XC2 : x * (c * u) <= x * (1#2)) by nra.
  set (z := mag m1 e1 + mag m2 e2). assert (ZL : (x + y) * (1 - c * u) <= z) by (unfold z; nra). assert (ZU : z <= (x + y) * (1 + 2 * c * u)) by (unfold z; nra).
  destruct (add_near m1 e1 m2 e2) as (m & e & E & N).
  - fold z. assert (2 ^ (-1022) <= u) by (unfold u; apply two_mono; lia). nra.
  - fold z. assert (3 < 2 ^ 1023) by (vm_compute; reflexivity). nra.
  - rewrite E. exists m, e. split; auto. fold z u in N. apply Qabs_Qle_condition in N. replace (Z.of_nat (S k)) with (Z.of_nat k + 1)%Z by lia. rewrite inject_Z_plus. change (inject_Z 1) with 1. fold c u.
    assert (W : 0 < x + y) by lra. set (w := x + y) in *. assert (CU0 : 0 <= c * u) by nra. set (g := c * u) in *. setoid_replace (2 * c * u) with (2 * g) in ZU by (unfold g; ring).
    setoid_replace (w * (1 - (c + 1) * u)) with (w * (1 - g - u)) by (unfold g; ring). setoid_replace (w * (1 + 2 * (c + 1) * u)) with (w * (1 + 2 * g + 2 * u)) by (unfold g; ring).
    assert (Z1 : (w * (1 - g)) * (1 - u) <= z * (1 - u)) by (apply Qmult_le_compat_r; lra). assert (Z2 : z * (1 + u) <= (w * (1 + 2 * g)) * (1 + u)) by (apply Qmult_le_compat_r; lra).
    assert (GU : 0 <= w * (g * u)) by (apply Qmult_le_0_compat; [lra|apply Qmult_le_0_compat; lra]). assert (GU2 : w * (g * u) <= w * ((1#2) * u)) by (apply Qmult_le_l; [lra|]; apply Qmult_le_compat_r; lra). lra.
Qed.

Lemma sum_near n : (0 < n)%nat -> (Z.of_nat n <= 2 ^ 52)%Z -> forall l k a s, (forall b, In b l -> (0 < b)%nat) -> (1 <= k <= a)%nat -> (a + list_sum l <= n)%nat -> near k (Qquot a n) s ->
  near (k + length l) (Qquot (a + list_sum l) n) (fold_left (SFadd 53 1024) (map (fun b => float_quot b n) l) s).
Proof.
  intros PN U. assert (PQ : 0 < inject_Z (Z.of_nat n)) by (change 0 with (inject_Z 0); rewrite <- Zlt_Qlt; lia).
  assert (QP : forall a b, Qquot (a + b) n == Qquot a n + Qquot b n) by (intros; unfold Qquot, Qdiv; rewrite Nat2Z.inj_add, inject_Z_plus; ring).
  induction l as [|b l IH]; intros k a s PL KA AN H; cbn [map fold_left].
  - cbn [length list_sum fold_right]. rewrite !Nat.add_0_r. exact H.
  - assert (PB : (0 < b)%nat) by (apply PL; left; auto). assert (AN' : (a + (b + list_sum l) <= n)%nat) by (unfold list_sum in *; cbn [fold_right] in AN; lia).
    replace (k + length (b :: l))%nat with (S k + length l)%nat by (cbn; lia). replace (a + list_sum (b :: l))%nat with ((a + b) + list_sum l)%nat by (unfold list_sum; cbn [fold_right]; lia).
    apply IH; [intros; apply PL; right; auto|lia|lia|].
    assert (N := near_add k (Qquot a n) (Qquot b n) s (float_quot b n)).
    assert (R : near (S k) (Qquot a n + Qquot b n) (SFadd 53 1024 s (float_quot b n))).
    { apply N; auto; try lia.
      - unfold Qquot. apply Qlt_shift_div_l; auto. rewrite Qmult_0_l. change 0 with (inject_Z 0). rewrite <- Zlt_Qlt. lia.
      - unfold Qquot. apply Qle_shift_div_l; auto. apply Qle_trans with (2 ^ (-52) * inject_Z (2 ^ 52)); [apply Qmult_le_l; [apply two_pos|rewrite <- Zle_Qle; auto]|]. apply Qle_trans with 1; [vm_compute; discriminate|]. change 1 with (inject_Z 1). rewrite <- Zle_Qle. lia.
      - rewrite <- QP. unfold Qquot. apply Qle_shift_div_r; auto. rewrite Qmult_1_l, <- Zle_Qle. lia.
      - apply near_quot; auto. lia. }
    destruct R as (m & e & E & R1 & R2). exists m, e. split; auto. rewrite QP. auto.
Qed.

(*PROP C52 (what holds for floats): with binary64 numbers and at most 2^52 data, each frequency is the exact one up to a relative error of 2^-53, and the frequencies of [k] clusters, added one after the other, give 1 up to [k * 2^-52]. *)
Lemma C52_float_sum_partial_proof :
  forall set_order r f,
    valid_set_order set_order -> NoDup (keys r) -> r <> [] -> (Z.of_nat (length r) <= 2 ^ 52)%Z ->
    compute_clusters_frequency spec_float float_quot set_order r = Ok f ->
    (forall c v, dget c f = Some v -> exists q, stands_for v (Finite q) /\ let exact := Qquot (count_occ Z.eq_dec (vals r) c) (length r) in (0 < exact <= 1 /\ Qabs (q - exact) <= exact * 2 ^ (-53))%Q) /\
    (exists q, stands_for (float_sum (vals f)) (Finite q) /\ Qabs (q - 1) <= inject_Z (Z.of_nat (length f)) * 2 ^ (-52))%Q.
Proof.
  intros so r f SO ND NE U E. destruct (frequency_run spec_float float_quot so SO r ND NE) as (l & SS & IL & E'). rewrite E in E'. injection E' as ->.
  set (n := length r) in *. assert (PN : (0 < n)%nat) by (unfold n; destruct r; [congruence|cbn; lia]).
  assert (PQ : 0 < inject_Z (Z.of_nat n)) by (change 0 with (inject_Z 0); rewrite <- Zlt_Qlt; lia).
  assert (CB : forall c, In c l -> (0 < count_occ Z.eq_dec (vals r) c <= n)%nat).
  { intros c J. apply IL in J. split; [apply count_occ_In; auto|]. unfold n, vals. clear. induction r as [|[x v] r IH]; cbn [map count_occ length snd]; auto. destruct (Z.eq_dec v c); lia. }
  split.
  - intros c v G. assert (J : In c l). { apply dget_Some_key in G. rewrite keys_freq in G. auto. } rewrite (get_freq (fun c => float_quot (count_occ Z.eq_dec (vals r) c) n)) in G by auto. injection G as <-.
    destruct (CB c J) as [C1 C2]. destruct (quot_float _ n (CB c J) U) as (m & e & -> & K). exists (mag m e). split; [cbn; reflexivity|]. cbv zeta. split; [|exact K]. unfold Qquot. split.
    + apply Qlt_shift_div_l; auto. rewrite Qmult_0_l. change 0 with (inject_Z 0). rewrite <- Zlt_Qlt. lia.
    + apply Qle_shift_div_r; auto. rewrite Qmult_1_l, <- Zle_Qle. lia.
  - assert (LS : NoDup l). { clear -SS. induction SS as [|x l SS IH F]; constructor; auto. intro J. rewrite Forall_forall in F. apply F in J. lia. }
    assert (CS := counts_sum l LS (vals r) (fun v J => proj2 (IL v) J)). assert (EL : length (vals r) = n) by apply map_length. rewrite EL in CS.
    assert (EV : vals (map (fun c => (c, float_quot (count_occ Z.eq_dec (vals r) c) n)) l) = map (fun b => float_quot b n) (map (count_occ Z.eq_dec (vals r)) l)) by (unfold vals at 1; rewrite !map_map; reflexivity).
    rewrite EV, map_length. assert (PL : forall b, In b (map (count_occ Z.eq_dec (vals r)) l) -> (0 < b)%nat) by (intros b J; apply in_map_iff in J as (c & <- & J); apply CB; auto).
    destruct l as [|c l]; [cbn in CS; lia|]. cbn [map] in *. set (cs := map (count_occ Z.eq_dec (vals r)) l) in *. set (b := count_occ Z.eq_dec (vals r) c) in *.
    assert (CS' : (b + list_sum cs = n)%nat) by (unfold list_sum in *; cbn [fold_right] in CS; lia). assert (PB : (0 < b)%nat) by (apply PL; left; auto).
    assert (N0 := near_quot b n ltac:(lia) U). destruct N0 as (m0 & e0 & E0 & N0).
    assert (N := sum_near n PN U cs 1 b (float_quot b n) (fun x J => PL x (or_intror J)) ltac:(lia) ltac:(lia) (ex_intro _ m0 (ex_intro _ e0 (conj E0 N0)))).
    unfold float_sum. cbn [fold_left]. change (float_of_nat 0) with (S754_zero false). replace (SFadd 53 1024 (S754_zero false) (float_quot b n)) with (float_quot b n) by (rewrite E0; reflexivity).
    destruct N as (m & e & -> & N1 & N2). exists (mag m e). split; [cbn; reflexivity|]. rewrite CS' in N1, N2. assert (Q1 : Qquot n n == 1) by (unfold Qquot; apply Qmult_inv_r; lra). rewrite Q1 in N1, N2.
    replace (length cs) with (length l) in * by (unfold cs; rewrite map_length; auto). cbn [length]. replace (1 + length l)%nat with (S (length l)) in * by lia.
    set (k := inject_Z (Z.of_nat (S (length l)))) in *. assert (K0 : 0 <= k) by (unfold k; change 0 with (inject_Z 0); rewrite <- Zle_Qle; lia).
    assert (T := two_pos (-53)). assert (T2 : 2 ^ (-52) == 2 * 2 ^ (-53)) by (vm_compute; reflexivity). rewrite T2. set (u := 2 ^ (-53)) in *. apply Qabs_Qle_condition. assert (0 <= k * u) by nra. nra.
Qed.
(*EX
(** Ten clusters of one data: the sum is 1 - 2^-53, within the bound. *)
Example C52_float_sum_ex : NoDup (keys ten) /\ ten <> [] /\ (Z.of_nat (length ten) <= 2 ^ 52)%Z /\
  compute_clusters_frequency spec_float float_quot (nodup Z.eq_dec) ten = Ok (combine (vals ten) (ten_frequencies (vals ten))) /\
  float_sum (ten_frequencies (vals ten)) = S754_finite false 9007199254740991 (-53).
Proof. split; [apply ten_NoDup|]. split; [discriminate|]. split; [discriminate|]. split; vm_compute; reflexivity. Qed.
EX*)
