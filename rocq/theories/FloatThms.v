From Coq Require Import List Bool ZArith QArith Permutation Qpower SpecFloat Lia Eqdep_dec.
From Verif Require Import Base Manager Spec ManagerInv ManagerQueries ManagerThms Sampling SamplingSpec SamplingProofs SamplingThms ResumeThms HierSpec FloatSpec.
Import ListNotations.

Lemma pow_half d : (0 < d)%Z -> (2 ^ d = 2 * 2 ^ (d - 1))%Z.
Proof. intro P. rewrite <- Z.pow_succ_r by lia. f_equal. lia. Qed.

Lemma digits_bounds p : (2 ^ (Zpos (digits2_pos p) - 1) <= Zpos p < 2 ^ Zpos (digits2_pos p))%Z.
Proof.
  induction p as [p IH|p IH|].
  1,2: cbn [digits2_pos]; rewrite Pos2Z.inj_succ; unfold Z.succ; rewrite Z.add_simpl_r;
    rewrite (pow_half (_ + 1)) by lia; rewrite Z.add_simpl_r; rewrite (pow_half (Zpos (digits2_pos p))) in * by lia; lia.
  cbn. lia.
Qed.

(** Mantissas of different exponents. *)
Lemma exponents m1 e1 m2 e2 : bounded 53 1024 m1 e1 = true -> bounded 53 1024 m2 e2 = true -> (e1 < e2)%Z ->
  (Zpos m1 < Zpos m2 * 2 ^ (e2 - e1))%Z.
Proof.
  unfold bounded, canonical_mantissa. rewrite !andb_true_iff. intros [A _] [B _] L.
  apply Zeq_bool_eq in A, B. unfold fexp, emin in A, B.
  pose proof (digits_bounds m1) as D1. pose proof (digits_bounds m2) as D2.
  assert (Zpos (digits2_pos m2) = 53)%Z as E2 by lia. assert (Zpos (digits2_pos m1) <= 53)%Z as E1 by lia.
  rewrite E2 in D2.
  assert (2 ^ Zpos (digits2_pos m1) <= 2 ^ 53)%Z by (apply Z.pow_le_mono_r; lia).
  assert (2 ^ 1 <= 2 ^ (e2 - e1))%Z by (apply Z.pow_le_mono_r; lia).
  change (2 ^ (53 - 1))%Z with 4503599627370496%Z in D2. change (2 ^ 53)%Z with 9007199254740992%Z in *. change (2 ^ 1)%Z with 2%Z in *. nia.
Qed.

Definition mag (m : positive) (e : Z) : Q := (inject_Z (Zpos m) * 2 ^ e)%Q.
Definition mcompare m1 e1 m2 e2 := match Z.compare e1 e2 with Lt => Lt | Gt => Gt | Eq => Pos.compare_cont Eq m1 m2 end.

Lemma two_pos e : (0 < 2 ^ e)%Q.
Proof. apply Qpower_0_lt. reflexivity. Qed.

Lemma mag_pos m e : (0 < mag m e)%Q.
Proof. apply Qmult_lt_0_compat; [reflexivity|apply two_pos]. Qed.

Lemma mag_exponents m1 e1 m2 e2 : bounded 53 1024 m1 e1 = true -> bounded 53 1024 m2 e2 = true -> (e1 < e2)%Z ->
  (mag m1 e1 < mag m2 e2)%Q.
Proof.
  intros A B L. unfold mag. replace e2 with ((e2 - e1) + e1)%Z by lia. rewrite Qpower_plus by easy. rewrite Qmult_assoc.
  apply Qmult_lt_compat_r; [apply two_pos|]. change 2%Q with (inject_Z 2). rewrite <- Zpower_Qpower by lia.
  rewrite <- inject_Z_mult, <- Zlt_Qlt. apply exponents; auto.
Qed.

Lemma mcompare_mag m1 e1 m2 e2 : bounded 53 1024 m1 e1 = true -> bounded 53 1024 m2 e2 = true ->
  match mcompare m1 e1 m2 e2 with
  | Lt => (mag m1 e1 < mag m2 e2)%Q
  | Gt => (mag m2 e2 < mag m1 e1)%Q
  | Eq => m1 = m2 /\ e1 = e2
  end.
Proof.
  intros A B. unfold mcompare. destruct (Z.compare_spec e1 e2) as [E|E|E]; [|apply mag_exponents; auto..].
  subst e2. change (Pos.compare_cont Eq m1 m2) with (Pos.compare m1 m2).
  destruct (Pos.compare_spec m1 m2) as [M|M|M]; [auto|..]; unfold mag; apply Qmult_lt_compat_r; try apply two_pos; rewrite <- Zlt_Qlt; lia.
Qed.

Definition value (x : spec_float) : extended :=
  match x with
  | S754_infinity s => if s then MinusInfinity else PlusInfinity
  | S754_finite s m e => Finite ((if s then - inject_Z (Zpos m) else inject_Z (Zpos m)) * 2 ^ e)
  | _ => Finite 0
  end.

Lemma same_refl v : same v v.
Proof. destruct v; cbn; auto. reflexivity. Qed.

Lemma stands_value x v : stands_for x v -> same v (value x).
Proof. destruct x; cbn; tauto. Qed.

Lemma stands_number x : is_number x = true -> exists v, stands_for x v.
Proof. destruct x; cbn [stands_for]; intro H; try discriminate; eexists; apply same_refl. Qed.

Lemma less_same v v' w w' : same v v' -> same w w' -> (less v w <-> less v' w').
Proof.
  destruct v, v'; cbn; try tauto; destruct w, w'; cbn; try tauto. intros -> ->. tauto.
Qed.

Lemma opp_mag m e : (- inject_Z (Zpos m) * 2 ^ e == - mag m e)%Q.
Proof. unfold mag. set (t := (2 ^ e)%Q). ring. Qed.
Lemma opp_mag_neg m e : (- inject_Z (Zpos m) * 2 ^ e < 0)%Q.
Proof. rewrite opp_mag. change 0%Q with (- 0)%Q. apply Qopp_lt_compat, mag_pos. Qed.

Lemma opp_lt m e m' e' : (mag m e < mag m' e')%Q -> (- inject_Z (Zpos m') * 2 ^ e' < - inject_Z (Zpos m) * 2 ^ e)%Q.
Proof. intro L. rewrite !opp_mag. apply Qopp_lt_compat, L. Qed.

(** What the comparison says. *)
Lemma compare_exact x y : is_number x = true -> is_number y = true -> let v := value x in let w := value y in
  match SFcompare x y with
  | Some Lt => less v w
  | Some Gt => less w v
  | Some Eq => ~ less v w /\ ~ less w v
  | None => False
  end.
Proof.
  destruct x as [s|s| |s m e], y as [s'|s'| |s' m' e']; cbn; try discriminate; try tauto; intros X Y;
    try (destruct s; cbn; auto; fail); try (destruct s'; cbn; auto; fail);
    try (destruct s, s'; cbn; tauto).
  - split; apply Qlt_irrefl.
  - destruct s'; cbn; [apply opp_mag_neg|exact (mag_pos m' e')].
  - destruct s; cbn; [apply opp_mag_neg|exact (mag_pos m e)].
  - unfold is_number in X, Y. rewrite andb_true_iff in X, Y. destruct X as [X _], Y as [Y _]. cbn [valid_binary] in X, Y.
    pose proof (mcompare_mag _ _ _ _ X Y) as P. unfold mcompare in P.
    destruct s, s'.
    + destruct (e ?= e')%Z; [|exact (opp_lt _ _ _ _ P)..].
      destruct (Pos.compare_cont Eq m m'); cbn [CompOpp]; [|exact (opp_lt _ _ _ _ P)..].
      destruct P as [-> ->]. split; apply Qlt_irrefl.
    + apply Qlt_trans with 0%Q; [apply opp_mag_neg|apply mag_pos].
    + apply Qlt_trans with 0%Q; [apply opp_mag_neg|apply mag_pos].
    + fold (mag m e) (mag m' e'). destruct (e ?= e')%Z; [|exact P..].
      destruct (Pos.compare_cont Eq m m'); [|exact P..]. destruct P as [-> ->]. split; apply Qlt_irrefl.
Qed.

Lemma compare_values x y v w : is_number x = true -> is_number y = true -> stands_for x v -> stands_for y w ->
  match SFcompare x y with
  | Some Lt => less v w
  | Some Gt => less w v
  | Some Eq => ~ less v w /\ ~ less w v
  | None => False
  end.
Proof.
  intros X Y V W. apply stands_value in V, W. pose proof (compare_exact x y X Y) as P. cbn zeta in P.
  pose proof (less_same v (value x) w (value y) V W). pose proof (less_same w (value y) v (value x) W V).
  destruct (SFcompare x y) as [[]|]; tauto.
Qed.

Lemma ltb_less x y v w : is_number x = true -> is_number y = true -> stands_for x v -> stands_for y w -> (SFltb x y = true <-> less v w).
Proof.
  intros X Y V W. pose proof (compare_values x y v w X Y V W) as P. unfold SFltb. destruct (SFcompare x y) as [[]|]; try tauto.
  - split; [discriminate|tauto].
  - split; [discriminate|]. intro L. exfalso. destruct v, w; cbn in *; try tauto. exact (Qlt_not_le _ _ L (Qlt_le_weak _ _ P)).
Qed.

Lemma leb_ltb x y : is_number x = true -> is_number y = true -> SFleb x y = negb (SFltb y x).
Proof.
  intros X Y. destruct (stands_number _ X) as [v V], (stands_number _ Y) as [w W].
  pose proof (compare_values x y v w X Y V W) as P. pose proof (compare_values y x w v Y X W V) as P'.
  unfold SFleb, SFltb. destruct (SFcompare x y) as [[]|], (SFcompare y x) as [[]|]; cbn; try reflexivity; try tauto.
  - exfalso. destruct v, w; cbn in *; try tauto. exact (Qlt_not_le _ _ P (Qlt_le_weak _ _ P')).
  - exfalso. destruct v, w; cbn in *; try tauto. exact (Qlt_not_le _ _ P (Qlt_le_weak _ _ P')).
Qed.

Lemma less_irrefl v : ~ less v v.
Proof. destruct v; cbn; auto using Qlt_irrefl. Qed.
Lemma less_trans u v w : less u v -> less v w -> less u w.
Proof. destruct u, v, w; cbn; try tauto. apply Qlt_trans. Qed.
Lemma less_weak u v w : less u w -> less u v \/ less v w.
Proof.
  destruct u as [|p|], v as [|q|], w as [|r|]; cbn; try tauto. intro L. destruct (Qlt_le_dec p q) as [A|A]; [auto|].
  right. apply Qle_lt_trans with p; auto.
Qed.

(** Every comparison that agrees with [SFltb] on numbers and puts the rest at the end. *)
Definition ext_ltb (x y : spec_float) : bool :=
  if is_number x then if is_number y then SFltb x y else true else false.

Lemma ext_swo : strict_weak_order ext_ltb.
Proof.
  assert (Q : forall x y, is_number x = true -> is_number y = true -> forall v w, stands_for x v -> stands_for y w -> SFltb x y = true <-> less v w)
    by (intros; apply ltb_less; auto).
  split; [|split].
  - intro x. unfold ext_ltb. destruct (is_number x) eqn:X; auto. destruct (stands_number _ X) as [v V].
    destruct (SFltb x x) eqn:L; auto. apply (Q x x X X v v V V) in L. destruct (less_irrefl _ L).
  - intros x y z. unfold ext_ltb. destruct (is_number x) eqn:X; [|discriminate]. destruct (is_number y) eqn:Y; [|discriminate].
    destruct (is_number z) eqn:Z; auto.
    destruct (stands_number _ X) as [u U], (stands_number _ Y) as [v V], (stands_number _ Z) as [w W].
    rewrite (Q x y X Y u v U V), (Q y z Y Z v w V W), (Q x z X Z u w U W). apply less_trans.
  - intros x y z. unfold ext_ltb. destruct (is_number x) eqn:X; [|discriminate].
    destruct (is_number y) eqn:Y; [|auto]. destruct (is_number z) eqn:Z; auto.
    destruct (stands_number _ X) as [u U], (stands_number _ Y) as [v V], (stands_number _ Z) as [w W].
    rewrite (Q x y X Y u v U V), (Q y z Y Z v w V W), (Q x z X Z u w U W). apply less_weak.
Qed.

Lemma plain_number x : is_plain x = true -> is_number x = true.
Proof. unfold is_plain. rewrite andb_true_iff. tauto. Qed.

Lemma ext_on (P : spec_float -> bool) (H : forall x, P x = true -> is_number x = true) :
  strict_weak_order (fun x y : {x | P x = true} => SFltb (proj1_sig x) (proj1_sig y)).
Proof.
  destruct ext_swo as (I & T & W).
  assert (E : forall x y : {x | P x = true}, SFltb (proj1_sig x) (proj1_sig y) = ext_ltb (proj1_sig x) (proj1_sig y)).
  { intros [x X] [y Y]. cbn. unfold ext_ltb. rewrite !H; auto. }
  split; [|split]; intros *; rewrite !E; eauto.
Qed.

Lemma plain_total (x y : plain) : lt_plain x y = false -> lt_plain y x = false -> x = y.
Proof.
  destruct x as [x X], y as [y Y]. unfold lt_plain. cbn [proj1_sig]. intros A B.
  assert (x = y) as E; [|subst y; f_equal; apply UIP_dec, bool_dec].
  pose proof (leb_ltb x y (plain_number _ X) (plain_number _ Y)) as L. rewrite B in L. clear B.
  assert (SFcompare x y = Some Eq) as C.
  { unfold SFleb, SFltb in L, A. destruct (SFcompare x y) as [[]|]; auto; discriminate. }
  destruct x as [s|s| |s m e], y as [s'|s'| |s' m' e']; cbn in C; try discriminate; try (destruct s; discriminate); try (destruct s'; discriminate).
  - destruct s, s'; cbn in X, Y; try discriminate; reflexivity.
  - destruct s, s'; try discriminate; reflexivity.
  - destruct s, s'; try discriminate; destruct (Z.compare_spec e e') as [->|?|?]; try discriminate;
      change (Pos.compare_cont Eq m m') with (Pos.compare m m') in C; destruct (Pos.compare_spec m m') as [->|?|?]; try discriminate; reflexivity.
Qed.

(*HEADER
From Coq Require Import String List Bool Arith ZArith QArith SpecFloat Lia.
From Verif Require Import Base Manager Spec ManagerThms Sampling SamplingSpec HierSpec FloatSpec FloatThms.
Import ListNotations.
Open Scope nat_scope.

Definition A := str "a". Definition B := str "b". Definition C := str "c".
(** 1, 2, -1 and 2^1000 *)
Definition one := S754_finite false 4503599627370496 (-52).
Definition two := S754_finite false 4503599627370496 (-51).
Definition minus_one := S754_finite true 4503599627370496 (-52).
Definition huge := S754_finite false 4503599627370496 948.
HEADER*)

(*PROP C138 (values): the comparisons of two floats that are numbers compare what they stand for. *)
Lemma C138_compare_values_proof :
  forall x y v w, binary64 x -> binary64 y -> stands_for x v -> stands_for y w ->
    (SFltb x y = true <-> less v w) /\ (SFleb x y = true <-> ~ less w v).
Proof.
  intros x y v w X Y V W.
  assert (is_number x = true) as NX by (unfold is_number; rewrite X; destruct x; auto).
  assert (is_number y = true) as NY by (unfold is_number; rewrite Y; destruct y; auto).
  split; [apply ltb_less; auto|]. rewrite leb_ltb, negb_true_iff by auto.
  rewrite <- (ltb_less y x w v NY NX W V). destruct (SFltb y x); split; congruence.
Qed.
(*EX
(** -1 < 1, and the largest float is less than infinity. *)
Example C138_compare_values_ex :
  let top := S754_finite false 9007199254740991 971 in
  binary64 one /\ stands_for one (Finite 1) /\ binary64 minus_one /\ stands_for minus_one (Finite (-1)) /\ SFltb minus_one one = true /\
  binary64 top /\ binary64 (S754_infinity false) /\ SFltb top (S754_infinity false) = true /\
  SFltb one S754_nan = false /\ SFleb S754_nan one = false.
Proof. repeat split. Qed.
EX*)

(*PROP C138 (orders): on floats that are numbers "<" is a strict weak order and "<=" its complement; without the second zero it is a strict total order; infinity is below nothing.  These are the hypotheses of the theorems of this development on the comparison of distances. *)
Lemma C138_orders_proof :
  strict_weak_order lt_number /\ (forall x y, le_number x y = negb (lt_number y x)) /\
  strict_total_order lt_plain /\ (forall x, lt_plain infinite x = false).
Proof.
  split; [|split; [|split; [split|]]].
  - apply (ext_on is_number). auto.
  - intros [x X] [y Y]. apply leb_ltb; auto.
  - apply (ext_on is_plain). exact plain_number.
  - exact plain_total.
  - intros [[s|[]| |[] m e] H]; try reflexivity; discriminate.
Qed.
(*EX
(** Not a number breaks the order: it is equivalent to 1 and to 2. *)
Example C138_orders_ex : ~ strict_weak_order SFltb /\ ~ (forall x y, SFltb x y = false -> SFltb y x = false -> x = y).
Proof.
  split.
  - intros (_ & _ & W). destruct (W one S754_nan two eq_refl); discriminate.
  - intro T. specialize (T (S754_zero true) (S754_zero false) eq_refl eq_refl). discriminate.
Qed.
EX*)

Section Ext.
  Context {vec D : Type} (pw : list vec -> nat -> nat -> D) (draw : list (pystr * pystr) -> nat -> list (pystr * pystr)).

  Lemma sample_ext f g o nb cr v s m l : reachable m ->
    (forall p q dp dq, eligible o m cr p -> eligible o m cr q -> distance_is pw m v p dp -> distance_is pw m v q dq -> f dp dq = g dp dq) ->
    result (sample vec D pw f draw o nb cr (Some v)) (s, m) = Ok l ->
    result (sample vec D pw g draw o nb cr (Some v)) (s, m) = Ok l.
  Proof.
    intros R H. assert (I := reachable_inv _ R). rewrite !ask_sample by auto. intro E. rewrite <- E. symmetry.
    unfold SamplingProofs.psample. destruct (nb <? 0)%Z; auto. destruct (nb =? 0)%Z; auto.
    assert (Q : forall pairs rows, eligible_pairs vec D o m cr = Ok pairs -> rmap (fun x => dlookup x v) (ids m) = Ok rows ->
      SamplingProofs.select vec D pw f draw o nb (Some rows) (ids m) pairs = SamplingProofs.select vec D pw g draw o nb (Some rows) (ids m) pairs).
    { intros pairs rows EP ER. apply eligible_pairs_spec in EP; auto. destruct EP as (ND & EL & _).
      assert (K : forall k, SamplingProofs.keyed D (SamplingProofs.table vec D pw rows (ids m)) pairs = Ok k ->
        forall x y, In x k -> In y k -> f (fst x) (fst y) = g (fst x) (fst y)).
      { intros k K.
        assert (X : forall x, In x k -> eligible o m cr (snd x) /\ distance_is pw m v (snd x) (fst x)).
        { intros x J. assert (EX : eligible o m cr (snd x)). { apply EL. rewrite <- (keyed_snd _ _ _ _ K). apply in_map; auto. }
          split; auto. pose proof (keyed_look _ _ _ _ K x J) as L. destruct x as [d [a b]]. cbn [fst snd] in *.
          destruct EX as (Ma & Mb & _). apply managed_ids in Ma, Mb; auto.
          destruct (distance_exists pw m v rows (a, b) ER Ma Mb I) as (d' & Dd & L'). rewrite L in L'. injection L' as ->. exact Dd. }
        intros x y Jx Jy. apply (H (snd x) (snd y)); apply X; auto. }
      unfold SamplingProofs.select. destruct rows as [|r rows]; auto.
      destruct (SamplingProofs.keyed D _ pairs) as [k|e] eqn:EK; [|reflexivity]. cbn [rbind].
      rewrite (sorted_ext (fun p q => f (fst p) (fst q)) (fun p q => g (fst p) (fst q)) k) by (intros; eapply K; eauto).
      rewrite (sorted_ext (fun p q => f (fst q) (fst p)) (fun p q => g (fst q) (fst p)) k) by (intros; eapply K; eauto).
      reflexivity. }
    fold (eligible_pairs vec D o m cr).
    destruct (o_clusters o), cr; auto; destruct (o_distance o); auto;
      (destruct (eligible_pairs vec D o m _) as [pairs|] eqn:EP; [|reflexivity]); cbn [rbind]; auto;
      (destruct (rmap _ (ids m)) as [rows|] eqn:ER; [|reflexivity]); cbn [rbind]; auto.
  Qed.
End Ext.

(*PROP C138 (sampling): when the distances of the eligible pairs are floats that stand for numbers, sampling by distance returns the pairs sorted by what their distances stand for, leaves out no strictly better pair, and breaks ties in the order of the double loop. *)
Lemma C138_sampling_proof :
  forall vec (pairwise : list vec -> nat -> nat -> spec_float) draw o nb clustering v s m l, reachable m ->
    o_distance o = Some CLOSEST \/ o_distance o = Some FARTHEST -> (0 < nb)%Z ->
    result (sample vec spec_float pairwise SFltb draw o nb clustering (Some v)) (s, m) = Ok l ->
    let eligible := eligible o m clustering in
    let dist p x := exists d, distance_is pairwise m v p d /\ stands_for d x in
    let first x y := (o_distance o = Some CLOSEST /\ less x y) \/ (o_distance o = Some FARTHEST /\ less y x) in
    (forall p d, eligible p -> distance_is pairwise m v p d -> binary64 d /\ d <> S754_nan) ->
    (forall p, eligible p -> exists x, dist p x /\ forall x', dist p x' -> same x' x) /\
    (forall p q x y, dist p x -> dist q y -> before l p q -> ~ first y x) /\
    (forall p q x y, dist p x -> dist q y -> In p l -> eligible q -> ~ In q l -> ~ first y x) /\
    (forall p q x y, dist p x -> dist q y -> eligible p -> In q l -> same x y -> enumerated_before m p q -> before l p q).
Proof.
  intros vec pw draw o nb cr v s m l R O P E el dist first N.
  assert (NU : forall p d, el p -> distance_is pw m v p d -> is_number d = true).
  { intros p d Ep Dp. destruct (N p d Ep Dp) as [B X]. unfold is_number. rewrite B. destruct d; auto. }
  apply (sample_ext pw draw SFltb ext_ltb) in E; auto.
  2:{ intros p q dp dq Ep Eq Dp Dq. unfold ext_ltb. rewrite (NU p dp), (NU q dq); auto. }
  assert (IE : forall p, In p l -> el p).
  { intros p Ip. assert (I := reachable_inv _ R). pose proof E as E'. rewrite ask_sample in E' by auto. apply psample_Ok in E'.
    destruct E' as [[-> _]|(_ & pairs & EP & SE)]; [lia|]. apply eligible_pairs_spec in EP; auto. destruct EP as (_ & EL & _).
    destruct SE as [C F | v' rows k _ _ _ K].
    { exfalso. destruct O as [O|O]; apply opt_is_eq in O; congruence. }
    apply EL. rewrite <- (keyed_snd _ _ _ _ K).
    assert (J : In p (map snd (sorted_by (fun p q : spec_float * (pystr * pystr) => prefers spec_float ext_ltb o (fst p) (fst q)) k))).
    { rewrite <- (firstn_skipn (Z.to_nat nb)). apply in_or_app; auto. }
    revert J. apply Permutation_in, Permutation_map, Permutation_sym, sorted_perm. }
  destruct (C29_distance_sampling_optimal_proof _ _ _ _ _ _ _ _ _ _ _ _ ext_swo R O P E) as (T1 & T2 & T3 & T4).
  assert (TF : forall p q dp dq x y, el p -> el q -> distance_is pw m v p dp -> distance_is pw m v q dq -> stands_for dp x -> stands_for dq y ->
    (taken_first ext_ltb o dp dq <-> first x y)).
  { intros p q dp dq x y Ep Eq Dp Dq X Y. unfold taken_first, first, ext_ltb. rewrite (NU p dp), (NU q dq); auto.
    rewrite (ltb_less dp dq x y), (ltb_less dq dp y x) by eauto. tauto. }
  split; [|split; [|split]].
  - intros p Ep. destruct (T1 p Ep) as (d & Dd & U). destruct (stands_number d (NU p d Ep Dd)) as [x X]. exists x. split; [exists d; auto|].
    intros x' (d' & Dd' & X'). rewrite (U d' Dd') in X'. apply stands_value in X, X'.
    destruct x, x', (value d); cbn in *; try tauto. rewrite X, X'. reflexivity.
  - intros p q x y (dp & Dp & X) (dq & Dq & Y) B F. destruct (before_In _ _ _ B).
    apply (T2 p q dp dq Dp Dq B). apply (TF q p dq dp y x); auto.
  - intros p q x y (dp & Dp & X) (dq & Dq & Y) Ip Eq Nq F.
    apply (T3 p q dp dq Dp Dq Ip Eq Nq). apply (TF q p dq dp y x); auto.
  - intros p q x y (dp & Dp & X) (dq & Dq & Y) Ep Iq S EB.
    assert (less x y -> False) by (intro L; destruct x, y; cbn in S, L; try tauto; rewrite S in L; exact (Qlt_irrefl _ L)).
    assert (less y x -> False) by (intro L; destruct x, y; cbn in S, L; try tauto; rewrite S in L; exact (Qlt_irrefl _ L)).
    apply (T4 p q dp dq Dp Dq Ep Iq); auto; intro F.
    + apply (TF p q dp dq x y) in F; auto. unfold first in F. tauto.
    + apply (TF q p dq dp y x) in F; auto. unfold first in F. tauto.
Qed.
(*EX
(** Three points on a line, at 1, 2 and -1: the pairs by distance.  Then 2^1000, 2 and 2^100: these
    finite vectors give an infinite distance, one that is not a number, and 2^100, and the pair said to be the closest
    is at an infinite distance (as with Python's sort, for which the three keys are already sorted). *)
Example C138_sampling_ex :
  let o := mkOptions None (Some CLOSEST) false false in
  let run nb v := result (sample spec_float spec_float euclidean SFltb (fun l _ => l) o nb None (Some v)) (fresh_sampler spec_float spec_float, init [A; B; C]) in
  let near := [(A, one); (B, two); (C, minus_one)] in
  let far := [(A, huge); (B, two); (C, S754_finite false 4503599627370496 48)] in
  run 3%Z near = Ok [(A, B); (A, C); (B, C)] /\
  (forall i j, i < 3 -> j < 3 -> binary64 (euclidean [one; two; minus_one] i j) /\ euclidean [one; two; minus_one] i j <> S754_nan) /\
  run 1%Z far = Ok [(A, B)] /\
  map (fun p => euclidean (map snd far) (fst p) (snd p)) [(0, 1); (0, 2); (1, 2)] =
    [S754_infinity false; S754_nan; S754_finite false 4503599627370496 48].
Proof.
  cbv zeta. split; [vm_compute; reflexivity|]. split; [|split; vm_compute; reflexivity].
  intros i j I J. unfold binary64. destruct i as [|[|[|i]]]; [..|lia]; (destruct j as [|[|[|j]]]; [..|lia]); vm_compute; split; congruence.
Qed.
EX*)
