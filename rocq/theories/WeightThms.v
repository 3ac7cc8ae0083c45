(** * The weight of the constraints in MPCKMeans (C115). *)

From Coq Require Import String List Bool Arith ZArith QArith Lia Permutation Lqa.
From Verif Require Import Base Manager Spec Closure ManagerProofs ManagerInv ManagerQueries ManagerThms
  Sampling SamplingSpec SamplingThms Rename ClusterSpec Spectral SpectralThms Mpckmeans MpckSpec MpckGraph MpckThms WeightSpec.
Import ListNotations.
Open Scope nat_scope.
Open Scope py_scope.

(*HEADER
From Coq Require Import String List Bool Arith ZArith QArith Permutation Lia.
From Verif Require Import Base Manager Spec ManagerThms SamplingSpec ClusterSpec Mpckmeans MpckSpec MpckThms WeightSpec WeightThms.
Import ListNotations.
Open Scope nat_scope.
Open Scope py_scope.

HEADER*)

(** Rational numbers; a product by 0 does not look at the other factor, so that the run below
    can be computed for an arbitrary weight. *)
Definition lazy_mul (x y : Q) : Q := match Qnum y with Z0 => 0#1 | _ => Qred (x * y) end.
Lemma lazy_mul_eq x y : (lazy_mul x y == x * y)%Q.
Proof.
  unfold lazy_mul. destruct (Qnum y) eqn:E; try apply Qred_correct.
  assert (Z : (y == 0#1)%Q) by (unfold Qeq; rewrite E; reflexivity). rewrite Z. ring.
Qed.
Definition Wops : ops Q := {|
  o_of_nat := o_of_nat Q Qops; o_half := o_half Q Qops; o_tiny := o_tiny Q Qops; o_add := o_add Q Qops; o_sub := o_sub Q Qops;
  o_mul := lazy_mul; o_div := o_div Q Qops; o_sq := o_sq Q Qops; o_sqrt := o_sqrt Q Qops; o_ltb := o_ltb Q Qops;
  o_small := o_small Q Qops; o_sum := o_sum Q Qops; o_min := o_min Q Qops; o_mean := o_mean Q Qops; o_argmin := o_argmin Q Qops;
  o_mahalanobis := o_mahalanobis Q Qops;  o_logdet := o_logdet Q Qops |}.
Lemma maha_fold : forall x y a s,
  (fold_left (fun s e => Qred (s + snd e * (fst (fst e) - snd (fst e)) * (fst (fst e) - snd (fst e)))) (combine (combine x y) a) s == s + square_distance x y a)%Q.
Proof.
  induction x as [|u x IH]; intros [|v y] [|e a] s; cbn [combine fold_left square_distance]; try ring.
  rewrite IH. cbn [fst snd]. rewrite Qred_correct. ring.
Qed.
Lemma Wops_exact : exact_numbers Wops.
Proof.
  split; [reflexivity|]. split; [intros; apply Qred_correct|]. split; [intros; apply Qred_correct|]. split; [apply lazy_mul_eq|]. split; [apply Qltb_lt|].
  intros x y a. cbn [o_mahalanobis Wops Qops]. rewrite maha_fold. ring.
Qed.
Lemma Wops_argmin : exact_argmin Wops.
Proof. exact Qargmin_exact. Qed.

Definition wa := str "a". Definition wb := str "b". Definition wm := str "m". Definition wc := str "c".
Definition wm0 : mgr := run [CallAddConstraint wa wb CANNOT_LINK 1%Q] (init [wa; wb; wm; wc]).
Definition wvecs : dict pystr (list Q) := [(wa, [-10 # 1; 0]); (wb, [10 # 1; 0]); (wm, [0; 0]); (wc, [0; 15 # 1])]%Q.
Definition wfirst (n : nat) (_ : list Q) : nat := if 2 <? n then 2 else 0.

(*PROP C115: no weight is large enough.  Here two data that must not be linked stay together for every weight and every number of iterations: they are the farthest pair, for which the penalty of CANNOT_LINK is 0. *)
Lemma C115_any_weight_refuted_proof :
  exists m (vectors : dict pystr (list Q)) o first sample a b,
    reachable m /\ NoDup (keys vectors) /\ (forall x, In x (keys vectors) <-> managed m x) /\
    exact_numbers o /\ exact_argmin o /\ valid_first first /\ valid_sample sample /\
    inferred m a b (Some CANNOT_LINK) /\
    forall it w p, make_mpckmeans Q o (str "MPC") it w = Ok p ->
      exists s' d, cluster (list Q) Q o (fun x => x) 1000 (fun l => l) first sample (fun _ l => l) p m vectors (Some 2%Z) (fresh_mpckmeans Q) = (s', Ok d) /\
        nb_clusters_of d = 2 /\ exists c, dget a d = Some c /\ dget b d = Some c.
Proof.
  exists wm0, wvecs, Wops, wfirst, (fun _ k => seq 0 k), wa, wb.
  assert (R : reachable wm0) by apply run_reachable.
  split; [exact R|]. split; [repeat constructor; simpl; intuition discriminate|]. split; [intro x; rewrite managed_ids; change (In x [wa; wb; wm; wc] <-> In x [wa; wb; wm; wc]); tauto|].
  split; [exact Wops_exact|]. split; [exact Wops_argmin|].
  split; [intros n w L; unfold wfirst; destruct (Nat.ltb_spec 2 n); lia|].
  split; [intros n k L; split; [apply seq_length|]; split; [apply seq_NoDup|]; intros i J; apply in_seq in J; lia|].
  split.
  { vm_compute. reflexivity. }
  intros it w p MK. destruct (make_ok Wops (str "MPC") it w p MK) as (r & I & W & _). destruct p as [i w']. cbn in I, W. subst i w'.
  eexists _, _. split; [vm_compute; reflexivity|]. split; [vm_compute; reflexivity|]. eexists; split; vm_compute; reflexivity.
Qed.

(*EX
Example C115_any_weight_ex : result (cluster (list Q) Q Wops (fun x => x) 1000 (fun l => l) wfirst (fun _ k => seq 0 k) (fun _ l => l) (mkMPParams Q 10 (1000000 # 1)) wm0 wvecs (Some 2%Z)) (fresh_mpckmeans Q) =
  Ok [(wa, 0); (wb, 0); (wc, 1); (wm, 0)]%Z.
Proof. vm_compute. reflexivity. Qed.
EX*)

(** ** What a weight does *)
Lemma square_nonneg : forall x y a, Forall (Qle 0) a -> (0 <= square_distance x y a)%Q.
Proof.
  induction x as [|u x IH]; intros [|v y] [|e a] F; cbn [square_distance]; try apply Qle_refl. inversion F; subst.
  assert (0 <= e * ((u - v) * (u - v)))%Q; [|specialize (IH y a H2); lra]. apply Qmult_le_0_compat; auto.
  destruct (Qlt_le_dec (u - v) 0); [|apply Qmult_le_0_compat; auto].
  setoid_replace ((u - v) * (u - v))%Q with ((-(u - v)) * (-(u - v)))%Q by ring. apply Qmult_le_0_compat; lra.
Qed.

Section Fold.
  Variable f : Q -> nat -> res Q.
  Variable P : nat -> Prop.
  Variable g : nat -> Q.
  Hypothesis STEP : forall t t' j, f t j = Ok t' -> (P j /\ (t' == t + g j)%Q /\ (0 <= g j)%Q) \/ (~ P j /\ t' = t).
  Lemma fold_grows : forall l t t', rfold f l t = Ok t' -> (t <= t')%Q /\ (forall j, In j l -> P j -> (t + g j <= t')%Q) /\ ((forall j, In j l -> ~ P j) -> t' = t).
  Proof using STEP.
    induction l as [|j l IH]; cbn [rfold]; intros t t' E.
    - injection E as <-. split; [apply Qle_refl|]. split; auto. intros j [].
    - destruct (f t j) as [t1|] eqn:F; cbn [rbind] in E; [|discriminate]. destruct (IH _ _ E) as (I1 & I2 & I3).
      destruct (STEP _ _ _ F) as [(Pj & E1 & N)|[NP ->]].
      + split; [lra|]. split; [|intro H; exfalso; apply (H j); simpl; auto]. intros i [->|I] Pi; [lra|]. specialize (I2 i I Pi). lra.
      + split; auto. split; [|intro H; apply I3; intros; apply H; simpl; auto]. intros i [->|I] Pi; [contradiction|auto].
  Qed.
End Fold.

Section Assign.
  Variable o : ops Q.
  Variable order : list nat -> list nat.
  Variables (m : mgr) (l : list pystr) (mg cg : graph).
  Variable X : matrix Q.
  Variable w : Q.
  Variable A : list Q.
  Variable far : Q.
  Variable C : matrix Q.
  Hypothesis EN : exact_numbers o.
  Hypothesis AM : exact_argmin o.
  Hypothesis ORD : valid_order order.
  Hypothesis W : (0 <= w)%Q.
  Hypothesis NN : Forall (Qle 0) A.
  Hypothesis GM : exact_graph m MUST_LINK l mg.
  Hypothesis GC : exact_graph m CANNOT_LINK l cg.
  Hypothesis LX : length X = length l.
  Notation pt i := (nth i X []).
  Notation center c := (nth c C []).
  Notation dist x y := (square_distance x y A).
  Hypothesis FAR : forall p q, p < length X -> q < length X -> (dist (pt p) (pt q) <= far)%Q.

  Lemma two_w_nonneg y : (0 <= y)%Q -> (0 <= 2 * w * y)%Q.
  Proof using W. intro Y. apply Qmult_le_0_compat; auto. lra. Qed.

  Lemma objective_bounds labels i c v : length labels = length X -> i < length l -> objective Q o order X w mg cg A far C labels i c = Ok v ->
    let base := (dist (pt i) (center c) - o_logdet Q o A)%Q in
    (forall j, constrained m l CANNOT_LINK i j -> nth j labels None = Some c -> (base + 2 * w * (far - dist (pt i) (pt j)) <= v)%Q) /\
    (forall j c', constrained m l MUST_LINK i j -> nth j labels None = Some c' -> c' <> c -> (base + 2 * w * dist (pt i) (pt j) <= v)%Q) /\
    (free_of_conflicts (constrained m l MUST_LINK) (constrained m l CANNOT_LINK) (fun j => nth j labels None) i c -> (v == base)%Q).
  Proof using EN ORD W NN GM GC LX FAR.
    intros LL Li E base. destruct EN as (N0 & NA & NS & NM & NL & ND).
    destruct GM as [_ GM']. destruct (GM' i Li) as (sm & Em & _ & Im). destruct GC as [_ GC']. destruct (GC' i Li) as (sc & Ec & _ & Ic).
    unfold objective in E. unfold dlookup in E. rewrite Em in E. cbn [rbind] in E.
    destruct (rfold _ (order sm) _) as [tm|] eqn:Fm; cbn [rbind] in E; [|discriminate]. rewrite Ec in E. cbn [rbind] in E.
    destruct (rfold _ (order sc) _) as [tc|] eqn:Fc; cbn [rbind] in E; [|discriminate]. injection E as <-.
    apply (fold_grows _ (fun j => exists c', nth j labels None = Some c' /\ c' <> c) (fun j => 2 * w * dist (pt i) (pt j))%Q) in Fm.
    2:{ intros t t' j F. unfold py_nth in F. destruct (nth_error labels j) as [lj|] eqn:J; [|discriminate]. cbn [rbind] in F. rewrite (nth_error_nth _ _ None J).
        destruct lj as [c'|]; [destruct (Nat.eqb_spec c' c)|]; injection F as <-.
        - right. split; auto. intros (? & Q1 & Q2). congruence.
        - left. split; eauto. split; [|apply two_w_nonneg, square_nonneg; auto]. rewrite NA, !NM, ND, N0. unfold row. reflexivity.
        - right. split; auto. intros (? & Q1 & Q2). congruence. }
    apply (fold_grows _ (fun j => nth j labels None = Some c) (fun j => 2 * w * (far - dist (pt i) (pt j)))%Q) in Fc.
    2:{ intros t t' j F. unfold py_nth in F. destruct (nth_error labels j) as [lj|] eqn:J; [|discriminate]. cbn [rbind] in F. rewrite (nth_error_nth _ _ None J).
        assert (Lj : j < length X) by (rewrite <- LL; apply nth_error_Some; congruence).
        destruct lj as [c'|]; [destruct (Nat.eqb_spec c' c)|]; injection F as <-.
        - left. subst c'. split; auto. split; [|apply two_w_nonneg; specialize (FAR i j ltac:(lia) Lj); lra]. rewrite NA, !NM, NS, ND, N0. unfold row. reflexivity.
        - right. split; auto. congruence.
        - right. split; auto. congruence. }
    destruct Fm as (M1 & M2 & M3), Fc as (C1 & C2 & C3).
    assert (Z0 : (o_of_nat Q o 0 == 0)%Q) by (rewrite N0; reflexivity).
    assert (V : (o_add Q o (o_add Q o (o_sub Q o (o_mahalanobis Q o (row Q X i) (row Q C c) A) (o_logdet Q o A)) tm) tc == base + tm + tc)%Q) by (unfold base; rewrite !NA, NS, ND; reflexivity).
    assert (IN : forall s j, In j (order s) <-> In j s) by (intros s j; split; intro H; [apply (Permutation_in _ (Permutation_sym (ORD s)))|apply (Permutation_in _ (ORD s))]; auto).
    rewrite Z0 in *. split; [|split].
    - intros j Cj Lj. rewrite V. assert (H := C2 j (proj2 (IN _ _) (proj2 (Ic j) Cj)) Lj). lra.
    - intros j c' Cj Lj NE. rewrite V. assert (H := M2 j (proj2 (IN _ _) (proj2 (Im j) Cj)) (ex_intro _ c' (conj Lj NE))). lra.
    - intros [H1 H2]. rewrite V. rewrite M3, C3.
      + lra.
      + intros j J. apply H2. apply Ic, IN, J.
      + intros j J (c' & Lj & NE). apply NE. apply (H1 j); auto. apply Im, IN, J.
  Qed.

  (** One assignment. *)
  Lemma assign_step labels i labels' c c' : length labels = length X -> i < length l ->
    assign_point Q o order X w mg cg A far C labels i = Ok labels' -> nth i labels' None = Some c -> c' < length C ->
    free_of_conflicts (constrained m l MUST_LINK) (constrained m l CANNOT_LINK) (fun j => nth j labels None) i c' ->
    c < length C /\
    (forall j, constrained m l CANNOT_LINK i j -> nth j labels None = Some c -> (2 * w * (far - dist (pt i) (pt j)) <= dist (pt i) (center c') - dist (pt i) (center c))%Q) /\
    (forall j c1, constrained m l MUST_LINK i j -> nth j labels None = Some c1 -> c1 <> c -> (2 * w * dist (pt i) (pt j) <= dist (pt i) (center c') - dist (pt i) (center c))%Q).
  Proof using EN AM ORD W NN GM GC LX FAR.
    intros LL Li E Ec Lc' FR. unfold assign_point in E. destruct (rmap _ _) as [costs|] eqn:R; cbn [rbind] in E; [|discriminate].
    assert (LC := rmap_length _ _ _ R). rewrite seq_length in LC. apply rmap_Ok in R.
    assert (NE : costs <> []) by (intro; subst; cbn in LC; lia).
    assert (E' : labels' = list_set labels i (Some (o_argmin Q o costs))) by (destruct costs; [congruence|injection E as <-; auto]). clear E. subst labels'.
    assert (EC : c = o_argmin Q o costs).
    { assert (H := nth_error_list_set labels i (Some (o_argmin Q o costs)) i). rewrite Nat.eqb_refl, (nth_error_nth' labels None) in H by lia. apply (nth_error_nth _ _ None) in H. rewrite H in Ec. congruence. }
    destruct (AM costs (0#1) NE) as (A1 & A2 & _). rewrite <- EC in *.
    assert (OB : forall e, e < length C -> objective Q o order X w mg cg A far C labels i e = Ok (nth e costs (0#1))).
    { intros e Le. assert (H : nth_error (map (objective Q o order X w mg cg A far C labels i) (seq 0 (length C))) e = nth_error (map Ok costs) e) by (rewrite R; auto).
      rewrite !nth_error_map in H. rewrite (nth_error_nth' (seq 0 (length C)) 0) in H by (rewrite seq_length; auto). rewrite seq_nth in H by auto. rewrite (nth_error_nth' costs (0#1)) in H by lia. cbn in H. congruence. }
    destruct (objective_bounds labels i c _ LL Li (OB c ltac:(lia))) as (B1 & B2 & _).
    destruct (objective_bounds labels i c' _ LL Li (OB c' Lc')) as (_ & _ & B3). specialize (B3 FR).
    assert (LE : (nth c costs (0#1) <= nth c' costs (0#1))%Q).
    { apply Qnot_lt_le. intro LT. destruct EN as (_ & _ & _ & _ & NL & _). apply NL in LT. rewrite (A2 c') in LT by lia. discriminate. }
    split; [lia|]. split.
    - intros j J1 J2. specialize (B1 j J1 J2). lra.
    - intros j c1 J1 J2 J3. specialize (B2 j c1 J1 J2 J3). lra.
  Qed.

  Lemma assign_point_frame labels i labels' : assign_point Q o order X w mg cg A far C labels i = Ok labels' ->
    length labels' = length labels /\ forall j, j <> i -> nth j labels' None = nth j labels None.
  Proof using.
    unfold assign_point. destruct (rmap _ _) as [costs|]; cbn [rbind]; [|discriminate]. destruct costs; [discriminate|]. intro E. injection E as <-.
    split; [apply list_set_length|]. intros j NE. set (v := Some _). assert (H := nth_error_list_set labels i v j). destruct (Nat.eqb_spec j i); [congruence|].
    destruct (nth_error labels j) as [x|] eqn:J.
    - rewrite (nth_error_nth _ _ None H), (nth_error_nth _ _ None J). auto.
    - apply nth_error_None in J. apply nth_error_None in H. rewrite !nth_overflow by auto. auto.
  Qed.
  Lemma assign_frame : forall is labels labels', rfold (assign_point Q o order X w mg cg A far C) is labels = Ok labels' ->
    length labels' = length labels /\ forall j, ~ In j is -> nth j labels' None = nth j labels None.
  Proof using.
    induction is as [|i is IH]; cbn [rfold]; intros labels labels' E; [injection E as <-; auto|].
    destruct (assign_point _ _ _ _ _ _ _ _ _ _ labels i) as [l1|] eqn:F; cbn [rbind] in E; [|discriminate]. apply assign_point_frame in F as [F1 F2]. apply IH in E as [E1 E2].
    split; [congruence|]. intros j NJ. rewrite E2 by (intro; apply NJ; simpl; auto). apply F2. intros ->. apply NJ. simpl. auto.
  Qed.
End Assign.

(*PROP C115, the part that holds: any number of points, metric, centres and order of the points.  If a CANNOT_LINK between points that are not at the largest distance is broken by an assignment of the points, or a MUST_LINK between points that are not at distance 0, then either the weight is below the bound (the gain in distance to the centres over twice the room to the largest distance), or, when the second of the two points was assigned, each cluster would have broken some constraint. *)
Lemma C115_weight_partial_proof :
  forall o order shuffle m l mg cg X w A far C t labels,
    exact_numbers o -> exact_argmin o -> valid_order order -> valid_shuffle shuffle -> (0 <= w)%Q -> Forall (Qle 0) A ->
    exact_graph m MUST_LINK l mg -> exact_graph m CANNOT_LINK l cg -> length X = length l ->
    (forall p q, p < length X -> q < length X -> (square_distance (nth p X []) (nth q X []) A <= far)%Q) ->
    assign_points Q o order shuffle X w mg cg t A far C = Ok labels ->
    forall i j ci cj, i <> j -> nth_error labels i = Some (Some ci) -> nth_error labels j = Some (Some cj) ->
      let d := square_distance (nth i X []) (nth j X []) A in
      let reach := fun p c => square_distance (nth p X []) (nth c C []) A in
      forall cost,
        (constrained m l CANNOT_LINK i j /\ constrained m l CANNOT_LINK j i /\ ci = cj /\ (cost == 2 * w * (far - d))%Q \/
         constrained m l MUST_LINK i j /\ constrained m l MUST_LINK j i /\ ci <> cj /\ (cost == 2 * w * d)%Q) ->
        (forall p c c', (p = i \/ p = j) -> c < length C -> c' < length C -> (reach p c' - reach p c < cost)%Q) ->
        exists p before, (p = i \/ p = j) /\
          (forall q, before q = None \/ nth_error labels q = Some (before q)) /\ before p = None /\
          forall c, c < length C -> ~ free_of_conflicts (constrained m l MUST_LINK) (constrained m l CANNOT_LINK) before p c.
Proof.
  intros o order shuffle m l mg cg X w A far C t labels EN AM ORD SHF W NN GM GC LX FAR E i j ci cj NE Ei Ej d reach cost BR BIG.
  unfold assign_points in E.
  assert (SYM : forall x y a, (square_distance x y a == square_distance y x a)%Q).
  { induction x as [|u x IH]; intros [|v y] [|e a]; cbn [square_distance]; try reflexivity. rewrite IH. ring. }
  assert (FR := assign_frame o order mg cg X w A far C _ _ _ E). destruct FR as [LL _]. rewrite repeat_length in LL.
  assert (PS := SHF t (seq 0 (length X))).
  assert (ND : NoDup (shuffle t (seq 0 (length X)))) by (eapply Permutation_NoDup; [exact PS|apply seq_NoDup]).
  assert (IN : forall p, p < length X -> In p (shuffle t (seq 0 (length X)))) by (intros p Lp; eapply Permutation_in; [exact PS|apply in_seq; lia]).
  assert (Li : i < length X) by (rewrite <- LL; apply nth_error_Some; congruence).
  assert (Lj : j < length X) by (rewrite <- LL; apply nth_error_Some; congruence).
  assert (MAIN : forall p q cp cq, p < length X -> q < length X -> p <> q -> nth_error labels p = Some (Some cp) -> nth_error labels q = Some (Some cq) ->
    (constrained m l CANNOT_LINK p q /\ cp = cq /\ (cost == 2 * w * (far - square_distance (nth p X []) (nth q X []) A))%Q \/
     constrained m l MUST_LINK p q /\ cp <> cq /\ (cost == 2 * w * square_distance (nth p X []) (nth q X []) A)%Q) ->
    (forall c c', c < length C -> c' < length C -> (reach p c' - reach p c < cost)%Q) ->
    forall a b, shuffle t (seq 0 (length X)) = a ++ p :: b -> In q a ->
    exists before, (forall q, before q = None \/ nth_error labels q = Some (before q)) /\ before p = None /\
      forall c, c < length C -> ~ free_of_conflicts (constrained m l MUST_LINK) (constrained m l CANNOT_LINK) before p c).
  { intros p q cp cq Lp Lq NEpq Ep Eq BRp BIGp a b SP QA. rewrite SP in ND, E. rewrite rfold_app in E.
    destruct (rfold _ a (repeat None (length X))) as [Lb|] eqn:Ea; cbn [rbind rfold] in E; [|discriminate].
    destruct (assign_point Q o order X w mg cg A far C Lb p) as [L1|] eqn:E1; cbn [rbind] in E; [|discriminate].
    destruct (assign_frame _ _ _ _ _ _ _ _ _ _ _ _ Ea) as [LLb Fa]. rewrite repeat_length in LLb.
    destruct (assign_point_frame _ _ _ _ _ _ _ _ _ _ _ _ E1) as [LL1 F1]. destruct (assign_frame _ _ _ _ _ _ _ _ _ _ _ _ E) as [LL2 F2].
    assert (NPa : ~ In p a /\ ~ In p b) by (apply NoDup_remove_2 in ND; rewrite in_app_iff in ND; tauto). destruct NPa as [NPa NPb].
    assert (AB : forall x, In x a -> ~ In x b).
    { intros x X1 X2. apply NoDup_remove_1 in ND. clear -ND X1 X2. induction a as [|y a IH]; [destruct X1|]. cbn in ND. inversion ND; subst. destruct X1 as [->|X1]; [apply H1; apply in_or_app; auto|auto]. }
    assert (AFTER : forall x, In x a -> nth x Lb None = nth x labels None).
    { intros x Xa. rewrite (F2 x (AB x Xa)). symmetry. apply F1. intros ->. auto. }
    exists (fun x => nth x Lb None). split; [|split].
    - intro x. destruct (in_dec Nat.eq_dec x a) as [Xa|Xa].
      + right. rewrite (AFTER x Xa). apply nth_error_nth'. rewrite LL. assert (In x (seq 0 (length X))) by (eapply Permutation_in; [apply Permutation_sym; exact PS|rewrite SP; apply in_or_app; auto]). apply in_seq in H. lia.
      + left. rewrite (Fa x Xa). destruct (le_lt_dec (length X) x); [apply nth_overflow; rewrite repeat_length; auto|]. apply nth_repeat.
    - rewrite (Fa p NPa). apply nth_repeat.
    - intros c Lc FRc.
      assert (EL : nth p L1 None = Some cp) by (rewrite <- (F2 p NPb); apply (nth_error_nth _ _ None Ep)).
      assert (EQ : nth q Lb None = Some cq) by (rewrite (AFTER q QA); apply (nth_error_nth _ _ None Eq)).
      destruct (assign_step o order m l mg cg X w A far C EN AM ORD W NN GM GC LX FAR Lb p L1 cp c LLb ltac:(lia) E1 EL Lc FRc) as (Lcp & S1 & S2).
      specialize (BIGp cp c Lcp Lc). unfold reach in BIGp. destruct BRp as [(B1 & <- & B3)|(B1 & B2 & B3)].
      + specialize (S1 q B1 EQ). lra.
      + specialize (S2 q cq B1 EQ ltac:(congruence)). lra. }
  assert (POS := IN i Li). apply in_split in POS as (a & b & SP). destruct (in_dec Nat.eq_dec j a) as [Ja|Ja].
  - destruct (MAIN i j ci cj Li Lj NE Ei Ej) with (a := a) (b := b) as (bf & H1 & H2 & H3); auto.
    + unfold d in BR. destruct BR as [(B1 & _ & B2 & B3)|(B1 & _ & B2 & B3)]; [left|right]; auto.
    + exists i, bf. auto.
  - assert (Jb : In j b) by (assert (H := IN j Lj); rewrite SP in H; apply in_app_iff in H as [H|[H|H]]; [contradiction|congruence|auto]).
    apply in_split in Jb as (b1 & b2 & ->).
    destruct (MAIN j i cj ci Lj Li (not_eq_sym NE) Ej Ei) with (a := a ++ i :: b1) (b := b2) as (bf & H1 & H2 & H3); auto.
    + unfold d in BR. destruct BR as [(_ & B1 & B2 & B3)|(_ & B1 & B2 & B3)]; [left|right]; rewrite (SYM (nth j X []) (nth i X [])); auto.
    + rewrite SP, <- app_assoc. reflexivity.
    + apply in_or_app. simpl. auto.
    + exists j, bf. auto.
Qed.

(*EX
(** Three data on a line, at 0, 10 and 4, none of which may be linked, and two clusters with
    centres 0 and 10: the third datum joins the second one whatever the weight costs. *)
Definition line3 : mgr := run [CallAddConstraint wa wb CANNOT_LINK 1%Q; CallAddConstraint wb wc CANNOT_LINK 1%Q; CallAddConstraint wa wc CANNOT_LINK 1%Q] (init [wa; wb; wc]).
Definition X3 : list (list Q) := [[0 # 1]; [10 # 1]; [4 # 1]].
Example C115_weight_ex : exists mg cg cs,
  constraint_graphs 1000 (fun l => l) line3 [wa; wb; wc] = Ok (mg, cg, cs) /\
  assign_points Q Wops (fun l => l) (fun _ l => l) X3 (1000 # 1) mg cg 0 [1 # 1] (100 # 1) [[0 # 1]; [10 # 1]] = Ok [Some 0; Some 1; Some 1] /\
  constrained line3 [wa; wb; wc] CANNOT_LINK 1 2 /\
  (forall p q, p < 3 -> q < 3 -> Qle (square_distance (nth p X3 []) (nth q X3 []) [1 # 1]) (100 # 1)) /\
  Qeq (square_distance (nth 1 X3 []) (nth 2 X3 []) [1 # 1]) (36 # 1).
Proof.
  eexists _, _, _. split; [vm_compute; reflexivity|]. split; [vm_compute; reflexivity|]. split; [exists wb, wc; repeat split; vm_compute; reflexivity|]. split; [|vm_compute; reflexivity].
  intros [|[|[|p]]] [|[|[|q]]] Lp Lq; try lia; vm_compute; discriminate.
Qed.
EX*)
