(** * What an early stop of KMeans guarantees (C134) *)

From Coq Require Import String List Bool Arith ZArith QArith Qabs Lia Permutation.
(*HEADER
From Coq Require Import String List Bool Arith ZArith QArith Permutation Lia.
From Verif Require Import Base Manager Spec ManagerThms SamplingSpec ClusterSpec KMeans KMeansSpec LloydSpec LloydThms ConvergeSpec StopSpec StopThms.
Import ListNotations.
Open Scope nat_scope.
HEADER*)
From Verif Require Import Base Manager Spec Closure ManagerProofs ManagerInv ManagerQueries ManagerThms
  SamplingSpec ClusterSpec ClusterProofs KMeans KMeansSpec KMeansProofs KMeansThms LloydSpec LloydThms ConvergeSpec ConvergeThms StopSpec.
Import ListNotations.
Open Scope nat_scope.
Open Scope py_scope.

Lemma nth_error_seq0 k n : k < n -> nth_error (seq 0 n) k = Some k.
Proof.
  intro H. rewrite (nth_error_nth' (seq 0 n) 0) by (rewrite seq_length; auto). rewrite seq_nth; auto.
Qed.

Section Near.
  Context {vec D : Type}.
  Variable pairwise : list vec -> list vec -> nat -> nat -> D.
  Variable ltb : D -> D -> bool.
  Variables zero tol : D.
  Variable dsum : list D -> D.
  Variable mean : list vec -> vec.
  Variable add : D -> D -> D.
  Variable dist : vec -> vec -> D.
  Variable m : mgr.
  Variable vectors : dict pystr vec.
  Variable rows : list vec.
  Hypothesis I : Inv m.
  Hypothesis VR : vectors_are vectors (ids m) rows.
  Hypothesis L : lengths ltb add.
  Hypothesis SU : sums_up ltb zero add dsum.
  Hypothesis ME : metric ltb zero add dist.
  Hypothesis CB : computed_by dist pairwise.
  Notation le := (at_most ltb).

  Lemma le_trans a b c : le a b -> le b c -> le a c.
  Proof using L.
    destruct L as ((_ & _ & T) & _). unfold at_most. intros A B. destruct (ltb c a) eqn:E; auto. destruct (T c b a E); congruence.
  Qed.
  Lemma lt_le a b : ltb a b = true -> le a b.
  Proof using L.
    destruct L as ((Ir & T & _) & _). unfold at_most. intro A. destruct (ltb b a) eqn:E; auto. rewrite <- (Ir a). symmetry. eapply T; eauto.
  Qed.
  Lemma add_le_r a b c : le a b -> le (add a c) (add b c).
  Proof using L.
    intro A. destruct L as (_ & _ & C & Mo). eapply le_trans; [apply C|]. eapply le_trans; [apply Mo, A|apply C].
  Qed.

  (** The moves of two centroids together are less than the tolerance. *)
  Lemma near v u w u' w' s : le (dist v u) (dist v u') -> le (add (dist u' w') (dist u w)) s -> ltb s tol = true ->
    le (dist v w) (add (dist v w') tol).
  Proof using L ME.
    intros A B S. destruct ME as (_ & Sy & T). destruct L as (_ & As & Co & Mo).
    eapply le_trans; [apply (T v u w)|]. eapply le_trans; [apply add_le_r, A|].
    eapply le_trans; [apply add_le_r, (T v w' u')|]. eapply le_trans; [apply As|]. apply Mo.
    rewrite (Sy w' u'). eapply le_trans; [exact B|]. apply lt_le, S.
  Qed.

  Lemma row_at i x v : nth_error (ids m) i = Some x -> dget x vectors = Some v -> nth_error rows i = Some v.
  Proof using VR.
    intros N G. assert (Q := map_nth_error (fun x => dget x vectors) i (ids m) N). unfold vectors_are in VR. rewrite VR, G in Q.
    destruct (nth_error rows i) as [w|] eqn:Nr; [rewrite (map_nth_error Some i rows Nr) in Q; congruence|].
    apply nth_error_None in Nr. assert (X : i < length (map Some rows)) by (apply nth_error_Some; congruence). rewrite map_length in X. lia.
  Qed.

  Lemma nth_val (C : dict Z vec) : forall j c, nth_error (keys C) j = Some c -> exists u, nth_error (vals C) j = Some u.
  Proof using.
    intros j c N. assert (j < length (keys C)) by (apply nth_error_Some; congruence).
    destruct (nth_error (vals C) j) as [u|] eqn:E; eauto. apply nth_error_None in E. unfold keys, vals in *. rewrite map_length in *. lia.
  Qed.

  Lemma val_in (d : dict pystr Z) x c : dget x d = Some c -> In c (vals d).
  Proof using. intro G. apply dget_In in G. unfold vals. apply in_map_iff. exists (x, c). auto. Qed.

  Lemma mean_is raw nc x c w w' : keys raw = ids m -> In x (ids m) -> dget x raw = Some c -> centroids_of mean (ids m) vectors raw nc -> dget c nc = Some w ->
    mean_of_cluster mean (ids m) vectors raw x w' -> w' = w.
  Proof using.
    intros K Ix G (_ & _ & CO) Gw (rs & V & ->). destruct (CO c w Gw) as (rs' & V' & ->). f_equal.
    assert (E : fellows (ids m) raw x = filter (fun y => match dget y raw with Some c' => Z.eqb c' c | None => false end) (ids m)).
    { unfold fellows. rewrite G. apply filter_ext. intro y. destruct (dget y raw) as [b|]; auto. apply Z.eqb_sym. }
    rewrite E in V. unfold vectors_are in *. rewrite V in V'. clear -V'. revert rs' V'. induction rs as [|r rs IH]; intros [|r' rs'] Q; try discriminate; auto.
    injection Q as -> Q. f_equal; auto.
  Qed.

  Lemma stable_near C old raw nc : centroids_of mean (ids m) vectors old C -> nearest_assignment pairwise ltb m (ids m) vectors C raw ->
    centroids_of mean (ids m) vectors raw nc -> stable pairwise ltb dsum tol (Some old) raw C nc ->
    nearly_settled ltb mean tol m (ids m) vectors add dist raw.
  Proof using I VR L SU ME CB.
    intros CO (Kr & Re & NA) CN (old' & nv & Eo & Vo & Env & St) x y v c0 c0' Lx My Nxy NB Gv Mx My'.
    injection Eo as <-. destruct (NA x Lx) as (c & Gc & Q).
    assert (InC : forall c, In c (vals raw) -> In c (keys C)) by (intros z Z; apply CO, Vo, Z).
    assert (Ic := InC _ (val_in _ _ _ Gc)). destruct Q as [(_ & Near)|(Q & _)]; [|contradiction].
    assert (Iy := My). apply managed_ids in Iy. assert (Ky : In y (keys raw)) by (rewrite Kr; auto). destruct (dget_In_key _ _ Ky) as [c' Gc'].
    assert (Ic' := InC _ (val_in _ _ _ Gc')). assert (Ncc : c <> c') by congruence.
    assert (Ix : In x (ids m)) by (apply managed_ids, Lx).
    destruct (In_nth_error _ _ Ix) as [i Ni], (In_nth_error _ _ Ic) as [p Np], (In_nth_error _ _ Ic') as [q Nq].
    assert (Npq : p <> q) by congruence.
    destruct (nth_val C p c Np) as [u Nu], (nth_val C q c' Nq) as [u' Nu'].
    assert (NW : forall p c, nth_error (keys C) p = Some c -> exists w, nth_error nv p = Some w /\ dget c nc = Some w).
    { intros p0 z Z. assert (E := map_nth_error (fun c => dget c nc) p0 (keys C) Z). rewrite Env in E.
      destruct (nth_error nv p0) as [w|] eqn:Nw; [rewrite (map_nth_error Some p0 nv Nw) in E; injection E as E; eauto|].
      apply nth_error_None in Nw. assert (X : p0 < length (map Some nv)) by (apply nth_error_Some; congruence). rewrite map_length in X. lia. }
    destruct (NW p c Np) as (w & Nw & Gw), (NW q c' Nq) as (w' & Nw' & Gw').
    assert (c0 = w) by (eapply (mean_is raw nc x); eauto). assert (c0' = w') by (eapply (mean_is raw nc y); eauto). subst c0 c0'.
    assert (Rv := row_at i x v Ni Gv).
    assert (D1 : pairwise rows (vals C) i p = dist v u) by (apply CB; auto).
    assert (D2 : pairwise rows (vals C) i q = dist v u') by (apply CB; auto).
    apply (near v u w u' w' (dsum (map (fun i => pairwise (vals C) nv i i) (seq 0 (length nv))))); auto.
    - unfold at_most. destruct (ltb (dist v u') (dist v u)) eqn:Lt; auto. exfalso. apply NB.
      destruct (Near c' (dist v u) (dist v u')) as (z & Mz & Iz & Gz).
      + exists rows, i, p. auto.
      + exists rows, i, q. auto.
      + left. exact Lt.
      + exists z. split; auto. split; auto. congruence.
    - assert (Lnv : length nv = length (keys C)) by (assert (E := f_equal (@length _) Env); rewrite !map_length in E; auto).
      assert (Lv : length (vals C) = length (keys C)) by (unfold keys, vals; rewrite !map_length; auto).
      apply (SU _ q p).
      + intros z Z. apply in_map_iff in Z. destruct Z as (j & <- & J). apply in_seq in J.
        destruct (nth_error nv j) as [b|] eqn:Nb; [|apply nth_error_None in Nb; lia].
        destruct (nth_error (vals C) j) as [a|] eqn:Na; [|apply nth_error_None in Na; lia].
        rewrite (CB _ _ _ _ _ _ Na Nb). apply ME.
      + auto.
      + rewrite (map_nth_error (fun i => pairwise (vals C) nv i i) q (seq 0 (length nv)) (d := q)); [f_equal; apply CB; auto|].
        apply nth_error_seq0. apply nth_error_Some. congruence.
      + rewrite (map_nth_error (fun i => pairwise (vals C) nv i i) p (seq 0 (length nv)) (d := p)); [f_equal; apply CB; auto|].
        apply nth_error_seq0. apply nth_error_Some. congruence.
  Qed.

  Lemma run_near n C prev raw fc : cop_run pairwise ltb dsum mean tol m (ids m) vectors n C prev raw fc ->
    (forall old, prev = Some old -> centroids_of mean (ids m) vectors old C) ->
    exists k, 1 <= k <= n /\ full_rounds pairwise ltb dsum mean tol m (ids m) vectors k C prev raw fc /\
      (k < n -> nearly_settled ltb mean tol m (ids m) vectors add dist raw).
  Proof using I VR L SU ME CB.
    induction 1 as [n C prev raw nc NA CE E|n C prev raw nc fin ffc NA CE NS Run IH]; intro P.
    - exists 1. split; [lia|]. split; [constructor; auto|]. intro Lt. destruct E as [E|E]; [lia|].
      assert (E' := E). destruct E' as (old & nv & -> & _). apply (stable_near C old raw nc); auto.
    - destruct IH as (k & Kn & FR & Nr); [intros old Eo; injection Eo as <-; auto|].
      exists (S k). split; [lia|]. split; [eapply next_round; eauto|]. intro Lt. apply Nr. lia.
  Qed.
End Near.

Lemma settled_transfer {vec D} ltb mean (tol : D) m (vectors : dict pystr vec) add dist raw d : Inv m -> keys raw = ids m -> same_partition raw d ->
  nearly_settled ltb mean tol m (ids m) vectors add dist raw -> nearly_settled ltb mean tol m (ids m) vectors add dist d.
Proof.
  intros I K SP H x y v c c' Lx My N NB Gv Mx My'. assert (Sub : forall z, In z (ids m) -> In z (keys raw)) by (intros z; rewrite K; auto).
  assert (Kx : In x (keys raw)) by (rewrite K; apply managed_ids, Lx). assert (Ky : In y (keys raw)) by (rewrite K; apply managed_ids; auto).
  unfold mean_of_cluster in Mx, My'.
  rewrite <- (fellows_partition (ids m) raw d x Sub SP) in Mx by (rewrite <- K; auto).
  rewrite <- (fellows_partition (ids m) raw d y Sub SP) in My' by (rewrite <- K; auto).
  apply (H x y v c c'); auto.
  - intro E. apply N. apply SP; auto.
  - intros (z & Mz & Iz & E). apply NB. exists z. split; auto. split; auto. apply SP; auto. rewrite K. apply managed_ids; auto.
Qed.

(*PROP C134: a KMeans call makes some number of rounds, and when it stops before the last one allowed, the last data of each component is at most the tolerance farther from the mean of its cluster than from the mean of any other cluster that no CANNOT_LINK excludes. *)
Lemma C134_early_stop_proof :
  forall vec D (eqD : EqB D) pairwise ltb dzero dsum mean shuffle set_order model it tol p m vectors nb s s' d add dist,
    valid_set_order set_order -> valid_shuffle shuffle -> lengths ltb add -> sums_up ltb dzero add dsum -> metric ltb dzero add dist ->
    computed_by dist pairwise -> reachable m ->
    make_kmeans D ltb dzero model it tol = Ok p ->
    cluster vec D pairwise ltb dsum mean shuffle set_order p m vectors (Some nb) s = (s', Ok d) ->
    exists ids first raw rounds, ask get_list_of_managed_data_IDs m = Ok ids /\
      initial_centroids ids vectors (Nat.min (Z.to_nat nb) (length ids)) first /\
      full_rounds pairwise ltb dsum mean tol m ids vectors rounds first None raw (k_centroids vec s') /\ same_partition raw d /\
      1 <= rounds <= Z.to_nat it /\
      (rounds < Z.to_nat it -> nearly_settled ltb mean tol m ids vectors add dist d).
Proof.
  intros vec D eqD pairwise ltb dzero dsum mean shuffle set_order model it tol p m vectors nb s s' d add dist SO SH LE SU ME CB R MK Ec.
  destruct (C58_kmeans_is_cop_run_proof vec D eqD pairwise ltb dzero dsum mean shuffle set_order model it tol p m vectors nb s s' d SO SH (proj1 LE) R MK Ec)
    as (l & first & raw & El & IC & Run & SPk).
  assert (MX := make_kmeans_max _ _ _ _ _ _ MK). apply reachable_inv in R.
  assert (El' : ask get_list_of_managed_data_IDs m = Ok (ids m)) by reflexivity. rewrite El' in El. injection El as <-.
  assert (E' : result (cluster vec D pairwise ltb dsum mean shuffle set_order p m vectors (Some nb)) s = Ok d) by (unfold result; rewrite Ec; auto).
  destruct (KMeansThms.returned_valid pairwise ltb dsum mean shuffle set_order SH p MX m vectors (Some nb) s d R E') as (n & En & N & NE & COV). injection En as <-.
  assert (VR : exists rows, vectors_are vectors (ids m) rows).
  { clear -COV. induction (ids m) as [|z l IH]; [exists []; reflexivity|].
    destruct IH as [rows VR]; [intros w W; apply COV; right; auto|]. destruct (dget z vectors) as [v|] eqn:G.
    - exists (v :: rows). unfold vectors_are. simpl. rewrite G. f_equal. exact VR.
    - exfalso. assert (Z := COV z (or_introl eq_refl)). apply dget_None in G. auto. }
  destruct VR as (rows & VR).
  destruct (run_near pairwise ltb dzero tol dsum mean add dist m vectors rows R VR LE SU ME CB _ _ _ _ _ Run) as (k & Kn & FR & Nr); [discriminate|].
  exists (ids m), first, raw, k. split; auto. split; auto. split; auto. split; auto. split; auto.
  intro Lt. apply (settled_transfer ltb mean tol m vectors add dist raw d); auto.
  assert (KR : forall k C prev fin ffc, full_rounds pairwise ltb dsum mean tol m (ids m) vectors k C prev fin ffc -> keys fin = ids m).
  { clear. induction 1; auto. apply H. }
  eapply KR; eauto.
Qed.

(*EX
(** Five data on a line, a CANNOT_LINK between the first and the third: the third round still changes the clusters,
    later ones do not, and the first data stays with the far one because the CANNOT_LINK excludes the near cluster. *)
Definition A := str "a". Definition B := str "b". Definition C := str "c". Definition E := str "d". Definition F := str "e".
Definition places : dict pystr (list Q) := [(A, [0]); (B, [1]); (C, [2]); (E, [3]); (F, [12])]%Q.
Definition apart : mgr := run [CallAddConstraint A C CANNOT_LINK 1%Q] (init [A; B; C; E; F]).
Definition call (it : Z) := match make_kmeans Q less 0%Q (str "COP") it (1 # 10000)%Q with
  | Ok p => result (cluster (list Q) Q line_pairwise less line_total (mean_of 1) (fun l => l) (nodup Z.eq_dec) p apart places (Some 2%Z)) (fresh_kmeans (list Q))
  | Raise e => Raise e
  end.
Example C134_ex : reachable apart /\ lengths less Qplus /\ sums_up less 0%Q Qplus line_total /\ metric less 0%Q Qplus line_dist /\
  computed_by line_dist line_pairwise /\ (call 2 = call 150 -> False) /\ call 5 = call 150 /\ call 150 = call 151.
Proof.
  split; [apply run_reachable|]. split; [apply line_lengths|]. split; [apply line_sums|]. split; [apply line_metric|]. split; [apply line_computed|].
  split; [intro Q; vm_compute in Q; discriminate|]. split; vm_compute; reflexivity.
Qed.
EX*)

(** ** Points of a line *)
Definition line_dist (u v : list Q) : Q := Qred (Qabs (coord u 0 - coord v 0)).
Definition line_pairwise (X Y : list (list Q)) (i j : nat) : Q := line_dist (nth i X []) (nth j Y []).
Definition line_total (l : list Q) : Q := fold_right (fun a b => Qred (a + b)) 0%Q l.

Lemma at_most_spec a b : at_most less a b <-> (a <= b)%Q.
Proof.
  unfold at_most. rewrite <- not_true_iff_false, less_spec. split; [apply Qnot_lt_le|apply Qle_not_lt].
Qed.

Lemma line_lengths : lengths less Qplus.
Proof.
  split; [apply less_order|]. split; [|split]; intros; rewrite !at_most_spec in *.
  - rewrite Qplus_assoc. apply Qle_refl.
  - rewrite Qplus_comm. apply Qle_refl.
  - apply Qplus_le_compat; auto. apply Qle_refl.
Qed.

Lemma line_total_nonneg l : (forall x, In x l -> at_most less 0%Q x) -> (0 <= line_total l)%Q.
Proof.
  induction l as [|x l IH]; intro H; [apply Qle_refl|]. cbn [line_total fold_right]. rewrite Qred_correct. fold (line_total l).
  assert (X := H x (or_introl eq_refl)). apply at_most_spec in X. assert (Y := IH (fun y J => H y (or_intror J))).
  change 0%Q with (0 + 0)%Q. apply Qplus_le_compat; auto.
Qed.

Lemma line_total_one l : forall i a, (forall x, In x l -> at_most less 0%Q x) -> nth_error l i = Some a -> (a <= line_total l)%Q.
Proof.
  induction l as [|x l IH]; intros [|i] a H N; try discriminate; cbn [line_total fold_right]; rewrite Qred_correct; fold (line_total l);
    assert (X := H x (or_introl eq_refl)); apply at_most_spec in X; assert (P := line_total_nonneg l (fun y J => H y (or_intror J))).
  - injection N as <-. rewrite <- (Qplus_0_r x) at 1. apply Qplus_le_compat; auto. apply Qle_refl.
  - assert (Y := IH i a (fun y J => H y (or_intror J)) N). rewrite <- (Qplus_0_l a). apply Qplus_le_compat; auto.
Qed.

Lemma line_sums : sums_up less 0%Q Qplus line_total.
Proof.
  intros l. induction l as [|x l IH]; intros i j a b H N Na Nb; [destruct i; discriminate|].
  assert (X := H x (or_introl eq_refl)). apply at_most_spec in X. assert (Hl := fun y J => H y (or_intror J)). apply at_most_spec.
  destruct i as [|i], j as [|j]; [congruence| | |]; cbn [nth_error] in Na, Nb; cbn [line_total fold_right]; rewrite Qred_correct; fold (line_total l).
  - injection Na as <-. apply Qplus_le_compat; [apply Qle_refl|]. eapply line_total_one; eauto.
  - injection Nb as <-. rewrite Qplus_comm. apply Qplus_le_compat; [apply Qle_refl|]. eapply line_total_one; eauto.
  - assert (Y := IH i j a b Hl). rewrite at_most_spec in Y. rewrite <- (Qplus_0_l (a + b)). apply Qplus_le_compat; auto.
Qed.

Lemma line_metric : metric less 0%Q Qplus line_dist.
Proof.
  unfold metric, line_dist. split; [|split]; intros.
  - apply at_most_spec. rewrite Qred_correct. apply Qabs_nonneg.
  - f_equal. apply Qabs_Qminus.
  - apply at_most_spec. rewrite !Qred_correct.
    assert (E : (coord u 0 - coord w 0 == (coord u 0 - coord v 0) + (coord v 0 - coord w 0))%Q) by ring. rewrite E. apply Qabs_triangle.
Qed.

Lemma line_computed : computed_by line_dist line_pairwise.
Proof. intros X Y i j u v Nu Nv. unfold line_pairwise. rewrite (nth_error_nth _ _ _ Nu), (nth_error_nth _ _ _ Nv). auto. Qed.

(*PROP C134: the tolerance cannot be left out: with the default arguments a call can stop although a data is closer to the mean of another cluster. *)
Lemma C134_not_closer_proof :
  exists (eqD : EqB Q) pairwise ltb dsum mean shuffle set_order p m vectors d add dist ids,
    valid_set_order set_order /\ valid_shuffle shuffle /\ lengths ltb add /\ sums_up ltb 0%Q add dsum /\ metric ltb 0%Q add dist /\
    computed_by dist pairwise /\ exact_mean 1 mean /\ m = init ids /\
    make_kmeans Q ltb 0%Q (str "COP") 150 (1 # 10000)%Q = Ok p /\
    result (cluster (list Q) Q pairwise ltb dsum mean shuffle set_order p m vectors (Some 2%Z)) (fresh_kmeans (list Q)) = Ok d /\
    ~ settled 1 ids vectors d.
Proof.
  set (il := [str "a"; str "b"; str "c"; str "d"; str "e"]).
  set (places := [(str "a", [0]); (str "b", [1 # 80000]); (str "c", [2 # 80000]); (str "d", [3 # 80000]); (str "e", [12 # 80000])]%Q).
  exists EqB_fraction, line_pairwise, less, line_total, (mean_of 1), (fun l => l), (nodup Z.eq_dec), (mkKParams Q 150 (1 # 10000)%Q), (init il), places,
    [(str "a", 0); (str "b", 0); (str "c", 0); (str "d", 1); (str "e", 1)]%Z, Qplus, line_dist, il.
  split; [intro l; split; [apply NoDup_nodup|intro x; apply nodup_In]|]. split; [intro l; apply Permutation_refl|].
  split; [apply line_lengths|]. split; [apply line_sums|]. split; [apply line_metric|]. split; [apply line_computed|]. split; [apply mean_of_exact|].
  split; auto. split; [reflexivity|]. split; [vm_compute; reflexivity|].
  intro St. assert (X := St (str "d") (str "a") ltac:(simpl; tauto) ltac:(simpl; tauto)). vm_compute in X. auto.
Qed.
