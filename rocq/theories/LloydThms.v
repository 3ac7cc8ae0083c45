(** * KMeans in exact arithmetic: more rounds, smaller sums of squared distances. *)

From Coq Require Import String List Bool Arith ZArith QArith Lia Lqa Permutation.
(*HEADER
From Coq Require Import String List Bool Arith ZArith QArith Permutation Lia.
From Verif Require Import Base Manager Spec ManagerThms SamplingSpec ClusterSpec KMeans KMeansSpec LloydSpec LloydThms.
Import ListNotations.
Open Scope nat_scope.
HEADER*)
From Verif Require Import Base Manager Spec Closure ManagerProofs ManagerInv ManagerQueries ManagerThms
  Sampling SamplingSpec SamplingProofs SamplingThms Rename ClusterSpec RenameThms ClusterProofs KMeans KMeansSpec KMeansProofs KMeansRun KMeansThms
  LloydSpec LloydProofs.
Import ListNotations.
Open Scope nat_scope.
Open Scope py_scope.

Section Descent.
  Context {D : Type}.
  Variable n : nat.
  Variable pairwise : list (list Q) -> list (list Q) -> nat -> nat -> D.
  Variable ltb : D -> D -> bool.
  Variable dsum : list D -> D.
  Variable mean : list (list Q) -> list Q.
  Variable tol : D.
  Variable m : mgr.
  Hypothesis I : Inv m.
  Variable vectors : dict pystr (list Q).
  Hypothesis COV : forall x, In x (ids m) -> In x (keys vectors).
  Hypothesis NE : ids m <> [].
  Hypothesis EU : euclidean n pairwise ltb.
  Hypothesis EM : exact_mean n mean.
  Hypothesis NT : no_tension n m vectors.
  Notation inI x := (In x (ids m)).
  Notation pt := (point vectors).

  Definition at_ (C : dict Z (list Q)) (c : Z) : list Q := match dget c C with Some v => v | None => [] end.
  Definition lab (d : dict pystr Z) (x : pystr) : Z := match dget x d with Some c => c | None => (-1)%Z end.
  Definition cost (C : dict Z (list Q)) (f : pystr -> Z) : Q := sumQ (map (fun x => sqdist n (pt x) (at_ C (f x))) (ids m)).

  Lemma point_get x : inI x -> dget x vectors = Some (pt x).
  Proof. intro X. unfold point. destruct (dget_In_key x vectors (COV x X)) as [v ->]. auto. Qed.

  Lemma rows_are l : incl l (ids m) -> vectors_are vectors l (map pt l).
  Proof. intro J. unfold vectors_are. rewrite map_map. apply map_ext_in. intros x X. apply point_get, J, X. Qed.
  Lemma rows_unique l rows : incl l (ids m) -> vectors_are vectors l rows -> rows = map pt l.
  Proof.
    intros J V. assert (W := rows_are l J). unfold vectors_are in *. rewrite W in V.
    clear - V. revert V. generalize (map pt l) as r. revert rows. induction rows as [|a rows IH]; intros [|b r] V; simpl in *; try discriminate; auto.
    injection V as -> V. f_equal. apply IH; auto.
  Qed.

  Lemma leader_exists x : inI x -> exists l, inI l /\ ml m x l = true /\ leader m (ids m) l.
  Proof.
    intro X. assert (F : In x (filter (ml m x) (ids m))) by (apply filter_In; split; auto; apply ml_refl; auto).
    destruct (filter (ml m x) (ids m)) as [|y0 r0] eqn:E0; [destruct F|].
    destruct (exists_last (l := y0 :: r0)) as (r & l & Er); [discriminate|]. rewrite Er in E0.
    assert (L : In l (filter (ml m x) (ids m))) by (rewrite E0; apply in_or_app; right; left; auto).
    apply filter_In in L as [Il Ml]. exists l. split; auto. split; auto. split; [apply managed_ids; auto|].
    intros y Y Hy. apply managed_ids in Y. apply inferred_ml in Hy; auto.
    assert (In y (filter (ml m x) (ids m))) as J by (apply filter_In; split; auto; apply (ml_trans m I x l y); auto).
    rewrite E0 in J. apply in_app_or in J as [J|[J|[]]]; auto. right. apply (before_filter (ml m x)). rewrite E0.
    apply before_app_m; simpl; auto.
  Qed.

  Lemma nth_keys_vals (C : dict Z (list Q)) j c : NoDup (keys C) -> nth_error (keys C) j = Some c -> nth_error (vals C) j = Some (at_ C c).
  Proof.
    intros ND E. unfold at_. revert j ND E. induction C as [|[k v] C IH]; intros [|j] ND E; simpl in *; try discriminate.
    - injection E as ->. change (Z.eqb c c) with (eqb c c). rewrite eqb_refl. auto.
    - inversion ND as [|? ? Nk ND']; subst. rewrite (IH j ND' E). destruct (eqb c k) eqn:K; auto.
      apply eqb_eq in K. subst. exfalso. apply Nk. eapply nth_error_In; eauto.
  Qed.

  Lemma nearest_le C raw x c' : NoDup (keys C) -> nearest_assignment pairwise ltb m (ids m) vectors C raw -> inI x -> In c' (keys C) ->
    (sqdist n (pt x) (at_ C (lab raw x)) <= sqdist n (pt x) (at_ C c'))%Q.
  Proof.
    intros ND (K & Res & Near) X C'. destruct (leader_exists x X) as (l & L & ML & Ld).
    assert (Ixl : inferred m x l (Some MUST_LINK)) by (apply inferred_ml; auto).
    assert (SP : same_point n (pt x) (pt l)).
    { apply (NT x l); auto; apply managed_ids; auto. }
    assert (El : lab raw x = lab raw l).
    { unfold lab. rewrite (proj1 Res x l); auto; apply managed_ids; auto. }
    assert (SS : forall v, (sqdist n (pt x) v == sqdist n (pt l) v)%Q) by (intro v; apply sqdist_same; auto; intros i _; reflexivity).
    rewrite El, !SS. destruct (Near l Ld) as (c & Ec & Cases). unfold lab. rewrite Ec.
    assert (NB : forall c0, ~ blocked m raw l c0).
    { intros c0 (y & Y & Hy & _). apply (proj1 (NT l y (proj1 Ld) Y)); auto. }
    destruct Cases as [(Ic & Best)|(_ & Bl & _)]; [|exfalso; apply (NB c'); auto].
    apply In_nth_error in Ic as (j & Ej). apply In_nth_error in C' as (j' & Ej'). destruct (In_nth_error _ _ L) as (i & Ei).
    set (rows := map pt (ids m)). assert (V : vectors_are vectors (ids m) rows) by (apply rows_are; intros z; auto).
    assert (Ri : nth_error rows i = Some (pt l)) by (unfold rows; rewrite nth_error_map, Ei; auto).
    apply Qnot_lt_le. intro Lt. apply (NB c').
    apply (Best c' (pairwise rows (vals C) i j) (pairwise rows (vals C) i j')).
    - exists rows, i, j. auto.
    - exists rows, i, j'. auto.
    - left. apply (EU rows (vals C) i j' i j (pt l) (at_ C c') (pt l) (at_ C c)); auto using nth_keys_vals.
  Qed.

  Lemma assign_best C raw f : NoDup (keys C) -> nearest_assignment pairwise ltb m (ids m) vectors C raw ->
    (forall x, inI x -> In (f x) (keys C)) -> (cost C (lab raw) <= cost C f)%Q.
  Proof. intros ND NA F. apply sumQ_le. intros x X. apply nearest_le; auto. Qed.

  Lemma fellows_group raw x c : keys raw = ids m -> inI x -> lab raw x = c -> fellows (ids m) raw x = filter (fun y => Z.eqb (lab raw y) c) (ids m).
  Proof.
    intros K X <-. unfold fellows. apply filter_ext_In. intros y Y. unfold lab. rewrite <- K in X, Y.
    destruct (dget_In_key _ _ X) as [a ->], (dget_In_key _ _ Y) as [b ->]. apply Z.eqb_sym.
  Qed.

  Lemma inertia_best raw C : keys raw = ids m -> (inertia n (ids m) vectors raw <= cost C (lab raw))%Q.
  Proof.
    intro K. unfold inertia, cost. apply (sumQ_groups (lab raw) _ _ (length (ids m)) (ids m) (le_n _)). intro c.
    set (g := filter (fun x => Z.eqb (lab raw x) c) (ids m)).
    assert (G : forall x, In x g -> inI x /\ lab raw x = c).
    { intros x X. apply filter_In in X as [X E]. apply Z.eqb_eq in E. auto. }
    rewrite (sumQ_ext _ (fun x => sqdist n (pt x) (centre n (map pt g))) g).
    2:{ intros x X. destruct (G x X). rewrite (fellows_group raw x c) by auto. reflexivity. }
    rewrite (sumQ_ext (fun x => sqdist n (pt x) (at_ C (lab raw x))) (fun x => sqdist n (pt x) (at_ C c)) g).
    2:{ intros x X. destruct (G x X) as [_ ->]. reflexivity. }
    assert (B := centre_best n (map pt g) (at_ C c)). rewrite !map_map in B. exact B.
  Qed.

  Lemma inertia_centroids raw C : keys raw = ids m -> centroids_of mean (ids m) vectors raw C ->
    (forall x, inI x -> In (lab raw x) (keys C)) /\ (inertia n (ids m) vectors raw == cost C (lab raw))%Q.
  Proof.
    intros K (ND & KV & Me). assert (IK : forall x, inI x -> In (lab raw x) (keys C)).
    { intros x X. apply KV. rewrite <- K in X. destruct (dget_In_key _ _ X) as [c E]. unfold lab. rewrite E.
      eapply dget_vals; eauto. }
    split; auto. apply sumQ_ext. intros x X. destruct (dget_In_key _ _ (IK x X)) as [v Ev].
    unfold at_. rewrite Ev. destruct (Me _ _ Ev) as (rows & V & ->).
    assert (Ef : filter (fun y => match dget y raw with Some c' => Z.eqb c' (lab raw x) | None => false end) (ids m) = fellows (ids m) raw x).
    { rewrite (fellows_group raw x (lab raw x)) by auto. apply filter_ext_In. intros y Y. unfold lab at 2. rewrite <- K in Y.
      destruct (dget_In_key _ _ Y) as [b ->]. auto. }
    rewrite Ef in V. apply rows_unique in V; [|intros y Y; apply filter_In in Y; tauto]. subst rows.
    apply sqdist_same; [intros i _; reflexivity|]. intros i Hi. symmetry. apply EM; auto.
    intro E. apply map_eq_nil in E. assert (J : In x (fellows (ids m) raw x)).
    { rewrite (fellows_group raw x (lab raw x)) by auto. apply filter_In. split; auto. apply Z.eqb_refl. }
    rewrite E in J. destruct J.
  Qed.

  Lemma descent k C prev raw fc : cop_run pairwise ltb dsum mean tol m (ids m) vectors k C prev raw fc ->
    NoDup (keys C) -> forall f, (forall x, inI x -> In (f x) (keys C)) -> (inertia n (ids m) vectors raw <= cost C f)%Q.
  Proof.
    induction 1 as [k C prev raw nc NA CE _|k C prev raw nc fin ffc NA CE _ _ IH]; intros ND f F.
    - eapply Qle_trans; [apply (inertia_best raw C)|apply assign_best; auto]. apply NA.
    - assert (K : keys raw = ids m) by apply NA. destruct (inertia_centroids raw nc K CE) as [IK Eq].
      eapply Qle_trans; [apply (IH (proj1 CE) (lab raw) IK)|]. rewrite <- Eq.
      eapply Qle_trans; [apply (inertia_best raw C); auto|apply assign_best; auto].
  Qed.
End Descent.

Lemma inertia_partition n l vectors d1 d2 : (forall x, In x l -> In x (keys d1)) -> same_partition d1 d2 ->
  inertia n l vectors d1 = inertia n l vectors d2.
Proof.
  intros K [KK P]. unfold inertia. f_equal. apply map_ext_in. intros x X. f_equal. f_equal. f_equal. unfold fellows.
  apply filter_ext_In. intros y Y. assert (X1 := K x X). assert (Y1 := K y Y). specialize (P x y X1 Y1).
  assert (X2 := X1). assert (Y2 := Y1). apply KK in X2. apply KK in Y2.
  destruct (dget_In_key _ _ X1) as [a Ea], (dget_In_key _ _ Y1) as [b Eb], (dget_In_key _ _ X2) as [a' Ea'], (dget_In_key _ _ Y2) as [b' Eb'].
  rewrite Ea, Eb, Ea', Eb' in *. destruct (Z.eqb_spec a b) as [E1|N1], (Z.eqb_spec a' b') as [E2|N2]; auto; exfalso.
  - subst. apply N2. destruct P as [P _]. specialize (P eq_refl). congruence.
  - subst. apply N1. destruct P as [_ P]. specialize (P eq_refl). congruence.
Qed.

(** ** Calls with more rounds go on where calls with fewer rounds stop. *)
Section Rounds.
  Context {D : Type} `{EqB D}.
  Variable n : nat.
  Variable pairwise : list (list Q) -> list (list Q) -> nat -> nat -> D.
  Variable ltb : D -> D -> bool.
  Variable dsum : list D -> D.
  Variable mean : list (list Q) -> list Q.
  Variable shuffle : list pystr -> list pystr.
  Variable set_order : list Z -> list Z.
  Variable m : mgr.
  Hypothesis I : Inv m.
  Variable vectors : dict pystr (list Q).
  Variable nb : nat.
  Hypothesis SO : valid_set_order set_order.
  Hypothesis SH : valid_shuffle shuffle.
  Hypothesis SWO : strict_weak_order ltb.
  Hypothesis NE : ids m <> [].
  Hypothesis COV : forall x, In x (ids m) -> In x (keys vectors).
  Hypothesis EU : euclidean n pairwise ltb.
  Hypothesis EM : exact_mean n mean.
  Hypothesis NT : no_tension n m vectors.
  Notation V := (list Q).
  Notation J := (inertia n (ids m) vectors).
  Notation iter := (fun p => iterate V D pairwise ltb dsum mean set_order p m (ids m) vectors nb).

  Lemma iterate_more p k1 : forall k2 s prev last, k1 <= k2 -> follows prev (k_clusters V s) (k_centroids V s) -> good_centroids (k_centroids V s) ->
    exists raw1 fc1 raw2 fc2,
      iter p (S k1) last false s = (mkKMeans V (k_predicted V s) raw1 fc1, Ok (Some raw1)) /\
      iter p (S k2) last false s = (mkKMeans V (k_predicted V s) raw2 fc2, Ok (Some raw2)) /\
      (J raw2 <= J raw1)%Q.
  Proof.
    induction k1 as [|k1 IH]; intros k2 s prev last L Fo GC.
    all: destruct (assign_run pairwise ltb m I vectors nb NE COV _ GC) as (raw & Ea & So & Ne).
    all: destruct (compute_centroids_run mean set_order m I vectors SO NE COV raw So) as (nc & Ec & Ce & GC').
    all: destruct (has_converged_run pairwise ltb dsum mean p m vectors _ _ _ _ _ Fo GC So Ce) as (b & Eb & St).
    all: assert (Step : forall k, iter p (S k) last false s = iter p k (Some raw) b (mkKMeans V (k_predicted V s) raw nc)) by
      (intro k; cbn [iterate]; unfold bind at 1, gets at 1; unfold bind at 1, gets at 1; unfold bind at 1, lift at 1; rewrite Ea;
       unfold bind at 1, lift at 1; rewrite Ec; unfold bind at 1, lift at 1; rewrite Eb;
       unfold bind at 1, modify at 1; unfold bind at 1, modify at 1; reflexivity).
    all: rewrite !Step; destruct b;
      [exists raw, nc, raw, nc; split; [destruct k1 || idtac; reflexivity|]; split; [destruct k2; reflexivity|apply Qle_refl]|].
    all: assert (Fo' : follows (Some raw) raw nc) by (right; split; auto; apply Ce).
    - destruct k2 as [|k2]; [exists raw, nc, raw, nc; split; [reflexivity|]; split; [reflexivity|apply Qle_refl]|].
      destruct (iterate_run pairwise ltb dsum mean set_order p m I vectors nb SO NE COV k2
                  (mkKMeans V (k_predicted V s) raw nc) (Some raw) (Some raw) Fo' GC') as (raw2 & fc2 & R & _ & _ & _ & Run).
      exists raw, nc, raw2, fc2. split; [reflexivity|]. split; [exact R|]. specialize (Run SWO). cbn [k_centroids] in Run.
      destruct (inertia_centroids n mean m vectors COV EM raw nc (proj1 So) Ce) as [IK Eq]. rewrite Eq.
      eapply (descent n pairwise ltb dsum mean); eauto. apply Ce.
    - destruct k2 as [|k2]; [lia|].
      destruct (IH k2 (mkKMeans V (k_predicted V s) raw nc) (Some raw) (Some raw)) as (raw1 & fc1 & raw2 & fc2 & R1 & R2 & Le); auto; [lia|].
      exists raw1, fc1, raw2, fc2. auto.
  Qed.

  (** The state before the first round. *)
  Definition start (c0 : dict Z V) : kmeans V := mkKMeans V None (dcomp (fun _ => (-1)%Z) (ids m)) c0.

  Lemma start_follows c0 : follows None (k_clusters V (start c0)) (k_centroids V (start c0)).
  Proof using I NE.
    clear - I NE. left. split; auto. simpl. unfold dcomp. rewrite dedup_id by (apply inv_nodup; auto).
    destruct (ids m) as [|x l]; [congruence|]. exists (-1)%Z, (vals (map (fun k => (k, (-1)%Z)) l)). split; auto. lia.
  Qed.

  (** What a call returns is what its rounds end with, renamed. *)
  Lemma call_rounds p nbz s d c0 raw fc : (2 <= nbz)%Z -> nb = Nat.min (Z.to_nat nbz) (length (ids m)) ->
    initialize_centroids V shuffle (ids m) vectors nb = Ok c0 ->
    iter p (kp_max_iteration D p) None false (start c0) = (mkKMeans V None raw fc, Ok (Some raw)) -> keys raw = ids m ->
    result (cluster V D pairwise ltb dsum mean shuffle set_order p m vectors (Some nbz)) s = Ok d -> same_partition raw d.
  Proof using I.
    intros N2 -> E0 R K E. unfold result, cluster in E. unfold bind at 1, lift at 1 in E. rewrite ask_managed in E.
    destruct (Z.ltb_spec nbz 2); [lia|]. unfold bind at 1, modify at 1 in E.
    unfold bind at 1 in E. unfold clustering_COP in E. unfold bind at 1, lift at 1 in E. rewrite E0 in E.
    unfold bind at 1, modify at 1 in E. unfold bind at 1, modify at 1 in E. unfold bind at 1 in E.
    change (set_clusters V (dcomp (fun _ => (-1)%Z) (ids m)) (set_centroids V c0 (set_predicted V None s))) with (start c0) in E.
    cbv beta in R. rewrite R in E. unfold bind at 1, gets at 1 in E. cbn [k_clusters] in E. unfold bind at 1, lift at 1 in E.
    destruct (rename_run raw) as (d0 & Er & _ & Can & SP); [rewrite K; apply inv_nodup; auto|]. rewrite Er in E.
    unfold bind at 1, modify at 1 in E. unfold bind at 1, ret at 1 in E. unfold bind at 1, lift at 1 in E.
    destruct (compute_centroids V mean set_order m vectors raw) as [fc'|e]; [|discriminate]. cbn in E. injection E as <-. exact SP.
  Qed.
End Rounds.

(** The first centroids are the vectors of the first shuffled IDs. *)
Lemma initialize_vals shuffle l (vectors : dict pystr (list Q)) nb c : initialize_centroids (list Q) shuffle l vectors nb = Ok c ->
  forall i, i < nb -> exists x, nth_error (firstn nb (shuffle l)) i = Some x /\ dget (Z.of_nat i) c = dget x vectors.
Proof.
  unfold initialize_centroids. set (chosen := firstn nb (shuffle l)). intros E i Hi.
  assert (Go : forall n k d0 d, rfold (fun d i =>
               x <-- (match nth_error chosen i with Some x => Ok x | None => Raise IndexError end) ;;;
               v <-- dlookup x vectors ;;;
               Ok (dset (Z.of_nat i) v d)) (seq k n) d0 = Ok d ->
     (forall j, k <= j < k + n -> exists x, nth_error chosen j = Some x /\ dget (Z.of_nat j) d = dget x vectors) /\
     (forall j, j < k -> dget (Z.of_nat j) d = dget (Z.of_nat j) d0)).
  { clear. induction n as [|n IH]; intros k d0 d; simpl.
    - intro E. injection E as <-. split; [intros; lia|auto].
    - destruct (nth_error chosen k) as [x|] eqn:Ex; [|discriminate]. cbn [rbind]. unfold dlookup at 1.
      destruct (dget x vectors) as [v|] eqn:Ev; [|discriminate]. cbn [rbind]. intro E. destruct (IH _ _ _ E) as [A B]. split.
      + intros j Hj. destruct (Nat.eq_dec j k) as [->|]; [|apply A; lia]. exists x. split; auto. rewrite (B k) by lia. rewrite dget_dset_same. auto.
      + intros j Hj. rewrite (B j) by lia. apply dget_dset_other. lia. }
  destruct (Go _ _ _ _ E) as [A _]. apply A. lia.
Qed.

Fixpoint pos_of (x : pystr) (l : list pystr) : nat :=
  match l with [] => 0 | y :: l' => if eqb x y then 0 else S (pos_of x l') end.
Lemma pos_of_spec x l : In x l -> nth_error l (pos_of x l) = Some x.
Proof.
  induction l as [|y l IH]; [intros []|]. intros [->|X]; simpl; [rewrite eqb_refl; auto|]. destruct (eqb x y) eqn:E; [apply eqb_eq in E; subst; auto|].
  apply IH; auto.
Qed.

(*PROP C107: without CANNOT_LINK, and with MUST_LINK only between data at the same place, a call with more rounds ends with a clustering that is at least as good (sum of the squared distances to the centres, in exact arithmetic). *)
Lemma C107_more_rounds_proof :
  forall n D (eqD : EqB D) pairwise ltb dzero dsum mean shuffle set_order model it it' tol p p' m vectors nb s s' d d',
    valid_set_order set_order -> valid_shuffle shuffle -> strict_weak_order ltb ->
    euclidean n pairwise ltb -> exact_mean n mean -> reachable m -> no_tension n m vectors ->
    make_kmeans D ltb dzero model it tol = Ok p -> make_kmeans D ltb dzero model it' tol = Ok p' -> (it <= it')%Z ->
    result (cluster (list Q) D pairwise ltb dsum mean shuffle set_order p m vectors nb) s = Ok d ->
    result (cluster (list Q) D pairwise ltb dsum mean shuffle set_order p' m vectors nb) s' = Ok d' ->
    exists ids, ask get_list_of_managed_data_IDs m = Ok ids /\ (inertia n ids vectors d' <= inertia n ids vectors d)%Q.
Proof.
  intros n D eqD pairwise ltb dzero dsum mean shuffle set_order model it it' tol p p' m vectors nb s s' d d' SO SH SWO EU EM R NT MK MK' Le E E'.
  apply reachable_inv in R. assert (MX := make_kmeans_max _ _ _ _ _ _ MK). assert (MX' := make_kmeans_max _ _ _ _ _ _ MK').
  exists (ids m). split; [apply ask_managed|].
  destruct (returned_valid pairwise ltb dsum mean shuffle set_order SH p MX m vectors nb s d R E) as (k & -> & N2 & NE & COV).
  assert (Ep : forall i q, make_kmeans D ltb dzero model i tol = Ok q -> (1 <= i)%Z /\ q = mkKParams D (Z.to_nat i) tol).
  { clear. intros i q MK. unfold make_kmeans in MK. destruct (negb (eqb model (str "COP"))); [discriminate|]. destruct (Z.ltb_spec i 1); [discriminate|].
    destruct (ltb tol dzero); [discriminate|]. split; [lia|congruence]. }
  destruct (Ep _ _ MK) as [I1 ->]. destruct (Ep _ _ MK') as [I1' ->]. clear Ep MK MK' MX MX'.
  set (nb := Nat.min (Z.to_nat k) (length (ids m))).
  assert (L0 : length (ids m) <> 0) by (destruct (ids m); simpl in *; congruence).
  destruct (initialize_run shuffle m R vectors nb COV SH) as (c0 & E0 & IC & GC); [lia|lia|].
  destruct (iterate_more n pairwise ltb dsum mean set_order m R vectors nb SO SWO NE COV EU EM NT (mkKParams D (Z.to_nat it) tol) (pred (Z.to_nat it)) (pred (Z.to_nat it'))
              (start m c0) None None) as (raw1 & fc1 & raw2 & fc2 & R1 & R2 & Better); [lia|apply start_follows; auto|exact GC|].
  assert (S1 : S (pred (Z.to_nat it)) = Z.to_nat it) by lia. assert (S2 : S (pred (Z.to_nat it')) = Z.to_nat it') by lia.
  rewrite S1 in R1. rewrite S2 in R2.
  assert (K : forall q r f, iterate (list Q) D pairwise ltb dsum mean set_order (mkKParams D (Z.to_nat it) tol) m (ids m) vectors nb (Z.to_nat q) None false (start m c0)
               = (mkKMeans (list Q) None r f, Ok (Some r)) -> (1 <= q)%Z -> keys r = ids m).
  { intros q r f Hq Q1. destruct (iterate_run pairwise ltb dsum mean set_order (mkKParams D (Z.to_nat it) tol) m R vectors nb SO NE COV (pred (Z.to_nat q))
       (start m c0) None None (start_follows m R NE c0) GC) as (r' & f' & Hr & _ & So & _).
    replace (S (pred (Z.to_nat q))) with (Z.to_nat q) in Hr by lia. rewrite Hq in Hr. injection Hr as -> _. apply So. }
  assert (K1 := K _ _ _ R1 I1). assert (K2 := K _ _ _ R2 I1').
  assert (P1 := call_rounds pairwise ltb dsum mean shuffle set_order m R vectors nb (mkKParams D (Z.to_nat it) tol) k s d c0 raw1 fc1 N2 eq_refl E0 R1 K1 E).
  assert (P2 := call_rounds pairwise ltb dsum mean shuffle set_order m R vectors nb (mkKParams D (Z.to_nat it') tol) k s' d' c0 raw2 fc2 N2 eq_refl E0 R2 K2 E').
  rewrite <- (inertia_partition n (ids m) vectors raw1 d), <- (inertia_partition n (ids m) vectors raw2 d'); auto.
  - intros x X. rewrite K2; auto.
  - intros x X. rewrite K1; auto.
Qed.

(*PROP C107: and it is at least as good as sending each data to any of the data drawn first. *)
Lemma C107_better_than_start_proof :
  forall n D (eqD : EqB D) pairwise ltb dzero dsum mean shuffle set_order model it tol p m vectors nb s d,
    valid_set_order set_order -> valid_shuffle shuffle -> strict_weak_order ltb ->
    euclidean n pairwise ltb -> exact_mean n mean -> reachable m -> no_tension n m vectors ->
    make_kmeans D ltb dzero model it tol = Ok p ->
    result (cluster (list Q) D pairwise ltb dsum mean shuffle set_order p m vectors (Some nb)) s = Ok d ->
    exists ids, ask get_list_of_managed_data_IDs m = Ok ids /\
      forall chosen, (forall x, In x ids -> In (chosen x) (firstn (Z.to_nat nb) (shuffle ids))) ->
        (inertia n ids vectors d <= sumQ (map (fun x => sqdist n (point vectors x) (point vectors (chosen x))) ids))%Q.
Proof.
  intros n D eqD pairwise ltb dzero dsum mean shuffle set_order model it tol p m vectors nbz s d SO SH SWO EU EM R NT MK E.
  apply reachable_inv in R. assert (MX := make_kmeans_max _ _ _ _ _ _ MK).
  exists (ids m). split; [apply ask_managed|]. intros f F.
  destruct (returned_valid pairwise ltb dsum mean shuffle set_order SH p MX m vectors (Some nbz) s d R E) as (k & Ek & N2 & NE & COV).
  injection Ek as ->. set (nb := Nat.min (Z.to_nat k) (length (ids m))).
  assert (L0 : length (ids m) <> 0) by (destruct (ids m); simpl in *; congruence).
  assert (Fi : firstn (Z.to_nat k) (shuffle (ids m)) = firstn nb (shuffle (ids m))).
  { assert (LS := Permutation_length (SH (ids m))). unfold nb. destruct (Nat.le_ge_cases (Z.to_nat k) (length (ids m))) as [G|G].
    - rewrite Nat.min_l by auto. auto.
    - rewrite Nat.min_r by auto. rewrite !firstn_all2 by lia. auto. }
  rewrite Fi in F. clear Fi.
  destruct (initialize_run shuffle m R vectors nb COV SH) as (c0 & E0 & (ch & _ & _ & _ & Kc & _) & GC); [lia|lia|].
  assert (IV := initialize_vals _ _ _ _ _ E0).
  destruct (iterate_run pairwise ltb dsum mean set_order p m R vectors nb SO NE COV (pred (kp_max_iteration D p))
       (start m c0) None None (start_follows m R NE c0) GC) as (raw & fc & Hr & _ & So & _ & Run).
  replace (S (pred (kp_max_iteration D p))) with (kp_max_iteration D p) in * by lia.
  assert (P := call_rounds pairwise ltb dsum mean shuffle set_order m R vectors nb p k s d c0 raw fc N2 eq_refl E0 Hr (proj1 So) E).
  rewrite <- (inertia_partition n (ids m) vectors raw d); auto; [|intros x X; rewrite (proj1 So); auto].
  set (chosen := firstn nb (shuffle (ids m))) in *. set (g := fun x => Z.of_nat (pos_of (f x) chosen)).
  assert (LC : length chosen <= nb) by (unfold chosen; rewrite firstn_length; lia).
  assert (PL : forall x, In x (ids m) -> pos_of (f x) chosen < nb).
  { intros x X. assert (Z := pos_of_spec _ _ (F x X)). assert (nth_error chosen (pos_of (f x) chosen) <> None) as Z' by congruence.
    apply nth_error_Some in Z'. lia. }
  eapply Qle_trans; [apply (descent n pairwise ltb dsum mean (kp_tolerance D p) m R vectors COV EU EM NT _ _ _ _ _ (Run SWO)) with (f := g)|].
  - apply GC.
  - intros x X. cbn [k_centroids start]. rewrite Kc. unfold g. apply in_map, in_seq. specialize (PL x X). lia.
  - unfold cost. apply sumQ_le. intros x X. unfold at_, g. cbn [k_centroids start].
    destruct (IV _ (PL x X)) as (y & Ey & ->). rewrite (pos_of_spec _ _ (F x X)) in Ey. injection Ey as <-. apply Qle_refl.
Qed.

(** An instance: points on a line, distances are absolute differences, kept as reduced fractions. *)
Definition fraction_eqb (a b : Q) : bool := Z.eqb (Qnum a) (Qnum b) && Pos.eqb (Qden a) (Qden b).
Lemma fraction_eqb_eq a b : fraction_eqb a b = true <-> a = b.
Proof.
  destruct a as [a b'], b as [c d]. unfold fraction_eqb. cbn. rewrite andb_true_iff, Z.eqb_eq, Pos.eqb_eq.
  split; [intros [-> ->]; auto|intro E; injection E as -> ->; auto].
Qed.
#[export] Instance EqB_fraction : EqB Q := {| eqb := fraction_eqb; eqb_eq := fraction_eqb_eq |}.
Definition less (x y : Q) : bool := negb (Qle_bool y x).
Lemma less_spec x y : less x y = true <-> (x < y)%Q.
Proof.
  unfold less. rewrite negb_true_iff. split; intro E.
  - destruct (Qlt_le_dec x y) as [|L]; auto. apply Qle_bool_iff in L. congruence.
  - destruct (Qle_bool y x) eqn:L; auto. apply Qle_bool_iff in L. exfalso. apply (Qlt_irrefl x). eapply Qlt_le_trans; eauto.
Qed.
Lemma less_order : strict_weak_order less.
Proof.
  split; [|split].
  - intro x. destruct (less x x) eqn:E; auto. apply less_spec in E. exfalso. apply (Qlt_irrefl x); auto.
  - intros x y z. rewrite !less_spec. apply Qlt_trans.
  - intros x y z. rewrite !less_spec. intro L. destruct (Qlt_le_dec x y); auto. right. eapply Qle_lt_trans; eauto.
Qed.
(** Squared distances: they compare like distances. *)
Definition squared (n : nat) (X Y : list (list Q)) (i j : nat) : Q := Qred (sqdist n (nth i X []) (nth j Y [])).
Definition mean_of (n : nat) (l : list (list Q)) : list Q := map Qred (centre n l).
Lemma squared_euclidean n : euclidean n (squared n) less.
Proof.
  intros X Y i j i' j' u v u' v' E1 E2 E3 E4. unfold squared.
  rewrite !(nth_error_nth _ _ _ E1), !(nth_error_nth _ _ _ E2), !(nth_error_nth _ _ _ E3), !(nth_error_nth _ _ _ E4).
  rewrite less_spec, !Qred_correct. tauto.
Qed.
Lemma mean_of_exact n : exact_mean n (mean_of n).
Proof.
  intros l NE i Hi. unfold mean_of. unfold coord at 1.
  rewrite (nth_indep _ 0%Q (Qred 0%Q)) by (rewrite map_length; unfold centre; rewrite map_length, seq_length; auto).
  rewrite map_nth, Qred_correct. reflexivity.
Qed.

Definition i1 := str "a". Definition i2 := str "b". Definition i3 := str "c". Definition i4 := str "d".
Definition lloyd (rounds : nat) := cluster (list Q) Q (squared 1) less (fun l => Qred (sumQ l)) (mean_of 1) (fun l => l) (nodup Z.eq_dec) (mkKParams Q rounds (1 # 10000)%Q).
Definition close (l : list Q) : dict pystr (list Q) := combine [i1; i2; i3; i4] (map (fun x => [x]) l).

(*PROP C107: with constraints this is lost: one CANNOT_LINK, or one MUST_LINK between distant data, and a second round can make the clustering worse. *)
Lemma C107_constraints_matter_proof :
  forall t, t = CANNOT_LINK \/ t = MUST_LINK ->
  exists (eqD : EqB Q) pairwise ltb dsum mean shuffle set_order p p' m ids a b vectors nb d d',
    valid_set_order set_order /\ valid_shuffle shuffle /\ strict_weak_order ltb /\
    euclidean 1 pairwise ltb /\ exact_mean 1 mean /\ m = run [CallAddConstraint a b t 1%Q] (init ids) /\
    make_kmeans Q ltb 0%Q (str "COP") 1%Z (1 # 10000)%Q = Ok p /\ make_kmeans Q ltb 0%Q (str "COP") 2%Z (1 # 10000)%Q = Ok p' /\
    result (cluster (list Q) Q pairwise ltb dsum mean shuffle set_order p m vectors nb) (fresh_kmeans (list Q)) = Ok d /\
    result (cluster (list Q) Q pairwise ltb dsum mean shuffle set_order p' m vectors nb) (fresh_kmeans (list Q)) = Ok d' /\
    ask get_list_of_managed_data_IDs m = Ok ids /\
    (inertia 1 ids vectors d < inertia 1 ids vectors d')%Q.
Proof.
  assert (NO : valid_set_order (nodup Z.eq_dec)) by (intro l; split; [apply NoDup_nodup|intro; apply nodup_In]).
  assert (SH : valid_shuffle (fun l => l)) by (intro l; apply Permutation_refl).
  assert (EU := squared_euclidean 1). assert (EM := mean_of_exact 1). assert (LO := less_order).
  intros t [->| ->].
  - exists EqB_fraction, (squared 1), less, (fun l => Qred (sumQ l)), (mean_of 1), (fun l => l), (nodup Z.eq_dec),
      (mkKParams Q 1 (1 # 10000)%Q), (mkKParams Q 2 (1 # 10000)%Q), (run [CallAddConstraint i1 i2 CANNOT_LINK 1%Q] (init [i1; i2; i3])), [i1; i2; i3], i1, i2,
      (close [0; 1; 4]%Q), (Some 2%Z), [(i1, 0); (i2, 1); (i3, 1)]%Z, [(i1, 0); (i2, 1); (i3, 0)]%Z.
    split; [exact NO|]. split; [exact SH|]. split; [exact LO|]. split; [exact EU|]. split; [exact EM|].
    repeat split; vm_compute; reflexivity.
  - exists EqB_fraction, (squared 1), less, (fun l => Qred (sumQ l)), (mean_of 1), (fun l => l), (nodup Z.eq_dec),
      (mkKParams Q 1 (1 # 10000)%Q), (mkKParams Q 2 (1 # 10000)%Q), (run [CallAddConstraint i3 i4 MUST_LINK 1%Q] (init [i1; i2; i3; i4])), [i1; i2; i3; i4], i3, i4,
      (close [6; 7; 1; 7]%Q), (Some 2%Z), [(i1, 0); (i2, 1); (i3, 1); (i4, 1)]%Z, [(i1, 0); (i2, 0); (i3, 0); (i4, 0)]%Z.
    split; [exact NO|]. split; [exact SH|]. split; [exact LO|]. split; [exact EU|]. split; [exact EM|].
    repeat split; vm_compute; reflexivity.
Qed.

(*EX
(** Without constraint, on a line: the first round is not the best one. *)
Definition A := str "a". Definition B := str "b". Definition C := str "c". Definition E := str "d".
Definition places : dict pystr (list Q) := [(A, [0]); (B, [1]); (C, [2]); (E, [10])]%Q.
Definition free : mgr := init [A; B; C; E].
Example C107_ex :
  reachable free /\ no_tension 1 free places /\
  result (lloyd 1 free places (Some 2%Z)) (fresh_kmeans (list Q)) = Ok [(A, 0); (B, 1); (C, 1); (E, 1)]%Z /\
  result (lloyd 5 free places (Some 2%Z)) (fresh_kmeans (list Q)) = Ok [(A, 0); (B, 0); (C, 0); (E, 1)]%Z /\
  (inertia 1 [A; B; C; E] places [(A, 0); (B, 1); (C, 1); (E, 1)]%Z == 146 # 3)%Q /\
  (inertia 1 [A; B; C; E] places [(A, 0); (B, 0); (C, 0); (E, 1)]%Z == 2)%Q.
Proof.
  split; [apply reach_init|]. split.
  - intros a b (l & El & Ia) (l' & El' & Ib). injection El as <-. injection El' as <-. split.
    + intro H. simpl in Ia, Ib. destruct Ia as [<-|[<-|[<-|[<-|[]]]]], Ib as [<-|[<-|[<-|[<-|[]]]]]; vm_compute in H; discriminate.
    + intro H. simpl in Ia, Ib. destruct Ia as [<-|[<-|[<-|[<-|[]]]]], Ib as [<-|[<-|[<-|[<-|[]]]]]; try (vm_compute in H; discriminate); intros i _; reflexivity.
  - repeat split; vm_compute; reflexivity.
Qed.
EX*)
