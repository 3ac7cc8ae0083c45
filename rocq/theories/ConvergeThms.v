(** * KMeans in exact arithmetic: enough rounds reach a clustering that is settled. *)

From Coq Require Import String List Bool Arith ZArith QArith Lia Lqa Permutation.
(*HEADER
From Coq Require Import String List Bool Arith ZArith QArith Permutation Lia.
From Verif Require Import Base Manager Spec ManagerThms SamplingSpec ClusterSpec KMeans KMeansSpec LloydSpec LloydThms ConvergeSpec ConvergeThms.
Import ListNotations.
Open Scope nat_scope.
HEADER*)
From Verif Require Import Base Manager Spec Closure ManagerProofs ManagerInv ManagerQueries ManagerThms
  Sampling SamplingSpec SamplingProofs SamplingThms Rename ClusterSpec RenameThms ClusterProofs KMeans KMeansSpec KMeansProofs KMeansRun KMeansThms
  LloydSpec LloydProofs LloydThms ConvergeSpec.
Import ListNotations.
Open Scope nat_scope.
Open Scope py_scope.

(** ** Equal sums, equal terms. *)
Lemma sumQ_le_eq {A} (f g : A -> Q) : forall l, (forall x, In x l -> (f x <= g x)%Q) -> (sumQ (map g l) <= sumQ (map f l))%Q ->
  forall x, In x l -> (f x == g x)%Q.
Proof.
  induction l as [|a l IH]; intros L G x X; [destruct X|]. cbn in G.
  assert (La := L a (or_introl eq_refl)). assert (Ll : forall y, In y l -> (f y <= g y)%Q) by (intros; apply L; right; auto).
  assert (Sl := sumQ_le f g l Ll). destruct X as [<-|X].
  - unfold sumQ in *. lra.
  - apply IH; auto. unfold sumQ in *. lra.
Qed.

Lemma filter_filter_and {A} (p q : A -> bool) : forall l, filter p (filter q l) = filter (fun x => q x && p x) l.
Proof. induction l as [|y l IH]; simpl; auto. destruct (q y); simpl; [destruct (p y); rewrite IH; auto|auto]. Qed.

Lemma sumQ_groups_eq {A} (lab : A -> Z) (f g : A -> Q) l :
  (forall c, sumQ (map f (filter (fun x => Z.eqb (lab x) c) l)) <= sumQ (map g (filter (fun x => Z.eqb (lab x) c) l)))%Q ->
  (sumQ (map g l) <= sumQ (map f l))%Q ->
  forall c, (sumQ (map g (filter (fun x => Z.eqb (lab x) c) l)) <= sumQ (map f (filter (fun x => Z.eqb (lab x) c) l)))%Q.
Proof.
  intros L G c. set (t := fun x => Z.eqb (lab x) c).
  assert (R : (sumQ (map f (filter (fun x => negb (t x)) l)) <= sumQ (map g (filter (fun x => negb (t x)) l)))%Q).
  { apply (sumQ_groups lab f g _ _ (le_n _)). intro c'. rewrite !filter_filter_and. destruct (Z.eqb_spec c' c) as [->|N].
    - rewrite (filter_ext_In _ (fun _ => false)).
      2:{ intros y _. unfold t. destruct (lab y =? c)%Z; auto. }
      assert (E : filter (fun _ : A => false) l = []) by (clear; induction l; auto). rewrite E. apply Qle_refl.
    - rewrite (filter_ext_In _ (fun x => Z.eqb (lab x) c')).
      2:{ intros y _. unfold t. destruct (Z.eqb_spec (lab y) c), (Z.eqb_spec (lab y) c'); simpl; auto; congruence. }
      apply L. }
  rewrite (sumQ_split f t l), (sumQ_split g t l) in G. lra.
Qed.

(** ** The centre is the only best place. *)
Lemma square_zero x : (x * x <= 0 -> x == 0)%Q.
Proof.
  intro L. destruct (Qlt_le_dec x 0) as [N|P].
  - exfalso. assert (0 < (- x) * (- x))%Q by (apply Qmult_lt_0_compat; lra). lra.
  - destruct (Qlt_le_dec 0 x) as [P'|N]; [|lra]. exfalso. assert (0 < x * x)%Q by (apply Qmult_lt_0_compat; auto). lra.
Qed.

Lemma mean_unique w l mu : l <> [] -> (mu == sumQ l / inject_Z (Z.of_nat (length l)))%Q ->
  (sumQ (map (fun x => (x - w) * (x - w)) l) <= sumQ (map (fun x => (x - mu) * (x - mu)) l))%Q -> (w == mu)%Q.
Proof.
  intros NE E. rewrite !squares. set (k := inject_Z (Z.of_nat (length l))) in *.
  assert (K : (0 < k)%Q).
  { unfold k. change 0%Q with (inject_Z 0). rewrite <- Zlt_Qlt. destruct l; [congruence|simpl; lia]. }
  assert (S : (sumQ l == k * mu)%Q).
  { rewrite E. field. intro X. rewrite X in K. apply Qlt_irrefl in K. auto. }
  rewrite S. intro L. assert (Z : (k * ((w - mu) * (w - mu)) <= 0)%Q).
  { apply Qle_minus_iff in L. apply Qle_minus_iff.
    setoid_replace (0 + - (k * ((w - mu) * (w - mu))))%Q with
      (sumQ (map (fun x => x * x) l) - (2 # 1) * mu * (k * mu) + k * (mu * mu) +
       - (sumQ (map (fun x => x * x) l) - (2 # 1) * w * (k * mu) + k * (w * w)))%Q by ring. exact L. }
  assert (Z' : (w - mu == 0)%Q); [|lra]. apply square_zero. apply Qnot_lt_le. intro P.
  assert (0 < k * ((w - mu) * (w - mu)))%Q by (apply Qmult_lt_0_compat; auto). lra.
Qed.

Lemma centre_unique n l w : l <> [] ->
  (sumQ (map (fun u => sqdist n u w) l) <= sumQ (map (fun u => sqdist n u (centre n l)) l))%Q -> same_point n w (centre n l).
Proof.
  intros NE L.
  assert (SW : forall w, (sumQ (map (fun u => sqdist n u w) l) ==
     sumQ (map (fun i => sumQ (map (fun u => (coord u i - coord w i) * (coord u i - coord w i)) l)) (seq 0 n)))%Q).
  { intro w0. unfold sqdist. apply (sumQ_swap (fun u i => (coord u i - coord w0 i) * (coord u i - coord w0 i))%Q). }
  rewrite (SW (centre n l)), (SW w) in L. intros i Hi.
  assert (Ml : forall j, map (fun v => coord v j) l <> []) by (intro j; destruct l; [congruence|discriminate]).
  assert (Mc : forall j, j < n -> (coord (centre n l) j == sumQ (map (fun v => coord v j) l) / inject_Z (Z.of_nat (length (map (fun v => coord v j) l))))%Q).
  { intros j Hj. rewrite coord_centre by lia. rewrite map_length. reflexivity. }
  apply (mean_unique _ _ _ (Ml i) (Mc i Hi)). rewrite !map_map.
  rewrite (sumQ_le_eq _ _ (seq 0 n)) with (3 := proj2 (in_seq n 0 i) (conj (Nat.le_0_l i) Hi)) (2 := L); [apply Qle_refl|].
  intros j Hj. apply in_seq in Hj. assert (M := mean_best (coord w j) _ _ (Ml j) (Mc j ltac:(lia))). rewrite !map_map in M. exact M.
Qed.

(** ** Words over a finite alphabet. *)
Fixpoint words {A} (l : list A) (k : nat) : list (list A) :=
  match k with
  | 0 => [[]]
  | S k => map (fun aw => fst aw :: snd aw) (list_prod l (words l k))
  end.
Lemma words_length {A} (l : list A) k : length (words l k) = length l ^ k.
Proof. induction k as [|k IH]; simpl; auto. rewrite map_length, prod_length, IH. auto. Qed.
Lemma words_in {A} (l : list A) : forall w, (forall a, In a w -> In a l) -> In w (words l (length w)).
Proof.
  induction w as [|a w IH]; intro J; simpl; auto. apply in_map_iff. exists (a, w). split; auto.
  apply in_prod; [apply J; left; auto|apply IH; intros; apply J; right; auto].
Qed.

Lemma nodup_or_repeat {A} (dec : forall x y : A, {x = y} + {x <> y}) : forall l : list A,
  NoDup l \/ exists i j x, i < j /\ nth_error l i = Some x /\ nth_error l j = Some x.
Proof.
  induction l as [|a l IH]; [left; constructor|]. destruct IH as [N|(i & j & x & L & Ei & Ej)].
  - destruct (in_dec dec a l) as [J|J].
    + right. apply In_nth_error in J as [j Ej]. exists 0, (S j), a. split; [lia|]. auto.
    + left. constructor; auto.
  - right. exists (S i), (S j), x. split; [lia|]. auto.
Qed.

(** A sequence in a finite set, each term a function of the one before, repeats itself. *)
Lemma eventually_periodic {A} (dec : forall x y : A, {x = y} + {x <> y}) (g : A -> A) (u : nat -> A) (S_ : list A) :
  (forall k, u (S k) = g (u k)) -> (forall k, In (u k) S_) ->
  exists i per, 1 <= per /\ i < length S_ /\ forall k, i <= k -> u (k + per) = u k.
Proof.
  intros St In_. destruct (nodup_or_repeat dec (map u (seq 0 (S (length S_))))) as [N|(i & j & x & L & Ei & Ej)].
  - exfalso. assert (C := NoDup_incl_length N (l' := S_)). rewrite map_length, seq_length in C.
    assert (S (length S_) <= length S_); [|lia]. apply C. intros x X. apply in_map_iff in X as (k & <- & _). auto.
  - assert (Lj : j < S (length S_)).
    { assert (Z : nth_error (map u (seq 0 (S (length S_)))) j <> None) by congruence. apply nth_error_Some in Z. rewrite map_length, seq_length in Z. auto. }
    assert (G : forall q, q < S (length S_) -> nth_error (map u (seq 0 (S (length S_)))) q = Some (u q)).
    { intros q Hq. rewrite nth_error_map. rewrite (nth_error_nth' _ 0) by (rewrite seq_length; auto). rewrite seq_nth by auto. reflexivity. }
    rewrite G in Ei by lia. rewrite G in Ej by lia. exists i, (j - i). split; [lia|]. split; [lia|].
    intros k Hk. induction Hk as [|k Hk IH]; [replace (i + (j - i)) with j by lia; congruence|].
    simpl. rewrite !St, IH. auto.
Qed.

Lemma decreasing_le (J : nat -> Q) : (forall k, (J (S k) <= J k)%Q) -> forall a b, a <= b -> (J b <= J a)%Q.
Proof. intros D a b L. induction L as [|b L IH]; [apply Qle_refl|]. eapply Qle_trans; [apply D|auto]. Qed.

(** ** The rounds of a call that never stops early. *)
Section Settle.
  Context {D : Type} `{EqB D}.
  Variable n : nat.
  Variable pairwise : list (list Q) -> list (list Q) -> nat -> nat -> D.
  Variable ltb : D -> D -> bool.
  Variable dsum : list D -> D.
  Variable mean : list (list Q) -> list Q.
  Variable shuffle : list pystr -> list pystr.
  Variable set_order : list Z -> list Z.
  Variable m : mgr.
  Hypothesis I : Inv m.
  Variable vectors : dict pystr (list Q).
  Variable nb : nat.
  Hypothesis SO : valid_set_order set_order.
  Hypothesis SWO : strict_weak_order ltb.
  Hypothesis NE : ids m <> [].
  Hypothesis COV : forall x, In x (ids m) -> In x (keys vectors).
  Hypothesis EU : euclidean n pairwise ltb.
  Hypothesis EM : exact_mean n mean.
  Hypothesis NT : no_tension n m vectors.
  Notation V := (list Q).
  Notation J := (inertia n (ids m) vectors).
  Notation iter := (fun p => iterate V D pairwise ltb dsum mean set_order p m (ids m) vectors nb).

  Definition asg (C : dict Z V) : dict pystr Z := match assign V D pairwise ltb m (ids m) vectors nb C with Ok r => r | Raise _ => [] end.
  Definition cen (r : dict pystr Z) : dict Z V := match compute_centroids V mean set_order m vectors r with Ok c => c | Raise _ => [] end.
  Fixpoint raws (C : dict Z V) (k : nat) : dict pystr Z := match k with 0 => asg C | S k => raws (cen (asg C)) k end.

  Lemma raws_S k : forall C, raws C (S k) = asg (cen (raws C k)).
  Proof. induction k as [|k IH]; intro C; auto. exact (IH (cen (asg C))). Qed.

  Lemma asg_run C : good_centroids C -> assign V D pairwise ltb m (ids m) vectors nb C = Ok (asg C) /\ sound m (asg C) /\
    nearest_assignment pairwise ltb m (ids m) vectors C (asg C).
  Proof. intro GC. destruct (assign_run pairwise ltb m I vectors nb NE COV C GC) as (raw & Ea & So & Ne). unfold asg. rewrite Ea. auto. Qed.
  Lemma cen_run r : sound m r -> compute_centroids V mean set_order m vectors r = Ok (cen r) /\
    centroids_of mean (ids m) vectors r (cen r) /\ good_centroids (cen r).
  Proof using I SO NE COV.
    intro So. destruct (compute_centroids_run mean set_order m I vectors SO NE COV r So) as (nc & Ec & Ce & GC). unfold cen. rewrite Ec. auto.
  Qed.

  Lemma raws_sound C : good_centroids C -> forall k, sound m (raws C k).
  Proof.
    intros GC k. induction k as [|k IH]; [apply asg_run; auto|]. rewrite raws_S. apply asg_run. apply (cen_run _ IH).
  Qed.

  Lemma iterate_raws p : (forall X Y k, ltb (dsum (map (fun i => pairwise X Y i i) (seq 0 k))) (kp_tolerance D p) = false) -> forall k s prev last,
    follows prev (k_clusters V s) (k_centroids V s) -> good_centroids (k_centroids V s) ->
    iter p (S k) last false s =
      (mkKMeans V (k_predicted V s) (raws (k_centroids V s) k) (cen (raws (k_centroids V s) k)), Ok (Some (raws (k_centroids V s) k))).
  Proof.
    intros Never. induction k as [|k IH]; intros s prev last Fo GC.
    all: destruct (asg_run _ GC) as (Ea & So & _).
    all: destruct (cen_run _ So) as (Ec & Ce & GC').
    all: destruct (has_converged_run pairwise ltb dsum mean p m vectors _ _ _ _ _ Fo GC So Ce) as (b & Eb & St).
    all: assert (Eb' : b = false) by (destruct b; auto; destruct (proj1 St eq_refl) as (? & ? & _ & _ & _ & X); rewrite Never in X; discriminate).
    all: subst b.
    all: assert (Step : forall k, iter p (S k) last false s = iter p k (Some (asg (k_centroids V s))) false
             (mkKMeans V (k_predicted V s) (asg (k_centroids V s)) (cen (asg (k_centroids V s))))) by
      (intro k0; cbn [iterate]; unfold bind at 1, gets at 1; unfold bind at 1, gets at 1; unfold bind at 1, lift at 1; rewrite Ea;
       unfold bind at 1, lift at 1; rewrite Ec; unfold bind at 1, lift at 1; rewrite Eb;
       unfold bind at 1, modify at 1; unfold bind at 1, modify at 1; reflexivity).
    all: rewrite Step.
    - reflexivity.
    - rewrite (IH _ (Some (asg (k_centroids V s)))); [reflexivity| |exact GC']. right. split; auto. apply Ce.
  Qed.

  (** Without tension every label is the label of a centroid. *)
  Lemma labels_in C raw : keys C <> [] -> nearest_assignment pairwise ltb m (ids m) vectors C raw -> forall x, In x (ids m) -> In (lab raw x) (keys C).
  Proof.
    intros NC (K & Res & Near) x X. destruct (leader_exists m I x X) as (l & L & ML & Ld).
    assert (El : lab raw x = lab raw l).
    { unfold lab. rewrite (proj1 Res x l); auto; try (apply managed_ids; auto). apply inferred_ml; auto. }
    rewrite El. destruct (Near l Ld) as (c & Ec & Cases). unfold lab. rewrite Ec. destruct Cases as [[Ic _]|(_ & Bl & _)]; auto.
    exfalso. destruct (keys C) as [|c0 r]; [congruence|]. destruct (Bl c0 (or_introl eq_refl)) as (y & Y & Hy & _).
    apply (proj1 (NT l y (proj1 Ld) Y)); auto.
  Qed.

  Lemma vals_labels raw c : keys raw = ids m -> In c (vals raw) -> exists x, In x (ids m) /\ lab raw x = c.
  Proof using I.
    intros K Hc. assert (ND : NoDup (keys raw)) by (rewrite K; apply inv_nodup; auto). unfold vals in Hc. apply in_map_iff in Hc as ((x & c') & E & Hx). simpl in E. subst c'.
    exists x. split; [rewrite <- K; apply (in_map fst) in Hx; exact Hx|]. unfold lab. assert (G : dget x raw = Some c) by (apply In_dget; auto). rewrite G. auto.
  Qed.

  (** Labels of later rounds are labels of the first centroids. *)
  Lemma raws_labels C : good_centroids C -> forall k c, In c (vals (raws C k)) -> In c (keys C).
  Proof.
    intros GC k. induction k as [|k IH]; intros c Hc.
    - destruct (asg_run _ GC) as (_ & So & NA). destruct (vals_labels _ c (proj1 So) Hc) as (x & X & <-). apply labels_in with (raw := asg C); auto. apply GC.
    - rewrite raws_S in Hc. destruct (cen_run _ (raws_sound C GC k)) as (_ & Ce & GC'). destruct (asg_run _ GC') as (_ & So & NA).
      destruct (vals_labels _ c (proj1 So) Hc) as (x & X & <-). apply IH. apply Ce. apply labels_in with (raw := asg (cen (raws C k))); auto. apply GC'.
  Qed.

  Lemma raws_descend C : good_centroids C -> forall k, (J (raws C (S k)) <= J (raws C k))%Q.
  Proof.
    intros GC k. assert (So := raws_sound C GC k). destruct (cen_run _ So) as (_ & Ce & GC'). destruct (asg_run _ GC') as (_ & So' & NA).
    destruct (inertia_centroids n mean m vectors COV EM _ _ (proj1 So) Ce) as [IK Eq]. rewrite Eq, raws_S.
    eapply Qle_trans; [apply (inertia_best n m vectors _ (cen (raws C k)) (proj1 So'))|].
    apply (assign_best n pairwise ltb m I vectors COV EU NT); auto. apply GC'.
  Qed.

  (** A round that does not improve ends settled. *)
  Lemma no_progress_settled C raw : good_centroids C -> keys raw = ids m ->
    nearest_assignment pairwise ltb m (ids m) vectors C raw -> (cost n m vectors C (lab raw) <= J raw)%Q -> settled n (ids m) vectors raw.
  Proof.
    intros GC K NA L.
    assert (Same : forall x, In x (ids m) -> same_point n (at_ C (lab raw x)) (own_centre n (ids m) vectors raw x)).
    { intros x X. unfold own_centre. rewrite (fellows_group m raw x (lab raw x)) by auto.
      set (g := filter (fun y => Z.eqb (lab raw y) (lab raw x)) (ids m)).
      assert (NEg : map (point vectors) g <> []).
      { intro E. apply map_eq_nil in E. assert (Z : In x g) by (apply filter_In; split; auto; apply Z.eqb_refl). rewrite E in Z. destruct Z. }
      apply centre_unique; auto. rewrite !map_map.
      assert (G : forall c x, In x (filter (fun y => Z.eqb (lab raw y) c) (ids m)) -> In x (ids m) /\ lab raw x = c).
      { intros c y Y. apply filter_In in Y as [Y E]. apply Z.eqb_eq in E. auto. }
      assert (Eq := sumQ_groups_eq (lab raw) (fun x => sqdist n (point vectors x) (own_centre n (ids m) vectors raw x))
                      (fun x => sqdist n (point vectors x) (at_ C (lab raw x))) (ids m)).
      assert (Ef : forall c, (sumQ (map (fun x => sqdist n (point vectors x) (own_centre n (ids m) vectors raw x)) (filter (fun y => Z.eqb (lab raw y) c) (ids m))) ==
                 sumQ (map (fun x => sqdist n (point vectors x) (centre n (map (point vectors) (filter (fun y => Z.eqb (lab raw y) c) (ids m))))) (filter (fun y => Z.eqb (lab raw y) c) (ids m))))%Q).
      { intro c. apply sumQ_ext. intros y Y. destruct (G c y Y) as [Iy Ey]. unfold own_centre. rewrite (fellows_group m raw y c) by auto. reflexivity. }
      assert (Eg : forall c, (sumQ (map (fun x => sqdist n (point vectors x) (at_ C (lab raw x))) (filter (fun y => Z.eqb (lab raw y) c) (ids m))) ==
                 sumQ (map (fun x => sqdist n (point vectors x) (at_ C c)) (filter (fun y => Z.eqb (lab raw y) c) (ids m))))%Q).
      { intro c. apply sumQ_ext. intros y Y. destruct (G c y Y) as [Iy ->]. reflexivity. }
      assert (All : forall c, (sumQ (map (fun x => sqdist n (point vectors x) (own_centre n (ids m) vectors raw x)) (filter (fun y => Z.eqb (lab raw y) c) (ids m))) <=
                 sumQ (map (fun x => sqdist n (point vectors x) (at_ C (lab raw x))) (filter (fun y => Z.eqb (lab raw y) c) (ids m))))%Q).
      { intro c. rewrite Ef, Eg. assert (B := centre_best n (map (point vectors) (filter (fun y => Z.eqb (lab raw y) c) (ids m))) (at_ C c)).
        rewrite !map_map in B. exact B. }
      specialize (Eq All L (lab raw x)). rewrite Ef, Eg in Eq. exact Eq. }
    assert (SD : forall x y, In y (ids m) -> (sqdist n (point vectors x) (own_centre n (ids m) vectors raw y) == sqdist n (point vectors x) (at_ C (lab raw y)))%Q).
    { intros x y Y. apply sqdist_same; [intros i _; reflexivity|]. intros i Hi. symmetry. apply Same; auto. }
    intros x y X Y. rewrite !SD by auto. apply (nearest_le n pairwise ltb m I vectors COV EU NT); auto; [apply GC|].
    apply labels_in; auto. apply GC.
  Qed.

  Lemma raws_settle C : good_centroids C -> forall k, length (keys C) ^ length (ids m) <= k ->
    settled n (ids m) vectors (raws C k) /\ forall k', k <= k' -> (J (raws C k') == J (raws C k))%Q.
  Proof.
    intros GC. set (S_ := map (fun w => combine (ids m) w) (words (keys C) (length (ids m)))).
    assert (In_ : forall k, In (raws C k) S_).
    { intro k. assert (So := raws_sound C GC k). apply in_map_iff. exists (vals (raws C k)). split.
      - rewrite <- (proj1 So). clear. generalize (raws C k) as r. induction r as [|[a b] r IH]; simpl; auto. f_equal. exact IH.
      - assert (Le : length (vals (raws C k)) = length (ids m)) by (rewrite <- (proj1 So); unfold vals, keys; rewrite !map_length; auto).
        rewrite <- Le. apply words_in. apply raws_labels; auto. }
    assert (dec : forall x y : dict pystr Z, {x = y} + {x <> y}).
    { apply list_eq_dec. intros [a b] [c d]. destruct (Z.eq_dec b d) as [->|N]; [|right; congruence].
      destruct (eqb a c) eqn:E; [left; apply eqb_eq in E; congruence|right; intro X; injection X as ->; rewrite eqb_refl in E; discriminate]. }
    destruct (eventually_periodic dec (fun r => asg (cen r)) (raws C) S_ (fun k => raws_S k C) In_) as (i & per & P1 & Li & Per).
    unfold S_ in Li. rewrite map_length, words_length in Li.
    assert (De := raws_descend C GC).
    assert (Mono := decreasing_le (fun k => J (raws C k)) De). cbv beta in Mono.
    assert (PerM : forall q k, i <= k -> raws C (k + q * per) = raws C k).
    { induction q as [|q IHq]; intros k Hk; [f_equal; lia|]. replace (k + S q * per) with ((k + q * per) + per) by lia. rewrite Per by lia. auto. }
    assert (Const : forall k k', i <= k -> k <= k' -> (J (raws C k') == J (raws C k))%Q).
    { intros k k' Hk L. apply Qle_antisym; [apply Mono; auto|]. rewrite <- (PerM k' k Hk). apply Mono. nia. }
    intros k Hk. split; [|intros; apply Const; lia]. destruct k as [|k]; [lia|].
    assert (So := raws_sound C GC k). destruct (cen_run _ So) as (_ & Ce & GC'). destruct (asg_run _ GC') as (_ & So' & NA).
    destruct (inertia_centroids n mean m vectors COV EM _ _ (proj1 So) Ce) as [IK Eq].
    rewrite raws_S. apply (no_progress_settled (cen (raws C k))); auto; [apply So'|].
    eapply Qle_trans; [apply (assign_best n pairwise ltb m I vectors COV EU NT _ _ (lab (raws C k))); auto; apply GC'|].
    rewrite <- Eq. rewrite <- (Const k (S k)) by lia. rewrite raws_S. apply Qle_refl.
  Qed.
End Settle.

Lemma fellows_partition l d1 d2 x : (forall x, In x l -> In x (keys d1)) -> same_partition d1 d2 -> In x l -> fellows l d1 x = fellows l d2 x.
Proof.
  intros K [KK P] X. unfold fellows. apply filter_ext_In. intros y Y. assert (X1 := K x X). assert (Y1 := K y Y). specialize (P x y X1 Y1).
  assert (X2 := X1). assert (Y2 := Y1). apply KK in X2. apply KK in Y2.
  destruct (dget_In_key _ _ X1) as [a Ea], (dget_In_key _ _ Y1) as [b Eb], (dget_In_key _ _ X2) as [a' Ea'], (dget_In_key _ _ Y2) as [b' Eb'].
  rewrite Ea, Eb, Ea', Eb' in *. destruct (Z.eqb_spec a b) as [E1|N1], (Z.eqb_spec a' b') as [E2|N2]; auto; exfalso.
  - subst. apply N2. destruct P as [P _]. specialize (P eq_refl). congruence.
  - subst. apply N1. destruct P as [_ P]. specialize (P eq_refl). congruence.
Qed.

Lemma settled_partition n l vectors d1 d2 : (forall x, In x l -> In x (keys d1)) -> same_partition d1 d2 ->
  settled n l vectors d1 -> settled n l vectors d2.
Proof.
  intros K SP St x y X Y. unfold own_centre. rewrite <- (fellows_partition l d1 d2 x), <- (fellows_partition l d1 d2 y); auto. apply St; auto.
Qed.

(*PROP C117: with a tolerance that no move of the centroids is below (zero), without CANNOT_LINK and with MUST_LINK only between data at the same place: as soon as there are more rounds than ways to number the data with the requested clusters, no data is closer to the centre of another cluster than to the centre of its own (in exact arithmetic), and further rounds neither improve nor worsen the sum of squared distances. *)
Lemma C117_settles_proof :
  forall n D (eqD : EqB D) pairwise ltb dzero dsum mean shuffle set_order model it tol p m vectors nb s d,
    valid_set_order set_order -> valid_shuffle shuffle -> strict_weak_order ltb ->
    euclidean n pairwise ltb -> exact_mean n mean -> reachable m -> no_tension n m vectors ->
    (forall X Y k, ltb (dsum (map (fun i => pairwise X Y i i) (seq 0 k))) tol = false) ->
    make_kmeans D ltb dzero model it tol = Ok p ->
    result (cluster (list Q) D pairwise ltb dsum mean shuffle set_order p m vectors (Some nb)) s = Ok d ->
    exists ids, ask get_list_of_managed_data_IDs m = Ok ids /\
      ((nb ^ Z.of_nat (length ids) < it)%Z ->
        settled n ids vectors d /\
        forall it' p' s' d', (it <= it')%Z -> make_kmeans D ltb dzero model it' tol = Ok p' ->
          result (cluster (list Q) D pairwise ltb dsum mean shuffle set_order p' m vectors (Some nb)) s' = Ok d' ->
          Qeq (inertia n ids vectors d') (inertia n ids vectors d)).
Proof.
  intros n D eqD pairwise ltb dzero dsum mean shuffle set_order model it tol p m vectors nbz s d SO SH SWO EU EM R NT Never MK E.
  apply reachable_inv in R. assert (MX := make_kmeans_max _ _ _ _ _ _ MK).
  exists (ids m). split; [apply ask_managed|]. intro Big.
  destruct (returned_valid pairwise ltb dsum mean shuffle set_order SH p MX m vectors (Some nbz) s d R E) as (k & Ek & N2 & NE & COV).
  injection Ek as ->.
  assert (Ep : forall i q, make_kmeans D ltb dzero model i tol = Ok q -> (1 <= i)%Z /\ q = mkKParams D (Z.to_nat i) tol).
  { clear. intros i q MK. unfold make_kmeans in MK. destruct (negb (eqb model (str "COP"))); [discriminate|]. destruct (Z.ltb_spec i 1); [discriminate|].
    destruct (ltb tol dzero); [discriminate|]. split; [lia|congruence]. }
  set (nb := Nat.min (Z.to_nat k) (length (ids m))).
  assert (L0 : length (ids m) <> 0) by (destruct (ids m); simpl in *; congruence).
  destruct (initialize_run shuffle m R vectors nb COV SH) as (c0 & E0 & (ch & _ & _ & _ & Kc & _) & GC); [lia|lia|].
  assert (Any : forall i q s0 d0, make_kmeans D ltb dzero model i tol = Ok q ->
     result (cluster (list Q) D pairwise ltb dsum mean shuffle set_order q m vectors (Some k)) s0 = Ok d0 ->
     same_partition (raws pairwise ltb mean set_order m vectors nb c0 (pred (Z.to_nat i))) d0).
  { intros i q s0 d0 Mi Ei. destruct (Ep _ _ Mi) as [I1 ->].
    assert (It := iterate_raws pairwise ltb dsum mean set_order m R vectors nb SO SWO NE COV (mkKParams D (Z.to_nat i) tol) Never (pred (Z.to_nat i))
                    (start m c0) None None (start_follows m R NE c0) GC).
    cbn [k_centroids k_predicted start] in It. replace (S (pred (Z.to_nat i))) with (Z.to_nat i) in It by lia.
    exact (call_rounds pairwise ltb dsum mean shuffle set_order m R vectors nb (mkKParams D (Z.to_nat i) tol) k s0 d0 c0 _ _ N2 eq_refl E0 It
             (proj1 (raws_sound pairwise ltb mean set_order m R vectors nb SO SWO NE COV c0 GC _)) Ei). }
  assert (KR : forall j x, In x (ids m) -> In x (keys (raws pairwise ltb mean set_order m vectors nb c0 j))).
  { intros j x X. rewrite (proj1 (raws_sound pairwise ltb mean set_order m R vectors nb SO SWO NE COV c0 GC j)). auto. }
  assert (Lb : length (keys c0) ^ length (ids m) <= pred (Z.to_nat it)).
  { rewrite Kc, map_length, seq_length. destruct (Ep _ _ MK) as [I1 _]. assert (Z : (Z.of_nat (nb ^ length (ids m)) <= k ^ Z.of_nat (length (ids m)))%Z).
    { rewrite Nat2Z.inj_pow. apply Z.pow_le_mono_l. lia. }
    lia. }
  destruct (raws_settle n pairwise ltb mean set_order m R vectors nb SO SWO NE COV EU EM NT c0 GC _ Lb) as [St Const].
  assert (P := Any _ _ _ _ MK E). split.
  - eapply settled_partition; eauto.
  - intros it' p' s' d' Le MK' E'. assert (P' := Any _ _ _ _ MK' E').
    rewrite <- (inertia_partition n (ids m) vectors _ d (KR _) P), <- (inertia_partition n (ids m) vectors _ d' (KR _) P').
    apply Const. lia.
Qed.

(** ** With constraints, some calls never settle. *)
Lemma call_gives {D} `{EqB D} pairwise ltb dsum mean shuffle set_order p m vectors nbz s c0 raw fc d :
  (2 <= nbz)%Z ->
  initialize_centroids (list Q) shuffle (ids m) vectors (Nat.min (Z.to_nat nbz) (length (ids m))) = Ok c0 ->
  iterate (list Q) D pairwise ltb dsum mean set_order p m (ids m) vectors (Nat.min (Z.to_nat nbz) (length (ids m))) (kp_max_iteration D p) None false (start m c0)
    = (mkKMeans (list Q) None raw fc, Ok (Some raw)) ->
  compute_centroids (list Q) mean set_order m vectors raw = Ok fc -> rename_clusters_by_order raw = Ok d ->
  result (cluster (list Q) D pairwise ltb dsum mean shuffle set_order p m vectors (Some nbz)) s = Ok d.
Proof.
  intros N2 E0 R Ec Er. unfold result, cluster. unfold bind at 1, lift at 1. rewrite ask_managed.
  destruct (Z.ltb_spec nbz 2); [lia|]. unfold bind at 1, modify at 1.
  unfold bind at 1. unfold clustering_COP. unfold bind at 1, lift at 1. rewrite E0.
  unfold bind at 1, modify at 1. unfold bind at 1, modify at 1. unfold bind at 1.
  change (set_clusters (list Q) (dcomp (fun _ => (-1)%Z) (ids m)) (set_centroids (list Q) c0 (set_predicted (list Q) None s))) with (start m c0).
  rewrite R. unfold bind at 1, gets at 1. cbn [k_clusters]. unfold bind at 1, lift at 1. rewrite Er.
  unfold bind at 1, modify at 1. unfold bind at 1, ret at 1. unfold bind at 1, lift at 1. cbn. rewrite Ec. reflexivity.
Qed.

Lemma one_round {D} `{EqB D} pairwise ltb dsum mean set_order p m vectors nb pr old C r C' :
  assign (list Q) D pairwise ltb m (ids m) vectors nb C = Ok r -> compute_centroids (list Q) mean set_order m vectors r = Ok C' ->
  has_converged (list Q) D pairwise ltb dsum p old r C C' = Ok false -> forall k last,
  iterate (list Q) D pairwise ltb dsum mean set_order p m (ids m) vectors nb (S k) last false (mkKMeans (list Q) pr old C) =
  iterate (list Q) D pairwise ltb dsum mean set_order p m (ids m) vectors nb k (Some r) false (mkKMeans (list Q) pr r C').
Proof.
  intros Ea Ec Eh k last. cbn [iterate]. unfold bind at 1, gets at 1. unfold bind at 1, gets at 1. unfold bind at 1, lift at 1. cbn [k_centroids k_clusters]. rewrite Ea.
  unfold bind at 1, lift at 1. rewrite Ec. unfold bind at 1, lift at 1. rewrite Eh. reflexivity.
Qed.

(** Two states that each round exchanges. *)
Lemma two_states {D} `{EqB D} pairwise ltb dsum mean shuffle set_order p m vectors nbz s c0 A CA B CB dA dB :
  (2 <= nbz)%Z -> 1 <= kp_max_iteration D p ->
  let nb := Nat.min (Z.to_nat nbz) (length (ids m)) in
  let asg := assign (list Q) D pairwise ltb m (ids m) vectors nb in
  let cen := compute_centroids (list Q) mean set_order m vectors in
  let cv := has_converged (list Q) D pairwise ltb dsum p in
  initialize_centroids (list Q) shuffle (ids m) vectors nb = Ok c0 ->
  asg c0 = Ok A -> cen A = Ok CA -> cv (dcomp (fun _ => (-1)%Z) (ids m)) A c0 CA = Ok false ->
  asg CA = Ok B -> cen B = Ok CB -> cv A B CA CB = Ok false ->
  asg CB = Ok A -> cv B A CB CA = Ok false ->
  rename_clusters_by_order A = Ok dA -> rename_clusters_by_order B = Ok dB ->
  let call := result (cluster (list Q) D pairwise ltb dsum mean shuffle set_order p m vectors (Some nbz)) s in
  (Nat.Odd (kp_max_iteration D p) -> call = Ok dA) /\ (Nat.Even (kp_max_iteration D p) -> call = Ok dB).
Proof.
  intros N2 M1 nb asg cen cv E0 EA ECA H0 EB ECB HAB EA' HBA RA RB call.
  set (iter := iterate (list Q) D pairwise ltb dsum mean set_order p m (ids m) vectors nb).
  assert (S0 : forall k last, iter (S k) last false (start m c0) = iter k (Some A) false (mkKMeans (list Q) None A CA)) by (intros; apply one_round; auto).
  assert (SA : forall k last, iter (S k) last false (mkKMeans (list Q) None A CA) = iter k (Some B) false (mkKMeans (list Q) None B CB)) by (intros; apply one_round; auto).
  assert (SB : forall k last, iter (S k) last false (mkKMeans (list Q) None B CB) = iter k (Some A) false (mkKMeans (list Q) None A CA)) by (intros; apply one_round; auto).
  assert (P : forall k, iter (2 * k) (Some A) false (mkKMeans (list Q) None A CA) = (mkKMeans (list Q) None A CA, Ok (Some A))).
  { induction k as [|k IH]; [reflexivity|]. replace (2 * S k) with (S (S (2 * k))) by lia. rewrite SA, SB. exact IH. }
  split; intros [k Ek].
  - apply (call_gives pairwise ltb dsum mean shuffle set_order p m vectors nbz s c0 A CA); auto. fold nb iter.
    rewrite Ek. replace (2 * k + 1) with (S (2 * k)) by lia. rewrite S0. apply P.
  - apply (call_gives pairwise ltb dsum mean shuffle set_order p m vectors nbz s c0 B CB); auto. fold nb iter.
    destruct k as [|k]; [lia|]. rewrite Ek. replace (2 * S k) with (S (S (2 * k))) by lia. rewrite S0.
    destruct k as [|k]; [rewrite SA; reflexivity|]. replace (S (2 * S k)) with (S (S (S (2 * k)))) by lia.
    rewrite SA, SB.
    assert (Q1 : forall j, iter (S (2 * j)) (Some A) false (mkKMeans (list Q) None A CA) = (mkKMeans (list Q) None B CB, Ok (Some B))).
    { induction j as [|j IH]; [rewrite SA; reflexivity|]. replace (S (2 * S j)) with (S (S (S (2 * j)))) by lia. rewrite SA, SB. exact IH. }
    apply Q1.
Qed.

Definition i5 := str "e".
Definition apart : mgr := run [CallAddConstraint i1 i2 CANNOT_LINK 1%Q; CallAddConstraint i2 i3 CANNOT_LINK 1%Q] (init [i1; i2; i3; i4]).
Definition apart_at : dict pystr (list Q) := [(i1, [4]); (i2, [1]); (i3, [1]); (i4, [2])]%Q.
Definition joined : mgr := run [CallAddConstraint i1 i2 MUST_LINK 1%Q; CallAddConstraint i4 i5 MUST_LINK 1%Q] (init [i1; i2; i3; i4; i5]).
Definition joined_at : dict pystr (list Q) := [(i1, [0]); (i2, [3]); (i3, [2]); (i4, [5]); (i5, [0])]%Q.
Local Notation calc m v c := (match assign (list Q) Q (squared 1) less m (ids m) v 2 c with Ok z => z | Raise _ => [] end).
Local Notation moved m v r := (match compute_centroids (list Q) (mean_of 1) (nodup Z.eq_dec) m v r with Ok z => z | Raise _ => [] end).
Local Notation begun m v := (match initialize_centroids (list Q) (fun l => l) (ids m) v 2 with Ok z => z | Raise _ => [] end).

(*PROP C117: with constraints there may be no such number of rounds: two CANNOT_LINK, or two MUST_LINK, and the call returns one clustering when the number of rounds is odd and another one when it is even, however large it is, with the default tolerance. *)
Lemma C117_constraints_oscillate_proof :
  forall t, t = CANNOT_LINK \/ t = MUST_LINK ->
  exists (eqD : EqB Q) pairwise ltb dsum mean shuffle set_order m ids a b a' b' vectors d d',
    valid_set_order set_order /\ valid_shuffle shuffle /\ strict_weak_order ltb /\
    euclidean 1 pairwise ltb /\ exact_mean 1 mean /\
    m = run [CallAddConstraint a b t 1%Q; CallAddConstraint a' b' t 1%Q] (init ids) /\
    ~ same_partition d d' /\
    forall it p s, make_kmeans Q ltb 0%Q (str "COP") it (1 # 10000)%Q = Ok p ->
      (Z.Odd it -> result (cluster (list Q) Q pairwise ltb dsum mean shuffle set_order p m vectors (Some 2%Z)) s = Ok d) /\
      (Z.Even it -> result (cluster (list Q) Q pairwise ltb dsum mean shuffle set_order p m vectors (Some 2%Z)) s = Ok d').
Proof.
  assert (NO : valid_set_order (nodup Z.eq_dec)) by (intro l; split; [apply NoDup_nodup|intro; apply nodup_In]).
  assert (SH : valid_shuffle (fun l => l)) by (intro l; apply Permutation_refl).
  assert (EU := squared_euclidean 1). assert (EM := mean_of_exact 1). assert (LO := less_order).
  assert (Ep : forall it p, make_kmeans Q less 0%Q (str "COP") it (1 # 10000)%Q = Ok p -> (1 <= it)%Z /\ p = mkKParams Q (Z.to_nat it) (1 # 10000)%Q).
  { intros it p MK. unfold make_kmeans in MK. destruct (negb _); [discriminate|]. destruct (Z.ltb_spec it 1); [discriminate|].
    destruct (less _ _); [discriminate|]. split; [lia|congruence]. }
  assert (Od : forall it, (1 <= it)%Z -> (Z.Odd it -> Nat.Odd (Z.to_nat it)) /\ (Z.Even it -> Nat.Even (Z.to_nat it))).
  { intros it I1. split; intros [q Hq]; exists (Z.to_nat q); lia. }
  intros t [->| ->].
  - exists EqB_fraction, (squared 1), less, (fun l => Qred (sumQ l)), (mean_of 1), (fun l => l), (nodup Z.eq_dec), apart, [i1; i2; i3; i4], i1, i2, i2, i3, apart_at,
      [(i1, 0); (i2, 1); (i3, 0); (i4, 0)]%Z, [(i1, 0); (i2, 1); (i3, 0); (i4, 1)]%Z.
    split; [exact NO|]. split; [exact SH|]. split; [exact LO|]. split; [exact EU|]. split; [exact EM|]. split; [reflexivity|]. split.
    + intros [_ P]. specialize (P i1 i4 ltac:(simpl; tauto) ltac:(simpl; tauto)). destruct P as [P _]. specialize (P eq_refl). vm_compute in P. discriminate.
    + intros it p s MK. destruct (Ep _ _ MK) as [I1 ->]. destruct (Od it I1) as [O V].
      assert (T := two_states (squared 1) less (fun l => Qred (sumQ l)) (mean_of 1) (fun l => l) (nodup Z.eq_dec) (mkKParams Q (Z.to_nat it) (1 # 10000)%Q) apart apart_at 2%Z s
        (begun apart apart_at) (calc apart apart_at (begun apart apart_at)) (moved apart apart_at (calc apart apart_at (begun apart apart_at)))
        (calc apart apart_at (moved apart apart_at (calc apart apart_at (begun apart apart_at))))
        (moved apart apart_at (calc apart apart_at (moved apart apart_at (calc apart apart_at (begun apart apart_at)))))
        [(i1, 0); (i2, 1); (i3, 0); (i4, 0)]%Z [(i1, 0); (i2, 1); (i3, 0); (i4, 1)]%Z).
      cbv zeta in T. cbn [kp_max_iteration] in T. destruct T as [T1 T2]; [lia|lia| | | | | | | | | | | |]; try (vm_compute; reflexivity). split; auto.
  - exists EqB_fraction, (squared 1), less, (fun l => Qred (sumQ l)), (mean_of 1), (fun l => l), (nodup Z.eq_dec), joined, [i1; i2; i3; i4; i5], i1, i2, i4, i5, joined_at,
      [(i1, 0); (i2, 0); (i3, 0); (i4, 1); (i5, 1)]%Z, [(i1, 0); (i2, 0); (i3, 1); (i4, 1); (i5, 1)]%Z.
    split; [exact NO|]. split; [exact SH|]. split; [exact LO|]. split; [exact EU|]. split; [exact EM|]. split; [reflexivity|]. split.
    + intros [_ P]. specialize (P i1 i3 ltac:(simpl; tauto) ltac:(simpl; tauto)). destruct P as [P _]. specialize (P eq_refl). vm_compute in P. discriminate.
    + intros it p s MK. destruct (Ep _ _ MK) as [I1 ->]. destruct (Od it I1) as [O V].
      assert (T := two_states (squared 1) less (fun l => Qred (sumQ l)) (mean_of 1) (fun l => l) (nodup Z.eq_dec) (mkKParams Q (Z.to_nat it) (1 # 10000)%Q) joined joined_at 2%Z s
        (begun joined joined_at) (calc joined joined_at (begun joined joined_at)) (moved joined joined_at (calc joined joined_at (begun joined joined_at)))
        (calc joined joined_at (moved joined joined_at (calc joined joined_at (begun joined joined_at))))
        (moved joined joined_at (calc joined joined_at (moved joined joined_at (calc joined joined_at (begun joined joined_at)))))
        [(i1, 0); (i2, 0); (i3, 0); (i4, 1); (i5, 1)]%Z [(i1, 0); (i2, 0); (i3, 1); (i4, 1); (i5, 1)]%Z).
      cbv zeta in T. cbn [kp_max_iteration] in T. destruct T as [T1 T2]; [lia|lia| | | | | | | | | | | |]; try (vm_compute; reflexivity). split; auto.
Qed.

(*EX
(** Four data on a line, two clusters, no constraint, tolerance zero: seventeen rounds are more than the sixteen numberings. *)
Definition A := str "a". Definition B := str "b". Definition C := str "c". Definition E := str "d".
Definition places : dict pystr (list Q) := [(A, [0]); (B, [1]); (C, [2]); (E, [10])]%Q.
Definition free : mgr := init [A; B; C; E].
Definition exact_call (rounds : nat) := cluster (list Q) Q (squared 1) less (fun l => Qred (sumQ l)) (mean_of 1) (fun l => l) (nodup Z.eq_dec) (mkKParams Q rounds 0%Q).
Example C117_ex :
  reachable free /\ no_tension 1 free places /\
  (forall X Y k, less (Qred (sumQ (map (fun i => squared 1 X Y i i) (seq 0 k)))) 0 = false) /\
  make_kmeans Q less 0%Q (str "COP") 17%Z 0%Q = Ok (mkKParams Q 17 0%Q) /\
  result (exact_call 17 free places (Some 2%Z)) (fresh_kmeans (list Q)) = Ok [(A, 0); (B, 0); (C, 0); (E, 1)]%Z /\
  result (exact_call 1 free places (Some 2%Z)) (fresh_kmeans (list Q)) = Ok [(A, 0); (B, 1); (C, 1); (E, 1)]%Z /\
  settled 1 [A; B; C; E] places [(A, 0); (B, 0); (C, 0); (E, 1)]%Z /\
  ~ settled 1 [A; B; C; E] places [(A, 0); (B, 1); (C, 1); (E, 1)]%Z.
Proof.
  split; [apply reach_init|]. split; [|split].
  - intros a b (l & El & Ia) (l' & El' & Ib). injection El as <-. injection El' as <-. split.
    + intro H. simpl in Ia, Ib. destruct Ia as [<-|[<-|[<-|[<-|[]]]]], Ib as [<-|[<-|[<-|[<-|[]]]]]; vm_compute in H; discriminate.
    + intro H. simpl in Ia, Ib. destruct Ia as [<-|[<-|[<-|[<-|[]]]]], Ib as [<-|[<-|[<-|[<-|[]]]]]; try (vm_compute in H; discriminate); intros i _; reflexivity.
  - intros X Y k. destruct (less _ 0) eqn:L; auto. apply less_spec in L. rewrite Qred_correct in L. exfalso. revert L. apply Qle_not_lt.
    induction (seq 0 k) as [|i l IH]; [apply Qle_refl|]. cbn [map sumQ fold_right]. change 0%Q with (0 + 0)%Q at 1. apply Qplus_le_compat; [|exact IH].
    unfold squared. rewrite Qred_correct. cbn. rewrite Qplus_0_r. generalize (coord (nth i X []) 0 - coord (nth i Y []) 0)%Q as z. intro z.
    destruct z as [a b]. unfold Qle. simpl. nia.
  - split; [reflexivity|]. split; [vm_compute; reflexivity|]. split; [vm_compute; reflexivity|]. split.
    + intros x y Ix Iy. simpl in Ix, Iy. destruct Ix as [<-|[<-|[<-|[<-|[]]]]], Iy as [<-|[<-|[<-|[<-|[]]]]]; vm_compute; discriminate.
    + intro St. assert (X := St B A ltac:(simpl; tauto) ltac:(simpl; tauto)). vm_compute in X. auto.
Qed.
EX*)
