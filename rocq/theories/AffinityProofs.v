(** * Structure of the affinity propagation model: shapes, exemplars, labels. *)

From Coq Require Import String List Bool Arith ZArith Lia Permutation Sorted.
From Verif Require Import Base Manager Spec Closure ManagerProofs ManagerInv ManagerQueries ManagerThms
  Sampling SamplingSpec SamplingProofs SamplingThms Rename ClusterSpec RenameThms ClusterProofs KMeans KMeansSpec KMeansProofs KMeansThms
  Spectral SpectralSpec SpectralThms HierProofs HierRun Affinity AffinitySpec.
Import ListNotations.
Open Scope nat_scope.
Open Scope py_scope.

(** ** Lists *)

Lemma nth_of_error {A} (l : list A) i x d : nth_error l i = Some x -> nth i l d = x.
Proof. revert i. induction l as [|y l IH]; intros [|i] E; simpl in *; try discriminate; [congruence|auto]. Qed.

Lemma nth_error_of_nth {A} (l : list A) i d : i < length l -> nth_error l i = Some (nth i l d).
Proof. revert i. induction l as [|y l IH]; intros [|i] E; simpl in *; try lia; auto. apply IH. lia. Qed.

Lemma nth_seq_map {A} (f : nat -> A) n i d : i < n -> nth i (map f (seq 0 n)) d = f i.
Proof.
  intro L. apply nth_of_error. rewrite nth_error_map, nth_error_seq. destruct (Nat.ltb_spec i n); [auto|lia].
Qed.

Lemma nth_list_set {A} (l : list A) i v k d : i < length l -> nth k (list_set l i v) d = if Nat.eqb k i then v else nth k l d.
Proof.
  intro L. destruct (Nat.lt_ge_cases k (length l)) as [K|K].
  - apply nth_of_error. rewrite nth_error_list_set. rewrite (nth_error_of_nth l k d K). destruct (k =? i); auto.
  - destruct (Nat.eqb_spec k i); [lia|]. rewrite !nth_overflow; auto. rewrite list_set_length; auto.
Qed.

Lemma in_list_set {A} (l : list A) i v x : In x (list_set l i v) -> x = v \/ exists k, k <> i /\ nth_error l k = Some x.
Proof.
  intro H. apply In_nth_error in H as [k K]. rewrite nth_error_list_set in K. destruct (Nat.eqb_spec k i).
  - destruct (nth_error l k); [|discriminate]. injection K as <-. auto.
  - right. eauto.
Qed.

(** ** Matrices *)
Lemma mget_mtab {D} (o : ops D) n p f i j : i < n -> j < p -> mget o (mtab n p f) i j = f i j.
Proof.
  intros Hi Hj. unfold mget, mtab. rewrite nth_seq_map by auto. apply nth_seq_map; auto.
Qed.

Lemma nrows_mtab {D} n p (f : nat -> nat -> D) : nrows (mtab n p f) = n.
Proof. unfold nrows, mtab. rewrite map_length, seq_length. auto. Qed.

Lemma mtab_ext {D} n p (f g : nat -> nat -> D) : (forall i j, i < n -> j < p -> f i j = g i j) -> mtab n p f = mtab n p g.
Proof.
  intro E. unfold mtab. apply map_ext_in. intros i Hi. apply map_ext_in. intros j Hj. apply in_seq in Hi, Hj. apply E; lia.
Qed.

(** ** Exemplars *)
Section Exemplars.
  Context {D : Type}.
  Variable o : ops D.
  Hypothesis VA : valid_argmax o.
  Variable n : nat.
  Variable W Sp : matrix D.

  Lemma argmax_map {A} (f : A -> D) l : l <> [] -> o_argmax D o (map f l) < length l.
  Proof. intro NE. rewrite <- (map_length f l). apply VA. destruct l; [congruence|discriminate]. Qed.

  Lemma set_all (I : list nat) : forall k0 (c : list nat), NoDup I -> (forall i, In i I -> i < length c) ->
    let c' := fold_left (fun c e => list_set c (snd e) (fst e)) (combine (seq k0 (length I)) I) c in
    length c' = length c /\
    (forall k i, nth_error I k = Some i -> nth i c' 0 = k0 + k) /\
    (forall i, ~ In i I -> nth i c' 0 = nth i c 0).
  Proof.
    induction I as [|x I IH]; intros k0 c ND LT; cbn [length seq combine fold_left fst snd].
    - split; auto. split; auto. intros [|k] i E; discriminate.
    - inversion ND as [|? ? N ND']; subst.
      destruct (IH (S k0) (list_set c x k0) ND') as (L & G & O).
      { intros i J. rewrite list_set_length. apply LT. right; auto. }
      split; [rewrite L, list_set_length; auto|]. split.
      + intros [|k] i E; cbn [nth_error] in E.
        * injection E as <-. rewrite O by auto. rewrite nth_list_set by (apply LT; left; auto). rewrite Nat.eqb_refl. lia.
        * rewrite (G k i E). lia.
      + intros i J. rewrite O by (intro; apply J; right; auto). rewrite nth_list_set by (apply LT; left; auto).
        destruct (Nat.eqb_spec i x); auto. exfalso. apply J. left; auto.
  Qed.

  Definition ok_exemplars (I : list nat) : Prop := NoDup I /\ I <> [] /\ forall i, In i I -> i < n.

  Lemma assign_spec I : ok_exemplars I -> let c := assign_exemplars o n Sp I in
    length c = n /\
    (forall k i, nth_error I k = Some i -> nth i c 0 = k) /\
    (forall i, i < n -> ~ In i I -> nth i c 0 = o_argmax D o (map (mget o Sp i) I)) /\
    (forall i, i < n -> nth i c 0 < length I).
  Proof.
    intros (ND & NE & LT) c.
    destruct (set_all I 0 (map (fun i => o_argmax D o (map (mget o Sp i) I)) (seq 0 n)) ND) as (L & G & O).
    { intros i J. rewrite map_length, seq_length. auto. }
    rewrite map_length, seq_length in L. change (length c = n) in L. split; auto.
    assert (G' : forall k i, nth_error I k = Some i -> nth i c 0 = k) by (intros k i E; apply (G k i E)).
    assert (O' : forall i, i < n -> ~ In i I -> nth i c 0 = o_argmax D o (map (mget o Sp i) I)).
    { intros i Li J. transitivity (nth i (map (fun i => o_argmax D o (map (mget o Sp i) I)) (seq 0 n)) 0); [apply (O i J)|].
      apply (nth_seq_map (fun i => o_argmax D o (map (mget o Sp i) I))); auto. }
    split; auto. split; auto. intros i Li. destruct (in_dec Nat.eq_dec i I) as [J|J].
    - apply In_nth_error in J as [k K]. rewrite (G' k i K). apply nth_error_Some. congruence.
    - rewrite O' by auto. apply argmax_map; auto.
  Qed.

  Definition class_of (c : list nat) (k : nat) : list nat := filter (fun i => Nat.eqb (nth i c 0) k) (seq 0 n).
  Lemma class_In c k i : In i (class_of c k) <-> i < n /\ nth i c 0 = k.
  Proof. unfold class_of. rewrite filter_In, in_seq, Nat.eqb_eq. split; intros []; split; auto; lia. Qed.

  Lemma refine_spec I : ok_exemplars I -> let c := assign_exemplars o n Sp I in
    exists I', refine o n W I c = Ok I' /\ length I' = length I /\ ok_exemplars I' /\
      forall k e', nth_error I' k = Some e' -> nth e' c 0 = k /\ k < length I /\
        nth_error (class_of c k) (o_argmax D o (map (fun b => o_sum D o (map (fun a => mget o W a b) (class_of c k))) (class_of c k))) = Some e'.
  Proof.
    intros OK c. destruct (assign_spec I OK) as (L & G & _ & _). fold c in L, G. destruct OK as (ND & NE & LT).
    set (best k := o_argmax D o (map (fun b => o_sum D o (map (fun a => mget o W a b) (class_of c k))) (class_of c k))).
    assert (CN : forall k, k < length I -> class_of c k <> []).
    { intros k K Q. destruct (nth_error I k) as [i|] eqn:E; [|apply nth_error_None in E; lia].
      assert (J : In i (class_of c k)) by (apply class_In; split; [apply LT; eapply nth_error_In; eauto|auto]). rewrite Q in J. destruct J. }
    assert (BN : forall k, k < length I -> best k < length (class_of c k)).
    { intros k K. unfold best. apply argmax_map. auto. }
    assert (RM : refine o n W I c = Ok (map (fun k => nth (best k) (class_of c k) 0) (seq 0 (length I)))).
    { unfold refine. apply rmap_pure. intros k K. apply in_seq in K.
      change (filter (fun i => Nat.eqb (nth i c 0) k) (seq 0 n)) with (class_of c k).
      assert (CK := CN k ltac:(lia)). destruct (class_of c k) as [|z zs] eqn:EC; [congruence|]. rewrite <- EC.
      change (o_argmax D o (map (fun b => o_sum D o (map (fun a => mget o W a b) (class_of c k))) (class_of c k))) with (best k).
      unfold py_nth. rewrite (nth_error_of_nth _ _ 0) by (apply BN; lia). auto. }
    exists (map (fun k => nth (best k) (class_of c k) 0) (seq 0 (length I))). split; auto. split; [rewrite map_length, seq_length; auto|].
    assert (NE' : forall k e', nth_error (map (fun k => nth (best k) (class_of c k) 0) (seq 0 (length I))) k = Some e' ->
                  k < length I /\ nth_error (class_of c k) (best k) = Some e').
    { intros k e' E. rewrite nth_error_map, nth_error_seq in E. destruct (Nat.ltb_spec k (length I)) as [K|K]; [|discriminate].
      cbn [option_map Nat.add] in E. injection E as <-. split; auto. apply nth_error_of_nth, BN; auto. }
    split.
    - split; [|split].
      + apply NoDup_nth_error. intros i j Li E. rewrite map_length, seq_length in Li.
        destruct (nth_error (map (fun k => nth (best k) (class_of c k) 0) (seq 0 (length I))) i) as [e|] eqn:Ei.
        2:{ apply nth_error_None in Ei. rewrite map_length, seq_length in Ei. lia. }
        symmetry in E. apply NE' in Ei as [_ Ei], E as [_ E]. apply nth_error_In in Ei, E. apply class_In in Ei, E. destruct Ei, E. congruence.
      + intro Q. apply (f_equal (@length _)) in Q. rewrite map_length, seq_length in Q. destruct I; [congruence|discriminate].
      + intros e J. apply In_nth_error in J as [k K]. apply NE' in K as [_ K]. apply nth_error_In in K. apply class_In in K. tauto.
    - intros k e' E. apply NE' in E as [K E]. split; [|split; auto]. apply nth_error_In in E. apply class_In in E. tauto.
  Qed.

  (** The labels computed from the exemplars. *)
  Lemma final_labels I : ok_exemplars I -> exists I' labels,
    refine o n W I (assign_exemplars o n Sp I) = Ok I' /\ ok_exemplars I' /\
    rmap (py_nth I') (assign_exemplars o n Sp I') = Ok labels /\ length labels = n /\
    (forall i, i < n -> nth_error labels i = nth_error I' (nth i (assign_exemplars o n Sp I') 0)) /\
    (forall i, In i labels -> In i I') /\ (forall i, In i I' -> nth_error labels i = Some i).
  Proof.
    intro OK. destruct (refine_spec I OK) as (I' & R & L & OK' & _).
    destruct (assign_spec I' OK') as (Lc & G & _ & Bd). set (c' := assign_exemplars o n Sp I') in *.
    assert (RM : rmap (py_nth I') c' = Ok (map (fun k => nth k I' 0) c')).
    { apply rmap_pure. intros k K. unfold py_nth. apply In_nth_error in K as [i Ki]. assert (Li : i < length c') by (apply nth_error_Some; congruence).
      rewrite (nth_error_of_nth I' k 0); auto. rewrite <- (nth_of_error _ _ _ 0 Ki). apply Bd. lia. }
    exists I', (map (fun k => nth k I' 0) c'). split; auto. split; auto. split; auto. split; [rewrite map_length; auto|].
    assert (P : forall i, i < n -> nth_error (map (fun k => nth k I' 0) c') i = nth_error I' (nth i c' 0)).
    { intros i Li. rewrite nth_error_map. rewrite (nth_error_of_nth c' i 0) by lia. cbn [option_map]. symmetry. apply nth_error_of_nth. auto. }
    split; auto. split.
    - intros i J. apply In_nth_error in J as [k K]. assert (Lk : k < n) by (rewrite <- Lc, <- (map_length (fun k => nth k I' 0) c'); apply nth_error_Some; congruence).
      rewrite P in K by auto. eapply nth_error_In; eauto.
    - intros i J. destruct OK' as (ND' & _ & LT'). rewrite P by auto. apply In_nth_error in J as [k K]. rewrite (G k i K). auto.
  Qed.
End Exemplars.

Lemma flatnonzero_In (E : list bool) i : In i (flatnonzero E) <-> nth_error E i = Some true.
Proof.
  unfold flatnonzero. rewrite in_map_iff. split.
  - intros ([k b] & <- & J). apply filter_In in J as [J B]. apply enum_inv in J. cbn [fst snd] in *. subst b. auto.
  - intro H. exists (i, true). split; auto. apply filter_In. split; auto. apply enum_In; auto.
Qed.

Lemma flatnonzero_sorted_aux (E : list bool) : forall k, StronglySorted lt (map fst (filter (fun e => snd e) (combine (seq k (length E)) E))) /\
  forall i, In i (map fst (filter (fun e => snd e) (combine (seq k (length E)) E))) -> k <= i < k + length E.
Proof.
  induction E as [|b E IH]; intros k; cbn [length seq combine filter snd map].
  - split; [constructor|intros i []].
  - destruct (IH (S k)) as [S B]. destruct b; cbn [map fst].
    + split.
      * constructor; auto. rewrite Forall_forall. intros i J. apply B in J. lia.
      * intros i [<-|J]; [lia|]. apply B in J. lia.
    + split; auto. intros i J. apply B in J. lia.
Qed.

Lemma flatnonzero_sorted (E : list bool) : StronglySorted lt (flatnonzero E).
Proof. apply (flatnonzero_sorted_aux E 0). Qed.

Lemma sorted_lt_NoDup l : StronglySorted lt l -> NoDup l.
Proof.
  induction 1 as [|x l S IH F]; constructor; auto. intro J. rewrite Forall_forall in F. apply F in J. lia.
Qed.

Lemma flatnonzero_ok (E : list bool) n : length E <= n -> flatnonzero E <> [] -> ok_exemplars n (flatnonzero E).
Proof.
  intros L NE. split; [apply sorted_lt_NoDup, flatnonzero_sorted|]. split; auto. intros i J. apply flatnonzero_In in J.
  assert (i < length E) by (apply nth_error_Some; congruence). lia.
Qed.

(** ** A run *)
Section Passing.
  Context {D : Type}.
  Variable o : ops D.
  Hypothesis VA : valid_argmax o.
  Variable absolute : bool.
  Variables n_samples n max_iteration convergence_iteration : nat.
  Variable cl : list (nat * nat).
  Variable W : matrix D.

  Lemma iterations_E remaining : forall it p, length (p_E p) <= n ->
    length (p_E (snd (iterations o absolute n_samples n max_iteration convergence_iteration cl W remaining it p))) <= n.
  Proof.
    induction remaining as [|r IH]; intros it p L; cbn [iterations]; auto.
    assert (L' : length (p_E (pass o absolute n_samples n convergence_iteration cl W it p)) <= n).
    { unfold pass. cbn [p_E]. rewrite map_length, seq_length. auto. }
    destruct (stops _ _ _ it _); auto.
  Qed.

  (** The labels exist when the run converges. *)
  Lemma exemplar_labels_run :
    let r := iterations o absolute n_samples n max_iteration convergence_iteration cl W max_iteration 0 (start_passing o absolute n convergence_iteration cl W) in
    let I := flatnonzero (p_E (snd r)) in
    ((fst r = true \/ I = []) /\ exemplar_labels o absolute n_samples n max_iteration convergence_iteration cl W = Ok None) \/
    (fst r = false /\ ok_exemplars n I /\ exists I' labels,
       exemplar_labels o absolute n_samples n max_iteration convergence_iteration cl W = Ok (Some labels) /\
       refine o n W I (assign_exemplars o n (p_Sp (snd r)) I) = Ok I' /\ ok_exemplars n I' /\ length labels = n /\
       (forall i, i < n -> nth_error labels i = nth_error I' (nth i (assign_exemplars o n (p_Sp (snd r)) I') 0)) /\
       (forall i, In i labels -> In i I') /\ (forall i, In i I' -> nth_error labels i = Some i)).
  Proof.
    cbv zeta. unfold exemplar_labels.
    assert (LE := iterations_E max_iteration 0 (start_passing o absolute n convergence_iteration cl W)).
    destruct (iterations _ _ _ _ _ _ _ _ max_iteration 0 _) as [never p]. cbn [fst snd] in *.
    assert (LE' : length (p_E p) <= n) by (apply LE; cbn [start_passing p_E length]; lia).
    destruct (flatnonzero (p_E p)) as [|x I] eqn:EI.
    { left. split; auto. }
    rewrite <- EI. assert (OK : ok_exemplars n (flatnonzero (p_E p))) by (apply flatnonzero_ok; auto; congruence).
    destruct (Nat.ltb_spec 0 (length (flatnonzero (p_E p)))) as [_|Q]; [|rewrite EI in Q; simpl in Q; lia].
    destruct never; cbn [negb andb]; [left; auto|]. right. split; auto. split; auto.
    destruct (final_labels o VA n W (p_Sp p) _ OK) as (I' & labels & R & OK' & RL & L & P1 & P2 & P3).
    exists I', labels. rewrite R. cbn [rbind]. rewrite RL. cbn [rbind]. auto 10.
  Qed.
End Passing.

(** ** Labels of members *)
Section Members.
  Lemma set_members (v : Z) ml : forall real, (forall i, In i ml -> i < length real) ->
    let r := fold_left (fun real i => list_set real i v) ml real in
    length r = length real /\ forall i, nth_error r i = if existsb (Nat.eqb i) ml then Some v else nth_error real i.
  Proof.
    induction ml as [|x ml IH]; intros real LT; cbn [fold_left existsb]; [split; auto|].
    destruct (IH (list_set real x v)) as [L G]; [intros i J; rewrite list_set_length; apply LT; right; auto|].
    split; [rewrite L, list_set_length; auto|]. intro i. rewrite G, nth_error_list_set.
    destruct (existsb (Nat.eqb i) ml); [rewrite orb_true_r; auto|]. rewrite orb_false_r.
    destruct (Nat.eqb_spec i x) as [->|]; auto. rewrite (nth_error_of_nth real x 0%Z) by (apply LT; left; auto). auto.
  Qed.

  Lemma member_labels_aux : forall (labels : list nat) mls real, length labels = length mls -> (forall i, In i (concat mls) -> i < length real) ->
    NoDup (concat mls) ->
    let r := fold_left (fun real e => fold_left (fun real i => list_set real i (Z.of_nat (fst e))) (snd e) real) (combine labels mls) real in
    length r = length real /\
    (forall p l ml i, nth_error labels p = Some l -> nth_error mls p = Some ml -> In i ml -> nth_error r i = Some (Z.of_nat l)) /\
    (forall i, ~ In i (concat mls) -> nth_error r i = nth_error real i).
  Proof.
    induction labels as [|l labels IH]; intros [|ml mls] real LL LT ND; try discriminate; cbn [combine fold_left fst snd concat].
    - split; auto. split; auto. intros [|p]; discriminate.
    - cbn [concat] in *. apply NoDup_app_inv in ND as (ND1 & ND2 & DJ).
      destruct (set_members (Z.of_nat l) ml real) as [L1 G1]; [intros; apply LT, in_or_app; auto|].
      set (real1 := fold_left (fun real i => list_set real i (Z.of_nat l)) ml real) in *.
      destruct (IH mls real1) as (L2 & G2 & O2); [simpl in LL; lia|intros i J; rewrite L1; apply LT, in_or_app; auto|auto|].
      split; [rewrite L2; auto|]. split.
      + intros [|p] l' ml' i E1 E2 J; cbn [nth_error] in E1, E2.
        * injection E1 as <-. injection E2 as <-. rewrite O2 by (intro; eapply DJ; eauto). rewrite G1.
          replace (existsb (Nat.eqb i) ml) with true; auto. symmetry. apply existsb_exists. exists i. split; auto. apply Nat.eqb_refl.
        * eapply G2; eauto.
      + intros i N. rewrite O2 by (intro; apply N, in_or_app; auto). rewrite G1.
        destruct (existsb (Nat.eqb i) ml) eqn:Q; auto. apply existsb_exists in Q as (x & X & Ex). apply Nat.eqb_eq in Ex. subst x.
        exfalso. apply N, in_or_app; auto.
  Qed.

  Lemma member_labels_spec n labels mls : length labels = length mls -> (forall i, In i (concat mls) -> i < n) -> NoDup (concat mls) ->
    length (member_labels n labels mls) = n /\
    forall p l ml i, nth_error labels p = Some l -> nth_error mls p = Some ml -> In i ml -> nth_error (member_labels n labels mls) i = Some (Z.of_nat l).
  Proof.
    intros L LT ND. destruct (member_labels_aux labels mls (repeat (-1)%Z n) L) as (L1 & G1 & _); auto; [intros; rewrite repeat_length; auto|].
    rewrite repeat_length in L1. auto.
  Qed.
End Members.

(** ** Gapless labels *)
Lemma filter_length_le {A} (f g : A -> bool) l : (forall x, In x l -> f x = true -> g x = true) -> length (filter f l) <= length (filter g l).
Proof.
  induction l as [|x l IH]; intro S; simpl; auto. assert (IH' := IH (fun y Y => S y (or_intror Y))).
  destruct (f x) eqn:F; [rewrite (S x (or_introl eq_refl) F); simpl; lia|]. destruct (g x); simpl; lia.
Qed.
Lemma filter_length_lt {A} (f g : A -> bool) l x : (forall x, In x l -> f x = true -> g x = true) -> In x l -> f x = false -> g x = true ->
  length (filter f l) < length (filter g l).
Proof.
  intros S J F G. induction l as [|y l IH]; [destruct J|]. simpl. destruct J as [->|J].
  - rewrite F, G. simpl. apply Nat.lt_succ_r. apply filter_length_le. intros; apply S; auto; right; auto.
  - specialize (IH (fun z Z => S z (or_intror Z)) J). destruct (f y) eqn:Fy; [rewrite (S y (or_introl eq_refl) Fy); simpl; lia|].
    destruct (g y); simpl; lia.
Qed.

Lemma gapless_length l : length (gapless l) = length l.
Proof. unfold gapless. apply map_length. Qed.

Lemma gapless_spec l i j : i < length l -> j < length l -> (nth_error (gapless l) i = nth_error (gapless l) j <-> nth_error l i = nth_error l j).
Proof.
  intros Hi Hj. unfold gapless. rewrite !nth_error_map, (nth_error_of_nth l i 0%Z Hi), (nth_error_of_nth l j 0%Z Hj). cbn [option_map].
  set (rank x := length (filter (fun y => (y <? x)%Z) (dedup l))).
  assert (Mono : forall x y, In x l -> (x < y)%Z -> rank x < rank y).
  { intros x y X Lt. unfold rank. apply filter_length_lt with x.
    - intros z _. rewrite !Z.ltb_lt. lia.
    - apply dedup_In; auto.
    - apply Z.ltb_irrefl.
    - apply Z.ltb_lt; auto. }
  fold (rank (nth i l 0%Z)) (rank (nth j l 0%Z)). split; [|congruence].
  intro E. injection E as E. apply Nat2Z.inj in E. f_equal.
  destruct (Z.lt_trichotomy (nth i l 0%Z) (nth j l 0%Z)) as [Q|[Q|Q]]; auto; apply Mono in Q; try (apply nth_In; auto); lia.
Qed.

(** ** From labels to the dictionary *)
Lemma labelled_aux (ids : list pystr) : NoDup ids -> forall (labels : list Z) k d0, k + length labels = length ids -> keys d0 = firstn k ids ->
  exists d, rfold (fun d e => x <-- py_nth ids (fst e) ;;; Ok (dset x (snd e) d)) (combine (seq k (length labels)) labels) d0 = Ok d /\
    keys d = ids /\
    (forall i x, nth_error ids (k + i) = Some x -> i < length labels -> dget x d = nth_error labels i) /\
    (forall x, In x (keys d0) -> dget x d = dget x d0).
Proof.
  intros ND. induction labels as [|v labels IH]; intros k d0 L K; cbn [length seq combine rfold].
  - exists d0. cbn [length] in L. rewrite Nat.add_0_r in L. split; auto. split; [rewrite K, L; apply firstn_all|]. split; auto. intros; lia.
  - cbn [length] in L. destruct (nth_error ids k) as [x|] eqn:E; [|apply nth_error_None in E; lia].
    assert (PN : py_nth ids k = Ok x) by (unfold py_nth; rewrite E; auto). cbn [fst snd]. rewrite PN. cbn [rbind].
    assert (FK : firstn (S k) ids = firstn k ids ++ [x]).
    { clear - E. revert k E. induction ids as [|y l IHl]; intros [|k] E; try discriminate; cbn [firstn nth_error app] in *; [congruence|]. f_equal. auto. }
    assert (NX : ~ In x (keys d0)).
    { rewrite K. intro J. assert (ND' : NoDup (firstn (S k) ids)).
      { rewrite <- (firstn_skipn (S k) ids) in ND. apply NoDup_app_inv in ND. tauto. }
      rewrite FK in ND'. apply NoDup_app_inv in ND' as (_ & _ & DJ). apply (DJ x J). left; auto. }
    assert (KD : keys (dset x v d0) = firstn (S k) ids) by (rewrite keys_dset_out by auto; rewrite K, FK; auto).
    destruct (IH (S k) (dset x v d0)) as (d & R & Kd & G & P); [lia|auto|].
    exists d. split; auto. split; auto. split.
    + intros [|i] y Y Hi.
      * rewrite Nat.add_0_r in Y. rewrite E in Y. injection Y as <-. rewrite P by (rewrite KD, FK; apply in_elt). apply dget_dset_same.
      * replace (k + S i) with (S k + i) in Y by lia. cbn [length] in Hi. rewrite (G i y Y) by lia. auto.
    + intros y Y. rewrite P by (rewrite KD, FK; apply in_or_app; left; rewrite <- K; auto). apply dget_dset_other. intros ->. auto.
Qed.

Lemma labelled_run ids labels : NoDup ids -> length labels = length ids -> exists d, labelled ids labels = Ok d /\
  keys d = ids /\ forall i x, nth_error ids i = Some x -> dget x d = nth_error labels i.
Proof.
  intros ND L. destruct (labelled_aux ids ND labels 0 []) as (d & R & K & G & _); auto. exists d. split; auto. split; auto.
  intros i x E. apply G; auto. rewrite L. apply nth_error_Some. congruence.
Qed.

Lemma labelled_renamed m labels : Inv m -> length labels = length (ids m) ->
  exists d0 d, labelled (ids m) labels = Ok d0 /\ rename_clusters_by_order d0 = Ok d /\
    canonical d /\ covers_exactly m d /\ grouped_by (ids m) labels d.
Proof.
  intros I L. assert (ND : NoDup (ids m)) by (apply inv_nodup; auto).
  destruct (labelled_run (ids m) labels ND L) as (d0 & E0 & K0 & G0).
  destruct (rename_run d0) as (d & E & K & C & P); [rewrite K0; auto|].
  exists d0, d. split; auto. split; auto. split; auto.
  assert (KI : forall x, In x (keys d) <-> In x (ids m)) by (intro x; rewrite <- (proj1 P x), K0; tauto).
  split; [intro x; rewrite KI, managed_ids; tauto|].
  intros i j a b A B. rewrite <- (G0 i a A), <- (G0 j b B). symmetry. apply P; rewrite K0; eapply nth_error_In; eauto.
Qed.

(** ** Constraints *)
Section Constraints.
  Variable m : mgr.
  Hypothesis I : Inv m.

  (** Indices of a list of IDs. *)
  Definition indices_of (l : list pystr) (il : list nat) : Prop := map (fun i => nth_error (ids m) i) il = map Some l.

  Lemma id_index_dict x i : nth_error (ids m) i = Some x -> dlookup x (fold_left (fun d e => dset (snd e) (fst e) d) (enum (ids m)) []) = Ok i.
  Proof.
    intro E. apply dlookup_Some.
    destruct (fold_dset_gen (E := nat * pystr) snd fst (enum (ids m)) []) as [G _]; [rewrite enum_snd; apply inv_nodup; auto|].
    apply (G (i, x)). apply enum_In; auto.
  Qed.

  Lemma must_link_indices_run : exists mls, must_link_indices m (ids m) = Ok mls /\ Forall2 indices_of (comps m) mls.
  Proof.
    unfold must_link_indices. rewrite ask_components by auto. cbn [rbind].
    assert (IN : forall c, In c (comps m) -> incl c (ids m)) by (intros; apply comps_good; auto).
    assert (G : forall cs, (forall c, In c cs -> incl c (ids m)) -> exists mls,
      rmap (fun closure => rmap (fun x => dlookup x (fold_left (fun d e => dset (snd e) (fst e) d) (enum (ids m)) [])) closure) cs = Ok mls /\ Forall2 indices_of cs mls).
    { induction cs as [|c cs IH]; intro S; [exists []; split; [reflexivity|constructor]|].
      assert (C : exists il, rmap (fun x => dlookup x (fold_left (fun d e => dset (snd e) (fst e) d) (enum (ids m)) [])) c = Ok il /\ indices_of c il).
      { assert (SC := S c (or_introl eq_refl)). clear - SC I. induction c as [|x c IH]; [exists []; split; reflexivity|].
        destruct IH as (il & R & X); [intros y Y; apply SC; right; auto|].
        assert (J : In x (ids m)) by (apply SC; left; auto). apply In_nth_error in J as [i E].
        exists (i :: il). cbn [rmap]. rewrite (id_index_dict x i E). cbn [rbind]. rewrite R. cbn [rbind]. split; auto.
        unfold indices_of in *. cbn [map]. rewrite E, X. auto. }
      destruct C as (il & R & X). destruct (IH (fun c' C' => S c' (or_intror C'))) as (mls & R2 & F).
      exists (il :: mls). cbn [rmap]. rewrite R. cbn [rbind]. rewrite R2. split; [reflexivity|constructor; auto]. }
    apply G. auto.
  Qed.

  Lemma indices_In c il i : indices_of c il -> In i il -> exists x, nth_error (ids m) i = Some x /\ In x c.
  Proof.
    unfold indices_of. revert c. induction il as [|j il IH]; intros [|x c] E J; try discriminate; [destruct J|].
    cbn [map] in E. injection E as E1 E2. destruct J as [->|J]; [exists x; split; auto; left; auto|].
    destruct (IH c E2 J) as (y & Y & C). exists y. split; auto. right; auto.
  Qed.
  Lemma In_indices c il x : indices_of c il -> In x c -> exists i, nth_error (ids m) i = Some x /\ In i il.
  Proof.
    unfold indices_of. revert c. induction il as [|j il IH]; intros [|y c] E J; try discriminate; [destruct J|].
    cbn [map] in E. injection E as E1 E2. destruct J as [->|J]; [exists j; split; auto; left; auto|].
    destruct (IH c E2 J) as (i & Y & C). exists i. split; auto. right; auto.
  Qed.

  Lemma indices_partition cs mls : Forall2 indices_of cs mls -> NoDup (concat cs) ->
    NoDup (concat mls) /\ (forall i, In i (concat mls) -> i < length (ids m)) /\ length cs = length mls /\
    forall i, In i (concat mls) -> exists x, nth_error (ids m) i = Some x /\ In x (concat cs).
  Proof.
    intros F ND. assert (C : forall i, In i (concat mls) -> exists x, nth_error (ids m) i = Some x /\ In x (concat cs)).
    { intros i J. apply in_concat in J as (il & IL & J). destruct (Forall2_In_r _ _ _ _ F IL) as (c & Cc & X).
      destruct (indices_In c il i X J) as (x & E & Xc). exists x. split; auto. apply in_concat; eauto. }
    split; [|split; [|split; auto]].
    - induction F as [|c il cs mls X F IH]; [constructor|]. cbn [concat] in *. apply NoDup_app_inv in ND as (ND1 & ND2 & DJ).
      apply NoDup_app_intro.
      + clear - X ND1. unfold indices_of in X. apply (NoDup_map_inv (fun i => nth_error (ids m) i)). rewrite X. apply FinFun.Injective_map_NoDup; auto. intros a b E; congruence.
      + apply IH; auto. intros i J. apply in_concat in J as (il' & IL & J). destruct (Forall2_In_r _ _ _ _ F IL) as (c' & Cc & X').
        destruct (indices_In c' il' i X' J) as (x & E & Xc). exists x. split; auto. apply in_concat; eauto.
      + intros i J1 J2. destruct (indices_In c il i X J1) as (x & E & Xc).
        apply in_concat in J2 as (il' & IL & J2). destruct (Forall2_In_r _ _ _ _ F IL) as (c' & Cc & X').
        destruct (indices_In c' il' i X' J2) as (x' & E' & Xc'). rewrite E in E'. injection E' as <-.
        apply (DJ x Xc). apply in_concat; eauto.
    - intros i J. apply C in J as (x & E & _). apply nth_error_Some. congruence.
    - clear - F. induction F; simpl; auto.
  Qed.

  Lemma index_pairs_In n i j : In (i, j) (index_pairs n) <-> i < j < n.
  Proof.
    unfold index_pairs. rewrite in_flat_map. split.
    - intros (k & K & J). apply in_map_iff in J as (j' & E & J). injection E as -> ->. apply in_seq in K, J. lia.
    - intros L. exists i. split; [apply in_seq; lia|]. apply in_map_iff. exists j. split; auto. apply in_seq. lia.
  Qed.

  Lemma cannot_link_pairs_run : exists cls, cannot_link_pairs m (ids m) = Ok cls /\
    forall i j, In (i, j) cls -> i < length (ids m) /\ j < length (ids m).
  Proof.
    unfold cannot_link_pairs.
    destruct (rfilter_total (fun ij => a <-- py_nth (ids m) (fst ij) ;;; b <-- py_nth (ids m) (snd ij) ;;;
               c <-- ask (get_added_constraint a b) m ;;;
               Ok (match c with Some c => eqb (fst c) CANNOT_LINK | None => false end)) (index_pairs (length (ids m)))) as [r R].
    - intros [i j] J. apply index_pairs_In in J. cbn [fst snd]. unfold py_nth.
      destruct (nth_error (ids m) i) as [a|] eqn:A; [|apply nth_error_None in A; lia].
      destruct (nth_error (ids m) j) as [b|] eqn:B; [|apply nth_error_None in B; lia]. cbn [rbind].
      unfold ask. rewrite run_added by auto. cbn [snd].
      replace (both m a b) with true; [cbn [rbind]; eauto|]. symmetry. apply both_true. split; eapply nth_error_In; eauto.
    - exists r. split; auto. intros i j J. apply rfilter_Ok in R as [-> _]. apply filter_In in J as [J _]. apply index_pairs_In in J. lia.
  Qed.
End Constraints.
