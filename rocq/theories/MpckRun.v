(** * MPCKMeans: the iterations. *)

From Coq Require Import String List Bool Arith ZArith Lia Permutation Sorted.
From Verif Require Import Base Manager Spec Closure ManagerProofs ManagerInv ManagerQueries ManagerThms
  Sampling SamplingSpec SamplingProofs SamplingThms Rename ClusterSpec RenameThms ClusterProofs KMeans KMeansProofs Spectral SpectralThms AffinityProofs HierProofs DbscanProofs
  Mpckmeans MpckSpec MpckGraph.
Import ListNotations.
Open Scope nat_scope.
Open Scope py_scope.

(** ** First strict maximum above a threshold *)
Section Best.
  Context {A D : Type}.
  Variable ltb : D -> D -> bool.
  Variable z : D.
  Variable f : A -> D.
  Definition upd (b : option A) (e : A) : option A := if ltb (match b with Some b => f b | None => z end) (f e) then Some e else b.

  Lemma upd_None l : fold_left upd l None = None <-> forall e, In e l -> ltb z (f e) = false.
  Proof.
    assert (S : forall l b, fold_left upd l (Some b) <> None).
    { clear l. induction l as [|e l IH]; intro b; cbn [fold_left]; [discriminate|]. unfold upd at 2. destruct (ltb (f b) (f e)); apply IH. }
    induction l as [|e l IH]; cbn [fold_left]; [simpl; tauto|]. unfold upd at 2. destruct (ltb z (f e)) eqn:E.
    - split; [intro Q; exfalso; eapply S; eauto|]. intro Q. rewrite Q in E; [discriminate|simpl; auto].
    - rewrite IH. split; [intros Q e' [<-|J]; auto|intros Q e' J; apply Q; simpl; auto].
  Qed.

  Hypothesis SW : strict_weak_order ltb.
  Lemma upd_Some l : forall b, fold_left upd l None = Some b -> exists l1 l2, l = l1 ++ b :: l2 /\ ltb z (f b) = true /\
    (forall e, In e l -> ltb (f b) (f e) = false) /\ (forall e, In e l1 -> ltb (f e) (f b) = true).
  Proof.
    destruct SW as (Irr & Tr & Co). induction l as [|e l IH] using rev_ind; intro b; [discriminate|]. rewrite fold_left_app. cbn [fold_left]. unfold upd at 1.
    destruct (fold_left upd l None) as [b0|] eqn:F.
    - destruct (IH b0 eq_refl) as (l1 & l2 & E & P1 & P2 & P3). destruct (ltb (f b0) (f e)) eqn:L; intro Q; injection Q as <-.
      + exists l, []. split; auto. split; [eapply Tr; eauto|]. assert (H : forall e', In e' l -> ltb (f e) (f e') = false /\ ltb (f e') (f e) = true).
        { intros e' J. specialize (P2 e' J). split.
          - destruct (ltb (f e) (f e')) eqn:L'; auto. rewrite (Tr _ _ _ L L') in P2. discriminate.
          - destruct (Co (f b0) (f e') (f e) L); auto. congruence. }
        split; [|intros e' J; apply H; auto]. intros e' J. apply in_app_or in J as [J|[<-|[]]]; auto. apply H; auto.
      + exists l1, (l2 ++ [e]). split; [rewrite E, <- app_assoc; auto|]. split; auto. split; auto. intros e' J. apply in_app_or in J as [J|[<-|[]]]; auto.
    - rewrite upd_None in F. destruct (ltb z (f e)) eqn:L; [|discriminate]. intro Q. injection Q as <-. exists l, []. split; auto. split; auto.
      assert (H : forall e', In e' l -> ltb (f e) (f e') = false /\ ltb (f e') (f e) = true).
      { intros e' J. specialize (F e' J). split.
        - destruct (ltb (f e) (f e')) eqn:L'; auto. rewrite (Tr _ _ _ L L') in F. discriminate.
        - destruct (Co z (f e') (f e) L); auto. congruence. }
      split; [|intros e' J; apply H; auto]. intros e' J. apply in_app_or in J as [J|[<-|[]]]; auto. apply H; auto.
  Qed.
End Best.

Lemma py_max_first {A} (lt : A -> A -> bool) l k : strict_weak_order lt -> Hierarchical.py_max lt l = Ok k ->
  exists l1 l2, l = l1 ++ k :: l2 /\ (forall y, In y l -> lt k y = false) /\ (forall y, In y l1 -> lt y k = true).
Proof.
  intros (Irr & Tr & Co) E. destruct l as [|x l]; [discriminate|]. cbn [Hierarchical.py_max] in E. injection E as E.
  revert k E. induction l as [|e l IH] using rev_ind; intros k E.
  - cbn in E. subst k. exists [], []. split; auto. split; [intros y [<-|[]]; auto|intros y []].
  - rewrite fold_left_app in E. cbn [fold_left] in E. set (b0 := fold_left _ l x) in *. destruct (IH b0 eq_refl) as (l1 & l2 & El & P2 & P3).
    rewrite app_comm_cons. destruct (lt b0 e) eqn:L; subst k.
    + exists (x :: l), []. split; auto.
      assert (H : forall e', In e' (x :: l) -> lt e e' = false /\ lt e' e = true).
      { intros e' J. specialize (P2 e' J). split.
        - destruct (lt e e') eqn:L'; auto. rewrite (Tr _ _ _ L L') in P2. discriminate.
        - destruct (Co b0 e' e L); auto. congruence. }
      split; [|intros e' J; apply H; auto]. intros e' J. apply in_app_or in J as [J|[<-|[]]]; auto. apply H; auto.
    + exists l1, (l2 ++ [e]). split; [rewrite El, <- app_assoc; auto|]. split; auto. intros e' J. apply in_app_or in J as [J|[<-|[]]]; auto.
Qed.

Lemma py_max_Ok_In {A} (lt : A -> A -> bool) l k : Hierarchical.py_max lt l = Ok k -> In k l.
Proof.
  intro E. destruct (py_max_In lt l) as (k' & E' & J); [intros ->; discriminate|]. rewrite E in E'. injection E' as ->. auto.
Qed.
Lemma fold_filter {A B} (p : A -> bool) (f : B -> A -> B) l : forall b, fold_left (fun b a => if p a then f b a else b) l b = fold_left f (filter p l) b.
Proof. induction l as [|a l IH]; intro b; simpl; auto. destruct (p a); simpl; auto. Qed.
Lemma fold_flat_map {A B C} (g : A -> list C) (f : B -> C -> B) l : forall b, fold_left (fun b a => fold_left f (g a) b) l b = fold_left f (flat_map g l) b.
Proof. induction l as [|a l IH]; intro b; simpl; auto. rewrite fold_left_app. auto. Qed.
Lemma fold_left_ext_in {A B} (f g : B -> A -> B) l : (forall b a, In a l -> f b a = g b a) -> forall b, fold_left f l b = fold_left g l b.
Proof. induction l as [|a l IH]; intros H b; simpl; auto. rewrite H by (simpl; auto). apply IH. intros b' a' J. apply H. simpl; auto. Qed.

Lemma sorted_flat_map {A B} (R : A -> A -> Prop) (S : B -> B -> Prop) (f : A -> list B) l :
  StronglySorted R l -> (forall a, In a l -> StronglySorted S (f a)) ->
  (forall a a' b b', R a a' -> In b (f a) -> In b' (f a') -> S b b') -> StronglySorted S (flat_map f l).
Proof.
  intros H F G. assert (AP : forall l1 l2, StronglySorted S l1 -> StronglySorted S l2 -> (forall x y, In x l1 -> In y l2 -> S x y) -> StronglySorted S (l1 ++ l2)).
  { induction l1 as [|x l1 IH]; intros l2 S1 S2 X; cbn; auto. inversion S1; subst. constructor; [apply IH; auto; intros; apply X; simpl; auto|].
    apply Forall_app. split; auto. apply Forall_forall. intros y J. apply X; simpl; auto. }
  induction H as [|a l H IH FR]; cbn [flat_map]; [constructor|]. apply AP; [apply F; simpl; auto|apply IH; intros; apply F; simpl; auto|].
  intros x y J1 J2. apply in_flat_map in J2 as (a' & J' & J2). rewrite Forall_forall in FR. eapply G; eauto.
Qed.
Lemma sorted_map_seq {B} (S : B -> B -> Prop) (f : nat -> B) : (forall i j, i < j -> S (f i) (f j)) -> forall l, StronglySorted lt l -> StronglySorted S (map f l).
Proof.
  intros H l G. induction G as [|a l G IH F]; cbn; constructor; auto. rewrite Forall_forall in F |- *. intros y J. apply in_map_iff in J as (j & <- & J). auto.
Qed.
Lemma seq_sorted a b : StronglySorted lt (seq a b).
Proof. revert a. induction b as [|b IH]; intro a; cbn; constructor; auto. apply Forall_forall. intros j J. apply in_seq in J. lia. Qed.
Lemma sorted_split {A} (R : A -> A -> Prop) l l1 x l2 y : (forall a, ~ R a a) -> (forall a b, R a b -> ~ R b a) -> StronglySorted R l -> l = l1 ++ x :: l2 -> In y l -> R y x -> In y l1.
Proof.
  intros Irr Asy H -> J RY. apply in_app_or in J as [J|[->|J]]; auto; exfalso; [eapply Irr; eauto|].
  clear - Asy H J RY. induction l1 as [|a l1 IH]; cbn in H; inversion H; subst; auto. rewrite Forall_forall in *. eapply Asy; eauto.
Qed.
Definition lex (a b : nat * nat) : Prop := fst a < fst b \/ (fst a = fst b /\ snd a < snd b).
Lemma lex_irr a : ~ lex a a. Proof. unfold lex. lia. Qed.
Lemma lex_asy a b : lex a b -> ~ lex b a. Proof. unfold lex. lia. Qed.
Lemma lex_sorted (f : nat -> list nat) l : StronglySorted lt l -> (forall i, StronglySorted lt (f i)) -> StronglySorted lex (flat_map (fun i => map (pair i) (f i)) l).
Proof.
  intros H F. apply (sorted_flat_map lt); auto.
  - intros a _. apply sorted_map_seq; auto. intros i j L. right. auto.
  - intros a a' b b' L J J'. apply in_map_iff in J as (? & <- & _). apply in_map_iff in J' as (? & <- & _). left. auto.
Qed.
Lemma in_pairs (f : nat -> list nat) l e : In e (flat_map (fun i => map (pair i) (f i)) l) <-> In (fst e) l /\ In (snd e) (f (fst e)).
Proof.
  rewrite in_flat_map. split.
  - intros (i & J & K). apply in_map_iff in K as (j & <- & K). auto.
  - intros [J K]. exists (fst e). split; auto. apply in_map_iff. exists (snd e). destruct e; auto.
Qed.
Lemma NoDup_pairs (f : nat -> list nat) l : NoDup l -> (forall i, In i l -> NoDup (f i)) -> NoDup (flat_map (fun i => map (pair i) (f i)) l).
Proof.
  induction l as [|i l IH]; intros H F; cbn; [constructor|]. inversion H; subst. apply NoDup_app_intro.
  - apply FinFun.Injective_map_NoDup; [intros x y Q; congruence|]. apply F; simpl; auto.
  - apply IH; auto. intros; apply F; simpl; auto.
  - intros e J J'. apply in_map_iff in J as (j & <- & _). apply in_pairs in J'. cbn in J'. tauto.
Qed.
Lemma combine_nths {A B} (da : A) (db : B) l1 : forall l2, length l1 = length l2 -> combine l1 l2 = map (fun i => (nth i l1 da, nth i l2 db)) (seq 0 (length l1)).
Proof.
  induction l1 as [|a l1 IH]; intros [|b l2] L; cbn [length] in L; try discriminate; auto. cbn [combine length seq map nth]. rewrite (IH l2) by lia. f_equal.
  rewrite <- seq_shift, map_map. reflexivity.
Qed.
Lemma map_filter_swap {A B} (f : A -> B) (p : B -> bool) l : filter p (map f l) = map f (filter (fun a => p (f a)) l).
Proof. induction l as [|a l IH]; cbn; auto. destruct (p (f a)); cbn; rewrite IH; auto. Qed.

(** ** [np.where], [np.bincount] *)
Lemma where_In {A} (f : A -> bool) l i : In i (where_ f l) <-> exists x, nth_error l i = Some x /\ f x = true.
Proof.
  unfold where_. rewrite in_map_iff. split.
  - intros ([j x] & <- & J). apply filter_In in J as [J Q]. exists x. split; auto. apply enum_iff. exact J.
  - intros (x & E & Q). exists (i, x). split; auto. apply filter_In. split; auto. apply enum_iff in E. exact E.
Qed.
Lemma where_sorted {A} (f : A -> bool) l : StronglySorted lt (where_ f l).
Proof.
  unfold where_. assert (G : forall k l, StronglySorted lt (map fst (filter (fun e : nat * A => f (snd e)) (combine (seq k (length l)) l)))); [|apply G].
  clear l. intros k l. revert k. induction l as [|x l IH]; intro k; cbn [length seq combine filter map]; [constructor|].
  cbn [snd]. destruct (f x); cbn [map]; auto. constructor; auto. apply Forall_forall. intros j J. apply in_map_iff in J as ([j' y] & <- & J). apply filter_In in J as [J _].
  apply in_combine_l, in_seq in J. cbn. lia.
Qed.
Lemma where_NoDup {A} (f : A -> bool) l : NoDup (where_ f l).
Proof.
  pose proof (where_sorted f l) as S. induction S as [|x l' S IH F]; constructor; auto. intro J. rewrite Forall_forall in F. specialize (F x J). lia.
Qed.
Lemma bincount_nth labels j c v : nth_error (bincount labels j) c = Some v <-> c < Nat.max j (list_max (map S labels)) /\ v = count_occ Nat.eq_dec labels c.
Proof.
  unfold bincount. rewrite nth_error_map. set (M := Nat.max _ _). destruct (le_lt_dec M c) as [L|L].
  - rewrite (proj2 (nth_error_None _ _)) by (rewrite seq_length; auto). split; [discriminate|lia].
  - rewrite (nth_error_nth' _ 0) by (rewrite seq_length; auto). rewrite seq_nth by auto. cbn. split; [intro Q; injection Q; auto|intros [_ ->]; auto].
Qed.
Lemma list_max_In labels c : In c labels -> c < list_max (map S labels).
Proof. induction labels as [|x l IH]; [intros []|]. change (list_max (map S (x :: l))) with (Nat.max (S x) (list_max (map S l))). intros [->|J]; [|specialize (IH J)]; lia. Qed.
Lemma list_max_lt labels k : (forall c, In c labels -> c < k) -> list_max (map S labels) <= k.
Proof. intro H. apply list_max_le. apply Forall_forall. intros x J. apply in_map_iff in J as (c & <- & J). apply H in J. lia. Qed.

Lemma where_seq (f : nat -> bool) (g : nat -> nat) k : where_ f (map g (seq 0 k)) = filter (fun c => f (g c)) (seq 0 k).
Proof.
  unfold where_. rewrite map_length, seq_length, (combine_nths 0 (g 0)) by (rewrite map_length; auto). rewrite seq_length, map_filter_swap, map_map. cbn [fst snd].
  assert (E : filter (fun a => f (nth a (map g (seq 0 k)) (g 0))) (seq 0 k) = filter (fun c => f (g c)) (seq 0 k)).
  { apply filter_ext_in. intros a J. apply in_seq in J. rewrite map_nth, seq_nth by lia. auto. }
  rewrite E. etransitivity; [|apply map_id]. apply map_ext_in. intros a J. apply filter_In in J as [J _]. apply in_seq in J. apply seq_nth. lia.
Qed.
Lemma bincount_small labels k : (forall c, In c labels -> c < k) -> bincount labels k = map (fun c => count_occ Nat.eq_dec labels c) (seq 0 k).
Proof. intro H. unfold bincount. rewrite Nat.max_l; auto. apply list_max_lt; auto. Qed.
Lemma filled_In labels j c : In c (where_ (Nat.ltb 1) (bincount labels j)) <-> 1 < count_occ Nat.eq_dec labels c.
Proof.
  rewrite where_In. split.
  - intros (x & E & L). apply bincount_nth in E as [_ ->]. apply Nat.ltb_lt. auto.
  - intro L. exists (count_occ Nat.eq_dec labels c). split; [|apply Nat.ltb_lt; auto]. apply bincount_nth. split; auto.
    assert (J : In c labels) by (apply (count_occ_In Nat.eq_dec); lia). apply list_max_In in J. lia.
Qed.
Lemma count_two labels c : 1 < count_occ Nat.eq_dec labels c <-> exists p q, p < q /\ nth_error labels p = Some c /\ nth_error labels q = Some c.
Proof.
  induction labels as [|x l IH]; [split; [cbn; lia|intros (p & q & _ & E & _); destruct p; discriminate]|]. cbn [count_occ]. destruct (Nat.eq_dec x c) as [->|NE].
  - split.
    + intro L. assert (J : In c l) by (apply (count_occ_In Nat.eq_dec); lia). apply In_nth_error in J as [q Eq]. exists 0, (S q). split; [lia|auto].
    + intros (p & q & L & _ & E). destruct q as [|q]; [lia|]. cbn [nth_error] in E. apply nth_error_In, (count_occ_In Nat.eq_dec) in E. lia.
  - rewrite IH. split.
    + intros (p & q & L & E1 & E2). exists (S p), (S q). split; [lia|auto].
    + intros (p & q & L & E1 & E2). destruct p as [|p]; [cbn in E1; congruence|]. destruct q as [|q]; [lia|]. exists p, q. split; [lia|auto].
Qed.

(** ** One iteration *)
Section Iteration.
  Context {D : Type}.
  Variable o : ops D.
  Variable order : list nat -> list nat.
  Variable first : nat -> list D -> nat.
  Variable sample : nat -> nat -> list nat.
  Variable shuffle : nat -> list nat -> list nat.
  Hypothesis ORD : valid_order order.
  Hypothesis SHF : valid_shuffle shuffle.
  Hypothesis ARG : valid_argmin o.
  Variable X : matrix D.
  Variable k : nat.
  Variable w : D.
  Variables mg cg : graph.
  Variable n : nat.
  Variables P Q : nat -> nat -> Prop.
  Hypothesis GM : graph_of n P mg.
  Hypothesis PB : forall i j, P i j -> j < n.
  Hypothesis GC : graph_of n Q cg.
  Hypothesis QB : forall i j, Q i j -> j < n.
  Notation N := (length X).
  Notation zero := (o_of_nat D o 0).
  Notation add := (o_add D o).
  Notation mul := (o_mul D o).
  Notation sub := (o_sub D o).
  Notation ltb := (o_ltb D o).
  Notation dist := (o_mahalanobis D o).
  Notation row := (row D).
  Notation objective := (objective D o order X w mg cg).
  Notation assign_point := (assign_point D o order X w mg cg).
  Notation assign_points := (assign_points D o order shuffle X w mg cg).
  Notation assign_clusters := (assign_clusters D o order shuffle X k w mg cg).
  Notation fill_cluster := (fill_cluster D o X).

  Definition nbrs (g : graph) (i : nat) : list nat := order (match dget i g with Some s => s | None => [] end).
  Lemma order_In s j : In j (order s) <-> In j s.
  Proof. split; apply Permutation_in; [apply Permutation_sym|]; apply ORD. Qed.
  Lemma nbrs_spec R g i : graph_of n R g -> i < n ->
    exists s, dlookup i g = Ok s /\ nbrs g i = order s /\ NoDup (nbrs g i) /\ forall j, In j (nbrs g i) <-> R i j.
  Proof.
    intros [_ G] L. destruct (G i L) as (s & E & ND & H). exists s. unfold dlookup, nbrs. rewrite E. split; auto. split; auto. split; [apply (Permutation_NoDup (ORD s) ND)|].
    intro j. rewrite order_In. apply H.
  Qed.
  Lemma nbrs_out R g i : graph_of n R g -> n <= i -> dlookup i g = Raise KeyError.
  Proof. intros [K _] L. unfold dlookup. rewrite (proj2 (dget_None i g)); auto. rewrite K, in_seq. lia. Qed.

  Definition broken_m (labels : list (option nat)) (c j : nat) : bool := match nth j labels None with Some c' => negb (Nat.eqb c' c) | None => false end.
  Definition broken_c (labels : list (option nat)) (c j : nat) : bool := match nth j labels None with Some c' => Nat.eqb c' c | None => false end.
  Definition costf (A : list D) (far : D) (centers : matrix D) (labels : list (option nat)) (i c : nat) : D :=
    add (add (sub (dist (row X i) (row centers c) A) (o_logdet D o A))
      (fold_left (fun t j => add t (mul (mul (o_of_nat D o 2) w) (dist (row X i) (row X j) A))) (filter (broken_m labels c) (nbrs mg i)) zero))
      (fold_left (fun t j => add t (mul (mul (o_of_nat D o 2) w) (sub far (dist (row X i) (row X j) A)))) (filter (broken_c labels c) (nbrs cg i)) zero).

  Lemma objective_run A far centers labels i c : n <= N -> length labels = N -> i < n -> objective A far centers labels i c = Ok (costf A far centers labels i c).
  Proof.
    intros LN LL Li. unfold Mpckmeans.objective. destruct (nbrs_spec P mg i GM Li) as (sm & Em & Om & _ & Hm). destruct (nbrs_spec Q cg i GC Li) as (sc & Ec & Oc & _ & Hc).
    rewrite Em, Ec. cbn [rbind]. rewrite <- Om, <- Oc.
    assert (PN : forall j, j < n -> py_nth labels j = Ok (nth j labels None)) by (intros j Lj; unfold py_nth; rewrite (nth_error_nth' labels None) by lia; auto).
    assert (R1 : forall f g l, (forall j, In j l -> j < n) ->
      (forall t j, f t j = (lj <-- py_nth labels j ;;; Ok (g t j lj))) -> forall z : D, rfold f l z = Ok (fold_left (fun t j => g t j (nth j labels None)) l z)).
    { intros f g l H Ef. induction l as [|j l IH]; intro z; cbn [rfold fold_left]; auto. rewrite Ef, PN by (apply H; simpl; auto). cbn [rbind]. apply IH. intros j' J. apply H; simpl; auto. }
    rewrite (R1 _ (fun t j lj => match lj with Some c' => if Nat.eqb c' c then t else add t (mul (mul (o_of_nat D o 2) w) (dist (row X i) (row X j) A)) | None => t end)).
    2: { intros j J. apply Hm in J. eauto. }
    2: { reflexivity. }
    cbn [rbind].
    rewrite (R1 _ (fun t j lj => match lj with Some c' => if Nat.eqb c' c then add t (mul (mul (o_of_nat D o 2) w) (sub far (dist (row X i) (row X j) A))) else t | None => t end)).
    2: { intros j J. apply Hc in J. eauto. }
    2: { reflexivity. }
    cbn [rbind]. unfold costf. f_equal. f_equal.
    - f_equal. rewrite <- fold_filter. apply fold_left_ext_in. intros t j _. unfold broken_m. destruct (nth j labels None) as [c'|]; auto. destruct (Nat.eqb c' c); auto.
    - rewrite <- fold_filter. apply fold_left_ext_in. intros t j _. unfold broken_c. destruct (nth j labels None) as [c'|]; auto.
  Qed.

  (** *** Farthest pair *)
  Definition all_pairs : list (nat * nat) := flat_map (fun i => map (pair i) (seq 0 i)) (seq 0 N).
  Definition pair_dist (A : list D) (e : nat * nat) : D := dist (row X (fst e)) (row X (snd e)) A.
  Lemma all_pairs_In e : In e all_pairs <-> snd e < fst e < N.
  Proof. unfold all_pairs. rewrite in_pairs, !in_seq. lia. Qed.
  Lemma farthest_pair_eq A : farthest_pair D o X A =
    match fold_left (upd ltb zero (pair_dist A)) all_pairs None with Some e => Ok (e, pair_dist A e) | None => Raise AssertionError end.
  Proof.
    unfold farthest_pair. fold all_pairs.
    assert (G : forall l b, fold_left (fun best e => let d := dist (row X (fst e)) (row X (snd e)) A in
              if ltb (match best with Some b => snd b | None => zero end) d then Some (e, d) else best) l (option_map (fun e => (e, pair_dist A e)) b) =
            option_map (fun e => (e, pair_dist A e)) (fold_left (upd ltb zero (pair_dist A)) l b)).
    { induction l as [|e l IH]; intro b; cbn [fold_left]; auto. rewrite <- IH. f_equal. unfold upd, pair_dist. destruct b as [b|]; cbn [option_map snd]; destruct (ltb _ _); auto. }
    specialize (G all_pairs None). cbn [option_map] in G. rewrite G. destruct (fold_left (upd ltb zero (pair_dist A)) all_pairs None); auto.
  Qed.
  Lemma farthest_pair_fails A : (forall p q, q < p < N -> ltb zero (dist (row X p) (row X q) A) = false) -> farthest_pair D o X A = Raise AssertionError.
  Proof.
    intro H. rewrite farthest_pair_eq, (proj2 (upd_None ltb zero (pair_dist A) all_pairs)); auto. intros [p q] J. apply all_pairs_In in J. apply H; auto.
  Qed.
  Lemma farthest_pair_ok A p q : q < p < N -> ltb zero (dist (row X p) (row X q) A) = true -> exists r, farthest_pair D o X A = Ok r.
  Proof.
    intros L H. rewrite farthest_pair_eq. destruct (fold_left _ all_pairs None) eqn:E; [eauto|]. rewrite upd_None in E.
    assert (E' := E (p, q) (proj2 (all_pairs_In (p, q)) L)). unfold pair_dist in E'. cbn [fst snd] in E'. congruence.
  Qed.
  Lemma farthest_pair_cases A : (exists r, farthest_pair D o X A = Ok r) \/ farthest_pair D o X A = Raise AssertionError.
  Proof. rewrite farthest_pair_eq. destruct (fold_left _ all_pairs None); eauto. Qed.
  Lemma farthest_pair_inv A p q d : farthest_pair D o X A = Ok (p, q, d) -> d = dist (row X p) (row X q) A.
  Proof. rewrite farthest_pair_eq. destruct (fold_left _ all_pairs None); intro H; [|discriminate]. injection H as -> <-. auto. Qed.
  Lemma farthest_pair_spec A p q d : strict_weak_order ltb -> farthest_pair D o X A = Ok (p, q, d) -> farthest o N (row X) A p q.
  Proof.
    intros SW. rewrite farthest_pair_eq. destruct (fold_left _ all_pairs None) as [e|] eqn:E; intro H; [|discriminate]. injection H as -> H.
    apply upd_Some in E as (l1 & l2 & E & P1 & P2 & P3); auto.
    assert (J : In (p, q) all_pairs) by (rewrite E; apply in_elt). apply all_pairs_In in J. split; auto. split; auto. intros p' q' J'.
    split; [apply (P2 (p', q')), all_pairs_In; auto|]. intro LX. apply (P3 (p', q')).
    eapply (sorted_split lex); eauto using lex_irr, lex_asy.
    - apply lex_sorted; intros; apply seq_sorted.
    - apply all_pairs_In. auto.
  Qed.

  (** *** Labels *)
  Lemma objective_out A far centers labels i c : n <= i -> objective A far centers labels i c = Raise KeyError.
  Proof. intro L. unfold Mpckmeans.objective. rewrite (nbrs_out P) by auto. auto. Qed.
  Definition costs A far centers labels i : list D := map (costf A far centers labels i) (seq 0 (length centers)).
  Lemma assign_point_run A far centers labels i : n <= N -> length labels = N -> i < n -> centers <> [] ->
    assign_point A far centers labels i = Ok (list_set labels i (Some (o_argmin D o (costs A far centers labels i)))).
  Proof.
    intros LN LL Li NE. unfold Mpckmeans.assign_point. rewrite (rmap_pure _ (costf A far centers labels i)).
    - cbn [rbind]. fold (costs A far centers labels i). unfold costs at 1. destruct centers as [|c0 cs]; [congruence|]. reflexivity.
    - intros c _. apply objective_run; auto.
  Qed.
  Lemma assign_point_out A far centers labels i : n <= i -> centers <> [] -> assign_point A far centers labels i = Raise KeyError.
  Proof. intros L NE. unfold Mpckmeans.assign_point. destruct centers as [|c0 cs]; [congruence|]. cbn [length seq rmap]. rewrite objective_out by auto. auto. Qed.
  Lemma costs_nonempty A far centers labels i : centers <> [] -> costs A far centers labels i <> [].
  Proof. intros NE H. apply NE. destruct centers; [auto|discriminate]. Qed.
  Lemma costs_length A far centers labels i : length (costs A far centers labels i) = length centers.
  Proof. unfold costs. rewrite map_length, seq_length. auto. Qed.

  Lemma assign_loop A far centers : n <= N -> centers <> [] -> forall is labels, length labels = N -> (forall i, In i is -> i < n) ->
    (forall c, In (Some c) labels -> c < length centers) ->
    exists labels', rfold (assign_point A far centers) is labels = Ok labels' /\ length labels' = N /\ (forall c, In (Some c) labels' -> c < length centers) /\
      (forall i, nth_error labels' i = Some None -> nth_error labels i = Some None /\ ~ In i is).
  Proof.
    intros LN NE. induction is as [|i is IH]; intros labels LL Li Lc; cbn [rfold].
    - exists labels. split; auto.
    - rewrite assign_point_run by (auto; apply Li; simpl; auto). cbn [rbind]. set (c := o_argmin D o _). assert (Cc : c < length centers).
      { unfold c. rewrite <- (costs_length A far centers labels i). apply ARG, costs_nonempty; auto. }
      destruct (IH (list_set labels i (Some c))) as (ls & E & E1 & E2 & E3).
      + rewrite list_set_length; auto.
      + intros; apply Li; simpl; auto.
      + intros c' J. apply in_list_set in J as [J|(k0 & _ & J)]; [injection J as ->; auto|]. apply Lc, (nth_error_In _ k0); auto.
      + exists ls. split; auto. split; auto. split; auto. intros j Ej. apply E3 in Ej as [Ej NJ]. rewrite nth_error_list_set in Ej. destruct (Nat.eqb_spec j i) as [EJ|NEj].
        * exfalso. destruct (nth_error labels j) eqn:F; discriminate.
        * split; auto. intros [->|J]; auto.
  Qed.

  Lemma assign_points_run t A far centers : N = n -> centers <> [] ->
    exists L, assign_points t A far centers = Ok (map Some L) /\ length L = N /\ forall c, In c L -> c < length centers.
  Proof.
    intros EN NE. unfold Mpckmeans.assign_points. destruct (assign_loop A far centers (Nat.eq_le_incl _ _ (eq_sym EN)) NE (shuffle t (seq 0 N)) (repeat None N)) as (ls & E & E1 & E2 & E3).
    - apply repeat_length.
    - intros i J. apply (Permutation_in _ (Permutation_sym (SHF t (seq 0 N)))), in_seq in J. lia.
    - intros c J. apply repeat_spec in J. discriminate.
    - assert (G : ls = map Some (map (fun c => match c with Some c => c | None => 0 end) ls)).
      { rewrite map_map. rewrite <- (map_id ls) at 1. apply map_ext_in. intros [c|] J; auto. exfalso. apply In_nth_error in J as [i J].
        assert (Li : i < N) by (rewrite <- E1; apply nth_error_Some; congruence). apply E3 in J as [_ NJ]. apply NJ, (Permutation_in _ (SHF t (seq 0 N))), in_seq. lia. }
      rewrite G in E, E1, E2. rewrite map_length in E1. exists (map (fun c => match c with Some c => c | None => 0 end) ls). split; auto. split; auto. intros c J. apply E2, in_map, J.
  Qed.
  Lemma assign_points_out t A far centers : n < N -> centers <> [] -> assign_points t A far centers = Raise KeyError.
  Proof.
    intros LN NE. unfold Mpckmeans.assign_points.
    assert (J : In n (shuffle t (seq 0 N))) by (apply (Permutation_in _ (SHF t (seq 0 N))), in_seq; lia).
    assert (G : forall is labels, length labels = N -> In n is -> rfold (assign_point A far centers) is labels = Raise KeyError); [|apply G; auto; apply repeat_length].
    induction is as [|i is IH]; intros labels LL []; cbn [rfold].
    - subst i. rewrite assign_point_out by auto. auto.
    - destruct (le_lt_dec n i) as [Li|Li]; [rewrite assign_point_out by auto; auto|]. rewrite assign_point_run by (auto; lia). cbn [rbind]. apply IH; auto. rewrite list_set_length. auto.
  Qed.

  (** The costs, as specified. *)
  Notation cost' := (cost o (row X) w P Q).
  Notation best' := (best o (row X)).
  Lemma costf_spec A far centers labels i c : i < n -> cost' A far centers (fun j => nth j labels None) i c (costf A far centers labels i c).
  Proof.
    intro Li. destruct (nbrs_spec P mg i GM Li) as (_ & _ & _ & Nm & Hm). destruct (nbrs_spec Q cg i GC Li) as (_ & _ & _ & Nc & Hc).
    exists (fold_left (fun t j => add t (mul (mul (o_of_nat D o 2) w) (dist (row X i) (row X j) A))) (filter (broken_m labels c) (nbrs mg i)) zero),
      (fold_left (fun t j => add t (mul (mul (o_of_nat D o 2) w) (sub far (dist (row X i) (row X j) A)))) (filter (broken_c labels c) (nbrs cg i)) zero). split; [|split]; auto.
    - exists (filter (broken_m labels c) (nbrs mg i)). split; [apply NoDup_filter_list; auto|]. split; auto. intro j. rewrite filter_In, Hm. unfold broken_m.
      apply and_iff_compat_l. destruct (nth j labels None) as [c'|].
      + rewrite negb_true_iff, Nat.eqb_neq. split; [intro; exists c'; auto|]. intros (c0 & E & NE). congruence.
      + split; [discriminate|]. intros (c0 & E & _). discriminate.
    - exists (filter (broken_c labels c) (nbrs cg i)). split; [apply NoDup_filter_list; auto|]. split; auto. intro j. rewrite filter_In, Hc. unfold broken_c.
      apply and_iff_compat_l. destruct (nth j labels None) as [c'|].
      + rewrite Nat.eqb_eq. split; congruence.
      + split; discriminate.
  Qed.
  Lemma total_ext {B} (P1 P2 : B -> Prop) f v : (forall a, P1 a <-> P2 a) -> total o P1 f v -> total o P2 f v.
  Proof. intros H (l & ND & E & V). exists l. split; auto. split; auto. intro a. rewrite E. apply H. Qed.
  Lemma cost_ext A far C L1 L2 i c v : (forall j, L1 j = L2 j) -> cost' A far C L1 i c v -> cost' A far C L2 i c v.
  Proof.
    intros H (tm & tc & T1 & T2 & V). exists tm, tc. split; [|split]; auto; [eapply total_ext; [|exact T1]|eapply total_ext; [|exact T2]]; intro j; cbv beta; rewrite H; reflexivity.
  Qed.
  Lemma best_ext kk A far C L1 L2 i c : (forall j, L1 j = L2 j) -> best o (row X) kk w P Q A far C L1 i c -> best o (row X) kk w P Q A far C L2 i c.
  Proof. intros H (Lc & v & V & W). split; auto. exists v. split; auto. intros c' Lc'. eapply cost_ext; eauto. Qed.
  Lemma assigns_ext kk A far C is : forall L1 L2 L', (forall j, L1 j = L2 j) -> assigns o (row X) kk w P Q A far C is L1 L' -> assigns o (row X) kk w P Q A far C is L2 L'.
  Proof.
    induction is as [|i is IH]; intros L1 L2 L' H G; inversion G; subst.
    - constructor. intro j. rewrite <- H. auto.
    - econstructor; [eapply best_ext; eauto|]. eapply IH; [|eassumption]. intro j. cbv beta. destruct (Nat.eqb j i); auto.
  Qed.
  Lemma costs_nth A far centers labels i c z : c < length centers -> nth c (costs A far centers labels i) z = costf A far centers labels i c.
  Proof.
    intro L. unfold costs. rewrite (nth_indep _ z (costf A far centers labels i 0)) by (rewrite map_length, seq_length; auto).
    rewrite map_nth, seq_nth by auto. auto.
  Qed.
  Lemma best_run A far centers labels i : exact_argmin o -> centers <> [] -> i < n ->
    best o (row X) (length centers) w P Q A far centers (fun j => nth j labels None) i (o_argmin D o (costs A far centers labels i)).
  Proof.
    intros EX NE Li. destruct (EX (costs A far centers labels i) zero (costs_nonempty _ _ _ _ _ NE)) as (E1 & E2 & E3). rewrite costs_length in *. split; auto.
    exists (costf A far centers labels i). split; [intros; apply costf_spec; auto|]. split.
    - intros c' L. rewrite <- (costs_nth A far centers labels i c' zero), <- (costs_nth A far centers labels i (o_argmin D o _) zero) by auto. auto.
    - intros c' L. rewrite <- (costs_nth A far centers labels i c' zero), <- (costs_nth A far centers labels i (o_argmin D o _) zero) by lia. auto.
  Qed.
  Lemma assign_loop_spec A far centers : exact_argmin o -> n <= N -> centers <> [] -> forall is labels labels', length labels = N -> (forall i, In i is -> i < n) ->
    rfold (assign_point A far centers) is labels = Ok labels' ->
    assigns o (row X) (length centers) w P Q A far centers is (fun j => nth j labels None) (fun j => nth j labels' None).
  Proof.
    intros EX LN NE. induction is as [|i is IH]; intros labels labels' LL Li; cbn [rfold].
    - intro E. injection E as <-. constructor. auto.
    - rewrite assign_point_run by (auto; apply Li; simpl; auto). cbn [rbind]. intro E. apply IH in E; [|rewrite list_set_length; auto|intros; apply Li; simpl; auto].
      econstructor; [apply best_run; auto; apply Li; simpl; auto|]. eapply assigns_ext; [|exact E]. intro j. cbv beta. apply nth_list_set. rewrite LL.
      assert (i < n) by (apply Li; simpl; auto). lia.
  Qed.
  Lemma assign_points_spec t A far centers L : exact_argmin o -> N = n -> centers <> [] -> assign_points t A far centers = Ok (map Some L) ->
    assigns o (row X) (length centers) w P Q A far centers (shuffle t (seq 0 N)) (fun _ => None) (fun i => if i <? N then Some (nth i L 0) else None).
  Proof.
    intros EX EN NE E. destruct (assign_points_run t A far centers EN NE) as (L' & E' & LL & _). rewrite E in E'. injection E' as E'.
    assert (LE : L = L') by (clear - E'; revert L' E'; induction L as [|a L IH]; intros [|b L'] H; try discriminate; auto; injection H as -> H; f_equal; auto). subst L'.
    apply assign_loop_spec in E; auto; [|lia|apply repeat_length|].
    - assert (G : forall L1 L2 is M1 M2, (forall j, M1 j = M2 j) -> assigns o (row X) (length centers) w P Q A far centers is L1 M1 -> (forall j, L1 j = L2 j) -> assigns o (row X) (length centers) w P Q A far centers is L2 M2).
      { intros L1 L2 is M1 M2 HM G HL. eapply assigns_ext; [exact HL|]. clear HL L2. induction G; [constructor; intro; rewrite H; auto|econstructor; eauto]. }
      eapply G; [|exact E|]; intro j; cbv beta.
      + destruct (Nat.ltb_spec j N) as [Lj|Lj].
        * rewrite (nth_indep _ None (Some 0)) by (rewrite map_length; lia). apply map_nth.
        * apply nth_overflow. rewrite map_length. lia.
      + destruct (Nat.lt_ge_cases j N) as [Lj|Lj]; [apply nth_repeat|]. apply nth_overflow. rewrite repeat_length. auto.
    - intros i J. apply (Permutation_in _ (Permutation_sym (SHF t (seq 0 N)))), in_seq in J. lia.
  Qed.

  (** *** Empty clusters *)
  Definition crowd (labels sizes : list nat) : list (nat * nat) := flat_map (fun c => map (pair c) (where_ (Nat.eqb c) labels)) (where_ (Nat.ltb 1) sizes).
  Lemma crowd_In labels j e : In e (crowd labels (bincount labels j)) <-> nth_error labels (snd e) = Some (fst e) /\ 1 < count_occ Nat.eq_dec labels (fst e).
  Proof.
    unfold crowd. rewrite in_pairs, filled_In, where_In. split.
    - intros [H (x & E & Ex)]. apply Nat.eqb_eq in Ex. subst x. auto.
    - intros [E H]. split; auto. exists (fst e). split; auto. apply Nat.eqb_refl.
  Qed.
  Lemma crowd_sorted labels sizes : StronglySorted lex (crowd labels sizes).
  Proof. apply lex_sorted; intros; apply where_sorted. Qed.
  Lemma crowd_crowded labels j e : length labels = N -> In e (crowd labels (bincount labels j)) <-> crowded N (fun i => nth i labels 0) (snd e) /\ nth (snd e) labels 0 = fst e.
  Proof.
    intro LL. rewrite crowd_In, count_two. unfold crowded. split.
    - intros [E (p & q & L & Ep & Eq)]. rewrite (nth_error_nth _ _ 0 E). split; auto.
      assert (Lt : forall i v, nth_error labels i = Some v -> i < N) by (intros i v Ei; rewrite <- LL; apply nth_error_Some; congruence).
      split; [eapply Lt; eauto|]. destruct (Nat.eq_dec p (snd e)) as [Ee|NE]; [exists q|exists p]; (split; [eapply Lt; eauto|split; [lia|]]); eapply nth_error_nth; eauto.
    - intros [(Lp & q & Lq & NE & Eq) Ee]. assert (E1 : nth_error labels (snd e) = Some (fst e)) by (rewrite <- Ee; apply nth_error_nth'; lia). split; auto.
      assert (E2 : nth_error labels q = Some (fst e)) by (rewrite <- Ee, <- Eq; apply nth_error_nth'; lia).
      destruct (Nat.lt_ge_cases q (snd e)); [exists q, (snd e)|exists (snd e), q]; (split; [lia|auto]).
  Qed.
  Definition own (A : list D) (centers : matrix D) (e : nat * nat) : D := dist (row X (snd e)) (row centers (fst e)) A.
  Lemma distances_run A centers labels j : (forall c, In c labels -> c < length centers) ->
    rfold (fun d e => center <-- py_nth centers (fst e) ;;; Ok (dset (snd e) (dist (row X (snd e)) center A) d)) (crowd labels (bincount labels j)) ([] : dict nat D)
    = Ok (map (fun e => (snd e, own A centers e)) (crowd labels (bincount labels j))).
  Proof.
    intro H. assert (ND : NoDup (map snd (crowd labels (bincount labels j)))).
    { assert (I : forall e, In e (crowd labels (bincount labels j)) -> nth_error labels (snd e) = Some (fst e)) by (intros e J; apply crowd_In in J; tauto).
      pose proof (crowd_sorted labels (bincount labels j)) as SS. induction SS as [|e l SS IH F]; cbn [map]; constructor; [|apply IH; intros; apply I; simpl; auto].
      intro J. apply in_map_iff in J as (e' & E & J). rewrite Forall_forall in F. specialize (F e' J). assert (I1 := I e (or_introl eq_refl)). assert (I2 := I e' (or_intror J)).
      rewrite E in I2. rewrite I1 in I2. injection I2 as I2. unfold lex in F. lia. }
    assert (Lc : forall e, In e (crowd labels (bincount labels j)) -> fst e < length centers) by (intros e J; apply crowd_In in J as [J _]; apply H, (nth_error_In _ _ J)).
    revert ND Lc. generalize (crowd labels (bincount labels j)) as l.
    assert (G : forall l (d : dict nat D), (forall e, In e l -> ~ In (snd e) (keys d)) -> NoDup (map snd l) -> (forall e, In e l -> fst e < length centers) ->
      rfold (fun d e => center <-- py_nth centers (fst e) ;;; Ok (dset (snd e) (dist (row X (snd e)) center A) d)) l d = Ok (d ++ map (fun e => (snd e, own A centers e)) l)).
    { induction l as [|e l IH]; intros d Nd ND Lc; cbn [rfold map]; [rewrite app_nil_r; auto|]. inversion ND as [|x y NI ND']; subst.
      unfold py_nth. rewrite (nth_error_nth' centers []) by (apply Lc; simpl; auto). cbn [rbind]. change (nth (fst e) centers []) with (row centers (fst e)). fold (own A centers e).
      rewrite dset_out by (apply Nd; simpl; auto). rewrite IH; auto.
      - rewrite <- app_assoc. reflexivity.
      - intros e' J. unfold keys. rewrite map_app, in_app_iff. cbn. intros [K|[K|[]]]; [apply (Nd e'); simpl; auto|]. apply NI. rewrite K. apply in_map; auto.
      - intros; apply Lc; simpl; auto. }
    intros l ND Lc. rewrite G; auto.
  Qed.
  Lemma fill_run A centers labels j e : length labels = N -> (forall c, In c labels -> c < length centers) -> (exists c, 1 < count_occ Nat.eq_dec labels c) ->
    exists p, fill_cluster A centers (labels, bincount labels j) e = Ok (list_set labels p e, bincount (list_set labels p e) 10) /\
      crowded N (fun i => nth i labels 0) p /\ (strict_weak_order ltb -> moves o N (row X) A centers (fun i => nth i labels 0) p).
  Proof.
    intros LL Lc [c Hc]. unfold Mpckmeans.fill_cluster. fold (crowd labels (bincount labels j)). rewrite distances_run by auto. cbn [rbind].
    set (ds := map _ (crowd labels (bincount labels j))). destruct (Hierarchical.py_max (fun a b : nat * D => ltb (snd a) (snd b)) ds) as [pt|ex] eqn:E.
    - cbn [rbind]. exists (fst pt). split; auto. assert (J := py_max_Ok_In _ _ _ E). unfold ds in J. apply in_map_iff in J as ([c' p] & <- & J). cbn [fst snd] in *. rewrite (crowd_crowded labels j) in J by auto. cbn [fst snd] in J. destruct J as [J Ec'].
      split; auto. intro SW. split; auto. apply py_max_first in E; [|destruct SW as (S1 & S2 & S3); split; [|split]; intros; cbn; eauto].
      destruct E as (l1 & l2 & E & E1 & E2). unfold ds in E. apply map_eq_app in E as (a1 & a2 & Ea & Em1 & Em2). apply map_eq_cons in Em2 as (e0 & a3 & Eb & Ee0 & Em2). injection Ee0 as Ep Eo.
      assert (He0 : In e0 (crowd labels (bincount labels j))) by (rewrite Ea, Eb; apply in_elt). apply crowd_crowded in He0; auto. destruct He0 as [_ He0]. rewrite Ep, Ec' in He0.
      assert (EE : e0 = (c', p)) by (destruct e0; cbn in *; subst; auto). subst e0. clear Ep Eo He0. subst a2. intros q Hq.
      assert (Iq : In (nth q labels 0, q) (crowd labels (bincount labels j))) by (apply crowd_crowded; auto). rewrite Ec'. split.
      + apply (E1 (q, own A centers (nth q labels 0, q))). unfold ds. apply in_map_iff. eexists. split; [|exact Iq]. reflexivity.
      + intro LX. apply (E2 (q, own A centers (nth q labels 0, q))). rewrite <- Em1. apply in_map_iff. exists (nth q labels 0, q). split; [reflexivity|].
        eapply (sorted_split lex); [apply lex_irr|apply lex_asy|apply crowd_sorted|exact Ea|exact Iq|]. unfold lex. cbn. auto.
    - exfalso. unfold ds in E. destruct (crowd labels (bincount labels j)) as [|a l] eqn:F; [|discriminate].
      assert (Hc' := Hc). apply count_two in Hc' as (p & q & _ & Ep & _). assert (J : In (c, p) (crowd labels (bincount labels j))) by (apply crowd_In; auto). rewrite F in J. destruct J.
  Qed.
  Lemma pigeon labels e : length labels = N -> k <= N -> (forall c, In c labels -> c < k) -> e < k -> ~ In e labels -> exists c, 1 < count_occ Nat.eq_dec labels c.
  Proof.
    intros LL LK Lc Le NI. destruct (existsb (fun c => Nat.ltb 1 (count_occ Nat.eq_dec labels c)) labels) eqn:E.
    - apply existsb_exists in E as (c & _ & H). exists c. apply Nat.ltb_lt. auto.
    - exfalso. assert (ND : NoDup labels).
      { apply (NoDup_count_occ Nat.eq_dec). intro x. destruct (in_dec Nat.eq_dec x labels) as [J|J].
        - destruct (Nat.ltb 1 (count_occ Nat.eq_dec labels x)) eqn:F; [|apply Nat.ltb_ge in F; auto]. rewrite (proj2 (existsb_exists _ _)) in E; [discriminate|exists x; auto].
        - apply (count_occ_not_In Nat.eq_dec) in J. lia. }
      assert (ND2 : NoDup (e :: labels)) by (constructor; auto). apply NoDup_incl_length with (l' := seq 0 k) in ND2; [rewrite seq_length in ND2; cbn in ND2; lia|].
      intros x [<-|J]; apply in_seq; [lia|apply Lc in J; lia].
  Qed.
  Lemma fills_ext A C es : forall L1 L2 L', (forall i, i < N -> L1 i = L2 i) -> fills o N (row X) A C es L1 L' -> fills o N (row X) A C es L2 L'.
  Proof.
    induction es as [|e es IH]; intros L1 L2 L' H G; inversion G as [? ? HL|? ? ? p ? HM HF]; subst.
    - constructor. intros i Li. rewrite <- H by auto. auto.
    - assert (CR : forall q, crowded N L1 q <-> crowded N L2 q).
      { intro q. unfold crowded. split; intros (Lq & r & Lr & NE & Er); (split; auto); exists r; repeat (split; auto); [rewrite <- !H by auto|rewrite !H by auto]; auto. }
      destruct HM as [HC HM]. apply fills_cons with p.
      + split; [apply CR; auto|]. intros q Hq. apply CR in Hq. specialize (HM q Hq). destruct HC as [Lp _]. destruct Hq as [Lq _]. rewrite <- !H by auto. auto.
      + eapply IH; [|exact HF]. intros i Li. cbv beta. destruct (Nat.eqb i p); auto.
  Qed.
  Lemma fill_loop A centers : length centers = k -> k <= N -> forall es labels j, length labels = N -> (forall c, In c labels -> c < k) -> NoDup es ->
    (forall e, In e es -> e < k /\ ~ In e labels) ->
    exists labels', rfold (fill_cluster A centers) es (labels, bincount labels j) = Ok (labels', bincount labels' (match es with [] => j | _ => 10 end)) /\
      length labels' = N /\ (forall c, In c labels' -> c < k) /\ (forall c, In c labels' <-> In c labels \/ In c es) /\
      (strict_weak_order ltb -> fills o N (row X) A centers es (fun i => nth i labels 0) (fun i => nth i labels' 0)).
  Proof.
    intros LC LK. induction es as [|e es IH]; intros labels j LL Lc ND He; cbn [rfold].
    - exists labels. split; auto. split; auto. split; auto. split; [intro; simpl; tauto|]. intros _. constructor. auto.
    - apply NoDup_cons_iff in ND as [NI ND']. destruct (He e (or_introl eq_refl)) as [Le Ne].
      destruct (fill_run A centers labels j e LL) as (p & E & Cp & Mp); auto. { rewrite LC. auto. } { eapply pigeon; eauto. }
      destruct Cp as (Lp & q & Lq & NE & Eq).
      assert (IN : forall c, In c (list_set labels p e) <-> In c labels \/ c = e).
      { intro c. split.
        - intro J. apply in_list_set in J as [J|(k0 & _ & J)]; auto. left. eapply nth_error_In; eauto.
        - intros [J| ->].
          + apply In_nth_error in J as [i J]. assert (Li : i < N) by (rewrite <- LL; apply nth_error_Some; congruence). destruct (Nat.eq_dec i p) as [->|NP].
            * apply (nth_error_In _ q). rewrite nth_error_list_set. destruct (Nat.eqb_spec q p); [congruence|].
              rewrite (nth_error_nth' labels 0) by lia. rewrite Eq. rewrite (nth_error_nth _ _ 0 J). auto.
            * apply (nth_error_In _ i). rewrite nth_error_list_set. destruct (Nat.eqb_spec i p); [congruence|]. auto.
          + apply (nth_error_In _ p). rewrite nth_error_list_set, Nat.eqb_refl. rewrite (nth_error_nth' labels 0) by lia. auto. }
      destruct (IH (list_set labels p e) 10) as (labels' & E' & LL' & Lc' & In' & Fi).
      + rewrite list_set_length. auto.
      + intros c J. apply IN in J as [J| ->]; auto.
      + auto.
      + intros e' J. split; [apply He; simpl; auto|]. rewrite IN. intros [K| ->]; [apply (He e'); simpl; auto|auto].
      + exists labels'. rewrite E. cbn [rbind]. rewrite E'. split; [destruct es; auto|]. split; auto. split; auto. split.
        * intro c. rewrite In', IN. simpl. split; [intros [[?|?]|?]; auto|intros [?|[?|?]]; auto].
        * intro SW. apply fills_cons with p; auto. eapply fills_ext; [|apply Fi; auto]. intros i Li. cbv beta. apply nth_list_set. lia.
  Qed.
  (** The empty clusters. *)
  Definition empties (L : nat -> nat) : list nat := filter (fun c => forallb (fun i => negb (Nat.eqb (L i) c)) (seq 0 N)) (seq 0 k).
  Lemma empties_In labels c : length labels = N -> In c (empties (fun i => nth i labels 0)) <-> c < k /\ ~ In c labels.
  Proof.
    intro LL. unfold empties. rewrite filter_In, in_seq, forallb_forall. split.
    - intros [Lc H]. split; [lia|]. intro J. apply In_nth_error in J as [i J]. assert (Li : i < N) by (rewrite <- LL; apply nth_error_Some; congruence).
      specialize (H i (proj2 (in_seq N 0 i) (conj (Nat.le_0_l i) Li))). rewrite (nth_error_nth _ _ 0 J), Nat.eqb_refl in H. discriminate.
    - intros [Lc NI]. split; [lia|]. intros i J. apply in_seq in J. apply negb_true_iff, Nat.eqb_neq. intro E. apply NI. rewrite <- E. apply nth_In. lia.
  Qed.
  Lemma empties_eq labels : length labels = N -> (forall c, In c labels -> c < k) -> where_ (Nat.eqb 0) (bincount labels k) = empties (fun i => nth i labels 0).
  Proof.
    intros LL Lc. rewrite bincount_small by auto. rewrite where_seq. apply filter_ext_in. intros c J. apply in_seq in J.
    assert (G := empties_In labels c LL). unfold empties in G. rewrite filter_In, in_seq in G.
    destruct (forallb _ (seq 0 N)); symmetry.
    - rewrite (proj1 (count_occ_not_In Nat.eq_dec labels c)); [|apply G; split; auto; lia]. auto.
    - symmetry. apply Nat.eqb_neq. intro H. symmetry in H. apply (count_occ_not_In Nat.eq_dec) in H. assert (false = true) by (apply G; split; auto; lia). discriminate.
  Qed.
  Lemma handle_run A centers L : length centers = k -> k <= N -> length L = N -> (forall c, In c L -> c < k) ->
    let es := empties (fun i => nth i L 0) in
    if orb (match es with [] => true | _ => false end) (10 <=? k)
    then exists L', handle_empty_clusters D o X k A centers (map Some L) = Ok L' /\ length L' = N /\ (forall c, In c L' <-> c < k) /\
           (strict_weak_order ltb -> fills o N (row X) A centers es (fun i => nth i L 0) (fun i => nth i L' 0))
    else handle_empty_clusters D o X k A centers (map Some L) = Raise ValueError.
  Proof.
    intros LC LK LL Lc es.
    assert (R : rmap (fun c : option nat => match c with Some c => Ok c | None => Raise ValueError end) (map Some L) = Ok L).
    { clear. induction L as [|c L IH]; cbn [map rmap]; auto. rewrite IH. auto. }
    destruct (fill_loop A centers LC LK es L k LL Lc) as (L' & E & LL' & Lc' & In' & Fi).
    - apply NoDup_filter, seq_NoDup.
    - intros e J. apply empties_In; auto.
    - unfold handle_empty_clusters. rewrite R. cbn [rbind]. rewrite empties_eq by auto. fold es. rewrite E. cbn [rbind].
      assert (IK : forall c, In c L' <-> c < k).
      { intro c. split; auto. intro Lk. apply In'. destruct (in_dec Nat.eq_dec c L); auto. right. apply empties_In; auto. }
      assert (Z : existsb (Nat.eqb 0) (bincount L' (match es with [] => k | _ => 10 end)) = negb (orb (match es with [] => true | _ => false end) (10 <=? k))).
      { apply eq_true_iff_eq. rewrite existsb_exists. split.
        - intros (v & J & Ev). apply Nat.eqb_eq in Ev. subst v. apply In_nth_error in J as [c J]. apply bincount_nth in J as [Lt Ez]. symmetry in Ez. apply (count_occ_not_In Nat.eq_dec) in Ez.
          assert (NK : k <= c) by (apply Nat.nlt_ge; intro; apply Ez, IK; auto). pose proof (list_max_lt L' k Lc'). destruct es; cbn [orb negb]; [lia|]. apply negb_true_iff, Nat.leb_gt. lia.
        - intro H. apply negb_true_iff, orb_false_iff in H as [H1 H2]. apply Nat.leb_gt in H2. destruct es; [discriminate|]. exists 0. split; auto.
          apply (nth_error_In _ k). apply bincount_nth. split; [lia|]. symmetry. apply count_occ_not_In. rewrite IK. lia. }
      rewrite Z. destruct (orb _ _); cbn [negb]; auto. exists L'. split; auto.
  Qed.

  (** *** Centres and metric *)
  Lemma centers_run L : length L = N -> cluster_centers D o X k L = map (fun c => mean_of o (width D X) (row X) (filter (fun i => Nat.eqb (nth i L 0) c) (seq 0 N))) (seq 0 k).
  Proof.
    intro LL. unfold cluster_centers. apply map_ext. intro c. unfold col_means, mean_of. apply map_ext. intro d. f_equal.
    rewrite (combine_nths 0 []) by auto. rewrite map_filter_swap, !map_map. cbn [fst snd]. rewrite LL. reflexivity.
  Qed.
  Lemma centers_length L : length (cluster_centers D o X k L) = k.
  Proof. unfold cluster_centers. rewrite map_length, seq_length. auto. Qed.
  Lemma metric_run L R g df f : graph_of n R g -> (forall i j, R i j -> j < n) -> N = n -> length L = N ->
    exists v, metric_term D o order X L g df f = Ok v /\
      total o (fun e => fst e < N /\ R (fst e) (snd e) /\ Nat.eqb (nth (fst e) L 0) (nth (snd e) L 0) = negb df) (fun e => f (fst e) (snd e)) v.
  Proof.
    intros G RB EN LL. unfold metric_term. set (bad := fun e : nat * nat => Nat.eqb (nth (fst e) L 0) (nth (snd e) L 0)).
    assert (PN : forall i, i < n -> py_nth L i = Ok (nth i L 0)) by (intros i Li; unfold py_nth; rewrite (nth_error_nth' L 0) by lia; auto).
    assert (I0 : forall i F js z, (forall j, In j js -> j < n) -> (forall t j, j < n -> F t j = Ok (if Bool.eqb (bad (i, j)) df then t else add t (f i j))) ->
      rfold F js z = Ok (fold_left (fun t e => add t (f (fst e) (snd e))) (filter (fun e => negb (Bool.eqb (bad e) df)) (map (pair i) js)) z)).
    { intros i F js. induction js as [|j js IH]; intros z Lj EF; cbn [rfold map filter fold_left]; auto. rewrite EF by (apply Lj; simpl; auto). cbn [rbind].
      rewrite IH by (auto; intros; apply Lj; simpl; auto). destruct (Bool.eqb _ _); cbn [negb fold_left fst snd]; auto. }
    assert (I : forall i js z, i < n -> (forall j, In j js -> j < n) ->
      rfold (fun t j => li <-- py_nth L i ;;; lj <-- py_nth L j ;;; Ok (if Bool.eqb (Nat.eqb li lj) df then t else add t (f i j))) js z =
      Ok (fold_left (fun t e => add t (f (fst e) (snd e))) (filter (fun e => negb (Bool.eqb (bad e) df)) (map (pair i) js)) z)).
    { intros i js z Li Lj. apply I0; auto. intros t j Lj'. rewrite PN, PN by auto. reflexivity. }
    assert (J : forall is z, (forall i, In i is -> i < n) ->
      rfold (fun t i => ni <-- dlookup i g ;;; rfold (fun t j => li <-- py_nth L i ;;; lj <-- py_nth L j ;;; Ok (if Bool.eqb (Nat.eqb li lj) df then t else add t (f i j))) (order ni) t) is z =
      Ok (fold_left (fun t e => add t (f (fst e) (snd e))) (filter (fun e => negb (Bool.eqb (bad e) df)) (flat_map (fun i => map (pair i) (nbrs g i)) is)) z)).
    { induction is as [|i is IH]; intros z Li; cbn [rfold flat_map filter fold_left]; auto. destruct (nbrs_spec R g i G (Li i (or_introl eq_refl))) as (s & E & O & _ & H).
      rewrite E. cbn [rbind]. rewrite I; [|apply Li; simpl; auto|intros j K; rewrite <- O in K; apply H in K; eauto]. cbn [rbind]. rewrite IH by (intros; apply Li; simpl; auto).
      rewrite filter_app, fold_left_app, O. auto. }
    eexists. split; [apply J; intros i K; apply in_seq in K; lia|]. eexists. split; [|split; [|reflexivity]].
    - apply NoDup_filter, NoDup_pairs; [apply seq_NoDup|]. intros i K. apply in_seq in K. destruct (nbrs_spec R g i G) as (s & _ & _ & ND & _); [lia|auto].
    - intros [i j]. rewrite filter_In, in_pairs, in_seq. cbn [fst snd]. split.
      + intros [[Li K] B]. assert (Li' : i < n) by lia. destruct (nbrs_spec R g i G Li') as (s & _ & _ & _ & H). apply H in K. split; [lia|]. split; auto.
        unfold bad in B. cbn [fst snd] in B. destruct (Nat.eqb _ _), df; auto; discriminate.
      + intros (Li & K & B). assert (Li' : i < n) by lia. destruct (nbrs_spec R g i G Li') as (s & _ & _ & _ & H). split; [split; [lia|apply H; auto]|].
        unfold bad. cbn [fst snd]. rewrite B. destruct df; auto.
  Qed.
  Lemma metrics_run L centers p q : N = n -> length L = N ->
    exists A', update_metrics D o order X w mg cg L centers (p, q) = Ok A' /\ length A' = width D X /\
      forall d, d < width D X -> exists tm tc,
        total o (fun e => fst e < N /\ P (fst e) (snd e) /\ nth (fst e) L 0 <> nth (snd e) L 0)
              (fun e => mul (mul (o_half D o) w) (o_sq D o (sub (nth d (row X (fst e)) zero) (nth d (row X (snd e)) zero)))) tm /\
        total o (fun e => fst e < N /\ Q (fst e) (snd e) /\ nth (fst e) L 0 = nth (snd e) L 0)
              (fun e => mul w (greater o (sub (o_sq D o (sub (nth d (row X p) zero) (nth d (row X q) zero)))
                                            (o_sq D o (sub (nth d (row X (fst e)) zero) (nth d (row X (snd e)) zero)))) zero)) tc /\
        nth d A' zero = o_div D o (o_of_nat D o N)
          (greater o (add (add (o_sum D o (map (fun i => o_sq D o (sub (nth d (row X i) zero) (nth d (nth (nth i L 0) centers []) zero))) (seq 0 N))) tm) tc) (o_tiny D o)).
  Proof.
    intros EN LL. unfold update_metrics. cbn [fst snd].
    set (F := fun d => _ <-- _ ;;; _).
    assert (T : forall d, exists v tm tc, F d = Ok v /\
        total o (fun e => fst e < N /\ P (fst e) (snd e) /\ nth (fst e) L 0 <> nth (snd e) L 0)
              (fun e => mul (mul (o_half D o) w) (o_sq D o (sub (nth d (row X (fst e)) zero) (nth d (row X (snd e)) zero)))) tm /\
        total o (fun e => fst e < N /\ Q (fst e) (snd e) /\ nth (fst e) L 0 = nth (snd e) L 0)
              (fun e => mul w (greater o (sub (o_sq D o (sub (nth d (row X p) zero) (nth d (row X q) zero)))
                                            (o_sq D o (sub (nth d (row X (fst e)) zero) (nth d (row X (snd e)) zero)))) zero)) tc /\
        v = o_div D o (o_of_nat D o N)
          (greater o (add (add (o_sum D o (map (fun i => o_sq D o (sub (nth d (row X i) zero) (nth d (nth (nth i L 0) centers []) zero))) (seq 0 N))) tm) tc) (o_tiny D o))).
    { intro d. destruct (metric_run L P mg true (fun i j => mul (mul (o_half D o) w) (o_sq D o (sub (entry D o X i d) (entry D o X j d)))) GM PB EN LL) as (tm & Em & Tm).
      destruct (metric_run L Q cg false (fun i j => mul w (max2 D o (sub (o_sq D o (sub (entry D o X p d) (entry D o X q d)))
                                                  (o_sq D o (sub (entry D o X i d) (entry D o X j d)))) zero)) GC QB EN LL) as (tc & Ec & Tc).
      eexists _, tm, tc. unfold F. cbv zeta. rewrite Em. cbn [rbind]. rewrite Ec. cbn [rbind]. split; [reflexivity|]. split; [|split].
      - eapply total_ext; [|exact Tm]. intro e. cbv beta. cbn [negb]. rewrite Nat.eqb_neq. reflexivity.
      - eapply total_ext; [|exact Tc]. intro e. cbv beta. cbn [negb]. rewrite Nat.eqb_eq. reflexivity.
      - rewrite (combine_nths 0 []) by auto. rewrite map_map, LL. reflexivity. }
    clearbody F.
    assert (G : forall ds, exists A', rmap F ds = Ok A' /\ length A' = length ds /\ forall i d, nth_error ds i = Some d -> F d = Ok (nth i A' zero)).
    { induction ds as [|d ds (A' & E & LA & H)]; [exists []; split; auto; split; auto; intros [|i] d Q0; discriminate|].
      destruct (T d) as (v & _ & _ & Ev & _). exists (v :: A'). cbn [rmap]. rewrite Ev, E. split; auto. cbn [length]. split; [lia|]. intros [|i] d' Q0; cbn in *; [congruence|auto]. }
    destruct (G (seq 0 (width D X))) as (A' & E & LA & H). rewrite seq_length in LA. exists A'. split; auto. split; auto. intros d Ld.
    destruct (T d) as (v & tm & tc & Ev & Tm & Tc & V). exists tm, tc. split; auto. split; auto. rewrite <- V.
    specialize (H d d). rewrite Ev in H. rewrite (nth_error_nth' _ 0), seq_nth in H by (rewrite ?seq_length; auto). specialize (H eq_refl). congruence.
  Qed.
  Lemma close_run C C' : length C = k -> length C' = k -> (forall r, In r C -> length r = width D X) -> (forall r, In r C' -> length r = width D X) ->
    all_close D o C C' = true <-> close o (width D X) k C C'.
  Proof.
    intros L1 L2 W1 W2. unfold all_close, close. rewrite (combine_nths [] []) by lia. rewrite forallb_forall, L1. split.
    - intros H c d Lc Ld. specialize (H (nth c C [], nth c C' [])). cbn [fst snd] in H. rewrite forallb_forall in H. specialize (H (in_map (fun i => (nth i C [], nth i C' [])) (seq 0 k) c (proj2 (in_seq k 0 c) (conj (Nat.le_0_l c) Lc)))).
      apply (H (nth d (nth c C []) zero, nth d (nth c C' []) zero)).
      assert (W1' : length (nth c C []) = width D X) by (apply W1, nth_In; lia). assert (W2' : length (nth c C' []) = width D X) by (apply W2, nth_In; lia).
      rewrite (combine_nths zero zero) by lia. apply (in_map (fun i => (nth i (nth c C []) zero, nth i (nth c C' []) zero))), in_seq. lia.
    - intros H e J. apply in_map_iff in J as (c & <- & J). apply in_seq in J. cbn [fst snd]. apply forallb_forall. intros e J'.
      assert (W1' : length (nth c C []) = width D X) by (apply W1, nth_In; lia). assert (W2' : length (nth c C' []) = width D X) by (apply W2, nth_In; lia).
      rewrite (combine_nths zero zero) in J' by lia. apply in_map_iff in J' as (d & <- & J'). apply in_seq in J'. cbn [fst snd]. apply H; lia.
  Qed.
  Lemma centers_width L : forall r, In r (cluster_centers D o X k L) -> length r = width D X.
  Proof. intros r J. unfold cluster_centers in J. apply in_map_iff in J as (c & <- & _). unfold col_means. rewrite map_length, seq_length. auto. Qed.

  (** *** The iterations *)
  Notation iterate := (iterate D o order shuffle X k w mg cg).
  Lemma assign_run t A far centers : N = n -> 0 < k <= N -> length centers = k ->
    (exists L0 L, assign_points t A far centers = Ok (map Some L0) /\ length L0 = N /\ (forall c, In c L0 -> c < k) /\
       assign_clusters t A far centers = Ok L /\ length L = N /\ (forall c, In c L <-> c < k) /\
       (empties (fun i => nth i L0 0) = [] \/ 10 <= k) /\
       (strict_weak_order ltb -> fills o N (row X) A centers (empties (fun i => nth i L0 0)) (fun i => nth i L0 0) (fun i => nth i L 0)))
    \/ (k < 10 /\ assign_clusters t A far centers = Raise ValueError).
  Proof.
    intros EN LK LC. assert (NE : centers <> []) by (intro; subst; cbn in *; lia).
    destruct (assign_points_run t A far centers EN NE) as (L0 & E0 & LL & Lc). rewrite LC in Lc. unfold Mpckmeans.assign_clusters.
    pose proof (handle_run A centers L0 LC (proj2 LK) LL Lc) as H. cbv zeta in H. destruct (orb _ _) eqn:B.
    - left. destruct H as (L & E & LL' & In' & Fi). exists L0, L. split; auto. split; auto. split; auto. rewrite E0. cbn [rbind]. split; auto. split; auto. split; auto. split; auto.
      apply orb_prop in B as [B|B]; [left; destruct (empties _); auto; discriminate|right; apply Nat.leb_le; auto].
    - right. apply orb_false_iff in B as [_ B]. apply Nat.leb_gt in B. split; auto. rewrite E0. cbn [rbind]. auto.
  Qed.
  Lemma iterate_cases : N = n -> 0 < k <= N -> forall r t centers A ls, length centers = k ->
    (exists C L, iterate (S r) t centers A ls = Ok (C, Some L) /\ length C = k /\ length L = N /\ forall c, In c L <-> c < k)
    \/ iterate (S r) t centers A ls = Raise AssertionError \/ (k < 10 /\ iterate (S r) t centers A ls = Raise ValueError).
  Proof.
    intros EN LK. induction r as [|r IH]; intros t centers A ls LC.
    all: remember (S r) as r1 eqn:Er1 || idtac.
    - cbn [Mpckmeans.iterate]. destruct (farthest_pair_cases A) as [[[[p q] far] E]| ->]; [|auto]. rewrite E. cbn [rbind snd fst].
      destruct (assign_run t A far centers EN LK LC) as [(L0 & L & _ & _ & _ & E' & LL & In' & _)|[K ->]]; [|auto]. rewrite E'. cbn [rbind].
      destruct (metrics_run L (cluster_centers D o X k L) p q EN LL) as (A' & E'' & _). rewrite E''. cbn [rbind]. left.
      destruct (all_close _ _ _ _); exists (cluster_centers D o X k L), L; (split; [reflexivity|]); split; auto using centers_length.
    - cbn [Mpckmeans.iterate]. destruct (farthest_pair_cases A) as [[[[p q] far] E]| ->]; [|auto]. rewrite E. cbn [rbind snd fst].
      destruct (assign_run t A far centers EN LK LC) as [(L0 & L & _ & _ & _ & E' & LL & In' & _)|[K ->]]; [|auto]. rewrite E'. cbn [rbind].
      destruct (metrics_run L (cluster_centers D o X k L) p q EN LL) as (A' & E'' & _). rewrite E''. cbn [rbind].
      destruct (all_close _ _ _ _); [|subst r1; apply IH; apply centers_length].
      left. exists (cluster_centers D o X k L), L. split; [reflexivity|]. split; auto using centers_length.
  Qed.
  Lemma iterate_returns r t centers A ls : N = n -> 10 <= k <= N -> (forall A, exists p q, q < p < N /\ ltb zero (dist (row X p) (row X q) A) = true) -> length centers = k ->
    exists C L, iterate (S r) t centers A ls = Ok (C, Some L).
  Proof.
    intros EN LK HF. revert t centers A ls. induction r as [|r IH]; intros t centers A ls LC.
    all: destruct (HF A) as (p0 & q0 & L0 & H0); destruct (farthest_pair_ok A p0 q0 L0 H0) as [[[p q] far] E];
      destruct (assign_run t A far centers EN ltac:(lia) LC) as [(L1 & L & _ & _ & _ & E' & LL & In' & _)|[K _]]; [|lia];
      destruct (metrics_run L (cluster_centers D o X k L) p q EN LL) as (A' & E'' & _).
    - cbn [Mpckmeans.iterate]. rewrite E. cbn [rbind snd fst]. rewrite E'. cbn [rbind]. rewrite E''. cbn [rbind]. destruct (all_close _ _ _ _); eauto.
    - remember (S r) as r1. cbn [Mpckmeans.iterate]. rewrite E. cbn [rbind snd fst]. rewrite E'. cbn [rbind]. rewrite E''. cbn [rbind]. destruct (all_close _ _ _ _); eauto.
      subst r1. apply IH, centers_length.
  Qed.
  Lemma iterate_out r t centers A ls : n < N -> 0 < k -> length centers = k -> iterate (S r) t centers A ls = Raise AssertionError \/ iterate (S r) t centers A ls = Raise KeyError.
  Proof.
    intros LN LK LC. assert (NE : centers <> []) by (intro; subst; cbn in *; lia). cbn [Mpckmeans.iterate]. destruct (farthest_pair_cases A) as [[[[p q] far] E]| ->]; [|auto].
    right. rewrite E. cbn [rbind]. unfold Mpckmeans.assign_clusters. rewrite assign_points_out by auto. auto.
  Qed.
  Lemma iterate_same r t centers A ls : (forall p q, q < p < N -> ltb zero (dist (row X p) (row X q) A) = false) -> iterate (S r) t centers A ls = Raise AssertionError.
  Proof. intro H. cbn [Mpckmeans.iterate]. rewrite farthest_pair_fails by auto. auto. Qed.

  Notation run' := (iterates o N (width D X) (row X) k w P Q (fun t => shuffle t (seq 0 N))).
  Lemma step_run t centers A p q far L A' : strict_weak_order ltb -> exact_argmin o -> N = n -> 0 < k <= N -> length centers = k ->
    farthest_pair D o X A = Ok (p, q, far) -> assign_clusters t A far centers = Ok L -> update_metrics D o order X w mg cg L (cluster_centers D o X k L) (p, q) = Ok A' ->
    length L = N /\ step o N (width D X) (row X) k w P Q (fun t => shuffle t (seq 0 N)) t centers A (fun i => nth i L 0) (cluster_centers D o X k L) A'.
  Proof.
    intros SW EX EN LK LC EF EA EU. assert (NE : centers <> []) by (intro; subst; cbn in *; lia).
    destruct (assign_run t A far centers EN LK LC) as [(L0 & L' & E0 & LL0 & Lc0 & E' & LL & In' & HE & Fi)|[K E']]; [|congruence]. rewrite EA in E'. injection E' as <-. split; auto.
    destruct (metrics_run L (cluster_centers D o X k L) p q EN LL) as (A'' & E'' & LA & HA). rewrite EU in E''. injection E'' as <-.
    exists p, q, (fun i => nth i L0 0), (empties (fun i => nth i L0 0)). split; [eapply farthest_pair_spec; eauto|]. split; [|split; [reflexivity|]].
    - rewrite <- LC. rewrite <- (farthest_pair_inv A p q far EF). apply assign_points_spec; auto.
    - split; auto. split; auto. split; [apply centers_run; auto|]. split; auto.
  Qed.
  Lemma iterate_spec : strict_weak_order ltb -> exact_argmin o -> N = n -> 0 < k <= N -> forall r t centers A ls C L, length centers = k -> (forall r, In r centers -> length r = width D X) ->
    iterate (S r) t centers A ls = Ok (C, Some L) -> run' t (S r) centers A C (fun i => nth i L 0).
  Proof.
    intros SW EX EN LK. induction r as [|r IH]; intros t centers A ls C L LC WC.
    all: remember (S r) as r1 eqn:Er1 || idtac.
    all: cbn [Mpckmeans.iterate]; destruct (farthest_pair D o X A) as [[[p q] far]|] eqn:EF; [|discriminate]; cbn [rbind snd fst];
      destruct (assign_clusters t A far centers) as [L'|] eqn:EA; [|discriminate]; cbn [rbind];
      destruct (update_metrics D o order X w mg cg L' (cluster_centers D o X k L') (p, q)) as [A'|] eqn:EU; [|discriminate]; cbn [rbind];
      destruct (step_run t centers A p q far L' A' SW EX EN LK LC EF EA EU) as [LL ST];
      destruct (all_close D o centers (cluster_centers D o X k L')) eqn:AC.
    - intro H. injection H as <- <-. eapply iterates_stop; [exact ST|]. left. apply close_run; eauto using centers_length, centers_width.
    - intro H. injection H as <- <-. eapply iterates_stop; [exact ST|]. auto.
    - intro H. injection H as <- <-. eapply iterates_stop; [exact ST|]. left. apply close_run; eauto using centers_length, centers_width.
    - intro H. eapply iterates_go; [exact ST| |].
      + intro CL. apply close_run in CL; eauto using centers_length, centers_width. congruence.
      + subst r1. eapply IH; [apply centers_length|apply centers_width|exact H].
  Qed.

  (** *** The first centres *)
  Variable cs : list (list nat).
  Hypothesis CC : forall i, In i (concat cs) <-> i < n.
  Notation mean := (mean_of o (width D X) (row X)).
  Notation init := (initialize_cluster_centers D o first sample X k).
  Lemma rows_run is : (forall i, In i is -> i < N) -> rows_at D X is = Ok (map (row X) is).
  Proof.
    intro H. apply rmap_pure. intros i J. unfold py_nth, Mpckmeans.row. rewrite (nth_error_nth' X []) by auto. auto.
  Qed.
  Lemma rows_out is : (exists i, In i is /\ N <= i) -> rows_at D X is = Raise IndexError.
  Proof.
    unfold rows_at. induction is as [|j is IH]; intros (i & J & L); [destruct J|]. cbn [rmap]. unfold py_nth at 1. destruct (nth_error X j) eqn:E; [|auto].
    cbn [rbind]. rewrite IH; auto. exists i. split; auto. destruct J as [->|J]; auto. exfalso. assert (nth_error X i <> None) by congruence. apply nth_error_Some in H. lia.
  Qed.
  Lemma means_run : n <= N -> rmap (fun c => rows <-- rows_at D X c ;;; Ok (col_means D o (width D X) rows)) cs = Ok (map mean cs).
  Proof.
    intro LN. apply rmap_pure. intros c J. rewrite rows_run.
    - cbn [rbind]. f_equal. unfold col_means, mean_of. apply map_ext. intro d. rewrite map_map. auto.
    - intros i Ji. assert (In i (concat cs)) by (apply in_concat; eauto). apply CC in H. lia.
  Qed.
  Lemma init_short : N < n -> init cs = Raise IndexError.
  Proof.
    intro LN. unfold initialize_cluster_centers.
    assert (G : rmap (fun c => rows <-- rows_at D X c ;;; Ok (col_means D o (width D X) rows)) cs = Raise IndexError).
    { assert (J : exists c i, In c cs /\ In i c /\ N <= i).
      { assert (J : In N (concat cs)) by (apply CC; auto). apply in_concat in J as (c & J1 & J2). exists c, N. auto. }
      clear CC. induction cs as [|c l IH]; destruct J as (c' & i & J1 & J2 & L); [destruct J1|]. cbn [rmap].
      destruct (existsb (fun i => N <=? i) c) eqn:E.
      - apply existsb_exists in E as (i' & Ji & Li). apply Nat.leb_le in Li. rewrite rows_out by eauto. auto.
      - rewrite rows_run. cbn [rbind]. rewrite IH; auto.
        + exists c', i. split; auto. destruct J1 as [->|J1]; auto. exfalso. rewrite (proj2 (existsb_exists _ _)) in E; [discriminate|]. exists i. split; auto. apply Nat.leb_le; auto.
        + intros i' Ji. apply Nat.nle_gt. intro L'. rewrite (proj2 (existsb_exists _ _)) in E; [discriminate|]. exists i'. split; auto. apply Nat.leb_le; auto. }
    rewrite G. auto.
  Qed.
  Definition points : matrix D := map mean cs.
  Definition sizes : list nat := map (@length nat) cs.
  Definition weights : list D := map (fun s => o_div D o (o_of_nat D o s) (o_of_nat D o (list_sum sizes))) sizes.
  Lemma init_eq : n <= N -> 0 < n -> k <= n -> valid_sample sample ->
    init cs = if k <? length cs then rmap (fun t => match t with Some t => py_nth points t | None => Raise IndexError end) (traversal D o first k points weights)
              else Ok (points ++ map (row X) (sample N (k - length cs))).
  Proof.
    intros LN L0 LK VS. unfold initialize_cluster_centers. rewrite means_run by auto. cbn [rbind]. cbv zeta. fold points. fold sizes. fold weights. destruct (k <? length cs) eqn:E; auto.
    apply Nat.ltb_ge in E. assert (NE : cs <> []) by (intros ->; assert (In 0 (concat [])) by (apply CC; auto); auto).
    destruct cs as [|c0 l] eqn:Ecs; [congruence|]. rewrite <- Ecs in *. destruct (length cs <? k) eqn:E'.
    - rewrite (proj2 (Nat.ltb_ge _ _)) by lia. destruct (VS N (k - length cs)) as (_ & _ & H); [lia|]. rewrite rows_run by auto. auto.
    - apply Nat.ltb_ge in E'. replace (k - length cs) with 0 by lia. destruct (VS N 0) as (H & _ & _); [lia|]. apply length_zero_iff_nil in H. rewrite H. cbn. rewrite app_nil_r. auto.
  Qed.
  Lemma points_length : length points = length cs.
  Proof. unfold points. apply map_length. Qed.
  Lemma mean_length c : length (mean c) = width D X.
  Proof. unfold mean_of. rewrite map_length, seq_length. auto. Qed.
  Lemma traversal_length : 0 < k -> length (traversal D o first k points weights) = k.
  Proof.
    intro LK. unfold traversal. assert (G : forall (f : list (option nat) -> option nat) l z, length (fold_left (fun t (_ : nat) => t ++ [f t]) l z) = length l + length z).
    { intros f l. induction l as [|a l IH]; intro z; cbn [fold_left length]; auto. rewrite IH, app_length. cbn. lia. }
    rewrite G, seq_length. cbn. lia.
  Qed.
  Lemma init_length C : n <= N -> 0 < k <= n -> valid_sample sample -> init cs = Ok C -> length C = k.
  Proof.
    intros LN LK VS. rewrite init_eq by (auto; lia). destruct (Nat.ltb_spec k (length cs)) as [L|L]; intro E.
    - apply rmap_length in E. rewrite <- (traversal_length (proj1 LK)). auto.
    - injection E as <-. rewrite app_length, points_length, map_length. destruct (VS N (k - length cs)) as (H & _ & _); [lia|]. rewrite H. lia.
  Qed.
  Lemma init_width C : n <= N -> 0 < k <= n -> valid_sample sample -> (forall r, In r X -> length r = width D X) -> init cs = Ok C -> forall r, In r C -> length r = width D X.
  Proof.
    intros LN LK VS WX. rewrite init_eq by (auto; lia). destruct (k <? length cs); intros E r J.
    - assert (G : forall l C, rmap (fun t : option nat => match t with Some t => py_nth points t | None => Raise IndexError end) l = Ok C -> forall r, In r C -> In r points).
      { clear E J. induction l as [|x l IH]; intros C' E r' J; cbn [rmap] in E; [injection E as <-; destruct J|].
        destruct x as [x|]; [|discriminate]. unfold py_nth in E. destruct (nth_error points x) eqn:F; [|discriminate]. cbn [rbind] in E.
        destruct (rmap _ l) eqn:R; [|discriminate]. injection E as <-. destruct J as [<-|J]; [eapply nth_error_In; eauto|eapply IH; eauto]. }
      apply (G _ _ E) in J. unfold points in J. apply in_map_iff in J as (c & <- & _). apply mean_length.
    - injection E as <-. apply in_app_or in J as [J|J]; apply in_map_iff in J as (c & <- & J); [apply mean_length|]. apply WX. unfold Mpckmeans.row. apply nth_In.
      destruct (VS N (k - length cs)) as (_ & _ & H); [lia|auto].
  Qed.
  Lemma init_cases : n <= N -> 0 < k <= n -> valid_sample sample -> (exists C, init cs = Ok C) \/ (k < length cs /\ init cs = Raise IndexError).
  Proof.
    intros LN LK VS. rewrite init_eq by (auto; lia). destruct (Nat.ltb_spec k (length cs)) as [L|L]; [|eauto]. destruct (rmap _ _) as [C|ex] eqn:E; [eauto|]. right. split; auto. f_equal.
    revert ex E. induction (traversal D o first k points weights) as [|x l IH]; intros ex E; cbn [rmap] in E; [discriminate|].
    destruct x as [x|]; [|cbn [rbind] in E; congruence]. unfold py_nth in E at 1. destruct (nth_error points x); [|cbn [rbind] in E; congruence]. cbn [rbind] in E.
    destruct (rmap _ l) as [|ex'] eqn:R; [discriminate|]. injection E as <-. apply IH. auto.
  Qed.

  (** With the hypotheses of the specification. *)
  Hypothesis ND : NoDup (concat cs).
  Lemma sizes_sum : list_sum sizes = n.
  Proof.
    assert (E : list_sum sizes = length (concat cs)).
    { unfold sizes. clear. induction cs as [|c l IH]; cbn; auto. rewrite app_length, <- IH. auto. }
    rewrite E. apply Nat.le_antisymm.
    - rewrite <- (seq_length n 0). apply NoDup_incl_length; auto. intros i J. apply CC in J. apply in_seq. lia.
    - rewrite <- (seq_length n 0) at 1. apply NoDup_incl_length; [apply seq_NoDup|]. intros i J. apply in_seq in J. apply CC. lia.
  Qed.
  Lemma weights_eq : weights = map (fun c => o_div D o (o_of_nat D o (length c)) (o_of_nat D o n)) cs.
  Proof. unfold weights. rewrite sizes_sum. unfold sizes. rewrite map_map. auto. Qed.
  Lemma weights_nth j : j < length cs -> nth j weights zero = o_div D o (o_of_nat D o (length (nth j cs []))) (o_of_nat D o n).
  Proof.
    intro L. rewrite weights_eq. rewrite (nth_indep _ zero (o_div D o (o_of_nat D o (length (@nil nat))) (o_of_nat D o n))) by (rewrite map_length; auto).
    exact (map_nth (fun c => o_div D o (o_of_nat D o (length c)) (o_of_nat D o n)) cs [] j).
  Qed.
  Lemma points_nth j : j < length cs -> row points j = mean (nth j cs []).
  Proof.
    intro L. unfold Mpckmeans.row, points. rewrite (nth_indep _ [] (mean [])) by (rewrite map_length; auto). apply (map_nth mean).
  Qed.
  Notation gain' := (gain o n (width D X) (row X) cs).
  Lemma gain_run done j : j < length cs -> (forall t, In t done -> t < length cs) ->
    mul (nth j weights zero) (o_min D o (map (euclid D o points j) (map Some done))) = gain' done j.
  Proof.
    intros L H. unfold gain. rewrite weights_nth by auto. f_equal. f_equal. rewrite map_map. apply map_ext_in. intros t J. unfold euclid. cbn [flat_map]. rewrite app_nil_r.
    rewrite !points_nth by auto. reflexivity.
  Qed.
  Lemma next_point_run done : (forall t, In t done -> t < length cs) ->
    next_point D o points weights (map Some done) = fold_left (upd ltb zero (gain' done)) (filter (fun j => negb (mem j done)) (seq 0 (length cs))) None.
  Proof.
    intro H. unfold next_point. rewrite points_length.
    assert (M : forall j, existsb (fun t : option nat => match t with Some t => Nat.eqb t j | None => false end) (map Some done) = mem j done).
    { intro j. clear H. induction done as [|t done IH]; cbn [map existsb mem]; auto. rewrite IH. unfold mem. cbn [existsb]. f_equal. cbn. apply Nat.eqb_sym. }
    assert (G : forall l, (forall j, In j l -> j < length cs) -> forall b,
      fold_left (fun best j => if existsb (fun t : option nat => match t with Some t => Nat.eqb t j | None => false end) (map Some done) then best
        else let weighted := mul (nth j weights zero) (o_min D o (map (euclid D o points j) (map Some done))) in
          if ltb (fst best) weighted then (weighted, Some j) else best) l (match b with Some b => gain' done b | None => zero end, b) =
      (match fold_left (upd ltb zero (gain' done)) (filter (fun j => negb (mem j done)) l) b with Some b => gain' done b | None => zero end,
       fold_left (upd ltb zero (gain' done)) (filter (fun j => negb (mem j done)) l) b)).
    { induction l as [|j l IH]; intros Hl b; cbn [fold_left filter]; auto. rewrite M. destruct (mem j done) eqn:E; cbn [negb fold_left]; [apply IH; intros; apply Hl; simpl; auto|].
      cbv zeta. rewrite gain_run by (auto; apply Hl; simpl; auto). cbn [fst]. rewrite <- IH by (intros; apply Hl; simpl; auto). f_equal. unfold upd at 1 2. destruct (ltb _ (gain' done j)); auto. }
    specialize (G (seq 0 (length cs)) ltac:(intros j J; apply in_seq in J; lia) None). cbv beta in G. exact (f_equal snd G).
  Qed.
  Notation trace s := (fold_left (fun traversed (_ : nat) => traversed ++ [next_point D o points weights traversed]) (seq 0 s) [Some (first (length points) weights)]).
  Lemma trace_run : strict_weak_order ltb -> valid_first first -> 0 < length cs -> forall s chosen, trace s = map Some chosen ->
    length chosen = S s /\ NoDup chosen /\ (forall c, In c chosen -> c < length cs) /\ hd_error chosen = Some (first (length cs) weights) /\
    forall a c b, chosen = a ++ c :: b -> a <> [] -> ltb zero (gain' a c) = true /\
      forall c', c' < length cs -> ~ In c' a -> ltb (gain' a c) (gain' a c') = false /\ (c' < c -> ltb (gain' a c') (gain' a c) = true).
  Proof.
    intros SW VF LCS. induction s as [|s IH]; intros chosen E.
    - cbn in E. destruct chosen as [|c [|? ?]]; try discriminate. injection E as E. rewrite points_length in E. split; auto. split; [repeat constructor; auto|]. split.
      + intros c' [<-|[]]. rewrite <- E. apply VF. auto.
      + split; [cbn; congruence|]. intros a c' b E' NE. exfalso. destruct a as [|a0 [|? ?]]; [congruence|discriminate|discriminate].
    - rewrite seq_S, fold_left_app in E. cbn [fold_left] in E. symmetry in E. apply map_eq_app in E as (ch & last & -> & E1 & E2). destruct last as [|x [|? ?]]; try discriminate. cbn [map] in E2. injection E2 as E2.
      destruct (IH ch (eq_sym E1)) as (Lc & NDc & Bc & Hc & Gc). rewrite <- E1 in E2. rewrite next_point_run in E2 by auto. symmetry in E2. apply upd_Some in E2 as (l1 & l2 & El & P1 & P2 & P3); auto.
      assert (Jx : In x (filter (fun j => negb (mem j ch)) (seq 0 (length cs)))) by (rewrite El; apply in_elt).
      apply filter_In in Jx as [Jx Mx]. apply in_seq in Jx. apply negb_true_iff, mem_nIn in Mx.
      split; [rewrite app_length; cbn; lia|]. split; [apply NoDup_app_intro; auto; [repeat constructor; auto|]; intros y Jy [<-|[]]; auto|].
      split; [intros c J; apply in_app_or in J as [J|[<-|[]]]; [auto|lia]|]. split; [destruct ch; [discriminate|auto]|].
      intros a c b Eabc NE. destruct b as [|b0 b].
      + apply app_inj_tail in Eabc as [<- <-]. split; auto. intros c' Lc' Nc'.
        assert (Jc' : In c' (filter (fun j => negb (mem j ch)) (seq 0 (length cs)))) by (apply filter_In; split; [apply in_seq; lia|apply negb_true_iff, mem_nIn; auto]).
        split; [apply P2; auto|]. intro Lt. apply P3. eapply (sorted_split lt); [intros q0 Hq0; lia|intros q0 q1 Hq0 Hq1; lia| |exact El|exact Jc'|exact Lt].
        assert (SF : forall (p : nat -> bool) l, StronglySorted lt l -> StronglySorted lt (filter p l)).
        { intros p l SS. induction SS as [|y l SS IHs F]; cbn; [constructor|]. destruct (p y); auto. constructor; auto. apply Forall_forall. intros z Jz. apply filter_In in Jz as [Jz _]. rewrite Forall_forall in F. auto. }
        apply SF, seq_sorted.
      + assert (NB : b0 :: b <> []) by discriminate. apply exists_last in NB as (b' & y & Eb). rewrite Eb in Eabc. change (a ++ c :: b' ++ [y]) with (a ++ (c :: b') ++ [y]) in Eabc. rewrite app_assoc in Eabc.
        apply app_inj_tail in Eabc as [Ech _]. eapply Gc; eauto.
  Qed.
  Lemma init_spec C : strict_weak_order ltb -> valid_first first -> N = n -> 0 < k <= n -> valid_sample sample -> init cs = Ok C ->
    first_centers o N (width D X) (row X) k first sample cs C.
  Proof.
    intros SW VF EN LK VS. rewrite init_eq by (auto; lia). unfold first_centers. rewrite EN. destruct (Nat.ltb_spec k (length cs)) as [L|L]; intro E.
    - left. split; auto.
      assert (G : forall l C, rmap (fun t : option nat => match t with Some t => py_nth points t | None => Raise IndexError end) l = Ok C -> exists chosen, l = map Some chosen /\ C = map (fun c => mean (nth c cs [])) chosen).
      { clear E. induction l as [|x l IH]; intros C' E; cbn [rmap] in E; [injection E as <-; exists []; auto|].
        destruct x as [x|]; [|discriminate]. unfold py_nth in E at 1. destruct (nth_error points x) as [v|] eqn:F; [|discriminate]. cbn [rbind] in E.
        destruct (rmap _ l) as [C''|] eqn:R; [|discriminate]. injection E as <-. destruct (IH _ eq_refl) as (ch & -> & ->). exists (x :: ch). split; auto. cbn [map]. f_equal.
        assert (Lx : x < length cs) by (rewrite <- points_length; apply nth_error_Some; congruence). rewrite <- (points_nth x Lx). symmetry. unfold Mpckmeans.row. apply nth_error_nth. auto. }
      destruct (G _ _ E) as (chosen & E1 & E2). exists chosen. unfold traversal in E1.
      destruct (trace_run SW VF ltac:(lia) (k - 1) chosen E1) as (T1 & T2 & T3 & T4 & T5). split; [|split; [rewrite <- weights_eq; auto|auto]].
      split; [lia|]. split; auto.
    - right. split; auto. injection E as <-. auto.
  Qed.
End Iteration.
