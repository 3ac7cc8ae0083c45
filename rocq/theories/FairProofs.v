(** * Counting the answers of random choices. *)

From Coq Require Import List Bool Arith ZArith Lia Permutation.
From Verif Require Import Base FairSpec.
Import ListNotations.
Open Scope nat_scope.

Lemma NoDup_flat_map {A B} (f : A -> list B) l : NoDup l -> (forall x, In x l -> NoDup (f x)) ->
  (forall x y z, In x l -> In y l -> In z (f x) -> In z (f y) -> x = y) -> NoDup (flat_map f l).
Proof.
  induction l as [|x l IH]; simpl; intros N F D; [constructor|]. inversion N as [|? ? X N']; subst.
  assert (IHl : NoDup (flat_map f l)). { apply IH; auto. intros; eapply D; eauto. }
  assert (Fx := F x (or_introl eq_refl)). clear IH F.
  assert (Dx : forall z, In z (f x) -> ~ In z (flat_map f l)).
  { intros z Z I. apply in_flat_map in I. destruct I as (y & Y & I). apply X.
    rewrite (D x y z); auto. }
  clear D. induction (f x) as [|z r IHr]; simpl; auto. inversion Fx; subst. constructor.
  - rewrite in_app_iff. intros [I|I]; auto. apply (Dx z); simpl; auto.
  - apply IHr; auto. intros z' Z'. apply Dx. simpl; auto.
Qed.

Lemma NoDup_map_cons {A} (x : A) l : NoDup l -> NoDup (map (cons x) l).
Proof. intro N. apply FinFun.Injective_map_NoDup; auto. intros a b E. congruence. Qed.

Lemma flat_map_map {A B C} (f : B -> list C) (g : A -> B) l : flat_map f (map g l) = flat_map (fun x => f (g x)) l.
Proof. induction l; simpl; congruence. Qed.
Lemma map_flat_map {A B C} (f : B -> C) (g : A -> list B) l : map f (flat_map g l) = flat_map (fun x => map f (g x)) l.
Proof. induction l as [|x l IH]; simpl; auto. rewrite map_app. congruence. Qed.
Lemma flat_map_eq {A B} (f g : A -> list B) l : (forall x, In x l -> f x = g x) -> flat_map f l = flat_map g l.
Proof. induction l as [|x l IH]; simpl; intro E; auto. rewrite (E x), IH; auto. Qed.

(** ** Exactly the arrangements of [k] values of [Q], each once *)

Definition arranges {A} (Q : list A) (k : nat) (R : list (list A)) : Prop :=
  NoDup R /\ forall r, In r R <-> NoDup r /\ incl r Q /\ length r = k.

Lemma arranges_0 {A} (Q : list A) : arranges Q 0 [[]].
Proof.
  split; [repeat constructor; simpl; tauto|]. intro r. simpl. split.
  - intros [<-|[]]. split; [constructor|]. split; auto. intros x [].
  - intros (_ & _ & L). left. destruct r; simpl in *; auto. discriminate.
Qed.

Lemma arranges_S {A} (Q : list A) k (E : list (A * list (list A))) :
  NoDup (map fst E) -> (forall x, In x (map fst E) <-> In x Q) ->
  (forall x R, In (x, R) E -> NoDup R /\ forall r, In r R <-> NoDup (x :: r) /\ incl r Q /\ length r = k) ->
  arranges Q (S k) (flat_map (fun e => map (cons (fst e)) (snd e)) E).
Proof.
  intros N M F. split.
  - apply NoDup_flat_map.
    + eapply NoDup_map_inv; eauto.
    + intros [x R] I. apply NoDup_map_cons. apply (F x R I).
    + intros [x R] [y R'] z I I' Z Z'. simpl in *. apply in_map_iff in Z. apply in_map_iff in Z'.
      destruct Z as (r & <- & _), Z' as (r' & Er & _). injection Er as -> _.
      clear - N I I'. induction E as [|e E IH]; simpl in *; [tauto|]. inversion N; subst.
      destruct I as [->|I], I' as [Ee|I']; auto.
      * exfalso. apply H1. apply in_map_iff. exists (x, R'). auto.
      * subst e. exfalso. apply H1. apply in_map_iff. exists (x, R). auto.
  - intro r. rewrite in_flat_map. split.
    + intros ([x R] & I & J). simpl in J. apply in_map_iff in J. destruct J as (r' & <- & J).
      destruct (F x R I) as [_ Fx]. apply Fx in J. destruct J as (Nr & Ir & L). split; auto. split; [|simpl; auto].
      intros y [<-|Y]; auto. apply M. apply in_map_iff. exists (x, R). auto.
    + intros (Nr & Ir & L). destruct r as [|x r]; [discriminate|].
      assert (X : In x (map fst E)) by (apply M, Ir; left; auto).
      apply in_map_iff in X. destruct X as ([x' R] & Ex & I). simpl in Ex. subst x'.
      exists (x, R). split; auto. simpl. apply in_map. apply (F x R I). split; auto. split.
      * intros y Y. apply Ir. right; auto.
      * simpl in L. lia.
Qed.

(** ** [random.sample] *)

Lemma firstn_seq_nth {A} (d : A) P n : n <= length P -> firstn n P = map (fun j => nth j P d) (seq 0 n).
Proof.
  revert P. induction n as [|n IH]; intros [|x P] L; simpl in *; try lia; auto.
  f_equal. rewrite <- seq_shift, map_map. rewrite (IH P) by lia. auto.
Qed.

Lemma set_nth_length {A} i (x : A) l : length (set_nth i x l) = length l.
Proof. revert i. induction l as [|y l IH]; intros [|i]; simpl; auto. Qed.
Lemma set_nth_app {A} (a : list A) x y b : set_nth (length a) x (a ++ y :: b) = a ++ x :: b.
Proof. induction a as [|z a IH]; simpl; congruence. Qed.

(** Taking one value out of the live part of the pool. *)
Lemma pool_step {A} (P : list A) n j x y : j < n -> nth_error P j = Some x -> nth_error P (n - 1) = Some y ->
  Permutation (firstn n P) (x :: firstn (n - 1) (set_nth j y P)).
Proof.
  intros J Ex Ey. apply nth_error_split in Ex. destruct Ex as (a & b & -> & La).
  rewrite <- La, set_nth_app. rewrite !firstn_app. rewrite La.
  replace (firstn n a) with a by (symmetry; apply firstn_all2; lia).
  replace (firstn (n - 1) a) with a by (symmetry; apply firstn_all2; lia).
  rewrite nth_error_app2, La in Ey by lia.
  destruct (n - j) as [|d] eqn:D; [lia|]. replace (n - 1 - j) with d in * by lia.
  destruct d as [|d]; simpl in *.
  - rewrite app_nil_r. apply Permutation_sym, Permutation_cons_append.
  - apply Permutation_sym. apply Permutation_cons_app. apply Permutation_app_head.
    clear - Ey. revert b Ey. induction d as [|d IH]; intros [|z b] Ey; simpl in *; try discriminate.
    + injection Ey as ->. auto.
    + apply (Permutation_trans (perm_swap z y (firstn d b))). apply perm_skip. apply IH; auto.
Qed.

Lemma pool_arranges {A} k : forall n (P : list A), k <= n -> n <= length P -> NoDup (firstn n P) ->
  arranges (firstn n P) k (map (pool_sample P n) (pool_runs n k)).
Proof.
  induction k as [|k IH]; intros n P K L N; [apply arranges_0|].
  destruct P as [|d P0] eqn:EP; [simpl in L; lia|]. rewrite <- EP in *. clear EP P0.
  set (next j := set_nth j (nth (n - 1) P d) P).
  cbn [pool_runs]. rewrite map_flat_map.
  rewrite (flat_map_eq _ (fun j => map (cons (nth j P d)) (map (pool_sample (next j) (n - 1)) (pool_runs (n - 1) k)))).
  2:{ intros j J. apply in_seq in J. rewrite !map_map. apply map_ext. intro js. cbn [pool_sample].
      rewrite (nth_error_nth' P d) by lia. rewrite (nth_error_nth' P d) by lia. reflexivity. }
  rewrite <- (flat_map_map (fun e => map (cons (fst e)) (snd e))
     (fun j => (nth j P d, map (pool_sample (next j) (n - 1)) (pool_runs (n - 1) k)))).
  assert (EM : map fst (map (fun j => (nth j P d, map (pool_sample (next j) (n - 1)) (pool_runs (n - 1) k))) (seq 0 n)) = firstn n P).
  { rewrite map_map. symmetry. apply firstn_seq_nth; auto. }
  apply arranges_S.
  - rewrite EM. auto.
  - intro x. rewrite EM. tauto.
  - intros x R I. apply in_map_iff in I. destruct I as (j & E & J). injection E as <- <-. apply in_seq in J.
    assert (PS : Permutation (firstn n P) (nth j P d :: firstn (n - 1) (set_nth j (nth (n - 1) P d) P))).
    { apply pool_step; [lia|apply nth_error_nth'; lia|apply nth_error_nth'; lia]. }
    fold (next j) in PS. assert (N' := Permutation_NoDup PS N). inversion N' as [|? ? X N2]; subst.
    destruct (IH (n - 1) (next j)) as [A1 A2]; [lia|unfold next; rewrite set_nth_length; lia|auto|].
    split; auto. intro r. rewrite A2. split.
    + intros (Nr & Ir & Lr). split; [|split; auto].
      * constructor; auto.
      * intros y Y. apply (Permutation_in y (Permutation_sym PS)). right. auto.
    + intros (Nr & Ir & Lr). inversion Nr as [|? ? X' Nr']; subst. split; auto. split; auto. intros y Y.
      assert (Y' := Permutation_in y PS (Ir y Y)). destruct Y' as [<-|]; auto. tauto.
Qed.

Lemma set_arranges k n : forall used, NoDup used -> (forall j, In j used -> j < n) ->
  NoDup (set_runs n used k) /\
  forall js, In js (set_runs n used k) <-> NoDup js /\ incl js (filter (fun j => negb (mem j used)) (seq 0 n)) /\ length js = k.
Proof.
  induction k as [|k IH]; intros used N U; [apply (arranges_0 (filter (fun j => negb (mem j used)) (seq 0 n)))|].
  cbn [set_runs]. set (Q := filter (fun j => negb (mem j used)) (seq 0 n)).
  rewrite (flat_map_eq _ (fun x => (fun e : nat * list (list nat) => map (cons (fst e)) (snd e)) (x, set_runs n (x :: used) k))) by auto.
  rewrite <- (flat_map_map (fun e : nat * list (list nat) => map (cons (fst e)) (snd e)) (fun j => (j, set_runs n (j :: used) k))).
  assert (EM : map fst (map (fun j => (j, set_runs n (j :: used) k)) Q) = Q) by (rewrite map_map; apply map_id).
  apply arranges_S.
  - rewrite EM. apply NoDup_filter, seq_NoDup.
  - intro x. rewrite EM. tauto.
  - intros x R I. apply in_map_iff in I. destruct I as (j & E & J). injection E as <- <-.
    unfold Q in J. apply filter_In in J. destruct J as [J1 J2]. apply negb_true_iff, mem_nIn in J2. apply in_seq in J1.
    destruct (IH (j :: used)) as [A1 A2].
    { constructor; auto. }
    { intros i [<-|I]; auto. lia. }
    split; auto. intro r. rewrite A2. unfold Q.
    assert (EQ : forall y, In y (filter (fun i => negb (mem i (j :: used))) (seq 0 n)) <-> In y (filter (fun i => negb (mem i used)) (seq 0 n)) /\ y <> j).
    { intro y. rewrite !filter_In, !negb_true_iff, !mem_nIn. simpl. split; intros; repeat split; try tauto.
      - intros ->. tauto.
      - intros [->|]; tauto. }
    split.
    + intros (Nr & Ir & Lr). split; [|split; auto].
      * constructor; auto. intro X. apply Ir, EQ in X. tauto.
      * intros y Y. apply Ir, EQ in Y. tauto.
    + intros (Nr & Ir & Lr). inversion Nr; subst. split; auto. split; auto. intros y Y. apply EQ. split; auto. congruence.
Qed.

Lemma set_sample_nth {A} (d : A) l js : (forall j, In j js -> j < length l) -> set_sample l js = map (fun j => nth j l d) js.
Proof.
  induction js as [|j js IH]; simpl; intro B; auto.
  rewrite (nth_error_nth' l d) by auto. f_equal. apply IH. auto.
Qed.

Lemma sample_arranges {A} pool k (l : list A) : k <= length l -> NoDup l ->
  arranges l k (map (fun js => random_sample pool js l k) (sample_runs pool (length l) k)).
Proof.
  intros K N. unfold random_sample, sample_runs. destruct pool.
  - assert (P := pool_arranges k (length l) l K (le_n _)). rewrite firstn_all in P. auto.
  - destruct (set_arranges k (length l) [] (NoDup_nil _) (fun j (J : In j []) => match J with end)) as [A1 A2].
    assert (A2' : forall js, In js (set_runs (length l) [] k) <-> NoDup js /\ (forall j, In j js -> j < length l) /\ length js = k).
    { intro js. rewrite A2. unfold incl. split; intros (X1 & X2 & X3); split; auto; split; auto; intros j J.
      - assert (X := X2 j J). apply filter_In in X. destruct X as [X _]. apply in_seq in X. lia.
      - apply filter_In. split; auto. apply in_seq. assert (X := X2 j J). lia. }
    clear A2. destruct l as [|d l0] eqn:El.
    { simpl in K. assert (k = 0) by lia. subst k. apply (arranges_0 (@nil A)). }
    rewrite <- El in *. clear El l0.
    assert (EM : map (fun js => set_sample l js) (set_runs (length l) [] k) = map (map (fun j => nth j l d)) (set_runs (length l) [] k)).
    { apply map_ext_in. intros js J. apply set_sample_nth. apply A2' in J. tauto. }
    rewrite EM. clear EM. split.
    + apply (NoDup_map_inv (map (fun x => x))). rewrite map_map. rewrite (map_ext _ (map (fun j => nth j l d))) by (intro; apply map_id).
      revert A1 A2'. generalize (set_runs (length l) [] k). intros RS A1 A2'.
      assert (B : forall js, In js RS -> forall j, In j js -> j < length l) by (intros js J; apply A2' in J; tauto).
      clear A2'. induction A1 as [|js RS X A1 IH]; simpl; constructor.
      * intro I. apply in_map_iff in I. destruct I as (js' & E & I). apply X. replace js with js'; auto.
        assert (B1 := B js (or_introl eq_refl)). assert (B2 := B js' (or_intror I)). clear - N E B1 B2.
        revert js' E B2. induction js as [|j js IH]; intros [|j' js'] E B2; simpl in *; try discriminate; auto.
        injection E as E1 E2. f_equal.
        -- eapply NoDup_nth; eauto.
        -- apply IH; auto.
      * apply IH. intros; eapply B; simpl; eauto.
    + intro r. rewrite in_map_iff. split.
      * intros (js & <- & J). apply A2' in J. destruct J as (Nj & Bj & Lj). split; [|split].
        -- clear - N Nj Bj. induction Nj as [|j js X Nj IH]; simpl; constructor.
           ++ intro I. apply in_map_iff in I. destruct I as (j' & E & I). apply X. replace j with j'; auto.
              eapply (proj1 (NoDup_nth l d) N); simpl in *; auto.
           ++ apply IH. intros; apply Bj; simpl; auto.
        -- intros y Y. apply in_map_iff in Y. destruct Y as (j & <- & J). apply nth_In. auto.
        -- rewrite map_length. auto.
      * intros (Nr & Ir & Lr).
        assert (G : exists js, map (fun j => nth j l d) js = r /\ forall j, In j js -> j < length l).
        { clear - Ir. induction r as [|x r IH]; [exists []; simpl; tauto|]. destruct IH as (js & E & B).
          { intros y Y. apply Ir. simpl; auto. }
          destruct (In_nth l x d (Ir x (or_introl eq_refl))) as (j & J & Ej). exists (j :: js). simpl. split; [congruence|].
          intros i [<-|I]; auto. }
        destruct G as (js & E & B). exists js. split; auto. apply A2'. split; [|split; auto].
        -- apply (NoDup_map_inv (fun j => nth j l d)). rewrite E. auto.
        -- rewrite <- Lr, <- E, map_length. auto.
Qed.

(** ** [random.shuffle] *)

Lemma skipn_here {A} (a b : list A) : skipn (length a) (a ++ b) = b.
Proof. induction a; simpl; auto. Qed.
Lemma skipn_next {A} (a b : list A) x : skipn (S (length a)) (a ++ x :: b) = b.
Proof. induction a; simpl; auto. Qed.

Lemma swap_nth {A} i j (l : list A) x y : j <= i -> nth_error l i = Some x -> nth_error l j = Some y ->
  Permutation l (swap i j l) /\ skipn i (swap i j l) = y :: skipn (S i) l.
Proof.
  intros J Ex Ey. unfold swap. rewrite Ex, Ey.
  destruct (Nat.eq_dec i j) as [<-|Ne].
  - assert (y = x) by congruence. subst y. apply nth_error_split in Ex. destruct Ex as (a & b & -> & La).
    rewrite <- La. rewrite !set_nth_app. split; auto.
    rewrite skipn_here, skipn_next. auto.
  - apply nth_error_split in Ey. destruct Ey as (a & b & -> & La). subst j.
    rewrite nth_error_app2 in Ex by lia. destruct (i - length a) as [|q] eqn:Q; [lia|]. simpl in Ex.
    apply nth_error_split in Ex. destruct Ex as (b1 & b2 & -> & Lb).
    assert (E1 : set_nth i y (a ++ y :: b1 ++ x :: b2) = a ++ y :: b1 ++ y :: b2).
    { replace i with (length (a ++ y :: b1)) by (rewrite app_length; simpl; lia).
      change (a ++ y :: b1 ++ x :: b2) with (a ++ (y :: b1) ++ x :: b2). rewrite app_assoc, set_nth_app, <- app_assoc. auto. }
    rewrite E1, set_nth_app. split.
    + apply Permutation_app_head. clear. apply Permutation_trans with (x :: y :: b1 ++ b2).
      * apply (Permutation_trans (l' := y :: x :: b1 ++ b2)); [|apply perm_swap]. apply perm_skip, Permutation_sym, Permutation_middle.
      * apply perm_skip, Permutation_middle.
    + assert (Li : i = length (a ++ x :: b1)) by (rewrite app_length; simpl; lia).
      change (a ++ x :: b1 ++ y :: b2) with (a ++ (x :: b1) ++ y :: b2). rewrite app_assoc.
      rewrite Li at 1. rewrite skipn_here. f_equal.
      change (a ++ y :: b1 ++ x :: b2) with (a ++ (y :: b1) ++ x :: b2). rewrite app_assoc.
      replace i with (length (a ++ y :: b1)) by (rewrite Li, !app_length; auto). rewrite skipn_next. auto.
Qed.

Lemma skipn_split {A} i (l : list A) x r : skipn i l = x :: r -> nth_error l i = Some x /\ skipn (S i) l = r.
Proof.
  revert l. induction i as [|i IH]; intros [|y l] E; simpl in *; try discriminate.
  - injection E as -> ->. auto.
  - apply IH; auto.
Qed.

Lemma shuffle_orders {A} i : forall (l : list A), i < length l -> NoDup l ->
  NoDup (map (fun js => shuffle_from i js l) (runs_from i)) /\
  forall r, In r (map (fun js => shuffle_from i js l) (runs_from i)) <-> Permutation l r /\ skipn (S i) r = skipn (S i) l.
Proof.
  induction i as [|i IH]; intros l L N.
  - simpl. split; [repeat constructor; simpl; tauto|]. intro r. split.
    + intros [<-|[]]. auto.
    + intros [P E]. left. destruct l as [|x l]; [simpl in L; lia|]. destruct r as [|y r].
      * apply Permutation_sym, Permutation_nil in P. discriminate.
      * simpl in E. subst r. apply Permutation_app_inv_r with (l1 := [x]) (l2 := [y]) (l := l) in P.
        apply Permutation_length_1 in P. congruence.
  - cbn [runs_from]. rewrite map_flat_map.
    rewrite (flat_map_eq _ (fun j => map (fun js => shuffle_from i js (swap (S i) j l)) (runs_from i))).
    2:{ intros j J. rewrite map_map. reflexivity. }
    destruct (nth_error l (S i)) as [x|] eqn:Ex; [|apply nth_error_None in Ex; lia].
    assert (SW : forall j, In j (seq 0 (S i + 1)) -> exists y, nth_error l j = Some y /\
       Permutation l (swap (S i) j l) /\ skipn (S i) (swap (S i) j l) = y :: skipn (S (S i)) l).
    { intros j J. apply in_seq in J. destruct (nth_error l j) as [y|] eqn:Ey; [|apply nth_error_None in Ey; lia].
      exists y. split; auto. eapply swap_nth; eauto. lia. }
    assert (H : forall j, In j (seq 0 (S i + 1)) ->
      NoDup (map (fun js => shuffle_from i js (swap (S i) j l)) (runs_from i)) /\
      forall r, In r (map (fun js => shuffle_from i js (swap (S i) j l)) (runs_from i)) <->
        Permutation l r /\ skipn (S i) r = skipn (S i) (swap (S i) j l)).
    { intros j J. destruct (SW j J) as (y & _ & P & _).
      destruct (IH (swap (S i) j l)) as [A1 A2].
      { rewrite <- (Permutation_length P). lia. }
      { apply (Permutation_NoDup P N). }
      split; auto. intro r. rewrite A2. split; intros [Pr Er]; split; auto.
      - apply (Permutation_trans P Pr).
      - apply (Permutation_trans (Permutation_sym P) Pr). }
    split.
    + apply NoDup_flat_map; [apply seq_NoDup| |].
      * intros j J. apply (H j J).
      * intros j j' r J J' R R'. apply (H j J) in R. apply (H j' J') in R'.
        destruct (SW j J) as (y & Ey & _ & Sy). destruct (SW j' J') as (y' & Ey' & _ & Sy').
        assert (y = y') by (rewrite (proj2 R) in R'; rewrite Sy, Sy' in R'; destruct R' as [_ R']; congruence).
        subst y'. apply (proj1 (NoDup_nth_error l) N); [|congruence]. apply nth_error_Some. congruence.
    + intro r. rewrite in_flat_map. split.
      * intros (j & J & R). apply (H j J) in R. destruct R as [P E]. split; auto.
        destruct (SW j J) as (y & Ey & _ & Sy). rewrite Sy in E. apply skipn_split in E. tauto.
      * intros [P E].
        destruct (nth_error r (S i)) as [y|] eqn:Er.
        2:{ apply nth_error_None in Er. rewrite <- (Permutation_length P) in Er. lia. }
        assert (Sr : skipn (S i) r = y :: skipn (S (S i)) r).
        { clear - Er. revert r Er. induction (S i) as [|k IHk]; intros [|z r] Er; simpl in *; try discriminate; [congruence|apply IHk; auto]. }
        assert (Y : In y (firstn (S (S i)) l)).
        { assert (Y1 : In y l). { apply (Permutation_in y (Permutation_sym P)). eapply nth_error_In; eauto. }
          rewrite <- (firstn_skipn (S (S i)) l) in Y1. apply in_app_or in Y1. destruct Y1; auto. exfalso.
          rewrite <- E in H0. assert (Nr := Permutation_NoDup P N). rewrite <- (firstn_skipn (S i) r), Sr in Nr.
          apply NoDup_remove_2 in Nr. apply Nr, in_or_app. auto. }
        apply In_nth_error in Y. destruct Y as [j Ej].
        assert (J : j < S (S i)). { assert (Q : nth_error (firstn (S (S i)) l) j <> None) by congruence. apply nth_error_Some in Q. rewrite firstn_length in Q. lia. }
        exists j. assert (J' : In j (seq 0 (S i + 1))) by (apply in_seq; lia). split; auto. apply (H j J'). split; auto.
        destruct (SW j J') as (y' & Ey' & _ & Sy). rewrite Sy, Sr, E. f_equal.
        rewrite <- (firstn_skipn (S (S i)) l), nth_error_app1 in Ey' by (rewrite firstn_length; lia). congruence.
Qed.

Lemma random_shuffle_orders {A} (l : list A) : NoDup l ->
  NoDup (map (fun js => random_shuffle js l) (shuffle_runs (length l))) /\
  forall r, In r (map (fun js => random_shuffle js l) (shuffle_runs (length l))) <-> Permutation l r.
Proof.
  intro N. unfold random_shuffle, shuffle_runs. destruct l as [|x l0] eqn:El.
  - simpl. split; [repeat constructor; simpl; tauto|]. intro r. split.
    + intros [<-|[]]. auto.
    + intro P. apply Permutation_nil in P. auto.
  - rewrite <- El in *. assert (L : length l - 1 < length l) by (rewrite El; simpl; lia).
    destruct (shuffle_orders (length l - 1) l L N) as [A1 A2]. split; auto. intro r. rewrite A2. split; [tauto|].
    intro P. split; auto. rewrite !skipn_all2; auto; [lia|rewrite <- (Permutation_length P); lia].
Qed.

(** ** Every value is as frequent as another *)

Section Exchange.
  Context {A : Type} `{EqB A}.

  Definition exchange (x y z : A) : A := if eqb z x then y else if eqb z y then x else z.
  Lemma exchange_l x y : exchange x y x = y.
  Proof. unfold exchange. rewrite eqb_refl. auto. Qed.
  Lemma exchange_twice x y z : exchange x y (exchange x y z) = z.
  Proof.
    unfold exchange. destruct (eqb_spec z x) as [->|Nx].
    - destruct (eqb_spec y x); auto. rewrite eqb_refl. auto.
    - destruct (eqb_spec z y) as [->|Ny]; [rewrite eqb_refl; auto|].
      destruct (eqb_spec z x); [tauto|]. destruct (eqb_spec z y); tauto.
  Qed.
  Lemma exchange_inj x y a b : exchange x y a = exchange x y b -> a = b.
  Proof. intro E. rewrite <- (exchange_twice x y a), E. apply exchange_twice. Qed.

  Variable L : list A.
  Variable T : list (list A).
  Variable k : nat.
  Hypothesis NL : NoDup L.
  Hypothesis NS : NoDup T.
  Hypothesis GS : forall r, In r T -> NoDup r /\ incl r L /\ k <= length r.
  Hypothesis CS : forall x y r, In x L -> In y L -> In r T -> In (map (exchange x y) r) T.

  Definition having (x : A) : list (list A) := filter (fun r => mem x (firstn k r)) T.

  Lemma having_le x y : In x L -> In y L -> length (having x) <= length (having y).
  Proof.
    intros X Y. rewrite <- (map_length (map (exchange x y))). apply NoDup_incl_length.
    - apply FinFun.Injective_map_NoDup; [|apply NoDup_filter; auto].
      intros a b E. clear - E. revert b E. induction a as [|u a IH]; intros [|v b] E; simpl in *; try discriminate; auto.
      injection E as E1 E2. f_equal; auto. eapply exchange_inj; eauto.
    - intros r R. apply in_map_iff in R. destruct R as (r0 & <- & R). unfold having in *. apply filter_In in R. destruct R as [R M].
      apply filter_In. split; auto. apply mem_In in M. apply mem_In. rewrite firstn_map. apply in_map_iff. exists x.
      split; auto. apply exchange_l.
  Qed.

  Lemma sum_const (f : A -> nat) c l : (forall x, In x l -> f x = c) -> list_sum (map f l) = length l * c.
  Proof. induction l as [|x l IH]; simpl; intro F; [auto|]. rewrite F, IH; auto. Qed.
  Lemma sum_add (f g : A -> nat) l : list_sum (map (fun x => f x + g x) l) = list_sum (map f l) + list_sum (map g l).
  Proof. induction l as [|x l IH]; simpl; [auto|]. rewrite IH. lia. Qed.

  Lemma having_total : list_sum (map (fun x => length (having x)) L) = k * length T.
  Proof.
    unfold having. clear NS CS. induction T as [|r T0 IH].
    - simpl. rewrite Nat.mul_0_r. rewrite (sum_const _ 0); auto.
    - rewrite (map_ext _ (fun x => (if mem x (firstn k r) then 1 else 0) + length (filter (fun r => mem x (firstn k r)) T0))).
      2:{ intro x. simpl. destruct (mem x (firstn k r)); auto. }
      rewrite sum_add, IH by (intros; apply GS; simpl; auto). cbn [length]. rewrite Nat.mul_succ_r, Nat.add_comm. f_equal.
      destruct (GS r (or_introl eq_refl)) as (Nr & Ir & Lr).
      assert (E : list_sum (map (fun x => if mem x (firstn k r) then 1 else 0) L) = length (filter (fun x => mem x (firstn k r)) L)).
      { clear. induction L as [|x L0 IH]; simpl; auto. rewrite IH. destruct (mem x (firstn k r)); auto. }
      rewrite E. transitivity (length (firstn k r)); [|rewrite firstn_length; lia].
      apply Permutation_length, NoDup_Permutation.
      + apply NoDup_filter; auto.
      + rewrite <- (firstn_skipn k r) in Nr. clear - Nr. induction (firstn k r) as [|y a IH]; [constructor|].
        inversion Nr; subst. constructor; auto. intro X. apply H1. apply in_or_app. auto.
      + intro x. rewrite filter_In, mem_In. split; [tauto|]. intro X. split; auto. apply Ir.
        rewrite <- (firstn_skipn k r). apply in_or_app; auto.
  Qed.

  Lemma fair x : In x L -> length (having x) * length L = k * length T.
  Proof.
    intro X. rewrite <- having_total. rewrite (sum_const _ (length (having x))); [lia|].
    intros y Y. apply Nat.le_antisymm; apply having_le; auto.
  Qed.
End Exchange.

Lemma arranges_fair {A} `{EqB A} (Q : list A) k R x : NoDup Q -> arranges Q k R -> In x Q ->
  length (filter (fun r => mem x r) R) * length Q = k * length R.
Proof.
  intros N [NR M] X. rewrite <- (fair Q R k N NR) with (x := x); auto.
  - f_equal. f_equal. unfold having. apply filter_ext_in. intros r I. apply M in I. rewrite firstn_all2; auto. lia.
  - intros r I. apply M in I. destruct I as (? & ? & <-). auto.
  - intros a b r Ia Ib I. apply M in I. destruct I as (Nr & Ir & Lr). apply M. split; [|split].
    + apply FinFun.Injective_map_NoDup; auto. intros u v. apply exchange_inj.
    + intros y Y. apply in_map_iff in Y. destruct Y as (z & <- & Z). unfold exchange. destruct (eqb z a); auto. destruct (eqb z b); auto.
    + rewrite map_length. auto.
Qed.

Lemma orders_fair {A} `{EqB A} (Q : list A) k R x : NoDup Q -> k <= length Q -> NoDup R -> (forall r, In r R <-> Permutation Q r) -> In x Q ->
  length (filter (fun r => mem x (firstn k r)) R) * length Q = k * length R.
Proof.
  intros N K NR M X. apply (fair Q R k N NR); auto.
  - intros r I. apply M in I. split; [apply (Permutation_NoDup I N)|]. split.
    + intros y Y. apply (Permutation_in y (Permutation_sym I) Y).
    + rewrite <- (Permutation_length I). auto.
  - intros a b r Ia Ib I. apply M in I. apply M.
    apply (Permutation_trans (l' := map (exchange a b) Q)); [|apply Permutation_map; auto].
    apply NoDup_Permutation; auto.
    + apply FinFun.Injective_map_NoDup; auto. intros u v. apply exchange_inj.
    + assert (G : forall y, In y Q -> In (exchange a b y) Q) by (intros y Y; unfold exchange; destruct (eqb y a); auto; destruct (eqb y b); auto).
      intro y. split.
      * intro Y. apply in_map_iff. exists (exchange a b y). split; auto. apply exchange_twice.
      * intro Y. apply in_map_iff in Y. destruct Y as (z & <- & Z). auto.
Qed.

(** One run for every answer. *)
Lemma map_unique {A B} (f : A -> B) l r : NoDup (map f l) -> In r (map f l) -> exists! js, In js l /\ f js = r.
Proof.
  intros N I. apply in_map_iff in I. destruct I as (js & E & J). exists js. split; auto. intros js' [J' E'].
  subst r. clear - N J J' E'. induction l as [|a l IH]; simpl in *; [tauto|]. inversion N; subst.
  destruct J as [->|J], J' as [->|J']; auto; exfalso; apply H1; apply in_map_iff; eauto.
Qed.
