(** * With exact arithmetic, the run is the one of Frey and Dueck. *)

From Coq Require Import String List Bool Arith ZArith Lia Permutation Sorted.
From Verif Require Import Base Manager Spec Closure ManagerProofs ManagerInv ManagerQueries ManagerThms
  Sampling SamplingSpec SamplingProofs SamplingThms Rename ClusterSpec RenameThms ClusterProofs KMeans KMeansSpec KMeansProofs KMeansThms
  Spectral SpectralSpec SpectralThms HierProofs HierRun Affinity AffinitySpec AffinityProofs AffinityRun.
Import ListNotations.
Open Scope nat_scope.
Open Scope py_scope.

Lemma sorted_filter_seq f k : forall a, StronglySorted lt (filter f (seq a k)).
Proof.
  induction k as [|k IH]; intro a; cbn [seq filter]; [constructor|]. destruct (f a); [|apply IH]. constructor; [apply IH|].
  rewrite Forall_forall. intros x J. apply filter_In in J as [J _]. apply in_seq in J. lia.
Qed.

Section Exact.
  Context {D : Type}.
  Variable o : ops D.
  Variable fin : D -> Prop.
  Variable le : D -> D -> Prop.
  Hypothesis X : exact o fin le.
  Notation zero := (o_zero D o).
  Notation add := (o_add D o).
  Notation sub := (o_sub D o).
  Notation neg := (o_neg D o).
  Notation max2 := (o_max2 D o).
  Notation sum := (o_sum D o).
  Notation pos_part x := (o_max2 D o x (o_zero D o)).

  Let fz := ex_zero o fin le X.
  Let fadd := ex_add o fin le X.
  Let fneg := ex_neg o fin le X.

  Lemma exact_argmax : valid_argmax o.
  Proof. intros l NE. destruct (ex_argmax o fin le X l NE) as (x & E & _). apply nth_error_Some. congruence. Qed.

  Lemma fsub x y : fin x -> fin y -> fin (sub x y).
  Proof. intros. rewrite (ex_sub o fin le X). auto. Qed.
  Lemma fmax2 x y : fin x -> fin y -> fin (max2 x y).
  Proof. intros. destruct (ex_max2 o fin le X x y) as [[->| ->] _]; auto. Qed.
  Lemma zero_l x : add zero x = x.
  Proof. rewrite (ex_comm o fin le X). apply (ex_zero_r o fin le X). Qed.
  Lemma opp_l x : fin x -> add (neg x) x = zero.
  Proof. intro. rewrite (ex_comm o fin le X). apply (ex_opp o fin le X); auto. Qed.
  Lemma neg_neg x : fin x -> neg (neg x) = x.
  Proof.
    intro F. rewrite <- (ex_zero_r o fin le X (neg (neg x))). rewrite <- (opp_l x F).
    rewrite (ex_assoc o fin le X) by auto. rewrite opp_l by auto. apply zero_l.
  Qed.
  Lemma neg_zero : neg zero = zero.
  Proof. rewrite <- (zero_l (neg zero)). apply (ex_opp o fin le X). auto. Qed.
  Lemma cancel x y z : fin x -> fin y -> fin z -> add x y = add x z -> y = z.
  Proof.
    intros Fx Fy Fz E. rewrite <- (zero_l y), <- (zero_l z), <- (opp_l x Fx). rewrite <- !(ex_assoc o fin le X) by auto. congruence.
  Qed.
  Lemma neg_unique x y : fin x -> fin y -> add x y = zero -> y = neg x.
  Proof. intros Fx Fy E. apply (cancel x); auto. rewrite E. symmetry. apply (ex_opp o fin le X); auto. Qed.
  Lemma neg_le x y : fin x -> fin y -> le x y -> le (neg y) (neg x).
  Proof.
    intros Fx Fy L.
    assert (Q := ex_le_add o fin le X x y (add (neg x) (neg y)) Fx Fy (fadd _ _ (fneg _ Fx) (fneg _ Fy)) L).
    rewrite (ex_assoc o fin le X), (ex_opp o fin le X), zero_l in Q by auto.
    rewrite (ex_comm o fin le X (neg x)), (ex_assoc o fin le X), (ex_opp o fin le X), zero_l in Q by auto. auto.
  Qed.
  Lemma swap3 x y z : fin x -> fin y -> fin z -> add x (add y z) = add y (add x z).
  Proof. intros. rewrite !(ex_assoc o fin le X) by auto. rewrite (ex_comm o fin le X x y). auto. Qed.

  Lemma fsum l : (forall x, In x l -> fin x) -> fin (sum l).
  Proof.
    induction l as [|x l IH]; intro F; [rewrite (ex_sum_nil o fin le X); auto|]. rewrite (ex_sum_cons o fin le X).
    apply fadd; [apply F; left; auto|apply IH; intros; apply F; right; auto].
  Qed.

  Lemma sum_extract (f : nat -> D) k l : NoDup l -> In k l -> (forall i, In i l -> fin (f i)) ->
    sum (map f l) = add (f k) (sum (map f (filter (fun i => negb (Nat.eqb i k)) l))).
  Proof.
    induction l as [|x l IH]; intros ND J F; [destruct J|]. inversion ND as [|? ? N ND']; subst.
    cbn [map filter]. rewrite (ex_sum_cons o fin le X). destruct (Nat.eqb_spec x k) as [->|NE]; cbn [negb].
    - f_equal. f_equal. f_equal. symmetry. clear - N. induction l as [|y l IH]; cbn [filter]; auto.
      destruct (Nat.eqb_spec y k) as [->|]; [exfalso; apply N; left; auto|]. cbn [negb]. f_equal. apply IH. intro; apply N; right; auto.
    - destruct J as [->|J]; [congruence|]. rewrite IH by (auto; intros; apply F; right; auto). cbn [map]. rewrite (ex_sum_cons o fin le X).
      apply swap3; [apply F; left; auto|apply F; right; auto|]. apply fsum. intros v V. apply in_map_iff in V as (i & <- & V).
      apply filter_In in V as [V _]. apply F; right; auto.
  Qed.

  Lemma sum_ext (f g : nat -> D) l : (forall i, In i l -> f i = g i) -> sum (map f l) = sum (map g l).
  Proof. intro E. f_equal. apply map_ext_in. auto. Qed.

  Lemma pos_part_neg t : fin t -> exists v, (v = zero \/ v = t) /\ le v zero /\ le v t /\ fin v /\ max2 (neg t) zero = neg v.
  Proof.
    intro F. exists (neg (max2 (neg t) zero)). destruct (ex_max2 o fin le X (neg t) zero) as ([E|E] & L1 & L2).
    - rewrite E in *. rewrite (neg_neg t F). split; auto. split.
      { apply neg_le in L2; auto. rewrite neg_zero, (neg_neg t F) in L2. auto. }
      split; [apply (ex_refl o fin le X)|]. split; [exact F|reflexivity].
    - rewrite E in *. rewrite neg_zero. split; auto. split; [apply (ex_refl o fin le X)|]. split.
      { apply neg_le in L1; auto. rewrite neg_zero, (neg_neg t F) in L1. auto. }
      split; [exact fz|symmetry; apply neg_zero].
  Qed.

  Lemma nth_error_combine {A B} (l : list A) (l' : list B) : length l = length l' -> forall i,
    nth_error (combine l l') i = match nth_error l i, nth_error l' i with Some x, Some y => Some (x, y) | _, _ => None end.
  Proof using Type.
    clear. revert l'. induction l as [|x l IH]; intros [|y l'] L [|i]; try discriminate; simpl; auto.
  Qed.

  Section Run.
    Variable n : nat.
    Hypothesis N2 : 2 <= n.
    Variable s : nat -> nat -> D.
    Hypothesis FS : forall i j, i < n -> j < n -> fin (s i j).
    Variable Sp : matrix D.
    Hypothesis SPS : forall i j, i < n -> j < n -> mget o Sp i j = s i j.

    Definition finite (W : matrix D) : Prop := forall i j, i < n -> j < n -> fin (mget o W i j).

    Lemma row_nth (f : nat -> D) j : j < n -> nth_error (map f (seq 0 n)) j = Some (f j).
    Proof. intro L. rewrite nth_error_map, nth_error_seq. destruct (Nat.ltb_spec j n); [auto|lia]. Qed.

    (** Best and second best of a row. *)
    Lemma two_best (f : nat -> D) : (forall j, j < n -> fin (f j)) ->
      let row := map f (seq 0 n) in
      let i0 := o_argmax D o row in
      i0 < n /\ nth i0 row zero = f i0 /\ (forall j, j < n -> le (f j) (f i0)) /\
      exists k, k < n /\ k <> i0 /\ o_max D o (list_set row i0 (o_ninf D o)) = f k /\ forall j, j < n -> j <> i0 -> le (f j) (f k).
    Proof.
      intros F row i0. assert (NE : row <> []) by (unfold row; destruct n as [|n']; [lia|discriminate]).
      assert (LR : length row = n) by (unfold row; rewrite map_length, seq_length; auto).
      destruct (ex_argmax o fin le X row NE) as (x & E & Bst & _). fold i0 in E.
      assert (Li : i0 < n) by (rewrite <- LR; apply nth_error_Some; congruence).
      unfold row in E. rewrite row_nth in E by auto. injection E as <-.
      split; auto. split; [unfold row; apply nth_seq_map; auto|].
      assert (B : forall j, j < n -> le (f j) (f i0)).
      { intros j J. apply Bst. unfold row. apply in_map. apply in_seq. lia. }
      split; auto. set (row' := list_set row i0 (o_ninf D o)).
      assert (NE' : row' <> []) by (intro Q; apply (f_equal (@length _)) in Q; unfold row' in Q; rewrite list_set_length in Q; simpl in Q; lia).
      destruct (ex_max o fin le X row' NE') as [J M].
      assert (M' : forall j, j < n -> j <> i0 -> le (f j) (o_max D o row')).
      { intros j Lj Nj. apply M. apply (nth_error_In _ j). unfold row'. rewrite nth_error_list_set. unfold row. rewrite row_nth by auto.
        destruct (Nat.eqb_spec j i0); [contradiction|auto]. }
      apply In_nth_error in J as [k K]. pose proof K as K'. unfold row' in K'. rewrite nth_error_list_set in K'.
      assert (Lk : k < n). { rewrite <- LR, <- (list_set_length row i0 (o_ninf D o)). apply nth_error_Some. fold row'. congruence. }
      assert (RK : nth_error row k = Some (f k)) by (apply row_nth; auto). rewrite RK in K'. destruct (Nat.eqb_spec k i0) as [->|Nk].
      - exfalso. injection K' as K'.
        assert (exists j, j < n /\ j <> i0) as (j & Lj & Nj).
        { destruct (Nat.eq_dec i0 0) as [->|]; [exists 1; lia|exists 0; lia]. }
        assert (Q := M' j Lj Nj). fold row' in K'. rewrite <- K' in Q. apply (ex_ninf_fin o fin le X).
        rewrite (ex_antisym o fin le X _ _ (ex_ninf o fin le X (f j)) Q). auto.
      - injection K' as K'. exists k. split; auto. split; auto. split; [symmetry; exact K'|]. intros j Lj Nj. rewrite K'. auto.
    Qed.

    Lemma responsibilities_spec A R : finite A -> finite R ->
      responsibility_update o le n s (mget o A) (mget o R) (mget o (responsibilities o n Sp A R)) /\ finite (responsibilities o n Sp A R).
    Proof.
      intros FA FR.
      assert (G : responsibility_update o le n s (mget o A) (mget o R) (mget o (responsibilities o n Sp A R))).
      2:{ split; auto. intros i k Li Lk. destruct (G i k Li Lk) as (k0 & L0 & _ & _ & E). unfold mget at 1 in E. unfold mget at 1. rewrite E.
          apply fadd; [apply (ex_keep o fin le X); apply FR; auto|]. apply (ex_new o fin le X). apply fsub; auto. }
      intros i k Li Lk. unfold responsibilities. cbv zeta.
      set (f := fun j => add (mget o A i j) (s i j)).
      set (tmp := mtab n n (fun i j => add (mget o A i j) (mget o Sp i j))).
      assert (Ti : nth_error tmp i = Some (map f (seq 0 n))).
      { unfold tmp, mtab. rewrite nth_error_map, nth_error_seq. destruct (Nat.ltb_spec i n); [|lia]. cbn [option_map Nat.add]. f_equal.
        apply map_ext_in. intros j J. apply in_seq in J. unfold f. rewrite SPS by lia. auto. }
      assert (LT : length tmp = n) by (apply nrows_mtab).
      destruct (two_best f) as (L0 & E0 & B0 & k1 & L1 & N1 & E1 & B1).
      { intros j Lj. unfold f. apply fadd; auto; apply FA; auto. }
      set (i0 := o_argmax D o (map f (seq 0 n))) in *.
      assert (CI : nth_error (combine tmp (map (o_argmax D o) tmp)) i = Some (map f (seq 0 n), i0)).
      { rewrite nth_error_combine by (rewrite map_length; auto). rewrite nth_error_map, Ti. auto. }
      rewrite mget_mtab by auto. rewrite mget_mtab by auto.
      rewrite (nth_of_error (map (o_argmax D o) tmp) i i0) by (rewrite nth_error_map, Ti; auto).
      rewrite (nth_of_error (map (fun e => nth (snd e) (fst e) zero) (combine tmp (map (o_argmax D o) tmp))) i (f i0)).
      2:{ rewrite nth_error_map, CI. cbn [option_map fst snd]. rewrite E0. auto. }
      rewrite (nth_of_error (map (o_max D o) (map (fun e => list_set (fst e) (snd e) (o_ninf D o)) (combine tmp (map (o_argmax D o) tmp)))) i (f k1)).
      2:{ rewrite !nth_error_map, CI. cbn [option_map fst snd]. rewrite E1. auto. }
      rewrite SPS by auto. destruct (Nat.eqb_spec k i0) as [->|Nk].
      - exists k1. split; [exact L1|]. split; [exact N1|]. split; [exact B1|reflexivity].
      - exists i0. split; [exact L0|]. split; [auto|]. split; [intros k' Lk' _; exact (B0 k' Lk')|reflexivity].
    Qed.

    Lemma indices_but_1 k : indices_but n [k] = filter (fun i => negb (Nat.eqb i k)) (seq 0 n).
    Proof. unfold indices_but. apply filter_ext. intro i. cbn [existsb]. rewrite orb_false_r. auto. Qed.
    Lemma indices_but_2 i k : indices_but n [i; k] = filter (fun j => negb (Nat.eqb j i)) (filter (fun j => negb (Nat.eqb j k)) (seq 0 n)).
    Proof.
      unfold indices_but. generalize (seq 0 n). intro l. induction l as [|j l IH]; auto. cbn [filter].
      rewrite IH. cbn [existsb]. rewrite orb_false_r. destruct (Nat.eqb j k) eqn:K; cbn [negb filter]; [rewrite orb_true_r; auto|].
      rewrite orb_false_r. auto.
    Qed.

    Lemma availabilities_spec R A : finite R -> finite A ->
      availability_update o le n (mget o R) (mget o A) (mget o (availabilities o n R A)) /\ finite (availabilities o n R A).
    Proof.
      intros FR FA. unfold availabilities. cbv zeta.
      set (tmp := mtab n n (fun i j => if Nat.eqb i j then mget o R i j else max2 (mget o R i j) zero)).
      set (sums := map (fun j => sum (map (fun i => mget o tmp i j) (seq 0 n))) (seq 0 n)).
      set (r := mget o R). set (P := fun k i => pos_part (r i k)).
      assert (FP : forall k i, i < n -> k < n -> fin (P k i)) by (intros; apply fmax2; auto; apply FR; auto).
      assert (FPS : forall k ex, k < n -> fin (sum (map (P k) (indices_but n ex)))).
      { intros k ex Lk. apply fsum. intros v V. apply in_map_iff in V as (i & <- & V). apply filter_In in V as [V _]. apply in_seq in V. apply FP; lia. }
      assert (SK : forall k, k < n -> nth k sums zero = add (r k k) (sum (map (P k) (indices_but n [k])))).
      { intros k Lk. unfold sums. rewrite (nth_seq_map (fun j => sum (map (fun i => mget o tmp i j) (seq 0 n)))) by auto. rewrite (sum_extract _ k).
        - rewrite indices_but_1. f_equal.
          + unfold tmp. rewrite mget_mtab, Nat.eqb_refl by auto. auto.
          + apply sum_ext. intros i J. apply filter_In in J as [J Q]. apply in_seq in J. unfold tmp. rewrite mget_mtab by (auto; lia).
            destruct (Nat.eqb i k); [discriminate|]. auto.
        - apply seq_NoDup.
        - apply in_seq; lia.
        - intros i J. apply in_seq in J. unfold tmp. rewrite mget_mtab by (auto; lia). destruct (Nat.eqb i k); [|apply fmax2; auto]; apply FR; lia. }
      assert (Diag : forall k, k < n -> add (r k k) (neg (nth k sums zero)) = neg (sum (map (P k) (indices_but n [k])))).
      { intros k Lk. rewrite SK by auto. assert (Fr : fin (r k k)) by (apply FR; auto). assert (Fs := FPS k [k] Lk).
        set (S := sum (map (P k) (indices_but n [k]))) in *.
        apply neg_unique; auto. rewrite (swap3 S (r k k)) by auto. rewrite (ex_assoc o fin le X) by auto. apply (ex_opp o fin le X); auto. }
      assert (Off : forall i k, i < n -> k < n -> i <> k ->
                    add (P k i) (neg (nth k sums zero)) = neg (add (r k k) (sum (map (P k) (indices_but n [i; k]))))).
      { intros i k Li Lk Nk. rewrite SK by auto. assert (Fr : fin (r k k)) by (apply FR; auto).
        assert (Fs := FPS k [i; k] Lk). assert (Fp := FP k i Li Lk).
        assert (Q : sum (map (P k) (indices_but n [k])) = add (P k i) (sum (map (P k) (indices_but n [i; k])))).
        { rewrite indices_but_1, indices_but_2. apply sum_extract.
          - apply NoDup_filter, seq_NoDup.
          - apply filter_In. split; [apply in_seq; lia|]. destruct (Nat.eqb_spec i k); [contradiction|auto].
          - intros j J. apply filter_In in J as [J _]. apply in_seq in J. apply FP; lia. }
        rewrite Q. set (S := sum (map (P k) (indices_but n [i; k]))) in *. set (p := P k i) in *. set (rk := r k k) in *.
        apply neg_unique; auto. rewrite (swap3 (add rk S) p) by auto. rewrite (ex_assoc o fin le X p) by auto.
        rewrite (swap3 rk p S) by auto. apply (ex_opp o fin le X); auto. }
      set (tmp2 := mtab n n (fun i j => sub (mget o tmp i j) (nth j sums zero))).
      set (tmp3 := mtab n n (fun i j => if Nat.eqb i j then mget o tmp2 i j else max2 (mget o tmp2 i j) zero)).
      assert (T2 : forall i k, i < n -> k < n -> mget o tmp2 i k = if Nat.eqb i k then neg (sum (map (P k) (indices_but n [k])))
                    else neg (add (r k k) (sum (map (P k) (indices_but n [i; k]))))).
      { intros i k Li Lk. unfold tmp2. rewrite mget_mtab by auto. rewrite (ex_sub o fin le X). unfold tmp. rewrite mget_mtab by auto.
        destruct (Nat.eqb_spec i k) as [->|Nk]; [apply Diag; auto|apply Off; auto]. }
      assert (U : availability_update o le n r (mget o A)
                    (mget o (mtab n n (fun i j => sub (o_keep D o (mget o A i j)) (o_new D o (mget o tmp3 i j)))))).
      2:{ split; auto. destruct U as [U1 U2]. intros i k Li Lk. destruct (Nat.eq_dec i k) as [->|Nk].
          - rewrite U1 by auto. apply fadd; [apply (ex_keep o fin le X), FA; auto|]. apply (ex_new o fin le X). apply FPS; auto.
          - destruct (U2 i k Li Lk Nk) as (v & V & _ & _ & E). rewrite E. apply fadd; [apply (ex_keep o fin le X), FA; auto|].
            apply (ex_new o fin le X). destruct V as [->| ->]; auto. apply fadd; [apply FR; auto|apply FPS; auto]. }
      split.
      - intros k Lk. rewrite mget_mtab by auto. unfold tmp3. rewrite mget_mtab, Nat.eqb_refl, T2, Nat.eqb_refl by auto.
        rewrite (ex_sub o fin le X). f_equal. assert (Fs := FPS k [k] Lk). fold (P k).
        rewrite (ex_new_neg o fin le X) by auto. apply neg_neg. apply (ex_new o fin le X); auto.
      - intros i k Li Lk Nk. rewrite mget_mtab by auto. unfold tmp3. rewrite mget_mtab, T2 by auto. destruct (Nat.eqb_spec i k) as [|_]; [contradiction|].
        assert (Ft : fin (add (r k k) (sum (map (P k) (indices_but n [i; k]))))) by (apply fadd; [apply FR; auto|apply FPS; auto]).
        destruct (pos_part_neg _ Ft) as (v & V & Lz & Lt & Fv & E). exists v. cbv zeta. split; auto. split; auto. split; auto.
        rewrite E, (ex_sub o fin le X). f_equal. rewrite (ex_new_neg o fin le X) by auto. apply neg_neg. apply (ex_new o fin le X); auto.
    Qed.

    Variable n_samples mi ci : nat.
    Variable absolute : bool.
    Variable W : matrix D.
    Hypothesis WS : forall i j, i < n -> j < n -> mget o W i j = s i j.
    Hypothesis USP : used_Sp o n_samples n W absolute = Sp.
    Notation At := (At o n_samples n W absolute).
    Notation Rt := (Rt o n_samples n W absolute).
    Notation Et := (Et o n_samples n W absolute).

    Lemma Rt_S t : Rt (S t) = responsibilities o n Sp (At t) (Rt t).
    Proof. unfold AffinityRun.Rt at 1. cbn [AR snd]. rewrite USP. reflexivity. Qed.
    Lemma At_S t : At (S t) = availabilities o n (responsibilities o n Sp (At t) (Rt t)) (At t).
    Proof. unfold AffinityRun.At at 1. cbn [AR fst]. rewrite USP. reflexivity. Qed.

    Lemma AR_finite t : finite (At t) /\ finite (Rt t).
    Proof.
      induction t as [|t [FA FR]].
      - unfold AffinityRun.At, AffinityRun.Rt. cbn [AR fst snd]. split; intros i j Li Lj; rewrite mget_mtab by auto; auto.
      - rewrite At_S, Rt_S. destruct (responsibilities_spec _ _ FA FR) as [_ FR']. split; [|exact FR'].
        apply (availabilities_spec _ _ FR' FA).
    Qed.

    Lemma messages_run : messages o le n s (fun t => mget o (At t)) (fun t => mget o (Rt t)) mi.
    Proof.
      split.
      - intros i k Li Lk. unfold AffinityRun.At, AffinityRun.Rt. cbn [AR fst snd]. rewrite !mget_mtab by auto. auto.
      - intros t _. destruct (AR_finite t) as [FA FR].
        destruct (responsibilities_spec _ _ FA FR) as [UR FR'].
        destruct (availabilities_spec _ _ FR' FA) as [UA _].
        rewrite At_S, Rt_S. split; [exact UR|exact UA].
    Qed.

    Notation ise := (is_exemplar o (fun t => mget o (At t)) (fun t => mget o (Rt t))).
    Lemma Et_nth t k : k < n -> nth k (Et t) false = ise t k.
    Proof. intro L. unfold AffinityRun.Et. apply (nth_seq_map (fun i => o_pos D o (add (mget o (At (S t)) i i) (mget o (Rt (S t)) i i)))). auto. Qed.

    Lemma converged_run t : 0 < ci -> t < mi ->
      (stops_at o n_samples n mi ci W absolute t = true <-> converged o n (fun t => mget o (At t)) (fun t => mget o (Rt t)) ci t).
    Proof.
      intros C L. rewrite stops_at_spec by auto. unfold converged.
      assert (E1 : In true (Et t) <-> exists k, k < n /\ ise t k = true).
      { split.
        - intro J. apply In_nth_error in J as [k K]. assert (Lk : k < n) by (rewrite <- (Et_length o n_samples n W absolute t); apply nth_error_Some; congruence).
          exists k. split; auto. rewrite <- Et_nth by auto. apply nth_of_error; auto.
        - intros (k & Lk & K). rewrite <- Et_nth in K by auto. rewrite <- K. apply nth_In. rewrite Et_length. auto. }
      rewrite E1. split; intros (A1 & A2 & A3); (split; [exact A1|split; [exact A2|]]); intros k t' Lk Lt.
      - rewrite <- !Et_nth by auto. auto.
      - rewrite !Et_nth by auto. auto.
    Qed.

    Lemma flatnonzero_filter t : flatnonzero (Et t) = filter (ise t) (seq 0 n).
    Proof.
      unfold flatnonzero, AffinityRun.Et, enum. rewrite map_length, seq_length. fold (ise t).
      change (map fst (filter (fun e => snd e) (combine (seq 0 n) (map (ise t) (seq 0 n)))) = filter (ise t) (seq 0 n)).
      generalize (seq 0 n). intro l. induction l as [|x l IH]; auto. cbn [map combine filter snd]. destruct (ise t x); cbn [map fst]; [f_equal|]; auto.
    Qed.

    Lemma represented_run I : ok_exemplars n I -> represented le n s I (fun i => nth (nth i (assign_exemplars o n Sp I) 0) I 0).
    Proof.
      intros OK i Li. pose proof exact_argmax as VA. destruct (assign_spec o VA n Sp I OK) as (L & G & O & Bd).
      set (c := assign_exemplars o n Sp I) in *. destruct OK as (ND & NE & LT).
      exists (nth i c 0). split; [apply nth_error_of_nth; auto|]. split.
      - intro J. apply In_nth_error in J as [k K]. rewrite (G k i K). apply nth_of_error; auto.
      - intros J k' e E. rewrite (O i Li J). set (row := map (mget o Sp i) I).
        assert (NR : row <> []) by (unfold row; destruct I; [congruence|discriminate]).
        destruct (ex_argmax o fin le X row NR) as (x & Ex & B & F). set (a := o_argmax D o row) in *.
        assert (La : a < length I) by (rewrite <- (map_length (mget o Sp i) I); apply nth_error_Some; fold row; congruence).
        assert (Ex' : x = s i (nth a I 0)).
        { unfold row in Ex. rewrite nth_error_map, (nth_error_of_nth I a 0) in Ex by auto. injection Ex as <-. apply SPS; auto. apply LT. apply nth_In; auto. }
        assert (Se : nth_error row k' = Some (s i e)).
        { unfold row. rewrite nth_error_map, E. cbn [option_map]. rewrite SPS; auto. apply LT. eapply nth_error_In; eauto. }
        rewrite <- Ex'. split; [apply B; eapply nth_error_In; eauto|]. intros L' Q. apply (F k' L'). rewrite Se, Q. auto.
    Qed.

    Lemma class_group I k e : ok_exemplars n I -> nth_error I k = Some e ->
      class_of n (assign_exemplars o n Sp I) k = filter (fun i => Nat.eqb (nth (nth i (assign_exemplars o n Sp I) 0) I 0) e) (seq 0 n).
    Proof.
      intros OK E. destruct (assign_spec o exact_argmax n Sp I OK) as (L & G & O & Bd). destruct OK as (ND & NE & LT).
      unfold class_of. apply filter_ext_in. intros i J. apply in_seq in J. specialize (Bd i ltac:(lia)).
      destruct (Nat.eqb_spec (nth i (assign_exemplars o n Sp I) 0) k) as [->|N].
      - rewrite (nth_of_error _ _ _ 0 E). symmetry. apply Nat.eqb_refl.
      - symmetry. apply Nat.eqb_neq. intro Q. apply N. apply (proj1 (NoDup_nth_error I) ND); auto.
        rewrite E. rewrite (nth_error_of_nth I _ 0) by auto. f_equal. auto.
    Qed.

    Lemma sorted_nth_lt l : StronglySorted lt l -> forall i j x y, nth_error l i = Some x -> nth_error l j = Some y -> x < y -> i < j.
    Proof.
      induction 1 as [|a l SS IH F]; intros i j x y Ei Ej L; [destruct i; discriminate|]. rewrite Forall_forall in F.
      destruct i as [|i], j as [|j]; cbn [nth_error] in *.
      - injection Ei as <-. injection Ej as <-. lia.
      - lia.
      - injection Ej as <-. apply nth_error_In in Ei. apply F in Ei. lia.
      - apply -> Nat.succ_lt_mono. eapply IH; eauto.
    Qed.

    Lemma refined_run I I' : ok_exemplars n I -> refine o n W I (assign_exemplars o n Sp I) = Ok I' ->
      ok_exemplars n I' /\ refined o le n s I (fun i => nth (nth i (assign_exemplars o n Sp I) 0) I 0) I'.
    Proof.
      intros OK E. destruct (refine_spec o exact_argmax n W Sp I OK) as (I0 & E0 & L & OK' & Q).
      rewrite E in E0. injection E0 as <-. split; auto. split; auto.
      intros k e e' K K'. cbv zeta. destruct (Q k e' K') as (Ce & Lk & Best). rewrite <- (class_group I k e OK K).
      set (c := assign_exemplars o n Sp I) in *. set (grp := class_of n c k) in *.
      assert (Je : In e' grp) by (eapply nth_error_In; eauto). split; auto. intros b Jb.
      assert (GE : forall x, In x grp -> x < n) by (intros x J; apply class_In in J; tauto).
      assert (TE : forall b, In b grp -> sum (map (fun a => mget o W a b) grp) = sum (map (fun a => s a b) grp)).
      { intros b' J. apply sum_ext. intros a Ja. apply WS; auto. }
      set (row := map (fun b => sum (map (fun a => mget o W a b) grp)) grp) in *.
      assert (NR : row <> []) by (unfold row; destruct grp; [destruct Je|discriminate]).
      destruct (ex_argmax o fin le X row NR) as (x & Ex & B & F).
      assert (Ex' : x = sum (map (fun a => s a e') grp)).
      { unfold row in Ex at 1. rewrite nth_error_map in Ex. fold row in Ex. rewrite Best in Ex. injection Ex as <-. apply TE; auto. }
      rewrite <- Ex', <- TE by auto. apply In_nth_error in Jb as [j Ej].
      assert (Er : nth_error row j = Some (sum (map (fun a => mget o W a b) grp))) by (unfold row; rewrite nth_error_map, Ej; auto).
      split; [apply B; eapply nth_error_In; eauto|]. intros Lb Qb.
      apply (F j); [|rewrite Er, Qb; auto]. eapply (sorted_nth_lt grp); eauto. apply sorted_filter_seq.
    Qed.

    Lemma ap_result_run cl : cl_below n_samples cl -> 0 < ci ->
      exists labels, exemplar_labels o absolute n_samples n mi ci cl W = Ok labels /\ ap_result o le n s ci mi labels /\
        match labels with Some l => length l = n | None => True end.
    Proof.
      intros B C. destruct (exemplar_labels_at o n_samples n mi ci W absolute cl B) as [[E N]|(t & Lt & St & N & E)].
      - exists None. split; auto. split; auto. exists (fun t => mget o (At t)), (fun t => mget o (Rt t)). split; [apply messages_run|].
        intros t L Q. apply converged_run in Q; auto. rewrite N in Q by auto. discriminate.
      - assert (CV := St). apply converged_run in CV; auto. unfold labels_at in E. rewrite USP in E.
        assert (OK : ok_exemplars n (flatnonzero (Et t))).
        { apply flatnonzero_ok; [rewrite Et_length; auto|]. destruct CV as (_ & (k & Lk & K) & _). intro Q.
          assert (J : In k (flatnonzero (Et t))) by (rewrite flatnonzero_filter; apply filter_In; split; auto; apply in_seq; lia). rewrite Q in J. destruct J. }
        destruct (Nat.ltb_spec 0 (length (flatnonzero (Et t)))) as [_|Q].
        2:{ destruct OK as (_ & NE & _). destruct (flatnonzero (Et t)); [congruence|simpl in Q; lia]. }
        destruct (final_labels o exact_argmax n W Sp _ OK) as (I' & labels & R & OK' & RL & L & P1 & _).
        rewrite R in E. cbn [rbind] in E. rewrite RL in E. cbn [rbind] in E. exists (Some labels). split; auto. split; auto.
        exists (fun t => mget o (At t)), (fun t => mget o (Rt t)). split; [apply messages_run|].
        destruct (refined_run _ _ OK R) as [_ RF].
        exists t, (flatnonzero (Et t)), (fun i => nth (nth i (assign_exemplars o n Sp (flatnonzero (Et t))) 0) (flatnonzero (Et t)) 0), I',
          (fun i => nth (nth i (assign_exemplars o n Sp I') 0) I' 0).
        split; auto. split; auto. split; [intros t' L' Q; apply converged_run in Q; auto; [rewrite N in Q by auto; discriminate|lia]|].
        split; [apply flatnonzero_filter|]. split; [apply represented_run; auto|]. split; auto. split; [apply represented_run; auto|].
        apply (nth_ext _ _ 0 0); [rewrite map_length, seq_length; auto|]. intros i Li. rewrite L in Li.
        rewrite (nth_seq_map (fun i => nth (nth i (assign_exemplars o n Sp I') 0) I' 0)) by auto.
        apply nth_of_error. rewrite P1 by auto. apply nth_error_of_nth. apply (assign_spec o exact_argmax n Sp I' OK'); auto.
    Qed.
  End Run.
End Exact.
