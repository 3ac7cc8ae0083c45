(** * Properties of spectral clustering (C42, C43, C67, C68). *)

From Coq Require Import String List Bool Arith ZArith QArith Lia Permutation Sorted.
From Verif Require Import Base Manager Spec Closure ManagerProofs ManagerInv ManagerQueries ManagerThms
  Sampling SamplingSpec SamplingProofs SamplingThms Rename ClusterSpec RenameThms ClusterProofs KMeans KMeansSpec KMeansProofs KMeansThms
  Spectral SpectralSpec.
Import ListNotations.
Open Scope nat_scope.
Open Scope py_scope.

(*HEADER
From Coq Require Import String List Bool Arith ZArith QArith Permutation Lia.
From Verif Require Import Base Manager Spec ManagerThms SamplingSpec ClusterSpec KMeansSpec KMeansThms Spectral SpectralSpec SpectralThms.
Import ListNotations.
Open Scope nat_scope.
Open Scope py_scope.

Definition A := str "a". Definition B := str "b". Definition C := str "c". Definition E := str "d".
Definition ex : mgr := run [CallAddConstraint A C MUST_LINK 1%Q; CallAddConstraint A B CANNOT_LINK 1%Q] (init [A; B; C; E]).
Definition vecs : dict pystr Z := [(E, 12); (A, 0); (B, 1); (C, 10)]%Z.
(** A kernel, and a solver that puts in one cluster the points whose similarity to the first point is at least 900. *)
Definition sim (X : list Z) (i j : nat) : Z := (1000 - 10 * Z.abs (nth i X 0 - nth j X 0))%Z.
Definition solve (n : nat) (M : list (list Z)) : res (list Z) :=
  match M with [] => Raise ValueError | row :: _ => Ok (map (fun v => if (v <? 900)%Z then 7 else 3)%Z row) end.
Definition spectral_Z := cluster Z Z sim 0%Z 1000%Z solve.
HEADER*)

(** ** Lists and matrices *)

Lemma nth_error_list_set {A} (l : list A) i v k :
  nth_error (list_set l i v) k = if Nat.eqb k i then option_map (fun _ => v) (nth_error l k) else nth_error l k.
Proof.
  revert i k. induction l as [|x l IH]; intros [|i] [|k]; simpl; auto; try (destruct (k =? i)%nat; auto; fail).
Qed.

Lemma list_set_length {A} (l : list A) i v : length (list_set l i v) = length l.
Proof. revert i. induction l as [|x l IH]; intros [|i]; simpl; auto. Qed.

Lemma entry_mset {D} (M : matrix D) i j v i' j' :
  entry (mset M i j v) i' j' = if ((i' =? i) && (j' =? j))%nat then option_map (fun _ => v) (entry M i j) else entry M i' j'.
Proof.
  unfold entry, mset. destruct (nth_error M i) as [row|] eqn:E.
  - rewrite nth_error_list_set. destruct (Nat.eqb_spec i' i) as [->|N]; cbn [andb].
    + rewrite E. cbn [option_map]. rewrite nth_error_list_set. destruct (Nat.eqb_spec j' j) as [->|]; auto.
    + destruct (nth_error M i'); auto.
  - destruct (Nat.eqb_spec i' i) as [->|N]; cbn [andb]; auto. rewrite E. destruct (j' =? j)%nat; auto.
Qed.

Lemma square_mset {D} n (M : matrix D) i j v : square n M -> square n (mset M i j v).
Proof.
  intros [L F]. unfold mset. destruct (nth_error M i) as [row|] eqn:E; [|split; auto].
  split; [rewrite list_set_length; auto|]. rewrite Forall_forall in *. intros r R. apply In_nth_error in R as [k K].
  rewrite nth_error_list_set in K. destruct (k =? i)%nat.
  - destruct (nth_error M k); [|discriminate]. injection K as <-. rewrite list_set_length. apply F. eapply nth_error_In; eauto.
  - apply F. eapply nth_error_In; eauto.
Qed.

Lemma nth_error_seq k n i : nth_error (seq k n) i = if (i <? n)%nat then Some (k + i) else None.
Proof.
  revert k i. induction n as [|n IH]; intros k [|i]; simpl; auto.
  rewrite IH. change (S i <? S n)%nat with (i <? n)%nat. destruct (i <? n)%nat; auto. f_equal; lia.
Qed.

Lemma entry_mtab {D} n p (f : nat -> nat -> D) i j : i < n -> j < p -> entry (mtab n p f) i j = Some (f i j).
Proof.
  intros Hi Hj. unfold entry, mtab. rewrite nth_error_map, nth_error_seq. destruct (Nat.ltb_spec i n); [|lia]. cbn [option_map Nat.add].
  rewrite nth_error_map, nth_error_seq. destruct (Nat.ltb_spec j p); [|lia]. auto.
Qed.

Lemma square_mtab {D} n (f : nat -> nat -> D) : square n (mtab n n f).
Proof.
  unfold mtab. split; [rewrite map_length, seq_length; auto|]. rewrite Forall_map, Forall_forall. intros i _. rewrite map_length, seq_length. auto.
Qed.

Lemma square_entry {D} n (M : matrix D) i j : square n M -> i < n -> j < n -> exists v, entry M i j = Some v.
Proof.
  intros [L F] Hi Hj. unfold entry. destruct (nth_error M i) as [row|] eqn:E; [|apply nth_error_None in E; lia].
  apply nth_error_In in E as R. rewrite Forall_forall in F. apply F in R.
  destruct (nth_error row j) as [v|] eqn:E'; eauto. apply nth_error_None in E'. lia.
Qed.

Lemma enum_inv {A} (l : list A) e : In e (enum l) -> nth_error l (fst e) = Some (snd e).
Proof.
  unfold enum. assert (G : forall k l, In e (combine (seq k (length l)) l) -> k <= fst e /\ nth_error l (fst e - k) = Some (snd e)).
  { intros k l0. revert k. induction l0 as [|x l0 IH]; intros k I; simpl in I; [destruct I|]. destruct I as [<-|I].
    - cbn [fst snd]. rewrite Nat.sub_diag. auto.
    - apply IH in I as [L N]. split; [lia|]. replace (fst e - k) with (S (fst e - S k)) by lia. auto. }
  intro I. apply G in I as [_ E]. rewrite Nat.sub_0_r in E. auto.
Qed.

(** ** Labels *)

(** The loop over any part of the enumeration. *)
Lemma label_dict_aux (labels : list Z) : forall (l : list pystr) k d0,
  k + length l <= length labels -> NoDup l -> (forall x, In x l -> ~ In x (keys d0)) ->
  exists d, rfold (fun d e => c <-- py_nth labels (fst e) ;;; Ok (dset (snd e) c d)) (combine (seq k (length l)) l) d0 = Ok d /\
    keys d = keys d0 ++ l /\
    (forall i x, nth_error l i = Some x -> dget x d = nth_error labels (k + i)) /\
    (forall x, In x (keys d0) -> dget x d = dget x d0).
Proof.
  induction l as [|x l IH]; intros k d0 L ND N; simpl.
  - exists d0. split; auto. split; [rewrite app_nil_r; auto|]. split; auto. intros [|i] y; discriminate.
  - inversion ND as [|? ? NI ND']; subst. cbn [fst snd].
    destruct (nth_error labels k) as [c|] eqn:E; [|apply nth_error_None in E; simpl in L; lia].
    assert (PN : py_nth labels k = Ok c) by (unfold py_nth; rewrite E; auto). rewrite PN. cbn [rbind].
    assert (KD : keys (dset x c d0) = keys d0 ++ [x]) by (apply keys_dset_out, N; left; auto).
    destruct (IH (S k) (dset x c d0)) as (d & R & K & G & P); auto; [simpl in L; lia| |].
    + intros y Y. rewrite KD, in_app_iff. intros [Q|[Q|[]]]; [eapply N; [right; eauto|auto]|]. subst y. auto.
    + exists d. split; auto. split; [rewrite K, KD, <- app_assoc; auto|]. split.
      * intros [|i] y Y; cbn [nth_error] in Y.
        -- injection Y as <-. rewrite P by (rewrite KD; apply in_elt). rewrite dget_dset_same, Nat.add_0_r. auto.
        -- rewrite (G i y Y). f_equal. lia.
      * intros y Y. rewrite P by (rewrite KD, in_app_iff; auto). apply dget_dset_other. intros ->. apply (N x); [left; auto|auto].
Qed.

Lemma label_dict_run ids labels : NoDup ids -> length ids <= length labels -> exists d, label_dict ids labels = Ok d /\
  keys d = ids /\ forall i x, nth_error ids i = Some x -> dget x d = nth_error labels i.
Proof.
  intros ND L. destruct (label_dict_aux labels ids 0 []) as (d & R & K & G & _); auto. exists d. auto.
Qed.

Lemma label_dict_short ids labels : length labels < length ids -> label_dict ids labels = Raise IndexError.
Proof.
  unfold label_dict, enum. assert (G : forall (l : list pystr) k d0, k <= length labels -> length labels < k + length l ->
    rfold (fun d e => c <-- py_nth labels (fst e) ;;; Ok (dset (snd e) c d)) (combine (seq k (length l)) l) d0 = Raise IndexError).
  { induction l as [|x l IH]; intros k d0 K L; simpl in *; [lia|]. cbn [fst snd].
    destruct (nth_error labels k) as [c|] eqn:E.
    2:{ assert (PN : py_nth labels k = Raise IndexError) by (unfold py_nth; rewrite E; auto). rewrite PN. auto. }
    assert (PN : py_nth labels k = Ok c) by (unfold py_nth; rewrite E; auto). rewrite PN. cbn [rbind]. apply IH; [|lia].
    assert (k < length labels) by (apply nth_error_Some; congruence). lia. }
  intro L. apply G; lia.
Qed.

(** A list of labels, renamed. *)
Lemma labels_run m labels : Inv m -> length (ids m) <= length labels ->
  exists d0 d, label_dict (ids m) labels = Ok d0 /\ rename_clusters_by_order d0 = Ok d /\
    canonical d /\ covers_exactly m d /\ grouped_by (ids m) labels d.
Proof.
  intros I L. assert (ND : NoDup (ids m)) by (apply inv_nodup; auto).
  destruct (label_dict_run (ids m) labels ND L) as (d0 & E0 & K0 & G0).
  destruct (rename_run d0) as (d & E & K & C & P); [rewrite K0; auto|].
  exists d0, d. split; auto. split; auto. split; auto.
  assert (KI : forall x, In x (keys d) <-> In x (ids m)) by (intro x; rewrite <- (proj1 P x), K0; tauto).
  split; [intro x; rewrite KI, managed_ids; tauto|].
  intros i j a b A B. rewrite <- (G0 i a A), <- (G0 j b B). symmetry. apply P; rewrite K0; eapply nth_error_In; eauto.
Qed.

(** ** The matrix *)
Section Matrix.
  Context {vec D : Type}.
  Variable kernel : list vec -> nat -> nat -> D.
  Variables zero one : D.
  Variable m : mgr.
  Hypothesis I : Inv m.

  (** The value wanted at a position. *)
  Definition wanted (k : nat -> nat -> D) (i j : nat) : option D :=
    match nth_error (ids m) i, nth_error (ids m) j with
    | Some a, Some b => Some (if ml m a b then one else if cl m a b then zero else k i j)
    | _, _ => None
    end.

  Section Loops.
    Variable k : nat -> nat -> D.
    Let step (e1 : nat * pystr) (M : matrix D) (e2 : nat * pystr) : res (matrix D) :=
        if fst e2 <? fst e1 then Ok M
        else
          b <-- inferred_is m (snd e1) (snd e2) MUST_LINK ;;;
          if b then Ok (mset (mset M (fst e1) (fst e2) one) (fst e2) (fst e1) one)
          else
            b <-- inferred_is m (snd e1) (snd e2) CANNOT_LINK ;;;
            if b then Ok (mset (mset M (fst e1) (fst e2) zero) (fst e2) (fst e1) zero)
            else Ok M.
    Definition fine (M : matrix D) : Prop :=
      square (length (ids m)) M /\
      forall i j, i < length (ids m) -> j < length (ids m) -> entry M i j = wanted k i j \/ entry M i j = Some (k i j).
    Definition later (M M' : matrix D) : Prop := forall i j, entry M i j = wanted k i j -> entry M' i j = wanted k i j.

    Lemma step_run e1 e2 M : In e1 (enum (ids m)) -> In e2 (enum (ids m)) -> fine M ->
      exists M', step e1 M e2 = Ok M' /\ fine M' /\ later M M' /\
        (fst e1 <= fst e2 -> entry M' (fst e1) (fst e2) = wanted k (fst e1) (fst e2) /\ entry M' (fst e2) (fst e1) = wanted k (fst e2) (fst e1)).
    Proof.
      intros E1 E2 [SQ F]. apply enum_inv in E1, E2. destruct e1 as [i a], e2 as [j b]. cbn [fst snd] in *.
      assert (A : In a (ids m)) by (eapply nth_error_In; eauto). assert (B : In b (ids m)) by (eapply nth_error_In; eauto).
      assert (Li : i < length (ids m)) by (apply nth_error_Some; congruence). assert (Lj : j < length (ids m)) by (apply nth_error_Some; congruence).
      unfold step. cbn [fst snd]. destruct (Nat.ltb_spec j i) as [Lt|Le].
      { exists M. split; auto. split; [split; auto|]. split; [intros ? ?; auto|]. lia. }
      assert (W : wanted k i j = Some (if ml m a b then one else if cl m a b then zero else k i j)) by (unfold wanted; rewrite E1, E2; auto).
      assert (W' : wanted k j i = Some (if ml m a b then one else if cl m a b then zero else k j i)).
      { unfold wanted; rewrite E1, E2. rewrite (ml_sym m I b a), (cl_sym m I b a) by auto. auto. }
      rewrite inferred_is_ml by auto. cbn [rbind].
      assert (SET : forall v, wanted k i j = Some v -> wanted k j i = Some v ->
        fine (mset (mset M i j v) j i v) /\ later M (mset (mset M i j v) j i v) /\
        (i <= j -> entry (mset (mset M i j v) j i v) i j = wanted k i j /\ entry (mset (mset M i j v) j i v) j i = wanted k j i)).
      { intros v V V'.
        assert (EV : forall i' j', entry (mset (mset M i j v) j i v) i' j' =
                  if ((i' =? j) && (j' =? i))%nat || ((i' =? i) && (j' =? j))%nat then Some v else entry M i' j').
        { intros i' j'. rewrite !entry_mset.
          destruct (square_entry _ M i j SQ Li Lj) as [x X]. destruct (square_entry _ M j i SQ Lj Li) as [y Y]. rewrite X, Y.
          destruct ((i' =? j) && (j' =? i))%nat eqn:Q1; cbn [orb].
          - destruct ((j =? i) && (i =? j))%nat; auto.
          - destruct ((i' =? i) && (j' =? j))%nat; auto. }
        assert (WV : forall i' j', ((i' =? j) && (j' =? i))%nat || ((i' =? i) && (j' =? j))%nat = true -> wanted k i' j' = Some v).
        { intros i' j' Q. apply orb_true_iff in Q. rewrite !andb_true_iff, !Nat.eqb_eq in Q. destruct Q as [[-> ->]|[-> ->]]; auto. }
        split; [|split].
        - split; [do 2 apply square_mset; auto|]. intros i' j' I' J'. rewrite EV.
          destruct (_ || _) eqn:Q; auto. rewrite WV; auto.
        - intros i' j' Q'. rewrite EV. destruct (_ || _) eqn:Q; auto. rewrite WV; auto.
        - intros _. rewrite !EV, !Nat.eqb_refl, orb_true_r. cbn [andb orb]. auto. }
      destruct (ml m a b) eqn:EM.
      - eexists. split; [reflexivity|]. apply SET; auto.
      - rewrite inferred_is_cl by auto. cbn [rbind]. destruct (cl m a b) eqn:EC.
        + eexists. split; [reflexivity|]. apply SET; auto.
        + exists M. split; auto. split; [split; auto|]. split; [intros ? ?; auto|]. intros _.
          destruct (F i j Li Lj) as [Q|Q], (F j i Lj Li) as [Q'|Q']; rewrite ?Q, ?Q', ?W, ?W' in *; auto.
    Qed.

    Lemma inner_run e1 l : In e1 (enum (ids m)) -> incl l (enum (ids m)) -> forall M, fine M ->
      exists M', rfold (step e1) l M = Ok M' /\ fine M' /\ later M M' /\
        forall e2, In e2 l -> fst e1 <= fst e2 ->
          entry M' (fst e1) (fst e2) = wanted k (fst e1) (fst e2) /\ entry M' (fst e2) (fst e1) = wanted k (fst e2) (fst e1).
    Proof.
      intros E1. induction l as [|e2 l IH]; intros S M FM.
      - exists M. split; auto. split; auto. split; [intros ? ?; auto|]. intros e2 [].
      - destruct (step_run e1 e2 M E1 (S e2 (or_introl eq_refl)) FM) as (M1 & R1 & F1 & L1 & D1).
        destruct (IH (fun x X => S x (or_intror X)) M1 F1) as (M2 & R2 & F2 & L2 & D2).
        exists M2. cbn [rfold]. rewrite R1. cbn [rbind]. split; auto. split; auto. split; [intros i j Q; apply L2, L1; auto|].
        intros e [<-|X] Le; auto. destruct (D1 Le) as [Q1 Q2]. split; apply L2; auto.
    Qed.

    Lemma outer_run l : incl l (enum (ids m)) -> forall M, fine M ->
      exists M', rfold (fun M e1 => rfold (step e1) (enum (ids m)) M) l M = Ok M' /\ fine M' /\ later M M' /\
        forall e1 e2, In e1 l -> In e2 (enum (ids m)) -> fst e1 <= fst e2 ->
          entry M' (fst e1) (fst e2) = wanted k (fst e1) (fst e2) /\ entry M' (fst e2) (fst e1) = wanted k (fst e2) (fst e1).
    Proof.
      induction l as [|e1 l IH]; intros S M FM.
      - exists M. split; auto. split; auto. split; [intros ? ?; auto|]. intros e1 e2 [].
      - destruct (inner_run e1 (enum (ids m)) (S e1 (or_introl eq_refl)) (incl_refl _) M FM) as (M1 & R1 & F1 & L1 & D1).
        destruct (IH (fun x X => S x (or_intror X)) M1 F1) as (M2 & R2 & F2 & L2 & D2).
        exists M2. cbn [rfold]. rewrite R1. cbn [rbind]. split; auto. split; auto. split; [intros i j Q; apply L2, L1; auto|].
        intros e e2 [<-|X] E2 Le; auto. destruct (D1 e2 E2 Le) as [Q1 Q2]. split; apply L2; auto.
    Qed.

    Lemma constrain_run : exists M,
      constrain_matrix D zero one m (ids m) (mtab (length (ids m)) (length (ids m)) k) = Ok M /\
      square (length (ids m)) M /\ forall i j, i < length (ids m) -> j < length (ids m) -> entry M i j = wanted k i j.
    Proof.
      destruct (outer_run (enum (ids m)) (incl_refl _) (mtab (length (ids m)) (length (ids m)) k)) as (M & R & [SQ _] & _ & Dn).
      - split; [apply square_mtab|]. intros i j Hi Hj. right. apply entry_mtab; auto.
      - exists M. split; [exact R|]. split; auto. intros i j Hi Hj.
        destruct (nth_error (ids m) i) as [a|] eqn:A; [|apply nth_error_None in A; lia].
        destruct (nth_error (ids m) j) as [b|] eqn:B; [|apply nth_error_None in B; lia].
        apply enum_In in A, B. destruct (Nat.le_ge_cases i j) as [Le|Le].
        + apply (Dn (i, a) (j, b)); auto.
        + apply (Dn (j, b) (i, a)); auto.
    Qed.
  End Loops.

  Lemma wanted_affinity k M : square (length (ids m)) M ->
    (forall i j, i < length (ids m) -> j < length (ids m) -> entry M i j = wanted k i j) ->
    affinity_matrix m (ids m) zero one k M.
  Proof.
    intros SQ E. split; auto. intros i j a b A B.
    assert (Li : i < length (ids m)) by (apply nth_error_Some; congruence). assert (Lj : j < length (ids m)) by (apply nth_error_Some; congruence).
    rewrite E by auto. unfold wanted. rewrite A, B. apply nth_error_In in A, B. split; [|split]; intro Q.
    - apply inferred_ml in Q; auto. rewrite Q. auto.
    - apply inferred_cl in Q; auto. rewrite Q. destruct (ml m a b) eqn:EM; auto. exfalso. eapply ml_cl; eauto.
    - assert (N := Q). destruct (ml m a b) eqn:EM.
      + apply (inferred_ml m I) in EM; auto. exfalso. unfold inferred in *. congruence.
      + destruct (cl m a b) eqn:EC; auto. apply (inferred_cl m I) in EC; auto. unfold inferred in *. congruence.
  Qed.

  Lemma affinity_symmetric (k : nat -> nat -> D) M : affinity_matrix m (ids m) zero one k M -> (forall i j, k i j = k j i) -> forall i j, entry M i j = entry M j i.
  Proof.
    intros [SQ F] S i j. destruct (Nat.lt_ge_cases i (length (ids m))) as [Li|Gi], (Nat.lt_ge_cases j (length (ids m))) as [Lj|Gj].
    - destruct (nth_error (ids m) i) as [a|] eqn:A; [|apply nth_error_None in A; lia].
      destruct (nth_error (ids m) j) as [b|] eqn:B; [|apply nth_error_None in B; lia].
      destruct (F i j a b A B) as (F1 & F2 & F3). destruct (F j i b a B A) as (G1 & G2 & G3).
      apply nth_error_In in A, B. rewrite (inferred_ml m I) in * by auto. rewrite (inferred_cl m I) in * by auto.
      rewrite (ml_sym m I b a), (cl_sym m I b a) in * by auto.
      destruct (ml m a b) eqn:EM; [rewrite F1, G1; auto|]. destruct (cl m a b) eqn:EC; [rewrite F2, G2; auto|].
      assert (NO : forall x y, In x (ids m) -> In y (ids m) -> ml m x y = false -> cl m x y = false -> inferred m x y None).
      { intros x y X Y M1 C1. apply inferred_spec; auto. unfold ml, cl, infer in *. destruct (dget y (ctrans m)) as [t|]; auto.
        destruct (mem x (t_ml t)); [discriminate M1|]. destruct (mem x (t_cl t)); [discriminate C1|auto]. }
      rewrite F3, G3, S; auto; apply NO; auto; [rewrite ml_sym|rewrite cl_sym]; auto.
    - unfold entry at 2. assert (N : nth_error M j = None) by (apply nth_error_None; rewrite (proj1 SQ); auto). rewrite N.
      unfold entry. destruct (nth_error M i) as [row|] eqn:R; auto. apply nth_error_None. apply nth_error_In in R.
      rewrite (proj1 (Forall_forall _ _) (proj2 SQ) row R). auto.
    - unfold entry at 1. assert (N : nth_error M i = None) by (apply nth_error_None; rewrite (proj1 SQ); auto). rewrite N.
      unfold entry. destruct (nth_error M j) as [row|] eqn:R; auto. symmetry. apply nth_error_None. apply nth_error_In in R.
      rewrite (proj1 (Forall_forall _ _) (proj2 SQ) row R). auto.
    - unfold entry. assert (N : forall k, length (ids m) <= k -> nth_error M k = None) by (intros; apply nth_error_None; rewrite (proj1 SQ); auto).
      rewrite !N; auto.
  Qed.
End Matrix.

(** ** Calls *)
Section Calls.
  Context {vec D : Type}.
  Variable kernel : list vec -> nat -> nat -> D.
  Variables zero one : D.
  Variable solver : nat -> matrix D -> res (list Z).
  Notation cluster := (cluster vec D kernel zero one solver).

  Lemma similarity_run m vectors : Inv m -> ids m <> [] -> (forall x, In x (ids m) -> In x (keys vectors)) -> exists rows,
    vectors_are vectors (ids m) rows /\ similarity_matrix vec D kernel m vectors = Ok (mtab (length (ids m)) (length (ids m)) (kernel rows)).
  Proof.
    intros I NE C. destruct (rows_of m vectors C) as (rows & R & V). exists rows. split; auto.
    unfold similarity_matrix. rewrite ask_managed by auto. cbn [rbind]. rewrite R. cbn [rbind].
    apply rmap_length in R. rewrite <- R. destruct rows; auto. destruct (ids m); [congruence|discriminate].
  Qed.

  (** A call with valid arguments. *)
  Lemma spectral_run m vectors nb s : Inv m -> ids m <> [] -> (forall x, In x (ids m) -> In x (keys vectors)) -> (2 <= nb)%Z ->
    exists rows M, vectors_are vectors (ids m) rows /\ affinity_matrix m (ids m) zero one (kernel rows) M /\
      cluster m vectors (Some nb) s =
        match (labels <-- solver (Nat.min (Z.to_nat nb) (length (ids m))) M ;;; d <-- label_dict (ids m) labels ;;; rename_clusters_by_order d) with
        | Ok d => (mkSpectral D (Some M) (Some d), Ok d)
        | Raise e => (mkSpectral D (Some M) None, Raise e)
        end.
  Proof.
    intros I NE C N. destruct (similarity_run m vectors I NE C) as (rows & V & E).
    destruct (constrain_run zero one m I (kernel rows)) as (M & R & SQ & W).
    exists rows, M. split; auto. split; [apply wanted_affinity; auto|].
    unfold Spectral.cluster. unfold bind at 1, lift at 1. rewrite ask_managed by auto. destruct (Z.ltb_spec nb 2); [lia|].
    unfold bind at 1, lift at 1. rewrite E. unfold bind at 1, modify at 1. unfold bind at 1, modify at 1.
    unfold clustering_SPEC. unfold bind at 1 2, lift at 1. rewrite R. unfold bind at 1, modify at 1. unfold bind at 1, lift at 1.
    cbn [set_matrix set_sp_predicted sp_matrix sp_predicted].
    destruct (solver _ M) as [labels|e]; [|reflexivity]. cbn [rbind]. unfold bind at 1, lift at 1.
    destruct (label_dict (ids m) labels) as [d|e]; [|reflexivity]. cbn [rbind]. unfold lift at 1.
    destruct (rename_clusters_by_order d); reflexivity.
  Qed.

  Lemma spectral_fails m vectors nb s : Inv m ->
    (match nb with None => True | Some n => (n < 2)%Z end -> cluster m vectors nb s = (s, Raise ValueError)) /\
    (forall n, nb = Some n -> (2 <= n)%Z ->
       (ids m = [] -> cluster m vectors nb s = (s, Raise ValueError)) /\
       ((exists x, In x (ids m) /\ ~ In x (keys vectors)) -> cluster m vectors nb s = (s, Raise KeyError))).
  Proof.
    intros I. unfold Spectral.cluster. unfold bind at 1 4 7, lift at 1 2 3. rewrite ask_managed by auto. split.
    - intro N. destruct nb as [n|]; [|reflexivity]. destruct (Z.ltb_spec n 2); [reflexivity|lia].
    - intros n -> N. destruct (Z.ltb_spec n 2); [lia|].
      assert (SM : similarity_matrix vec D kernel m vectors =
                   (rows <-- rmap (fun x => dlookup x vectors) (ids m) ;;;
                    match rows with [] => Raise ValueError | _ => Ok (mtab (length rows) (length rows) (kernel rows)) end))
        by (unfold similarity_matrix; rewrite ask_managed by auto; reflexivity).
      rewrite SM. split.
      + intros ->. reflexivity.
      + intro Mi. rewrite rmap_missing by auto. reflexivity.
  Qed.

  (** Every call falls in one of these cases. *)
  Lemma spectral_cases m vectors nb : Inv m ->
    match nb with None => True | Some n => (n < 2)%Z end \/ exists n, nb = Some n /\ (2 <= n)%Z /\
      (ids m = [] \/ (ids m <> [] /\ ((exists x, In x (ids m) /\ ~ In x (keys vectors)) \/ (forall x, In x (ids m) -> In x (keys (V := vec) vectors))))).
  Proof.
    intro I. destruct nb as [n|]; auto. destruct (Z.ltb_spec n 2); auto. right. exists n. split; auto. split; auto.
    destruct (list_eq_dec (fun x y : pystr => eq_dec_of x y) (ids m) []) as [E0|NE]; auto. right. split; auto.
    destruct (missing_dec vectors (ids m)); auto.
  Qed.
End Calls.

(*PROP C42: the solver gets the matrix with 1 for pairs inferred MUST_LINK, 0 for CANNOT_LINK and the kernel elsewhere, and the number of clusters; the matrix is symmetric when the kernel is. *)
Lemma C42_affinity_matrix_proof :
  forall vec D kernel (zero one : D) solver m (vectors : dict pystr vec) nb s l,
    reachable m -> ask get_list_of_managed_data_IDs m = Ok l -> l <> [] -> covers (Some vectors) m -> (2 <= nb)%Z ->
    exists rows M, vectors_are vectors l rows /\ affinity_matrix m l zero one (kernel rows) M /\
      ((forall i j, kernel rows i j = kernel rows j i) -> forall i j, entry M i j = entry M j i) /\
      sp_matrix D (fst (cluster vec D kernel zero one solver m vectors (Some nb) s)) = Some M /\
      match solver (Nat.min (Z.to_nat nb) (length l)) M with
      | Raise e => result (cluster vec D kernel zero one solver m vectors (Some nb)) s = Raise e
      | Ok labels => length labels = length l ->
          exists d, result (cluster vec D kernel zero one solver m vectors (Some nb)) s = Ok d /\ grouped_by l labels d
      end.
Proof.
  intros vec D kernel zero one solver m vectors nb s l R El NE (v & Ev & C) N. injection Ev as <-. apply reachable_inv in R.
  rewrite ask_managed in El by auto. injection El as <-.
  assert (COV : forall x, In x (ids m) -> In x (keys vectors)) by (intros x X; apply C, managed_ids; auto).
  destruct (spectral_run kernel zero one solver m vectors nb s R NE COV N) as (rows & M & V & AF & E).
  exists rows, M. split; auto. split; auto. split; [intro SY; eapply affinity_symmetric; eauto|]. unfold result. rewrite E.
  destruct (solver _ M) as [labels|e]; [|split; reflexivity]. cbn [rbind]. split.
  - destruct (label_dict (ids m) labels) as [d|e]; [|reflexivity]. cbn [rbind]. destruct (rename_clusters_by_order d); reflexivity.
  - intro L. destruct (labels_run m labels R) as (d0 & d & E0 & E1 & _ & _ & G); [lia|]. rewrite E0. cbn [rbind]. rewrite E1. exists d. auto.
Qed.

(*EX
(** A and C are linked, A and B cannot be: the entries 1000 and 0 replace the kernel. *)
Example C42_ex : (sp_matrix Z (fst (spectral_Z ex vecs (Some 2%Z) (fresh_spectral Z))), ask get_list_of_managed_data_IDs ex) =
  (Some [[1000; 0; 1000; 880]; [0; 1000; 0; 890]; [1000; 0; 1000; 980]; [880; 890; 980; 1000]]%Z, Ok [A; B; C; E]).
Proof. vm_compute; reflexivity. Qed.
EX*)

(*PROP C43: whatever the solver answers, a result is a canonical clustering of exactly the managed IDs that groups them as the solver did; there is one when the solver labels every ID. *)
Lemma C43_spectral_canonical_proof :
  forall vec D kernel (zero one : D) solver m (vectors : dict pystr vec) nb s s' d l,
    reachable m -> ask get_list_of_managed_data_IDs m = Ok l ->
    cluster vec D kernel zero one solver m vectors nb s = (s', Ok d) ->
    canonical d /\ covers_exactly m d /\ sp_predicted D s' = Some d /\
    exists n M labels, nb = Some n /\ sp_matrix D s' = Some M /\
      solver (Nat.min (Z.to_nat n) (length l)) M = Ok labels /\ length l <= length labels /\ grouped_by l labels d.
Proof.
  intros vec D kernel zero one solver m vectors nb s s' d l R El E. apply reachable_inv in R.
  rewrite ask_managed in El by auto. injection El as <-.
  destruct (spectral_fails kernel zero one solver m vectors nb s R) as [F1 F2].
  destruct (spectral_cases m vectors nb R) as [B|(n & -> & N & Q)]; [rewrite F1 in E by auto; discriminate|].
  destruct (F2 n eq_refl N) as [F3 F4].
  destruct Q as [E0|(NE & [Mi|COV])]; [rewrite F3 in E by auto; discriminate|rewrite F4 in E by auto; discriminate|].
  destruct (spectral_run kernel zero one solver m vectors n s R NE COV N) as (rows & M & V & AF & Er). rewrite Er in E. clear Er.
  destruct (solver _ M) as [labels|e] eqn:ES; [|discriminate]. cbn [rbind] in E.
  destruct (Nat.lt_ge_cases (length labels) (length (ids m))) as [Lt|Ge].
  { rewrite label_dict_short in E by auto. discriminate. }
  destruct (labels_run m labels R Ge) as (d0 & d1 & E0 & E1 & Can & Co & G). rewrite E0 in E. cbn [rbind] in E. rewrite E1 in E.
  injection E as <- <-. split; auto. split; auto. split; auto. exists n, M, labels. auto.
Qed.

(*EX
Example C43_ex : result (spectral_Z ex vecs (Some 2%Z)) (fresh_spectral Z) = Ok [(A, 0); (B, 1); (C, 0); (E, 1)]%Z /\
  solve 2 [[1000; 0; 1000; 880]; [0; 1000; 0; 890]; [1000; 0; 1000; 980]; [880; 890; 980; 1000]]%Z = Ok [3; 7; 3; 7]%Z.
Proof. split; vm_compute; reflexivity. Qed.
EX*)

(*PROP C67: apart from errors of the solver, spectral clustering raises exactly on a bad number of clusters, a manager without ID or a missing vector; such a call changes nothing. *)
Lemma C67_spectral_errors_proof :
  forall vec D kernel (zero one : D) solver m (vectors : dict pystr vec) nb s e l,
    reachable m -> ask get_list_of_managed_data_IDs m = Ok l ->
    (forall n M, length M = length l -> exists labels, solver n M = Ok labels /\ length labels = length M) ->
    (result (cluster vec D kernel zero one solver m vectors nb) s = Raise e <->
     (e = ValueError /\ (nb = None \/ (exists n, nb = Some n /\ (n < 2)%Z) \/ ~ has_ids m)) \/
     (e = KeyError /\ (exists n, nb = Some n /\ (2 <= n)%Z) /\ exists x, managed m x /\ ~ In x (keys vectors))) /\
    (result (cluster vec D kernel zero one solver m vectors nb) s = Raise e -> fst (cluster vec D kernel zero one solver m vectors nb s) = s).
Proof.
  intros vec D kernel zero one solver m vectors nb s e l R El SO. apply reachable_inv in R.
  rewrite ask_managed in El by auto. injection El as <-.
  destruct (spectral_fails kernel zero one solver m vectors nb s R) as [F1 F2]. unfold result.
  assert (Mi0 : (exists x, managed m x /\ ~ In x (keys vectors)) <-> exists x, In x (ids m) /\ ~ In x (keys vectors)).
  { split; intros (x & X & Y); exists x; split; auto; apply managed_ids; auto. }
  rewrite Mi0. clear Mi0.
  destruct (spectral_cases m vectors nb R) as [B|(n & -> & N & Q)].
  { rewrite F1 by auto. cbn [fst snd]. split; auto. split.
    - intro E. injection E as <-. left. split; auto. destruct nb; eauto.
    - intros [[-> _]|(_ & (n & -> & L) & _)]; auto. lia. }
  destruct (F2 n eq_refl N) as [F3 F4].
  destruct Q as [E0|(NE & [Mi|COV])].
  - rewrite F3 by auto. cbn [fst snd]. split; auto. split.
    + intro E. injection E as <-. left. split; auto. right; right. intro HI. apply has_ids_spec in HI. auto.
    + intros [[-> _]|(_ & _ & x & X & _)]; auto. rewrite E0 in X. destruct X.
  - rewrite F4 by auto. cbn [fst snd]. split; auto. split.
    + intro E. injection E as <-. right. split; auto. split; eauto.
    + intros [(_ & [Nn|[(n' & Nn & L')|Nn]])|(-> & _)]; auto; exfalso; [discriminate|injection Nn as <-; lia|apply Nn, has_ids_spec; auto].
  - destruct (spectral_run kernel zero one solver m vectors n s R NE COV N) as (rows & M & V & AF & Er). rewrite Er. clear Er.
    destruct (SO (Nat.min (Z.to_nat n) (length (ids m))) M (proj1 (proj1 AF))) as (labels & ES & LL). rewrite ES. cbn [rbind].
    destruct (labels_run m labels R) as (d0 & d1 & E0 & E1 & _); [rewrite LL, (proj1 (proj1 AF)); auto|]. rewrite E0. cbn [rbind]. rewrite E1. cbn [fst snd].
    split; [|discriminate]. split; [discriminate|].
    intros [(_ & [Nn|[(n' & Nn & L')|Nn]])|(_ & _ & x & X & Nx)]; exfalso; [discriminate|injection Nn as <-; lia|apply Nn, has_ids_spec; auto|apply Nx; auto].
Qed.

(*EX
Example C67_errors_ex : result (spectral_Z ex [(A, 0)]%Z (Some 2%Z)) (fresh_spectral Z) = Raise KeyError /\
  result (spectral_Z (init []) vecs (Some 2%Z)) (fresh_spectral Z) = Raise ValueError /\
  result (spectral_Z ex vecs (Some 1%Z)) (fresh_spectral Z) = Raise ValueError /\
  make_spectral (str "CCSR") None = Raise ValueError /\ make_spectral (str "SPEC") (Some 1%Z) = Raise ValueError /\ make_spectral (str "SPEC") None = Ok tt.
Proof. repeat split; vm_compute; reflexivity. Qed.
EX*)

(*PROP C67: the constructor accepts exactly the model SPEC with no or at least two components. *)
Lemma C67_spectral_constructor_proof :
  forall model nb_components,
    (make_spectral model nb_components = Ok tt <->
     model = str "SPEC" /\ match nb_components with None => True | Some n => (2 <= n)%Z end) /\
    (make_spectral model nb_components <> Ok tt -> make_spectral model nb_components = Raise ValueError).
Proof.
  intros model c. unfold make_spectral. destruct (eqb_spec model (str "SPEC")) as [->|N]; cbn [negb].
  - destruct c as [n|]; [destruct (Z.ltb_spec n 2)|]; split; try tauto; split; auto; try discriminate; intuition lia.
  - split; auto. split; [discriminate|tauto].
Qed.

(*PROP C68: a spectral clustering object can be reused: results and attributes do not depend on earlier calls. *)
Lemma C68_spectral_no_memory_proof :
  forall vec D kernel (zero one : D) solver m (vectors : dict pystr vec) nb s1 s2,
    result (cluster vec D kernel zero one solver m vectors nb) s1 = result (cluster vec D kernel zero one solver m vectors nb) s2 /\
    forall s1' s2' d1 d2, cluster vec D kernel zero one solver m vectors nb s1 = (s1', Ok d1) ->
      cluster vec D kernel zero one solver m vectors nb s2 = (s2', Ok d2) -> s1' = s2'.
Proof.
  intros vec D kernel zero one solver m vectors nb s1 s2. unfold result, cluster, bind, lift, modify.
  destruct (ask get_list_of_managed_data_IDs m) as [l|e]; [|split; [reflexivity|discriminate]].
  destruct nb as [n|]; [|split; [reflexivity|discriminate]].
  destruct (n <? 2)%Z; [split; [reflexivity|discriminate]|].
  destruct (similarity_matrix vec D kernel m vectors) as [M|e]; [|split; [reflexivity|discriminate]].
  cbn [set_matrix set_sp_predicted sp_matrix sp_predicted].
  unfold clustering_SPEC, bind, lift, modify.
  destruct (constrain_matrix D zero one m l M) as [M'|e]; [|split; [reflexivity|discriminate]]. cbn [set_matrix sp_predicted].
  destruct (solver _ M') as [labels|e]; [|split; [reflexivity|discriminate]].
  destruct (label_dict l labels) as [d|e]; [|split; [reflexivity|discriminate]].
  destruct (rename_clusters_by_order d) as [d'|e]; split; try reflexivity; try discriminate.
  intros s1' s2' d1 d2 E1 E2. assert (Q : (s1', Ok d1) = (s2', Ok d2)) by (etransitivity; [symmetry; exact E1|exact E2]). congruence.
Qed.

(*EX
Example C68_ex : forall s, result (spectral_Z ex vecs (Some 2%Z)) s = Ok [(A, 0); (B, 1); (C, 0); (E, 1)]%Z.
Proof. intro s. transitivity (result (spectral_Z ex vecs (Some 2%Z)) (fresh_spectral Z)); [apply C68_spectral_no_memory|vm_compute; reflexivity]. Qed.
EX*)
