(** * Density and the clusters of DBScan (C110, C111). *)

From Coq Require Import String List Bool Arith ZArith QArith Lia Permutation Relations Sorted.
(*HEADER
From Coq Require Import String List Bool Arith ZArith QArith Permutation Lia Relations.
From Verif Require Import Base Manager Spec ManagerThms SamplingSpec ClusterSpec KMeansSpec Dbscan DbscanSpec DbscanThms DensitySpec DensityThms.
Import ListNotations.
Open Scope nat_scope.
Open Scope py_scope.

(** An instance for the examples: points on a line, [set] removes repetitions. *)
Definition pw (X : list Z) (i j : nat) : Z := Z.abs (nth i X 0 - nth j X 0)%Z.
Definition dbscan_Z (p : db_params Z) := cluster Z Z pw Z.leb Z.ltb Z.of_nat dedup p.
Definition A := str "a". Definition B := str "b". Definition C := str "c". Definition E := str "d". Definition F := str "e".
HEADER*)
From Verif Require Import Base Manager Spec Closure ManagerProofs ManagerInv ManagerQueries ManagerThms
  Sampling SamplingSpec SamplingProofs ClusterSpec ClusterProofs KMeansSpec JsonThms Dbscan DbscanSpec DbscanThms DensitySpec.
Import ListNotations.
Open Scope nat_scope.
Open Scope py_scope.

Section Result.
  Variable l : list pystr.
  Variables near must cannot : pystr -> pystr -> Prop.
  Variables enough big : nat -> Prop.
  Hypothesis nearL : forall a b, near a b -> In a l /\ In b l.
  Notation conn := (clos_refl_sym_trans pystr (fun a b => near a b \/ must a b)).
  Notation local N sg := (local l cannot enough N sg).
  Notation core N sg := (core l must cannot enough N sg).
  Notation absorbs N sg := (absorbs l near cannot enough N sg).
  Notation grow N sg := (grow l near must cannot enough N sg).
  Notation turns := (turns l near cannot enough).

  Section Turns.
    Variable N : pystr -> list pystr.
    Variable sg : pystr -> pystr -> Prop.
    Hypothesis T : turns N sg.

    Lemma local_conn x y : In x l -> local N sg x y -> conn x y /\ In y l.
    Proof using T.
      destruct T as (_ & TN & _). intros X [[_ ->]|(_ & _ & Y)]; [split; [apply rst_refl|auto]|]. apply TN in Y as (Y & Q & _); auto. split; auto. apply rst_step. auto.
    Qed.
    Lemma core_conn x y : In x l -> core N sg x y -> conn x y /\ In y l.
    Proof using T.
      intros X [[Y Q]|(Y & [->|[Q|[Q _]]] & _)].
      - split; auto. apply rst_step. auto.
      - split; auto. apply rst_refl.
      - apply local_conn; auto.
      - split; auto. apply rst_step. auto.
    Qed.
    Lemma absorbs_conn C ks C' ks' : absorbs N sg C ks C' ks' -> forall x, (forall k, In k ks -> In k l) ->
      (forall y, C y -> conn x y) -> forall y, C' y -> conn x y.
    Proof using T nearL.
      induction 1 as [C C' E|C C' k ks E NJ|C C' k ks ks' [(a & b & Ca & Lb & Nab) _] A IH]; intros x KL H y Y.
      - apply H, E, Y.
      - apply H, E, Y.
      - apply (IH x); auto; [intros; apply KL; right; auto|]. intros z [Cz|Lz]; auto.
        assert (Kl : In k l) by (apply KL; left; auto).
        apply rst_trans with a; [auto|]. apply rst_trans with b; [apply rst_step; auto|]. apply rst_trans with k.
        + apply rst_sym. apply (local_conn k b); auto.
        + apply (local_conn k z); auto.
    Qed.
    Lemma absorbs_sub C ks C' ks' : absorbs N sg C ks C' ks' -> (forall k, In k ks' -> In k ks) /\ (forall y, C y -> C' y) /\
      forall k, In k ks -> In k ks' \/ forall y, local N sg k y -> C' y.
    Proof.
      induction 1 as [C C' E|C C' k ks E NJ|C C' k ks ks' J A (IH1 & IH2 & IH3)]; (split; [|split]); auto.
      - intros y Y. apply E, Y.
      - intros y Y. apply E, Y.
      - intros k' K'. right. auto.
      - intros k' [<-|K']; [right|]; auto.
    Qed.
    Lemma grow_conn xs ks Cs ks' : grow N sg xs ks Cs ks' -> (forall x, In x xs -> In x l) -> (forall k, In k ks -> In k l) ->
      (forall C, In C Cs -> exists x, forall y, C y -> conn x y) /\ (forall k, In k ks' -> In k ks) /\
      forall k, In k ks -> In k ks' \/ exists C, In C Cs /\ forall y, local N sg k y -> C y.
    Proof using T nearL.
      induction 1 as [ks|x xs ks C ks' Cs ks'' A G IH]; intros XL KL.
      - split; [intros C []|]. auto.
      - destruct (absorbs_sub _ _ _ _ A) as (S1 & S2 & S3). destruct IH as (I1 & I2 & I3); [intros; apply XL; right; auto|auto|]. split; [|split].
        + intros C0 [<-|J]; auto. exists x. apply (absorbs_conn _ _ _ _ A); auto. intros y Y. apply core_conn; auto. apply XL; left; auto.
        + auto.
        + intros k K. destruct (S3 k K) as [K'|K'].
          * destruct (I3 k K') as [Q|(C0 & J & Q)]; auto. right. exists C0. split; [right|]; auto.
          * right. exists C. split; [left|]; auto.
    Qed.
  End Turns.

  Lemma result_conn d : dbscan_result l near must cannot enough big d ->
    forall x y c, In x l -> In y l -> dget x d = Some c -> dget y d = Some c -> (0 <= c)%Z -> conn x y.
  Proof using nearL.
    intros (N & sg & L & K & Cs & ks & R & TT & TU & (_ & LL & _) & (_ & KK) & G & (_ & RK & _) & TK & g & G1 & G2 & G3 & G4 & G5) x y c X Y Ex Ey Pc.
    destruct (grow_conn N sg TU _ _ _ _ G) as (Q1 & Q2 & _); [intros z Z0; apply LL, Z0|intros z Z0; apply KK, Z0|].
    destruct (g x) as [[t|r]|] eqn:Gx.
    - assert (Gy : g x = g y) by (apply G5; auto; congruence). rewrite Gx in Gy. symmetry in Gy. apply G1 in Gx as [(C & NC & Cx) _]. apply G1 in Gy as [(C' & NC' & Cy) _].
      rewrite NC in NC'. injection NC' as <-. destruct (Q1 C (nth_error_In _ _ NC)) as (z & H). apply rst_trans with z; [apply rst_sym|]; auto.
    - assert (Gy : g x = g y) by (apply G5; auto; congruence). rewrite Gx in Gy. symmetry in Gy. apply G2 in Gx as (Rr & _ & Tx). apply G2 in Gy as (_ & _ & Ty).
      assert (Rl : In r l) by (apply KK, Q2, RK, Rr). destruct (TK r Rr) as [_ TE]. apply TE in Tx as (Lx & _). apply TE in Ty as (Ly & _).
      apply rst_trans with r; [apply rst_sym|]; apply (local_conn N sg TU r); auto.
    - destruct (G3 x X Gx) as (v & Ev & Nv). rewrite Ex in Ev. injection Ev as <-. lia.
  Qed.

  (** No CANNOT_LINK, every number of points enough for a cluster. *)
  Lemma result_dense d n : (forall a b, ~ cannot a b) -> (forall k, 1 <= k -> big k) -> (forall k, n <= k -> enough k) ->
    NoDup l -> dbscan_result l near must cannot enough big d ->
    forall x ns y, NoDup ns -> n <= length ns -> (forall z, In z ns -> near x z) -> In x l -> near x y ->
      exists c, dget y d = Some c /\ (0 <= c)%Z.
  Proof using nearL.
    intros NC BIG EN ND (N & sg & L & K & Cs & ks & R & TT & TU & (_ & LL & _) & (_ & KK) & G & (RN & RK & _) & TK & g & G1 & G2 & G3 & G4 & G5) x ns y NDn Ln Hn X Nxy.
    destruct (grow_conn N sg TU _ _ _ _ G) as (_ & Q2 & Q3); [intros z Z0; apply LL, Z0|intros z Z0; apply KK, Z0|].
    assert (NoS : forall z, ~ singles cannot enough N sg z) by (intros z (_ & _ & a & b & _ & _ & Q); exact (NC a b Q)).
    destruct TU as (TN & TE & TS).
    assert (NoG : forall a b, In a l -> ~ sg a b) by (intros a b A Q; apply TS in Q as (z & _ & S & _); [exact (NoS z S)|auto]).
    assert (NoE : forall z, ~ ever l cannot enough N sg z) by (intros z (w & _ & S & _); exact (NoS w S)).
    assert (Nx : forall z, near x z -> In z (N x)) by (intros z Z0; apply TE; auto; split; [apply (nearL x z Z0)|split; auto]).
    assert (Ex : enough (length (N x))).
    { apply EN. etransitivity; [exact Ln|]. apply NoDup_incl_length; auto. intros z Z0. apply Nx, Hn, Z0. }
    assert (Lxy : local N sg x y) by (right; split; [auto|split; auto]).
    assert (Kx : In x K) by (apply KK; split; auto; intros [_ Q]; tauto).
    assert (Yl : In y l) by (apply (nearL x y); auto).
    apply G4; auto. intro Gy.
    assert (NCs : forall t, ~ in_core Cs t y).
    { assert (W : forall k t, length Cs - t <= k -> in_core Cs t y -> False); [|intros t It; apply (W (length Cs) t); [lia|exact It]].
      induction k as [|k IHk]; intros t Lt It.
      - destruct It as (C & NC' & _). assert (t < length Cs) by (apply nth_error_Some; congruence). lia.
      - assert (Q : g y = Some (inl t)); [|congruence]. apply G1. split; auto. intros t' It'. destruct (le_lt_dec t' t) as [|Lt']; auto.
        destruct (IHk t'); auto. lia. }
    destruct (Q3 x Kx) as [Ks|(C & JC & HC)].
    2:{ apply In_nth_error in JC as [t Nt]. apply (NCs t). exists C. split; auto. }
    assert (Rx : In x R) by (apply RK; auto).
    destruct (TK x Rx) as [_ TX]. assert (NT : In y (TT x)).
    { apply TX. split; auto. split; auto. intros r' B _ Q. assert (Rr : In r' R) by (destruct B as (a & b & -> & _); apply in_elt).
      assert (Q' : g y = Some (inr r')); [|congruence]. apply G2. split; auto. split; auto. apply BIG. destruct (TT r'); [destruct Q|simpl; lia]. }
    assert (Q' : g y = Some (inr x)); [|congruence]. apply G2. split; auto. split; auto. apply BIG. destruct (TT x); [destruct NT|simpl; lia].
  Qed.
End Result.

Lemma within_managed {vec D} (pairwise : list vec -> nat -> nat -> D) leb eps m vectors l : ask get_list_of_managed_data_IDs m = Ok l ->
  forall a b, within pairwise leb eps m vectors a b -> In a l /\ In b l.
Proof.
  intros EI a b (d & (l' & rows & i & j & EI' & _ & A & B & _) & _). rewrite EI in EI'. injection EI' as <-. split; eapply nth_error_In; eauto.
Qed.

(*PROP C110: two data in the same cluster are linked by a chain of steps of at most eps and of MUST_LINKs, whatever the constraints are. *)
Lemma C110_clusters_hang_together_proof :
  forall vec D pairwise leb ltb of_nat setlist eps ms p m vectors nb s d x y c,
    valid_setlist setlist -> make_dbscan D leb of_nat eps ms = Ok p -> (forall rows i, leb (pairwise rows i i) eps = true) ->
    strict_weak_order ltb -> (forall x y, leb x y = negb (ltb y x)) -> reachable m -> ~ managed m (str "NONE") ->
    result (cluster vec D pairwise leb ltb of_nat setlist p m vectors nb) s = Ok d ->
    dget x d = Some c -> dget y d = Some c -> (0 <= c)%Z ->
    hangs_together pairwise leb eps m vectors x y.
Proof.
  intros vec D pairwise leb ltb of_nat setlist eps ms p m vectors nb s d x y c SL MK RF SW LE R NN E Ex Ey P.
  assert (CV : covers_exactly m d).
  { unfold result in E. destruct (cluster vec D pairwise leb ltb of_nat setlist p m vectors nb s) as [s' r] eqn:Ec. cbn [snd] in E. subst r.
    destruct (C46_dbscan_partition_proof _ _ _ _ _ _ _ _ _ _ _ _ _ _ _ _ SL MK RF R Ec) as [CV _]. exact CV. }
  assert (EI := ask_managed m). set (l := ids m) in *. assert (Q := C75_dbscan_functional_proof _ _ _ _ _ _ _ _ _ _ _ _ _ _ _ _ SL MK RF SW LE R NN E EI).
  assert (KL : forall z v, dget z d = Some v -> In z l).
  { intros z v Ez. destruct (proj1 (CV z)) as (l' & EI' & J); [|congruence]. apply dget_In in Ez. apply in_map with (f := fst) in Ez. exact Ez. }
  refine (result_conn _ _ _ _ _ _ _ d Q x y c (KL _ _ Ex) (KL _ _ Ey) Ex Ey P). exact (within_managed pairwise leb eps m vectors l EI).
Qed.
(*EX
(** A and F are in one cluster because of C, near F and linked to A. *)
Definition ex : mgr := run [CallAddConstraint A C MUST_LINK 1%Q; CallAddConstraint B F CANNOT_LINK 1%Q] (init [A; B; C; E; F]).
Definition vecs : dict pystr Z := [(A, 0); (B, 10); (C, 50); (E, 30); (F, 52)]%Z.
Example C110_ex : result (dbscan_Z (mkDBParams Z 2%Z 2) ex vecs None) fresh_dbscan = Ok [(A, 0); (C, 0); (F, 0); (B, -1); (E, -2)]%Z /\
  ~ managed ex (str "NONE") /\ reachable ex /\ make_dbscan Z Z.leb Z.of_nat 2%Z 2%Z = Ok (mkDBParams Z 2%Z 2) /\
  within pw Z.leb 2%Z ex vecs C F /\ ~ within pw Z.leb 2%Z ex vecs A F /\ ~ inferred ex A F (Some MUST_LINK).
Proof.
  split; [vm_compute; reflexivity|]. split; [|split; [apply run_reachable|split; [reflexivity|]]].
  { intros (l & Q & J). vm_compute in Q. injection Q as <-. repeat (destruct J as [J|J]; [discriminate|]). destruct J. }
  split; [|split; [|vm_compute; discriminate]].
  - exists 2%Z. split; [|reflexivity]. exists [A; B; C; E; F], [0; 10; 50; 30; 52]%Z, 2, 4. repeat split; vm_compute; reflexivity.
  - intros (d & (l & rows & i & j & Q & V & I & J & ->) & W). vm_compute in Q. injection Q as <-.
    destruct rows as [|r0 [|r1 [|r2 [|r3 [|r4 [|]]]]]]; try discriminate V. vm_compute in V. injection V as <- <- <- <- <-.
    destruct i as [|[|[|[|[|[|i]]]]]]; try discriminate I; destruct j as [|[|[|[|[|[|j]]]]]]; try discriminate J; discriminate W.
Qed.
EX*)

Section Line.
  (** Points on a line. *)
  Definition on_line (X : list Z) (i j : nat) : Z := Z.abs (nth i X 0 - nth j X 0)%Z.
End Line.

(*PROP C111 (refuted): there is no constraint at all, the datum x has min_samples data within eps, and it is ignored. *)
Lemma C111_dense_ignored_refuted_proof :
  exists names vectors eps ms p d x,
    make_dbscan Z Z.leb Z.of_nat eps ms = Ok p /\
    result (cluster Z Z on_line Z.leb Z.ltb Z.of_nat dedup p (init names) vectors None) fresh_dbscan = Ok d /\
    dense on_line Z.leb eps (init names) vectors (Z.to_nat ms) x /\
    dget x d = Some (-1)%Z.
Proof.
  exists [str "b"; str "c"; str "d"; str "a"; str "aa"],
    [(str "b", 10); (str "c", 12); (str "d", 14); (str "a", 0); (str "aa", 1)]%Z, 2%Z, 2%Z, (mkDBParams Z 2%Z 2).
  eexists. exists (str "d"). split; [reflexivity|]. split; [vm_compute; reflexivity|]. split; [|vm_compute; reflexivity].
  exists [str "c"; str "d"]. split; [repeat constructor; simpl; intuition discriminate|]. split; [simpl; lia|].
  intros y [<-|[<-|[]]]; [exists 2%Z|exists 0%Z]; (split; [|reflexivity]);
    exists [str "b"; str "c"; str "d"; str "a"; str "aa"], [10; 12; 14; 0; 1]%Z; [exists 2, 1|exists 2, 2]; repeat split; vm_compute; reflexivity.
Qed.

(*PROP C111 (refuted): there is no constraint at all, x and y are core points within eps of each other, and they are in different clusters. *)
Lemma C111_dense_neighbours_split_refuted_proof :
  exists names vectors eps ms p d x y cx cy,
    make_dbscan Z Z.leb Z.of_nat eps ms = Ok p /\
    result (cluster Z Z on_line Z.leb Z.ltb Z.of_nat dedup p (init names) vectors None) fresh_dbscan = Ok d /\
    dense on_line Z.leb eps (init names) vectors (Z.to_nat ms) x /\
    dense on_line Z.leb eps (init names) vectors (Z.to_nat ms) y /\
    within on_line Z.leb eps (init names) vectors x y /\
    dget x d = Some cx /\ dget y d = Some cy /\ (0 <= cx)%Z /\ (0 <= cy)%Z /\ cx <> cy.
Proof.
  set (vs := [(str "b", 10); (str "c", 12); (str "d", 14); (str "e", 16); (str "a", 0); (str "aa", 1)]%Z).
  set (ns := [str "b"; str "c"; str "d"; str "e"; str "a"; str "aa"]).
  assert (W : forall i j a b, nth_error ns i = Some a -> nth_error ns j = Some b -> Z.leb (on_line (vals vs) i j) 2 = true -> within on_line Z.leb 2%Z (init ns) vs a b).
  { intros i j a b Ia Jb L. eexists. split; [|exact L]. exists ns, (vals vs), i, j. repeat split; auto. }
  exists ns, vs, 2%Z, 2%Z, (mkDBParams Z 2%Z 2). eexists. exists (str "c"), (str "d"). eexists. eexists.
  split; [reflexivity|]. split; [vm_compute; reflexivity|].
  split; [|split; [|split; [apply (W 1 2); reflexivity|split; [vm_compute; reflexivity|split; [vm_compute; reflexivity|split; [|split]; [lia|lia|lia]]]]]].
  - exists [str "b"; str "c"]. split; [repeat constructor; simpl; intuition discriminate|]. split; [simpl; lia|].
    intros y [<-|[<-|[]]]; [apply (W 1 0)|apply (W 1 1)]; reflexivity.
  - exists [str "c"; str "d"]. split; [repeat constructor; simpl; intuition discriminate|]. split; [simpl; lia|].
    intros y [<-|[<-|[]]]; [apply (W 2 1)|apply (W 2 2)]; reflexivity.
Qed.

Lemma init_no_cl names a b : ~ inferred (init names) a b (Some CANNOT_LINK).
Proof.
  intro Q. assert (I := init_inv names). destruct (inferred_inI _ I a b _ Q) as [A B].
  assert (R : reachable (init names)) by apply (run_reachable names []).
  destruct (C01_inferred_is_closure_proof _ R a b) as (_ & C & _); [apply managed_ids; auto|apply managed_ids; auto|].
  apply C in Q. destruct Q as (x & y & _ & _ & K). destruct K as [K|K]; apply init_added in K; destruct K as (_ & _ & K); discriminate.
Qed.

(*PROP C111 (positive part): when no two data must be apart and every positive number of points is at least eps, a core point and all the data within eps of it are put in clusters. *)
Lemma C111_dense_kept_partial_proof :
  forall vec D pairwise leb ltb of_nat setlist eps ms p m vectors nb s d x y,
    valid_setlist setlist -> make_dbscan D leb of_nat eps ms = Ok p -> (forall rows i, leb (pairwise rows i i) eps = true) ->
    strict_weak_order ltb -> (forall x y, leb x y = negb (ltb y x)) -> reachable m -> ~ managed m (str "NONE") ->
    (forall a b, ~ inferred m a b (Some CANNOT_LINK)) -> (forall n, 1 <= n -> leb eps (of_nat n) = true) ->
    result (cluster vec D pairwise leb ltb of_nat setlist p m vectors nb) s = Ok d ->
    dense pairwise leb eps m vectors (Z.to_nat ms) x -> within pairwise leb eps m vectors x y ->
    exists c, dget y d = Some c /\ (0 <= c)%Z.
Proof.
  intros vec D pairwise leb ltb of_nat setlist eps ms p m vectors nb s d x y SL MK RF SW LE R NN NC BIG E (ns & NDn & Ln & Hn) W.
  assert (EI := ask_managed m). set (l := ids m) in *. assert (Q := C75_dbscan_functional_proof _ _ _ _ _ _ _ _ _ _ _ _ _ _ _ _ SL MK RF SW LE R NN E EI).
  assert (NL := within_managed pairwise leb eps m vectors l EI).
  refine (result_dense l _ _ _ _ _ NL d (Z.to_nat ms) NC BIG _ _ Q x ns y NDn Ln Hn _ W); [auto| |apply (NL x y W)].
  apply reachable_inv in R. exact (inv_nodup m R).
Qed.
(*EX
(** eps 2 counted in thirds of a point: the last datum of the chain of the first refutation is kept now (in a cluster of its own). *)
Example C111_kept_ex :
  let names := [B; C; E; A; F] in let vectors := [(B, 10); (C, 12); (E, 14); (A, 0); (F, 1)]%Z in
  make_dbscan Z Z.leb (fun n => 3 * Z.of_nat n)%Z 2%Z 2%Z = Ok (mkDBParams Z 2%Z 2) /\
  (forall n, 1 <= n -> Z.leb 2 (3 * Z.of_nat n) = true) /\ (forall a b, ~ inferred (init names) a b (Some CANNOT_LINK)) /\
  result (cluster Z Z pw Z.leb Z.ltb (fun n => 3 * Z.of_nat n)%Z dedup (mkDBParams Z 2%Z 2) (init names) vectors None) fresh_dbscan =
    Ok [(A, 0); (B, 1); (C, 1); (E, 2); (F, 0)]%Z.
Proof.
  intros names vectors. split; [reflexivity|]. split; [intros n N; apply Z.leb_le; lia|]. split; [exact (init_no_cl names)|vm_compute; reflexivity].
Qed.
EX*)
