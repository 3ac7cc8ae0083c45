(** * Which data DBScan ignores (C132). *)

From Coq Require Import String List Bool Arith ZArith QArith Lia Permutation Relations Sorted.
(*HEADER
From Coq Require Import String List Bool Arith ZArith QArith Permutation Lia Relations.
From Verif Require Import Base Manager Spec ManagerThms SamplingSpec ClusterSpec KMeansSpec Dbscan DbscanSpec DbscanThms DensitySpec DensityThms IgnoredThms.
Import ListNotations.
Open Scope nat_scope.
Open Scope py_scope.

Definition A := str "a". Definition B := str "b". Definition C := str "c". Definition E := str "d". Definition F := str "e". Definition G := str "f".
HEADER*)
From Verif Require Import Base Manager Spec Closure ManagerProofs ManagerInv ManagerQueries ManagerThms
  Sampling SamplingSpec SamplingProofs SamplingThms ClusterSpec ClusterProofs KMeansSpec JsonThms Dbscan DbscanSpec DbscanThms DensitySpec DensityThms.
Import ListNotations.
Open Scope nat_scope.
Open Scope py_scope.

Section Result.
  Variable l : list pystr.
  Variables near must cannot : pystr -> pystr -> Prop.
  Variables enough big : nat -> Prop.
  Variable n : nat.
  Hypothesis nearL : forall a b, near a b -> In a l /\ In b l.
  Hypothesis nearR : forall a, In a l -> near a a.
  Hypothesis mustR : forall a, In a l -> must a a.
  Hypothesis mustS : forall a b, must a b -> must b a.
  Hypothesis mustL : forall a b, must a b -> In a l /\ In b l.
  Hypothesis NC : forall a b, ~ cannot a b.
  Hypothesis BIG : forall k, 1 <= k -> big k.
  Hypothesis EN : forall k, enough k <-> n <= k.
  Hypothesis ND : NoDup l.

  Definition adense (x : pystr) : Prop := exists ns, NoDup ns /\ n <= length ns /\ forall y, In y ns -> near x y.
  Definition good (y : pystr) : Prop := (exists x, adense x /\ near x y) \/ exists z, z <> y /\ must y z.

  Section Turns.
    Variable N : pystr -> list pystr.
    Variable sg : pystr -> pystr -> Prop.
    Hypothesis T : turns l near cannot enough N sg.

    Lemma no_singles z : ~ singles cannot enough N sg z.
    Proof. intros (_ & _ & a & b & _ & _ & Q). exact (NC a b Q). Qed.
    Lemma no_ever z : ~ ever l cannot enough N sg z.
    Proof. intros (w & _ & S & _). exact (no_singles w S). Qed.
    Lemma local_good x y : In x l -> local l cannot enough N sg x y -> adense x /\ near x y.
    Proof.
      destruct T as (TN & TE & _). intros X [[Q _]|(_ & Q & Y)]; [exfalso; exact (no_ever x Q)|]. split; [|apply TE in Y; tauto].
      exists (N x). split; auto. split; [apply EN; auto|]. intros z Z. apply TE in Z; tauto.
    Qed.
    Lemma owns_good x y : In x l -> owns l must cannot enough N sg x y -> y <> x -> good y.
    Proof.
      intros X (Y & [Q|[Q|[Q _]]] & _) D; [congruence| |].
      - left. exists x. apply local_good; auto.
      - right. exists x. auto.
    Qed.
    Lemma core_good x y : In x l -> leads l must cannot enough N sg x -> core l must cannot enough N sg x y -> good y.
    Proof.
      intros X (_ & w & Dw & W) C. destruct (eqb_spec y x) as [->|D].
      - destruct W as [[_ W]|(Wl & [Q|[Q|[Q _]]] & _)]; [right; exists w; auto|congruence| |right; exists w; auto].
        left. exists x. apply local_good in Q; auto. split; [tauto|]. auto.
      - destruct C as [[_ C]|C]; [right; exists x; auto|apply (owns_good x); auto].
    Qed.
    Lemma absorbs_good C ks C' ks' : absorbs l near cannot enough N sg C ks C' ks' -> (forall k, In k ks -> In k l) ->
      (forall y, C y -> good y) -> forall y, C' y -> good y.
    Proof.
      induction 1 as [C C' E|C C' k ks E NJ|C C' k ks ks' J A IH]; intros KL H y Y.
      - apply H, E, Y.
      - apply H, E, Y.
      - apply IH; auto; [intros; apply KL; right; auto|]. intros z [Cz|Lz]; auto. left. exists k. apply local_good; auto. apply KL. left. auto.
    Qed.
    Lemma grow_good xs ks Cs ks' : grow l near must cannot enough N sg xs ks Cs ks' ->
      (forall x, In x xs -> In x l /\ leads l must cannot enough N sg x) -> (forall k, In k ks -> In k l) ->
      (forall C, In C Cs -> forall y, C y -> good y) /\ (forall k, In k ks' -> In k ks) /\
      (forall x, In x xs -> exists C, In C Cs /\ forall y, core l must cannot enough N sg x y -> C y).
    Proof.
      induction 1 as [ks|x xs ks C ks' Cs ks'' A G IH]; intros XL KL.
      - split; [intros C []|]. split; auto. intros x [].
      - destruct (absorbs_sub _ _ _ _ _ _ _ _ _ _ A) as (S1 & S2 & S3). destruct IH as (I1 & I2 & I3); [intros; apply XL; right; auto|auto|].
        split; [|split].
        + intros C0 [<-|J]; [|apply I1; auto]. apply (absorbs_good _ _ _ _ A); auto. intros y Y. destruct (XL x (or_introl eq_refl)). apply (core_good x); auto.
        + auto.
        + intros w [<-|W]; [exists C; split; [left|]; auto|]. destruct (I3 w W) as (C0 & J & Q). exists C0. split; [right|]; auto.
    Qed.
  End Turns.

  Lemma result_kept d : dbscan_result l near must cannot enough big d ->
    forall y, In y l -> ((exists c, dget y d = Some c /\ (0 <= c)%Z) <-> good y).
  Proof.
    intros RES y Y. assert (RES' := RES).
    destruct RES' as (N & sg & L & K & Cs & ks & R & TT & TU & (_ & LL & _) & (_ & KK) & G & (RN & RK & _) & TK & g & G1 & G2 & G3 & G4 & G5).
    assert (DENSE : forall x z, adense x -> near x z -> exists c, dget z d = Some c /\ (0 <= c)%Z).
    { intros x z (ns & A1 & A2 & A3) Z. apply (result_dense l near must cannot enough big nearL d n NC BIG (fun k => proj2 (EN k)) ND RES x ns z); auto. apply (nearL x z Z). }
    destruct (grow_good N sg TU _ _ _ _ G) as (Q1 & Q2 & Q3); [intros x X; apply LL, X|intros z Z0; apply KK, Z0|]. split.
    - intros (c & Ec & Pc). destruct (g y) as [[t|r]|] eqn:Gy.
      + apply G1 in Gy as [(C & NC' & Cy) _]. apply (Q1 C); auto. apply (nth_error_In _ _ NC').
      + apply G2 in Gy as (Rr & _ & Ty). destruct (TK r Rr) as [_ TE]. apply TE in Ty as (Ly & _). left. exists r.
        apply (local_good N sg TU r y); auto. apply KK, Q2, RK, Rr.
      + destruct (G3 y Y Gy) as (v & Ev & Nv). rewrite Ec in Ev. injection Ev as <-. lia.
    - intros [(x & Dx & Nx)|(z & Dz & Mz)]; [apply (DENSE x); auto|].
      apply G4; auto. intro Gy. destruct (G3 y Y Gy) as (v & Ev & Nv).
      assert (NK : ~ exists c, dget y d = Some c /\ (0 <= c)%Z) by (intros (c & Ec & Pc); rewrite Ev in Ec; injection Ec as <-; lia).
      assert (NL : forall w, In w l -> ~ local l cannot enough N sg w y).
      { intros w W Q. apply NK. apply (local_good N sg TU w y W) in Q. apply (DENSE w); tauto. }
      assert (TU' := TU). destruct TU' as (TN & TE & TS).
      assert (NZ : noise l cannot enough N sg y).
      { split; [apply no_ever|]. intro Q. apply (NL y Y). right. split; [apply no_ever|]. split; auto. apply TE; auto. split; auto. split; auto.
        intro S. apply TS in S; auto. destruct S as (w & _ & S & _). exact (no_singles N sg w S). }
      assert (LY : In y L).
      { apply LL. split; auto. split.
        - split; auto. split; [left; auto|]. intros w Bw Q. assert (W : In w l) by (destruct Bw as (u & v' & -> & _); apply in_elt).
          destruct Q as [->|[Q|[_ Q]]]; [|exact (NL w W Q)|exact (Q NZ)]. exact (before_asym l ND y y Bw Bw).
        - exists z. split; auto. left. split; auto. apply (mustL y z Mz). }
      destruct (Q3 y LY) as (C & JC & HC). apply In_nth_error in JC as [t Nt].
      assert (It : in_core Cs t y) by (exists C; split; auto; apply HC; left; auto).
      assert (W : forall k t, length Cs - t <= k -> in_core Cs t y -> False); [|apply (W (length Cs) t); [lia|exact It]].
      clear - G1 Gy. induction k as [|k IHk]; intros t Lt It.
      + destruct It as (C & NC' & _). assert (t < length Cs) by (apply nth_error_Some; congruence). lia.
      + assert (Q : g y = Some (inl t)); [|congruence]. apply G1. split; auto. intros t' It'. destruct (le_lt_dec t' t) as [|Lt']; auto.
        destruct (IHk t'); auto. lia.
  Qed.
End Result.

(** Without an added CANNOT_LINK none is inferred. *)
Lemma no_cannot m : reachable m -> (forall a b, ~ added m CANNOT_LINK a b) -> forall a b, ~ inferred m a b (Some CANNOT_LINK).
Proof.
  intros R H a b Q. destruct (inferred_inI _ (reachable_inv _ R) a b _ Q) as [A B].
  destruct (C01_inferred_is_closure_proof m R a b) as (_ & C & _); [apply managed_ids; auto|apply managed_ids; auto|].
  apply C in Q. destruct Q as (x & y & _ & _ & [K|K]); exact (H _ _ K).
Qed.

Lemma within_refl vec D pairwise leb ltb of_nat setlist eps ms p m (vectors : dict pystr vec) nb s d :
  valid_setlist setlist -> make_dbscan D leb of_nat eps ms = Ok p -> (forall rows i, leb (pairwise rows i i) eps = true) -> reachable m ->
  result (cluster vec D pairwise leb ltb of_nat setlist p m vectors nb) s = Ok d ->
  forall x, In x (ids m) -> within pairwise leb eps m vectors x x.
Proof.
  intros SL MK RF R E x X. assert (I := reachable_inv _ R).
  destruct (C73_dbscan_errors_proof vec D pairwise leb ltb of_nat setlist eps ms) as (_ & _ & Q).
  destruct (rmap_total (fun x => dlookup x vectors) (ids m)) as [rows Er].
  { intros y Y. apply dlookup_total. destruct (mem y (keys vectors)) eqn:M; [apply mem_In; auto|]. exfalso. apply mem_nIn in M.
    destruct nb as [z|].
    - destruct (Q p m vectors (Some z) s ValueError SL MK RF R) as [[_ Q1] _]. rewrite Q1 in E; [discriminate|]. left. split; auto. left. discriminate.
    - destruct (Q p m vectors None s KeyError SL MK RF R) as [[_ Q1] _]. rewrite Q1 in E; [discriminate|]. right. split; auto. split; auto.
      exists y. split; auto. apply managed_ids; auto. }
  apply In_nth_error in X as [i Ei]. exists (pairwise rows i i). split; [|apply RF].
  exists (ids m), rows, i, i. unfold ask. rewrite run_managed. apply dlookup_map in Er. auto.
Qed.

(*PROP C132: when no two data must be apart and every positive number of points is at least eps, DBScan keeps exactly the data within eps of a core point and the data linked with another data; it ignores all others. *)
Lemma C132_kept_exactly_proof :
  forall vec D pairwise leb ltb of_nat setlist eps ms p m vectors nb s d x,
    valid_setlist setlist -> make_dbscan D leb of_nat eps ms = Ok p -> (forall rows i, leb (pairwise rows i i) eps = true) ->
    strict_weak_order ltb -> (forall x y, leb x y = negb (ltb y x)) -> reachable m -> ~ managed m (str "NONE") ->
    (forall a b, ~ inferred m a b (Some CANNOT_LINK)) -> (forall n, 1 <= n -> leb eps (of_nat n) = true) ->
    result (cluster vec D pairwise leb ltb of_nat setlist p m vectors nb) s = Ok d -> managed m x ->
    ((exists c, dget x d = Some c /\ (0 <= c)%Z) <->
     (exists y, dense pairwise leb eps m vectors (Z.to_nat ms) y /\ within pairwise leb eps m vectors y x) \/
     (exists y, y <> x /\ inferred m x y (Some MUST_LINK))).
Proof.
  intros vec D pairwise leb ltb of_nat setlist eps ms p m vectors nb s d x SL MK RF SW LE R NN NC BIG E X.
  assert (EI := ask_managed m). assert (I := reachable_inv _ R).
  assert (Q := C75_dbscan_functional_proof _ _ _ _ _ _ _ _ _ _ _ _ _ _ _ _ SL MK RF SW LE R NN E EI).
  apply managed_ids in X.
  refine (result_kept (ids m) (within pairwise leb eps m vectors) (fun a b => inferred m a b (Some MUST_LINK)) _ _ _ (Z.to_nat ms)
    (within_managed pairwise leb eps m vectors _ EI) _ _ _ _ NC BIG _ _ d Q x X).
  - exact (within_refl _ _ _ _ _ _ _ _ _ _ _ _ _ _ _ SL MK RF R E).
  - intros a A. apply (C03_always_satisfiable_proof m R). apply managed_ids; auto.
  - intros a b H. unfold inferred in *. rewrite (proj2 (C07_getters_symmetric_proof m R b a)). auto.
  - intros a b H. exact (inferred_inI _ I a b _ H).
  - intro k. cbv beta. tauto.
  - apply inv_nodup; auto.
Qed.

(*EX
(** In tenths: eps is 0.9. B, C and E are a chain of core points, A and F are linked, G is ignored. *)
Definition tenths (n : nat) : Z := (10 * Z.of_nat n)%Z.
Definition data : dict pystr Z := [(B, 100); (C, 109); (E, 118); (A, 0); (F, 50); (G, 200)]%Z.
Definition linked_mgr : mgr := run [CallAddConstraint A F MUST_LINK 1%Q] (init [B; C; E; A; F; G]).
Example C132_kept_ex : make_dbscan Z Z.leb tenths 9%Z 2%Z = Ok (mkDBParams Z 9%Z 2) /\ (forall n, 1 <= n -> Z.leb 9 (tenths n) = true) /\
  reachable linked_mgr /\ ~ managed linked_mgr (str "NONE") /\
  (forall a b, ~ inferred linked_mgr a b (Some CANNOT_LINK)) /\
  result (cluster Z Z on_line Z.leb Z.ltb tenths dedup (mkDBParams Z 9%Z 2) linked_mgr data None) fresh_dbscan =
    Ok [(A, 0); (B, 1); (C, 1); (E, 1); (F, 0); (G, -1)]%Z.
Proof.
  split; [reflexivity|]. split; [intros n N; apply Z.leb_le; unfold tenths; lia|]. split; [apply run_reachable|].
  split. { intros (l & Q & J). vm_compute in Q. injection Q as <-. repeat (destruct J as [J|J]; [discriminate|]). destruct J. }
  split; [|vm_compute; reflexivity]. apply no_cannot; [apply run_reachable|]. intros x y Q. apply ManagerThms.addf_added in Q; [|apply ManagerQueries.reachable_inv, run_reachable].
  destruct Q as (X & Y & Q). revert X Y Q. set (f := ManagerInv.addf linked_mgr). intros X Y. vm_compute in X, Y.
  repeat (destruct X as [<-|X]; [repeat (destruct Y as [<-|Y]; [vm_compute; discriminate|]); contradiction|]). contradiction.
Qed.
EX*)

(*PROP C132 (refuted): the same data without constraints, eps 0.9 and then 1.2, which puts no more data within eps of each other: a data that was in a cluster is ignored. *)
Lemma C132_larger_eps_refuted_proof :
  exists names (vectors : dict pystr Z) eps eps' ms p p' d d' x,
    (eps < eps')%Z /\
    make_dbscan Z Z.leb (fun n => 10 * Z.of_nat n)%Z eps ms = Ok p /\ make_dbscan Z Z.leb (fun n => 10 * Z.of_nat n)%Z eps' ms = Ok p' /\
    result (cluster Z Z on_line Z.leb Z.ltb (fun n => 10 * Z.of_nat n)%Z dedup p (init names) vectors None) fresh_dbscan = Ok d /\
    result (cluster Z Z on_line Z.leb Z.ltb (fun n => 10 * Z.of_nat n)%Z dedup p' (init names) vectors None) fresh_dbscan = Ok d' /\
    (exists c, dget x d = Some c /\ (0 <= c)%Z) /\ dget x d' = Some (-1)%Z.
Proof.
  exists [str "b"; str "c"; str "d"; str "a"; str "aa"],
    [(str "b", 100); (str "c", 109); (str "d", 118); (str "a", 0); (str "aa", 9)]%Z, 9%Z, 12%Z, 2%Z, (mkDBParams Z 9%Z 2), (mkDBParams Z 12%Z 2).
  eexists. eexists. exists (str "d"). split; [lia|]. split; [reflexivity|]. split; [reflexivity|].
  split; [vm_compute; reflexivity|]. split; [vm_compute; reflexivity|]. split; [eexists; split; [vm_compute; reflexivity|lia]|vm_compute; reflexivity].
Qed.

(*PROP C132 (partial): when no two data must be apart and every positive number of points is at least both values of eps, a larger eps and a smaller min_samples never ignore a data that was in a cluster, whatever the vectors, the set orders and the objects. *)
Lemma C132_monotone_partial_proof :
  forall vec D pairwise leb ltb of_nat setlist setlist' eps eps' ms ms' p p' m vectors nb nb' s s' d d' x,
    valid_setlist setlist -> valid_setlist setlist' -> make_dbscan D leb of_nat eps ms = Ok p -> make_dbscan D leb of_nat eps' ms' = Ok p' ->
    (forall rows i, leb (pairwise rows i i) eps = true) ->
    strict_weak_order ltb -> (forall x y, leb x y = negb (ltb y x)) -> reachable m -> ~ managed m (str "NONE") ->
    (forall a b, ~ inferred m a b (Some CANNOT_LINK)) -> leb eps' (of_nat 1) = true -> (forall n, leb (of_nat n) (of_nat (S n)) = true) ->
    leb eps eps' = true -> (ms' <= ms)%Z ->
    result (cluster vec D pairwise leb ltb of_nat setlist p m vectors nb) s = Ok d ->
    result (cluster vec D pairwise leb ltb of_nat setlist' p' m vectors nb') s' = Ok d' ->
    (exists c, dget x d = Some c /\ (0 <= c)%Z) -> exists c, dget x d' = Some c /\ (0 <= c)%Z.
Proof.
  intros vec D pairwise leb ltb of_nat setlist setlist' eps eps' ms ms' p p' m vectors nb nb' s s' d d' x SL SL' MK MK' RF SW LE R NN NC B1 BM EE MM E E' K.
  assert (TR : forall a b c, leb a b = true -> leb b c = true -> leb a c = true).
  { intros a b c. rewrite !LE, !negb_true_iff. intros A B. destruct (ltb c a) eqn:Q; auto. destruct (proj2 (proj2 SW) c b a Q); congruence. }
  assert (B2 : forall n, 1 <= n -> leb eps' (of_nat n) = true).
  { intros n N. induction N as [|n N IH]; auto. apply (TR _ _ _ IH), BM. }
  assert (X : managed m x).
  { assert (CV : covers_exactly m d).
    { unfold result in E. destruct (cluster vec D pairwise leb ltb of_nat setlist p m vectors nb s) as [s1 r] eqn:Ec. cbn [snd] in E. subst r.
      destruct (C46_dbscan_partition_proof _ _ _ _ _ _ _ _ _ _ _ _ _ _ _ _ SL MK RF R Ec) as [CV _]. exact CV. }
    destruct K as (c & K & _). apply CV. apply dget_In in K. apply in_map with (f := fst) in K. exact K. }
  assert (RF' : forall rows i, leb (pairwise rows i i) eps' = true) by (intros rows i; apply (TR _ eps); auto).
  apply (C132_kept_exactly_proof _ _ _ _ _ _ _ _ _ _ _ _ _ _ _ _ SL MK RF SW LE R NN NC (fun n N => TR _ _ _ EE (B2 n N)) E X) in K.
  apply (C132_kept_exactly_proof _ _ _ _ _ _ _ _ _ _ _ _ _ _ _ _ SL' MK' RF' SW LE R NN NC B2 E' X).
  assert (W : forall a b, within pairwise leb eps m vectors a b -> within pairwise leb eps' m vectors a b).
  { intros a b (z & Dz & Lz). exists z. split; auto. apply (TR _ eps); auto. }
  destruct K as [(y & (ns & N1 & N2 & N3) & Y)|K]; [left|right; auto]. exists y. split; auto. exists ns. split; auto. split; auto. lia.
Qed.

(*EX
(** eps grows from 0.9 to 1 and min_samples from 3 falls to 2: the chain of three data, of which only the middle one was a core point, stays; the pair A, F, which was ignored, is added. *)
Definition more : dict pystr Z := [(B, 100); (C, 109); (E, 118); (A, 0); (F, 10)]%Z.
Example C132_monotone_ex : make_dbscan Z Z.leb tenths 9%Z 3%Z = Ok (mkDBParams Z 9%Z 3) /\ make_dbscan Z Z.leb tenths 10%Z 2%Z = Ok (mkDBParams Z 10%Z 2) /\
  result (cluster Z Z on_line Z.leb Z.ltb tenths dedup (mkDBParams Z 9%Z 3) (init [B; C; E; A; F]) more None) fresh_dbscan = Ok [(B, 0); (C, 0); (E, 0); (A, -1); (F, -2)]%Z /\
  result (cluster Z Z on_line Z.leb Z.ltb tenths dedup (mkDBParams Z 10%Z 2) (init [B; C; E; A; F]) more None) fresh_dbscan = Ok [(A, 0); (B, 1); (C, 1); (E, 2); (F, 0)]%Z /\
  Z.leb 10 (tenths 1) = true /\ (forall n, Z.leb (tenths n) (tenths (S n)) = true).
Proof. do 5 (split; [vm_compute; reflexivity|]). intro n. apply Z.leb_le. unfold tenths. lia. Qed.
EX*)
