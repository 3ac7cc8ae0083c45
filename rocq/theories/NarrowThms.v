(** * Complete linkage and the width of the clusters (C137). *)

From Coq Require Import String List Bool Arith ZArith QArith Lia Permutation Relations.
(*HEADER
From Coq Require Import String List Bool Arith ZArith QArith Permutation Lia Relations.
From Verif Require Import Base Manager Spec ManagerInv ManagerQueries ManagerThms SamplingSpec ClusterSpec ClusterProofs KMeansSpec Hierarchical HierSpec CutSpec NarrowThms.
Import ListNotations.
Open Scope nat_scope.

(** An instance for the examples: points on a line. *)
Definition pw (X : list Z) (i j : nat) : Z := Z.abs (nth i X 0 - nth j X 0)%Z.
Definition zmean (l : list Z) : Z := (fold_right Z.add 0 l / Z.of_nat (length l))%Z.
Definition zsum (l : list Z) : Z := fold_right Z.add 0%Z l.
Definition hier_Z := cluster Z Z pw (fun x y => Z.abs (x - y)%Z) Z.ltb zsum (fun d n => (d / Z.of_nat n)%Z) 1000000%Z zmean.
Definition A := str "a". Definition B := str "b". Definition C := str "c". Definition E := str "d". Definition F := str "e".
HEADER*)
From Verif Require Import Base Manager Spec Closure ManagerProofs ManagerInv ManagerQueries ManagerThms
  Sampling SamplingSpec SamplingProofs SamplingThms Rename ClusterSpec RenameThms ClusterProofs KMeans KMeansSpec KMeansProofs KMeansThms
  Hierarchical HierSpec HierProofs HierRun HierTree HierThms CutSpec CutThms InversionThms.
Import ListNotations.
Open Scope nat_scope.
Open Scope py_scope.

Section Narrow.
  Context {vec D : Type}.
  Variable pairwise : list vec -> nat -> nat -> D.
  Variable cdistance : vec -> vec -> D.
  Variable ltb : D -> D -> bool.
  Variable dsum : list D -> D.
  Variable ddiv : D -> nat -> D.
  Variable inf : D.
  Variable mean : list vec -> vec.
  Variable m : mgr.
  Variable vectors : dict pystr vec.
  Hypothesis I : Inv m.
  Hypothesis TO : strict_total_order ltb.
  Hypothesis SYM : forall X i j, pairwise X i j = pairwise X j i.
  Hypothesis INF : forall x, ltb inf x = false.
  Notation tree := (tree vec).
  Notation members := (t_members vec).
  Notation complete := (str "complete").
  Notation ldist := (linkage_distance pairwise cdistance ltb dsum ddiv inf complete m vectors).
  Notation nearest := (closest pairwise cdistance ltb dsum ddiv inf complete m vectors).
  Notation halted := (stopped pairwise cdistance ltb dsum ddiv inf complete m vectors).
  Notation dis := (distance_is pairwise m vectors).
  Notation trace_ := (run_trace mean vectors nearest halted).
  Notation forest_ok := (forest_ok mean m vectors).
  Notation bound := (bound pairwise cdistance ltb dsum ddiv inf complete m vectors).

  Definition narrow (F : list tree) : Prop := forall x y d, together F x y -> ~ inferred m x y (Some MUST_LINK) -> dis (x, y) d -> bound d F.

  Lemma bound_trans h h' (F : list tree) : ltb h' h = false -> bound h' F -> bound h F.
  Proof using TO. intros L B u1 u2 d BF Ld. apply (ge_trans ltb TO d h' h); auto. apply (B u1 u2); auto. Qed.

  Lemma narrow_run it F root tr : trace_ it F root tr -> forest_ok it F -> narrow F -> forall F', In F' tr -> length F' <= 1 \/ narrow F'.
  Proof using I TO SYM INF.
    induction 1 as [it t|it l1 t1 l2 t2 l3 t root tr CL NO A IH|it ts root L ST NO]; intros FO OK F' J.
    - destruct J as [<-|[]]; auto.
    - destruct J as [<-|J]; auto. set (ts := l1 ++ t1 :: l2 ++ t2 :: l3) in *.
      apply IH; auto.
      { apply (merge_ok mean m vectors I it l1 t1 l2 t2 l3 t); auto. destruct CL as (d & [[_ E]|[N _]] & NI & _); congruence. }
      assert (Bt : before ts t1 t2) by (exists l1, (l2 ++ t2 :: l3); split; auto; apply in_elt).
      assert (M0 : members t = members t1 ++ members t2) by (destruct NO as (_ & _ & -> & _); simpl; rewrite app_nil_r; auto).
      assert (CL' := CL). destruct CL' as (d0 & L0 & NI & _).
      assert (BO : bound d0 (l1 ++ l2 ++ l3 ++ [t])).
      { apply (merge_bound pairwise cdistance ltb dsum ddiv inf mean complete m vectors I TO SYM INF (or_intror eq_refl) it l1 t1 l2 t2 l3 t d0); auto. }
      assert (Old : forall x y d, together ts x y -> ~ inferred m x y (Some MUST_LINK) -> dis (x, y) d -> bound d (l1 ++ l2 ++ l3 ++ [t])).
      { intros x y d T NM Dd. apply (bound_trans d d0); auto. apply (OK x y d T NM Dd t1 t2); auto. }
      intros x y d (w & W & X & Y) NM Dd.
      assert (Q : In w ts \/ w = t) by (unfold ts; rewrite !in_app_iff in *; simpl in *; rewrite in_app_iff; simpl; intuition).
      assert (T1 : In t1 ts) by (apply in_elt). assert (T2 : In t2 ts) by (apply in_or_app; right; right; apply in_elt).
      destruct Q as [Q| ->]; [apply (Old x y d); auto; exists w; auto|].
      assert (Cross : forall a b d', In a (members t1) -> In b (members t2) -> dis (a, b) d' -> ltb d0 d' = false).
      { destruct L0 as [[_ E]|[_ [(_ & _ & Mx)|[(E & _)|[(E & _)|(E & _)]]]]]; try congruence; try discriminate. auto. }
      rewrite M0 in X, Y. apply in_app_or in X, Y. destruct X as [X|X], Y as [Y|Y].
      + apply (Old x y d); auto. exists t1. auto.
      + apply (bound_trans d d0); auto. apply (Cross x y); auto.
      + apply (bound_trans d d0); auto. apply (Cross y x); auto. apply (dis_sym pairwise m vectors SYM); auto.
      + apply (Old x y d); auto. exists t2. auto.
    - destruct J as [<-|[<-|[]]]; auto.
  Qed.

  Lemma bound_far h x y (F : list tree) it tu tv : forest_ok it F -> bound h F -> dis (x, y) h -> In tu F -> In tv F -> tu <> tv -> ~ incompatible m tu tv ->
    exists a b d, In a (members tu) /\ In b (members tv) /\ dis (a, b) d /\ ltb d h = false.
  Proof using I TO SYM.
    intros FO BO Dxy Tu Tv NE NI. assert (G := trees_inids _ _ _ _ _ FO). rewrite Forall_forall in G.
    assert (Gu := G tu Tu). assert (Gv := G tv Tv).
    destruct (greatest pairwise ltb m vectors I TO (list_prod (members tu) (members tv))) as ([a b] & d & J & Dd & Max).
    { destruct Gu as [NU _], Gv as [NV _]. destruct (members tu), (members tv); try congruence; discriminate. }
    { intros [p q] J. apply in_prod_iff in J as [P Q]. apply (dis_total pairwise m vectors I _ _ _ Dxy); [apply Gu|apply Gv]; auto. }
    apply in_prod_iff in J as [A B]. exists a, b, d. split; auto. split; auto. split; auto.
    assert (Ld : ldist tu tv d).
    { right. split; auto. left. split; auto. split; [exists a, b; auto|]. intros p q d' P Q D'. apply (Max (p, q)); auto. apply in_prod; auto. }
    destruct (before_total F tu tv Tu Tv NE) as [BF|BF].
    - apply (BO tu tv); auto.
    - apply (BO tv tu); auto. apply (ldist_sym pairwise cdistance ltb dsum ddiv inf complete m vectors I SYM (or_intror eq_refl)); auto.
  Qed.

  Lemma trace_forests it F root tr : trace_ it F root tr -> forest_ok it F -> forall F', In F' tr -> exists it', forest_ok it' F' \/ length F' <= 1.
  Proof using I.
    induction 1 as [it t|it l1 t1 l2 t2 l3 t root tr CL NO A IH|it ts root L ST NO]; intros FO F' J.
    - destruct J as [<-|[]]. exists it. auto.
    - destruct J as [<-|J]; [exists it; auto|]. apply IH; auto.
      apply (merge_ok mean m vectors I it l1 t1 l2 t2 l3 t); auto. destruct CL as (d & [[_ E]|[N _]] & NI & _); congruence.
    - destruct J as [<-|[<-|[]]]; exists it; auto.
  Qed.
End Narrow.

(*PROP C137: in a cut by iteration after complete linkage, joining two clusters that may be joined would put together two data at least as far
    from each other as any two data that are together now without a MUST_LINK. *)
Lemma C137_no_narrower_merge_partial_proof :
  forall vec D (eqD : EqB D) pairwise cdistance ltb dsum ddiv inf mean m vectors nb s s' d k d',
    strict_total_order ltb -> (forall X i j, pairwise X i j = pairwise X j i) -> (forall x, ltb inf x = false) -> reachable m ->
    cluster vec D pairwise cdistance ltb dsum ddiv inf mean (str "complete") m vectors nb s = (s', Ok d) ->
    compute_predicted_clusters vec k (str "iteration") s' = (s', Ok d') ->
    forall x y u v dxy, managed m x -> managed m y -> managed m u -> managed m v ->
      dget x d' = dget y d' -> ~ inferred m x y (Some MUST_LINK) -> distance_is pairwise m vectors (x, y) dxy ->
      dget u d' <> dget v d' ->
      (forall a b, managed m a -> managed m b -> dget a d' = dget u d' -> dget b d' = dget v d' -> ~ inferred m a b (Some CANNOT_LINK)) ->
      exists a b dab, managed m a /\ managed m b /\ dget a d' = dget u d' /\ dget b d' = dget v d' /\
        distance_is pairwise m vectors (a, b) dab /\ ltb dab dxy = false.
Proof.
  intros vec D eqD pairwise cdistance ltb dsum ddiv inf mean m vectors nb s s' d k d' TO SYM INF R E Ec x y u v dxy Mx My Mu Mv Exy NM Dxy Nuv NC.
  apply reachable_inv in R.
  destruct (trace_of_run eqD pairwise cdistance ltb dsum ddiv inf mean (str "complete") m vectors nb s s' d TO R eq_refl E) as (root & first & tr & Er & ST & T & Q).
  destruct (Q k) as (d0 & F & Ec' & [J _] & [K G] & Can & Co). rewrite Ec in Ec'. injection Ec' as <-.
  assert (TG : forall a b, managed m a -> managed m b -> (dget a d' = dget b d' <-> together F a b)) by (intros a b Ma Mb; apply G; apply Co; auto).
  assert (FO := start_ok mean m vectors R first ST).
  assert (N0 : narrow pairwise cdistance ltb dsum ddiv inf m vectors first).
  { intros a b dd Tab NMab _. exfalso. apply NMab. apply (start_ml mean m vectors R first ST a b Tab). }
  assert (Tx : forall a, managed m a -> exists t, In t F /\ In a (t_members vec t)) by (intros a Ma; apply K, Co; auto).
  destruct (Tx u Mu) as (tu & Tu & Uu). destruct (Tx v Mv) as (tv & Tv & Vv).
  assert (NE : tu <> tv). { intros ->. apply Nuv, TG; auto. exists tv. auto. }
  assert (Mem : forall t a, In t F -> In a (t_members vec t) -> managed m a).
  { intros t a Jt Ja. apply Co. apply K. exists t. auto. }
  destruct (narrow_run pairwise cdistance ltb dsum ddiv inf mean m vectors R TO SYM INF 1 first root tr T FO N0 F J) as [L|NA].
  { exfalso. apply NE. destruct F as [|t0 [|t1 F]]; [destruct Tu| |simpl in L; lia]. destruct Tu as [<-|[]], Tv as [<-|[]]. auto. }
  assert (BO := NA x y dxy (proj1 (TG x y Mx My) Exy) NM Dxy).
  assert (FO' := trace_forests pairwise cdistance ltb dsum ddiv inf mean m vectors R 1 first root tr T FO F J).
  destruct FO' as (it & [FO'|L]).
  2:{ exfalso. apply NE. destruct F as [|t0 [|t1 F]]; [destruct Tu| |simpl in L; lia]. destruct Tu as [<-|[]], Tv as [<-|[]]. auto. }
  destruct (bound_far pairwise cdistance ltb dsum ddiv inf mean m vectors R TO SYM dxy x y F it tu tv FO' BO Dxy Tu Tv NE) as (a & b & dab & Ja & Jb & Dab & Lab).
  { intros (a & b & Ja & Jb & Qab). apply (NC a b); auto; [apply (Mem tu); auto|apply (Mem tv); auto| |].
    - apply TG; [apply (Mem tu); auto|auto|]. exists tu. auto.
    - apply TG; [apply (Mem tv); auto|auto|]. exists tv. auto. }
  exists a, b, dab. assert (Ma : managed m a) by (apply (Mem tu); auto). assert (Mb : managed m b) by (apply (Mem tv); auto).
  split; auto. split; auto. split; [apply TG; auto; exists tu; auto|]. split; [apply TG; auto; exists tv; auto|]. auto.
Qed.

(*EX
(** "c" and "d" are at distance 1 but may not be together. *)
Definition six : mgr := run [CallAddConstraint C E CANNOT_LINK 1%Q] (init [A; B; C; E; F]).
Definition spots : dict pystr Z := [(A, 0); (B, 1); (C, 9); (E, 10); (F, 15)]%Z.
Example C137_ex : reachable six /\
  result (compute_predicted_clusters Z 3 (str "iteration")) (fst (hier_Z (str "complete") six spots (Some 3%Z) (fresh_hier Z))) =
    Ok [(A, 0); (B, 0); (C, 1); (E, 2); (F, 2)]%Z.
Proof. split; [apply run_reachable|]. vm_compute. reflexivity. Qed.
EX*)

Lemma rows_of m (vectors : dict pystr Z) names rows l : ask get_list_of_managed_data_IDs m = Ok names ->
  map (fun x => dget x vectors) names = map Some rows ->
  ask get_list_of_managed_data_IDs m = Ok l -> forall rows', map (fun x => dget x vectors) l = map Some rows' -> l = names /\ rows' = rows.
Proof.
  intros E R E' rows' R'. rewrite E in E'. injection E' as <-. split; auto. rewrite R in R'. clear - R'.
  revert rows' R'. induction rows as [|r rows IH]; intros [|r' rows'] R'; simpl in *; try discriminate; auto. injection R' as <- R'. f_equal; auto.
Qed.

Definition four_spots : dict pystr Z := [(str "a", 0); (str "b", 3); (str "c", 5); (str "d", 8)]%Z.
Definition four_data : mgr := init [str "a"; str "b"; str "c"; str "d"].

(*PROP C137 (what fails): without any constraint, another clustering with as many clusters can be narrower: all its clusters have smaller diameters
    than one of the clusters that complete linkage returns, with either cut. *)
Lemma C137_narrowest_refuted_proof :
  exists pairwise cdistance dsum ddiv mean m vectors s' d e,
    (forall X i j, pairwise X i j = pairwise X j i) /\ reachable m /\
    cluster Z Z pairwise cdistance Z.ltb dsum ddiv 1000%Z mean (str "complete") m vectors (Some 2%Z) (fresh_hier Z) = (s', Ok d) /\
    compute_predicted_clusters Z 2 (str "iteration") s' = (s', Ok d) /\
    NoDup (keys e) /\ covers_exactly m e /\ respects m e /\ nb_clusters_of e <= nb_clusters_of d /\
    exists x y dxy, managed m x /\ managed m y /\ dget x d = dget y d /\ distance_is pairwise m vectors (x, y) dxy /\
      forall a b dab, managed m a -> managed m b -> dget a e = dget b e -> distance_is pairwise m vectors (a, b) dab -> (dab < dxy)%Z.
Proof.
  exists line, (fun x y => Z.abs (x - y)%Z), (fold_right Z.add 0%Z), (fun d n => (d / Z.of_nat n)%Z), (fun l => nth 0 l 0%Z), four_data, four_spots.
  set (run := cluster Z Z line (fun x y => Z.abs (x - y)%Z) Z.ltb (fold_right Z.add 0%Z) (fun d n => (d / Z.of_nat n)%Z) 1000%Z (fun l => nth 0 l 0%Z)
                (str "complete") four_data four_spots (Some 2%Z) (fresh_hier Z)).
  exists (fst run), [(str "a", 0); (str "b", 0); (str "c", 0); (str "d", 1)]%Z, [(str "a", 0); (str "b", 0); (str "c", 1); (str "d", 1)]%Z.
  assert (R : reachable four_data) by (exact (run_reachable _ [])).
  assert (In4 : forall x, managed four_data x <-> In x [str "a"; str "b"; str "c"; str "d"]).
  { intro x. rewrite managed_ids by (apply reachable_inv; auto). reflexivity. }
  split; [intros; unfold line; lia|]. split; auto. split; [vm_compute; reflexivity|]. split; [vm_compute; reflexivity|].
  split; [repeat constructor; simpl; intuition discriminate|]. split; [intro x; rewrite In4; reflexivity|]. split.
  { split; intros a b A B Q; apply In4 in A, B; simpl in A, B; repeat destruct A as [<-|A]; try tauto; repeat destruct B as [<-|B]; try tauto;
    vm_compute in Q; try discriminate; vm_compute; congruence. }
  split; [vm_compute; lia|]. exists (str "a"), (str "c"), 5%Z. split; [apply In4; simpl; auto|]. split; [apply In4; simpl; auto|].
  split; [vm_compute; reflexivity|]. split.
  { exists (ids four_data), [0; 3; 5; 8]%Z, 0, 2. repeat split. }
  intros a b da A B N (l & rows & i & j & El & Er & Ni & Nj & ->).
  destruct (rows_of four_data four_spots (ids four_data) [0; 3; 5; 8]%Z l eq_refl eq_refl El rows Er) as [-> ->].
  cbn [fst snd] in Ni, Nj. do 4 try (destruct i as [|i]); try (destruct i; discriminate); do 4 try (destruct j as [|j]); try (destruct j; discriminate);
    vm_compute in Ni, Nj; injection Ni as <-; injection Nj as <-; try (exfalso; vm_compute in N; discriminate); vm_compute; reflexivity.
Qed.

(*PROP C137 (what fails, default cut): the cut that [cluster] makes, by size, can separate two clusters whose union would be narrower than a
    cluster that it returns. *)
Lemma C137_default_cut_refuted_proof :
  exists pairwise cdistance dsum ddiv mean m vectors d x y u v dxy,
    (forall X i j, pairwise X i j = pairwise X j i) /\ reachable m /\ (forall a b, ~ inferred m a b (Some CANNOT_LINK)) /\
    result (cluster Z Z pairwise cdistance Z.ltb dsum ddiv 1000%Z mean (str "complete") m vectors (Some 3%Z)) (fresh_hier Z) = Ok d /\
    managed m x /\ managed m y /\ managed m u /\ managed m v /\
    dget x d = dget y d /\ distance_is pairwise m vectors (x, y) dxy /\ dget u d <> dget v d /\
    forall a b dab, managed m a -> managed m b -> dget a d = dget u d \/ dget a d = dget v d -> dget b d = dget u d \/ dget b d = dget v d ->
      distance_is pairwise m vectors (a, b) dab -> (dab < dxy)%Z.
Proof.
  exists line, (fun x y => Z.abs (x - y)%Z), (fold_right Z.add 0%Z), (fun d n => (d / Z.of_nat n)%Z), (fun l => nth 0 l 0%Z), five, five_points.
  exists [(str "a", 0); (str "b", 0); (str "c", 1); (str "d", 2); (str "e", 2)]%Z, (str "d"), (str "e"), (str "b"), (str "c"), 5%Z.
  assert (R : reachable five) by (exact (run_reachable _ [])).
  assert (In5 : forall x, managed five x <-> In x [str "a"; str "b"; str "c"; str "d"; str "e"]).
  { intro x. rewrite managed_ids by (apply reachable_inv; auto). reflexivity. }
  split; [intros; unfold line; lia|]. split; auto. split.
  { intros a b Q. assert (Qa := inferred_inI five (reachable_inv _ R) a b _ Q). destruct Qa as [Ia Ib]. vm_compute in Ia, Ib.
    repeat destruct Ia as [<-|Ia]; try tauto; repeat destruct Ib as [<-|Ib]; try tauto; vm_compute in Q; discriminate. }
  split; [vm_compute; reflexivity|]. do 4 (split; [apply In5; simpl; auto 6|]). split; [vm_compute; reflexivity|]. split.
  { exists (ids five), [0; 1; 2; 10; 15]%Z, 3, 4. repeat split. }
  split; [vm_compute; discriminate|].
  intros a b da A B Na Nb (l & rows & i & j & El & Er & Ni & Nj & ->).
  destruct (rows_of five five_points (ids five) [0; 1; 2; 10; 15]%Z l eq_refl eq_refl El rows Er) as [-> ->].
  cbn [fst snd] in Ni, Nj. do 5 try (destruct i as [|i]); try (destruct i; discriminate); do 5 try (destruct j as [|j]); try (destruct j; discriminate);
    vm_compute in Ni, Nj; injection Ni as <-; injection Nj as <-; try (exfalso; vm_compute in Na; destruct Na; discriminate);
    try (exfalso; vm_compute in Nb; destruct Nb; discriminate); vm_compute; reflexivity.
Qed.
