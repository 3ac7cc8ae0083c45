(** * Distances that depend on which data comes first (C139). *)

From Coq Require Import String List Bool Arith ZArith QArith SpecFloat Lia Permutation Relations.
(*HEADER
From Coq Require Import String List Bool Arith ZArith QArith SpecFloat Permutation Lia Relations.
From Verif Require Import Base Manager Spec ManagerInv ManagerQueries ManagerThms SamplingSpec ClusterSpec ClusterProofs KMeansSpec Hierarchical HierSpec FloatSpec AsymThms.
Import ListNotations.
Open Scope nat_scope.
HEADER*)
From Verif Require Import Base Manager Spec Closure ManagerProofs ManagerInv ManagerQueries ManagerThms
  Sampling SamplingSpec SamplingProofs SamplingThms Rename ClusterSpec RenameThms ClusterProofs KMeans KMeansSpec KMeansProofs KMeansThms
  Hierarchical HierSpec HierProofs HierRun HierTree HierThms CutSpec CutThms InversionThms FloatSpec.
Import ListNotations.
Open Scope nat_scope.
Open Scope py_scope.

Section Order.
  Context {vec D : Type}.
  Variable pairwise : list vec -> nat -> nat -> D.
  Variable cdistance : vec -> vec -> D.
  Variable ltb : D -> D -> bool.
  Variable dsum : list D -> D.
  Variable ddiv : D -> nat -> D.
  Variable inf : D.
  Variable mean : list vec -> vec.
  Variable linkage : pystr.
  Variable m : mgr.
  Variable vectors : dict pystr vec.
  Hypothesis I : Inv m.
  Hypothesis TO : strict_total_order ltb.
  Hypothesis LK : linkage = str "single" \/ linkage = str "complete".
  Notation tree := (tree vec).
  Notation members := (t_members vec).
  Notation children := (t_children vec).
  Notation iteration := (t_iteration vec).
  Notation ldist := (linkage_distance pairwise cdistance ltb dsum ddiv inf linkage m vectors).
  Notation nearest := (closest pairwise cdistance ltb dsum ddiv inf linkage m vectors).
  Notation halted := (stopped pairwise cdistance ltb dsum ddiv inf linkage m vectors).
  Notation dis := (distance_is pairwise m vectors).
  Notation trace_ := (run_trace mean vectors nearest halted).
  Notation forest_ok := (forest_ok mean m vectors).

  (** The two data are as far as [h] in one of the two directions. *)
  Definition apart (h : D) (a b : pystr) : Prop := exists d, (dis (a, b) d \/ dis (b, a) d) /\ ltb d h = false.
  Lemma apart_sym h a b : apart h a b -> apart h b a.
  Proof using. intros (d & [Q|Q] & L); exists d; auto. Qed.

  Definition afar (h : D) (t1 t2 : tree) : Prop :=
    (linkage = str "single" -> forall a b, In a (members t1) -> In b (members t2) -> apart h a b) /\
    (linkage = str "complete" -> exists a b, In a (members t1) /\ In b (members t2) /\ apart h a b).
  Lemma afar_sym h t1 t2 : afar h t1 t2 -> afar h t2 t1.
  Proof using.
    intros [Q S]. split.
    - intros L a b A B. apply apart_sym. apply Q; auto.
    - intros L. destruct (S L) as (a & b & A & B & H). exists b, a. auto using apart_sym.
  Qed.

  Lemma ldist_afar h t1 t2 d : in_ids m t1 -> in_ids m t2 -> ~ incompatible m t1 t2 -> ldist t1 t2 d -> ltb d h = false -> afar h t1 t2.
  Proof using I TO LK.
    intros G1 G2 N [[Q _]|[_ H]] L; [tauto|].
    destruct H as [(E & (a & b & A & B & Dab) & M)|[(E & (a & b & A & B & Dab) & M)|[(E & _)|(E & _)]]]; split; intro X; rewrite E in X; try discriminate X.
    - exists a, b. split; auto. split; auto. exists d. auto.
    - intros p q P Q. destruct (dis_total pairwise m vectors I a b d Dab p q) as [d' D']; [apply G1; auto|apply G2; auto|].
      exists d'. split; auto. apply (ge_trans ltb TO d' d h); auto. apply (M p q); auto.
  Qed.

  Lemma afar_union h u t1 t2 t : members t = members t1 ++ members t2 -> afar h u t1 -> afar h u t2 -> afar h u t.
  Proof using.
    intros Mt [Q1 S1] [Q2 S2]. split.
    - intros L a b A B. rewrite Mt in B. apply in_app_or in B as [B|B]; auto.
    - intro L. destruct (S1 L) as (a & b & A & B & H). exists a, b. rewrite Mt, in_app_iff. auto.
  Qed.

  Definition bound (h : D) (F : list tree) : Prop := forall u1 u2, before F u1 u2 -> ~ incompatible m u1 u2 -> afar h u1 u2.

  Lemma merge_bound it l1 t1 l2 t2 l3 d0 : forest_ok it (l1 ++ t1 :: l2 ++ t2 :: l3) -> nearest (l1 ++ t1 :: l2 ++ t2 :: l3) t1 t2 ->
    ldist t1 t2 d0 -> bound d0 (l1 ++ t1 :: l2 ++ t2 :: l3).
  Proof using I TO LK.
    set (ts := l1 ++ t1 :: l2 ++ t2 :: l3). intros FO (d1 & L1 & NI & Min) L0. assert (d0 = d1) as -> by (apply (ldist_fun pairwise cdistance ltb dsum ddiv inf linkage m vectors I t1 t2 d0 d1 TO L0 L1)).
    assert (G := trees_inids _ _ _ _ _ FO). rewrite Forall_forall in G.
    intros u1 u2 B N. destruct (before_In _ _ _ B) as [J1 J2].
    assert (Dex : exists p q d, dis (p, q) d).
    { destruct L1 as [[_ E]|[_ H]]; [congruence|]. destruct LK as [E|E]; rewrite E in H;
      destruct H as [(X & (a & b & _ & _ & Dab) & _)|[(X & (a & b & _ & _ & Dab) & _)|[(X & _)|(X & _)]]]; try discriminate X; eauto. }
    destruct Dex as (p & q & dd & Dd).
    assert (G1 := G u1 J1). assert (G2 := G u2 J2).
    assert (NE : exists a b, In a (members u1) /\ In b (members u2)).
    { destruct G1 as [N1 _], G2 as [N2 _]. destruct (members u1) as [|a ?], (members u2) as [|b ?]; try congruence. exists a, b. split; left; auto. }
    destruct NE as (a & b & A & Bb).
    destruct (dis_total pairwise m vectors I p q dd Dd a b) as [d' D']; [apply G1; auto|apply G2; auto|].
    assert (Lex : exists d, ldist u1 u2 d).
    { destruct LK as [E|E].
      - destruct (ldist_below pairwise cdistance ltb dsum ddiv inf m vectors I TO u1 u2 a b d' G1 G2 N A Bb D') as (d2 & L2 & _). rewrite <- E in L2. eauto.
      - destruct (greatest pairwise ltb m vectors I TO (list_prod (members u1) (members u2))) as ([a1 b1] & d2 & J & D2 & Max).
        + destruct (members u1), (members u2); try destruct A; try destruct Bb; discriminate.
        + intros [x y] J. apply in_prod_iff in J as [P Q]. apply (dis_total pairwise m vectors I _ _ _ Dd); [apply G1|apply G2]; auto.
        + apply in_prod_iff in J as [A1 B1]. exists d2. right. split; auto. left. split; auto. split; [exists a1, b1; auto|].
          intros x y d3 P Q D3. apply (Max (x, y)); auto. apply in_prod; auto. }
    destruct Lex as [d2 L2]. apply (ldist_afar d1 u1 u2 d2); auto. apply (Min u1 u2); auto.
  Qed.

  Lemma incompatible_part u t1 t2 t : members t = members t1 ++ members t2 -> ~ incompatible m u t -> ~ incompatible m u t1 /\ ~ incompatible m u t2.
  Proof using.
    intros Mt N. split; intros (a & b & A & B & Q); apply N; exists a, b; rewrite Mt, in_app_iff; auto.
  Qed.

  Lemma merged_bound h it l1 t1 l2 t2 l3 t : forest_ok it (l1 ++ t1 :: l2 ++ t2 :: l3) -> members t = members t1 ++ members t2 ->
    bound h (l1 ++ t1 :: l2 ++ t2 :: l3) -> bound h (l1 ++ l2 ++ l3 ++ [t]).
  Proof using I LK ddiv inf.
    set (ts := l1 ++ t1 :: l2 ++ t2 :: l3). intros FO M0 BO.
    assert (G := trees_inids _ _ _ _ _ FO). rewrite Forall_forall in G.
    assert (T1 : In t1 ts) by (apply in_elt). assert (T2 : In t2 ts) by (apply in_or_app; right; right; apply in_elt).
    assert (Sub : forall u, In u (l1 ++ l2 ++ l3) -> In u ts) by (intro u; unfold ts; rewrite !in_app_iff; simpl; rewrite in_app_iff; simpl; tauto).
    assert (B1 : forall u, In u (l1 ++ l2 ++ l3) -> before ts u t1 \/ before ts t1 u).
    { intros u U. apply in_app_or in U as [U|U].
      - left. apply in_split in U as (p & q & ->). exists p, (q ++ t1 :: l2 ++ t2 :: l3). split; [unfold ts; rewrite <- app_assoc; auto|apply in_elt].
      - right. exists l1, (l2 ++ t2 :: l3). split; auto. rewrite in_app_iff in *. simpl. tauto. }
    assert (B2 : forall u, In u (l1 ++ l2 ++ l3) -> before ts u t2 \/ before ts t2 u).
    { intros u U. rewrite app_assoc in U. apply in_app_or in U as [U|U].
      - left. apply in_app_or in U as [U|U]; apply in_split in U as (p & q & ->).
        + exists p, (q ++ t1 :: l2 ++ t2 :: l3). split; [unfold ts; rewrite <- app_assoc; auto|]. apply in_or_app; right; right; apply in_elt.
        + exists (l1 ++ t1 :: p), (q ++ t2 :: l3). split; [unfold ts; rewrite <- ?app_assoc; simpl; rewrite <- ?app_assoc; auto|apply in_elt].
      - right. exists (l1 ++ t1 :: l2), l3. split; auto. unfold ts. rewrite <- app_assoc. auto. }
    assert (Far : forall u w, In u ts -> In w ts -> before ts u w \/ before ts w u -> ~ incompatible m u w -> afar h u w).
    { intros u w Ju Jw [B|B] N; [apply BO; auto|]. apply afar_sym, BO; auto. intro Q. apply N, incompatible_sym; auto. }
    intros u1 u2 B N. replace (l1 ++ l2 ++ l3 ++ [t]) with ((l1 ++ l2 ++ l3) ++ [t]) in B by (rewrite <- !app_assoc; auto).
    apply before_app_inv in B as [B|[B|[B1' B2']]].
    - apply (BO u1 u2); auto. unfold ts. apply before_app_inv in B as [B|[B|[X Y]]].
      + destruct B as (p & q & -> & Q). exists p, (q ++ t1 :: l2 ++ t2 :: l3). split; [rewrite <- app_assoc; auto|apply in_or_app; auto].
      + apply before_app_inv in B as [B|[B|[X Y]]].
        * destruct B as (p & q & -> & Q). exists (l1 ++ t1 :: p), (q ++ t2 :: l3). split; [rewrite <- ?app_assoc; simpl; rewrite <- ?app_assoc; auto|apply in_or_app; auto].
        * destruct B as (p & q & -> & Q). exists (l1 ++ t1 :: l2 ++ t2 :: p), q. split; auto. rewrite <- ?app_assoc. simpl. rewrite <- ?app_assoc. auto.
        * apply in_split in X as (p & q & ->). exists (l1 ++ t1 :: p), (q ++ t2 :: l3). split; [rewrite <- ?app_assoc; simpl; rewrite <- ?app_assoc; auto|].
          apply in_or_app; right; right; auto.
      + apply in_split in X as (p & q & ->). exists p, (q ++ t1 :: l2 ++ t2 :: l3). split; [rewrite <- app_assoc; auto|].
        rewrite in_app_iff in *. simpl. rewrite in_app_iff. simpl. tauto.
    - destruct B as ([|? [|? ?]] & ? & E & Q); try discriminate. injection E as _ <-. destruct Q.
    - destruct B2' as [<-|[]]. destruct (incompatible_part _ _ _ _ M0 N) as [N1 N2].
      apply (afar_union h u1 t1 t2 t); auto.
  Qed.

  Notation old v F := (In v (flat_map nodes F)).

  Lemma order it F root tr : trace_ it F root tr -> forest_ok it F ->
    (forall v, In v (nodes root) -> old v F \/ (it <= iteration v /\ forall h v1 v2, bound h F -> children v = [v1; v2] -> ~ incompatible m v1 v2 -> afar h v1 v2)) /\
    (forall u v u1 u2 v1 v2 du, In u (nodes root) -> In v (nodes root) -> children u = [u1; u2] -> children v = [v1; v2] -> iteration u < iteration v ->
      ldist u1 u2 du -> ~ incompatible m v1 v2 -> old u F \/ old v F \/ afar du v1 v2).
  Proof using I TO LK.
    induction 1 as [it t|it l1 t1 l2 t2 l3 t root tr CL NO A IH|it ts root L ST NO]; intros FO.
    - simpl. rewrite app_nil_r. split; auto.
    - set (ts := l1 ++ t1 :: l2 ++ t2 :: l3) in *. destruct IH as [IH1 IH2].
      { apply (merge_ok mean m vectors I it l1 t1 l2 t2 l3 t); auto. destruct CL as (d & [[_ E]|[N _]] & NI & _); congruence. }
      assert (It : iteration t = it) by apply NO. assert (Ch : children t = [t1; t2]) by apply NO.
      assert (M0 : members t = members t1 ++ members t2) by (destruct NO as (_ & _ & -> & _); simpl; rewrite app_nil_r; auto).
      assert (Bt : before ts t1 t2) by (exists l1, (l2 ++ t2 :: l3); split; auto; apply in_elt).
      assert (Old : forall v, old v (l1 ++ l2 ++ l3 ++ [t]) -> old v ts \/ v = t).
      { intros v V. apply in_flat_map in V as (w & W & V). rewrite !in_app_iff in W. simpl in W.
        assert (X : forall w, (In w l1 \/ In w l2 \/ In w l3) \/ w = t1 \/ w = t2 -> In v (nodes w) -> old v ts).
        { intros w' W' V'. apply in_flat_map. exists w'. split; auto. unfold ts. rewrite in_app_iff. simpl. rewrite in_app_iff. simpl. intuition. }
        destruct W as [W|[W|[W|[<-|[]]]]]; try (left; apply (X w); auto; fail).
        destruct t as [i it' c dp mb ce]. cbn in Ch. subst c. simpl in V. rewrite app_nil_r in V. destruct V as [<-|V]; auto.
        left. apply in_app_or in V as [V|V]; [apply (X t1)|apply (X t2)]; auto. }
      assert (Up : forall h, bound h ts -> bound h (l1 ++ l2 ++ l3 ++ [t])) by (intros h; apply (merged_bound h it l1 t1 l2 t2 l3 t); auto).
      split.
      + intros v V. destruct (IH1 v V) as [O|[Le Q]].
        * destruct (Old v O) as [O'| ->]; auto. right. split; [lia|]. intros h v1 v2 B E N. rewrite Ch in E. injection E as <- <-. apply (B t1 t2); auto.
        * right. split; [lia|]. intros h v1 v2 B E N. apply Q; auto.
      + intros u v u1 u2 v1 v2 du U V Eu Ev Lt Lu N. destruct (IH2 u v u1 u2 v1 v2 du U V Eu Ev Lt Lu N) as [O|[O|O]]; auto.
        * destruct (Old u O) as [O'| ->]; auto. destruct (IH1 v V) as [O'|[Le Q]].
          -- destruct (Old v O') as [O2| ->]; auto. lia.
          -- right; right. rewrite Ch in Eu. injection Eu as <- <-. apply (Q du v1 v2); auto. apply Up. apply (merge_bound it l1 t1 l2 t2 l3 du); auto.
        * destruct (Old v O) as [O'| ->]; auto. destruct (IH1 u U) as [O'|[Le Q]]; [|lia]. destruct (Old u O') as [O2| ->]; auto. lia.
    - assert (It : iteration root = it) by apply NO. assert (Ch : children root = ts) by apply NO.
      assert (Nd : forall v, In v (nodes root) -> v = root \/ old v ts).
      { intros v V. destruct root as [i it' c dp mb ce]. cbn in Ch. subst c. destruct V as [<-|V]; auto. }
      split.
      + intros v V. destruct (Nd v V) as [-> |O]; auto. right. split; [lia|]. intros h v1 v2 B E N. apply (B v1 v2); auto. rewrite <- Ch, E. apply before_head. left; auto.
      + intros u v u1 u2 v1 v2 du U V Eu Ev Lt Lu N. destruct (Nd u U) as [-> |O]; auto. destruct (Nd v V) as [-> |O]; auto. lia.
  Qed.
End Order.

(*PROP C139 (what holds without symmetry): whatever the distances, after a merge at distance [du] no later merge joins two data that are nearer
    than [du] in both directions (single linkage), or only such data (complete linkage). *)
Lemma C139_later_merges_partial_proof :
  forall vec D (eqD : EqB D) pairwise cdistance ltb dsum ddiv inf mean linkage m vectors nb s s' d root u u1 u2 v v1 v2 du,
    strict_total_order ltb -> linkage = str "single" \/ linkage = str "complete" -> reachable m ->
    cluster vec D pairwise cdistance ltb dsum ddiv inf mean linkage m vectors nb s = (s', Ok d) -> h_root vec s' = Some root ->
    subtree u root -> subtree v root -> t_children vec u = [u1; u2] -> t_children vec v = [v1; v2] ->
    t_iteration vec u < t_iteration vec v ->
    linkage_distance pairwise cdistance ltb dsum ddiv inf linkage m vectors u1 u2 du ->
    (forall a b, In a (t_members vec v1) -> In b (t_members vec v2) -> ~ inferred m a b (Some CANNOT_LINK)) ->
    let not_nearer a b := exists d, (distance_is pairwise m vectors (a, b) d \/ distance_is pairwise m vectors (b, a) d) /\ ltb d du = false in
    (linkage = str "single" -> forall a b, In a (t_members vec v1) -> In b (t_members vec v2) -> not_nearer a b) /\
    (linkage = str "complete" -> exists a b, In a (t_members vec v1) /\ In b (t_members vec v2) /\ not_nearer a b).
Proof.
  intros vec D eqD pairwise cdistance ltb dsum ddiv inf mean linkage m vectors nb s s' d root u u1 u2 v v1 v2 du TO LK R E Er Su Sv Eu Ev Lt Lu NC.
  apply reachable_inv in R. assert (MK : make_hierarchical linkage = Ok linkage) by (destruct LK as [-> | ->]; reflexivity).
  destruct (trace_of_run eqD pairwise cdistance ltb dsum ddiv inf mean linkage m vectors nb s s' d TO R MK E) as (root' & first & tr & Er' & ST & T & _).
  rewrite Er in Er'. injection Er' as <-. assert (FO := start_ok mean m vectors R first ST).
  destruct (order pairwise cdistance ltb dsum ddiv inf mean linkage m vectors R TO LK 1 first root tr T FO) as [_ Q].
  assert (No : forall w w1 w2, t_children vec w = [w1; w2] -> ~ In w (flat_map nodes first)).
  { intros w w1 w2 Ew J. apply in_flat_map in J as (t & Jt & J). assert (X := proj2 (start_zero mean m vectors first ST t Jt)).
    destruct t as [i it ch dp mb ce]. cbn in X. subst ch. destruct J as [<-|[]]. discriminate. }
  assert (N : ~ incompatible m v1 v2) by (intros (a & b & A & B & X); apply (NC a b); auto).
  destruct (Q u v u1 u2 v1 v2 du (proj2 (nodes_subtree u root) Su) (proj2 (nodes_subtree v root) Sv) Eu Ev Lt Lu N) as [O|[O|O]]; [exfalso; exact (No _ _ _ Eu O)|exfalso; exact (No _ _ _ Ev O)|exact O].
Qed.
(*EX
(** "a" sees the others nearer than they see it. *)
Definition A := str "a". Definition B := str "b". Definition C := str "c".
Definition slope (X : list Z) (i j : nat) : Z := let d := (nth j X 0 - nth i X 0)%Z in if (0 <? d)%Z then (2 * d)%Z else (- d)%Z.
Definition zmean (l : list Z) : Z := (fold_right Z.add 0 l / Z.of_nat (length l))%Z.
Definition zsum (l : list Z) : Z := fold_right Z.add 0%Z l.
Definition uphill := cluster Z Z slope (fun x y => Z.abs (x - y)%Z) Z.ltb zsum (fun d n => (d / Z.of_nat n)%Z) 1000000%Z zmean (str "single") (init [A; B; C])
  [(A, 0); (B, 4); (C, 9)]%Z (Some 2%Z) (fresh_hier Z).
Example C139_later_merges_ex : exists s' d root, uphill = (s', Ok d) /\ h_root Z s' = Some root /\
  map (fun u => (t_iteration Z u, map (t_members Z) (t_children Z u))) (filter (fun u => Nat.ltb 0 (t_iteration Z u)) (nodes root)) =
    [(2, [[C]; [A; B]]); (1, [[A]; [B]])] /\
  slope [0; 4; 9]%Z 0 1 = 8%Z /\ slope [0; 4; 9]%Z 1 2 = 10%Z /\ slope [0; 4; 9]%Z 2 1 = 5%Z.
Proof. do 3 eexists. split; [vm_compute; reflexivity|]. repeat split; vm_compute; reflexivity. Qed.
EX*)

(** The comparison of floats by [==] on the bits: the hierarchical clustering compares a distance with infinity only. *)
Definition bits_eqb (x y : spec_float) : bool :=
  match x, y with
  | S754_zero a, S754_zero b | S754_infinity a, S754_infinity b => Bool.eqb a b
  | S754_nan, S754_nan => true
  | S754_finite a m e, S754_finite b n f => Bool.eqb a b && Pos.eqb m n && Z.eqb e f
  | _, _ => false
  end.
Lemma bits_eqb_eq x y : bits_eqb x y = true <-> x = y.
Proof.
  destruct x as [a|a| |a m e], y as [b|b| |b n f]; simpl; split; intro E; try discriminate; try reflexivity;
    try (apply eqb_prop in E; congruence); try (injection E as ->; apply eqb_reflx).
  - apply andb_true_iff in E. destruct E as [E E3]. apply andb_true_iff in E. destruct E as [E1 E2].
    apply eqb_prop in E1. apply Pos.eqb_eq in E2. apply Z.eqb_eq in E3. congruence.
  - injection E as -> -> ->. rewrite eqb_reflx, Pos.eqb_refl, Z.eqb_refl. reflexivity.
Qed.
Definition bits : EqB spec_float := {| eqb := bits_eqb; eqb_eq := bits_eqb_eq |}.

(** 0.3, 1.3 and 2.3 *)
Definition decimals : list spec_float := [S754_finite false 5404319552844595 (-54); S754_finite false 5854679515581645 (-52); S754_finite false 5179139571476070 (-51)].

(*PROP C139 (refuted): the formula of scikit-learn, rounded, gives 1 for the distance from 0.3 to 1.3 and for that from 1.3 to 2.3, but the number below 1
    for the distance from 2.3 to 1.3. *)
Lemma C139_symmetric_refuted_proof :
  exists X, (forall x, In x X -> binary64 x /\ exists q, stands_for x (Finite q)) /\
    euclidean X 1 2 <> euclidean X 2 1 /\ SFltb (euclidean X 2 1) (euclidean X 1 2) = true.
Proof.
  exists decimals. split.
  - intros x [<-|[<-|[<-|[]]]]; split; try reflexivity; eexists; cbn; reflexivity.
  - split; vm_compute; [discriminate|reflexivity].
Qed.

Definition three_ids : list pystr := [str "a"; str "b"; str "c"].
Definition three : mgr := init three_ids.
Lemma three_far a b d : distance_is euclidean three (combine three_ids decimals) (a, b) d ->
  exists i j, nth_error three_ids i = Some a /\ nth_error three_ids j = Some b /\ d = euclidean decimals i j.
Proof.
  intros (l & rows & i & j & El & Er & A & B & ->). exists i, j. vm_compute in El. injection El as <-. split; auto. split; auto. f_equal.
  vm_compute in Er. destruct rows as [|x [|y [|z [|]]]]; try discriminate. injection Er as <- <- <-. reflexivity.
Qed.

(*PROP C139 (refuted): so, with single linkage, no constraint and these three points, the second merge is between closer clusters than the first. *)
Lemma C139_merge_order_refuted_proof :
  exists cdistance dsum ddiv mean names vectors s' d root u u1 u2 v v1 v2 du dv,
    let m := init names in let inf := S754_infinity false in
    @cluster spec_float spec_float bits euclidean cdistance SFltb dsum ddiv inf mean (str "single") m vectors (Some 2%Z) (fresh_hier spec_float) = (s', Ok d) /\
    h_root _ s' = Some root /\
    subtree u root /\ subtree v root /\ t_children _ u = [u1; u2] /\ t_children _ v = [v1; v2] /\ t_iteration _ u < t_iteration _ v /\
    linkage_distance euclidean cdistance SFltb dsum ddiv inf (str "single") m vectors u1 u2 du /\
    linkage_distance euclidean cdistance SFltb dsum ddiv inf (str "single") m vectors v1 v2 dv /\ SFltb dv du = true.
Proof.
  exists (fun _ _ => S754_nan), (fun _ => S754_nan), (fun x _ => x), (fun l => nth 0 l S754_nan), three_ids, (combine three_ids decimals). do 3 eexists.
  eexists. eexists. eexists. eexists. eexists. eexists. exists (euclidean decimals 0 1), (euclidean decimals 2 1).
  cbv zeta. fold three.
  split; [vm_compute; reflexivity|]. split; [vm_compute; reflexivity|].
  split; [eapply subtree_child; [right; left; reflexivity|apply subtree_self]|]. split; [apply subtree_self|].
  split; [reflexivity|]. split; [reflexivity|]. split; [vm_compute; lia|].
  assert (Far : forall a b i j, nth_error three_ids i = Some a -> nth_error three_ids j = Some b ->
    distance_is euclidean three (combine three_ids decimals) (a, b) (euclidean decimals i j)).
  { intros a b i j A B. exists three_ids, decimals, i, j. repeat split; auto. }
  assert (None_ : forall t1 t2 : tree spec_float, (forall x, In x (t_members _ t1) -> In x three_ids) -> (forall x, In x (t_members _ t2) -> In x three_ids) -> ~ incompatible three t1 t2).
  { intros t1 t2 T1 T2 (a & b & A & B & Q). apply T1 in A. apply T2 in B. simpl in A, B.
    repeat destruct A as [<-|A]; try tauto; repeat destruct B as [<-|B]; try tauto; vm_compute in Q; discriminate. }
  assert (Low : forall l1 l2 i j, forallb (fun k => forallb (fun n => match nth_error three_ids k, nth_error three_ids n with
      Some a, Some b => negb (mem a l1) || negb (mem b l2) || negb (SFltb (euclidean decimals k n) (euclidean decimals i j)) | _, _ => true end) (seq 0 3)) (seq 0 3) = true ->
    forall a b d', In a l1 -> In b l2 -> distance_is euclidean three (combine three_ids decimals) (a, b) d' -> SFltb d' (euclidean decimals i j) = false).
  { intros l1 l2 i j Q a b d' A B Dd. apply three_far in Dd as (k & n & K & N & ->). rewrite forallb_forall in Q.
    assert (Lk : k < 3) by (change 3 with (length three_ids); apply nth_error_Some; congruence).
    assert (Ln : n < 3) by (change 3 with (length three_ids); apply nth_error_Some; congruence).
    assert (Jk : In k (seq 0 3)) by (apply in_seq; lia). assert (Jn : In n (seq 0 3)) by (apply in_seq; lia).
    specialize (Q k Jk). rewrite forallb_forall in Q. specialize (Q n Jn). rewrite K, N in Q.
    apply mem_In in A, B. rewrite A, B in Q. cbn [negb orb] in Q. apply negb_true_iff in Q. exact Q. }
  split; [|split; [|vm_compute; reflexivity]].
  - right. split; [apply None_; simpl; tauto|]. right. left. split; [reflexivity|]. split.
    + exists (str "a"), (str "b"). split; [simpl; auto|]. split; [simpl; auto|]. apply Far; reflexivity.
    + apply Low. vm_compute. reflexivity.
  - right. split; [apply None_; simpl; tauto|]. right. left. split; [reflexivity|]. split.
    + exists (str "c"), (str "b"). split; [simpl; auto|]. split; [simpl; auto|]. apply Far; reflexivity.
    + apply Low. vm_compute. reflexivity.
Qed.
