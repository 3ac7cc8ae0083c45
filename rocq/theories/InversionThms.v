(** * Merges come in the order of their distances (C112). *)

From Coq Require Import String List Bool Arith ZArith QArith Lia Permutation Relations.
(*HEADER
From Coq Require Import String List Bool Arith ZArith QArith Permutation Lia Relations.
From Verif Require Import Base Manager Spec ManagerInv ManagerQueries ManagerThms SamplingSpec ClusterSpec ClusterProofs KMeansSpec Hierarchical HierSpec InversionThms.
Import ListNotations.
Open Scope nat_scope.

(** An instance for the examples: points on a line. *)
Definition pw (X : list Z) (i j : nat) : Z := Z.abs (nth i X 0 - nth j X 0)%Z.
Definition zmean (l : list Z) : Z := (fold_right Z.add 0 l / Z.of_nat (length l))%Z.
Definition zsum (l : list Z) : Z := fold_right Z.add 0%Z l.
HEADER*)
From Verif Require Import Base Manager Spec Closure ManagerProofs ManagerInv ManagerQueries ManagerThms
  Sampling SamplingSpec SamplingProofs SamplingThms Rename ClusterSpec RenameThms ClusterProofs KMeans KMeansSpec KMeansProofs KMeansThms
  Hierarchical HierSpec HierProofs HierRun HierTree HierThms CutSpec CutThms.
Import ListNotations.
Open Scope nat_scope.
Open Scope py_scope.

Section Order.
  Context {vec D : Type}.
  Variable pairwise : list vec -> nat -> nat -> D.
  Variable cdistance : vec -> vec -> D.
  Variable ltb : D -> D -> bool.
  Variable dsum : list D -> D.
  Variable ddiv : D -> nat -> D.
  Variable inf : D.
  Variable mean : list vec -> vec.
  Variable linkage : pystr.
  Variable m : mgr.
  Variable vectors : dict pystr vec.
  Hypothesis I : Inv m.
  Hypothesis TO : strict_total_order ltb.
  Hypothesis SYM : forall X i j, pairwise X i j = pairwise X j i.
  Hypothesis INF : forall x, ltb inf x = false.
  Hypothesis LK : linkage = str "single" \/ linkage = str "complete".
  Notation tree := (tree vec).
  Notation members := (t_members vec).
  Notation children := (t_children vec).
  Notation iteration := (t_iteration vec).
  Notation ldist := (linkage_distance pairwise cdistance ltb dsum ddiv inf linkage m vectors).
  Notation nearest := (closest pairwise cdistance ltb dsum ddiv inf linkage m vectors).
  Notation halted := (stopped pairwise cdistance ltb dsum ddiv inf linkage m vectors).
  Notation dis := (distance_is pairwise m vectors).
  Notation trace_ := (run_trace mean vectors nearest halted).
  Notation forest_ok := (forest_ok mean m vectors).

  Lemma ge_trans x y z : ltb x y = false -> ltb y z = false -> ltb x z = false.
  Proof using TO. destruct TO as [[_ [_ NT]] _]. intros A B. destruct (ltb x z) eqn:L; auto. destruct (NT _ y _ L); congruence. Qed.

  Lemma greatest (l : list (pystr * pystr)) : l <> [] -> (forall p, In p l -> exists d, dis p d) ->
    exists p d, In p l /\ dis p d /\ forall p' d', In p' l -> dis p' d' -> ltb d d' = false.
  Proof using I TO.
    apply (least pairwise (fun x y => ltb y x) m vectors I). destruct TO as [[A [B C]] E]. split; [split; [|split]|]; eauto.
    intros x y z L. destruct (C _ y _ L); auto.
  Qed.

  Lemma incompatible_sym (t1 t2 : tree) : in_ids m t1 -> in_ids m t2 -> incompatible m t1 t2 -> incompatible m t2 t1.
  Proof using I.
    intros G1 G2 (a & b & A & B & Q). exists b, a. split; auto. split; auto.
    assert (Ia : In a (ids m)) by (apply G1; auto). assert (Ib : In b (ids m)) by (apply G2; auto).
    apply inferred_cl in Q; auto. apply inferred_cl; auto. rewrite cl_sym; auto.
  Qed.

  (** Distances do not depend on the order of the two clusters. *)
  Lemma ldist_sym t1 t2 d : in_ids m t1 -> in_ids m t2 -> ldist t1 t2 d -> ldist t2 t1 d.
  Proof using I SYM LK.
    intros G1 G2 [[Q ->]|[N H]]; [left; split; auto; apply incompatible_sym; auto|].
    right. split; [intro Q; apply N, incompatible_sym; auto|].
    destruct H as [(L & (a & b & A & B & Dab) & M)|[(L & (a & b & A & B & Dab) & M)|[(L & _)|(L & _)]]]; [left|right; left| |];
      try (destruct LK as [E|E]; rewrite E in L; discriminate).
    all: split; auto; split; [exists b, a; split; [auto|split; auto; apply (dis_sym pairwise m vectors SYM); auto]|];
      intros a' b' d' A' B' D'; apply (M b' a'); auto; apply (dis_sym pairwise m vectors SYM); auto.
  Qed.

  (** A cluster is as far from a union as from the nearer part. *)
  Lemma ldist_union u t1 t2 t d h : in_ids m u -> in_ids m t1 -> in_ids m t2 -> members t = members t1 ++ members t2 ->
    (forall d', ldist u t1 d' -> ltb d' h = false) -> (forall d', ldist u t2 d' -> ltb d' h = false) ->
    ldist u t d -> ltb d h = false.
  Proof using I TO INF LK.
    intros Gu G1 G2 Mt H1 H2 [[_ ->]|[N H]]; [apply INF|].
    assert (N1 : ~ incompatible m u t1) by (intros (a & b & A & B & Q); apply N; exists a, b; rewrite Mt, in_app_iff; auto).
    assert (N2 : ~ incompatible m u t2) by (intros (a & b & A & B & Q); apply N; exists a, b; rewrite Mt, in_app_iff; auto).
    destruct H as [(L & (a & b & A & B & Dab) & M)|[(L & (a & b & A & B & Dab) & M)|[(L & _)|(L & _)]]].
    - destruct (greatest (list_prod (members u) (members t1))) as ([a1 b1] & d1 & J & D1 & Max).
      + destruct Gu as [NU _], G1 as [NT1 _]. destruct (members u), (members t1); try congruence; discriminate.
      + intros [p q] J. apply in_prod_iff in J as [P Q]. apply (dis_total pairwise m vectors I _ _ _ Dab); [apply Gu|apply G1]; auto.
      + apply in_prod_iff in J as [A1 B1]. assert (L1 : ldist u t1 d1).
        { right. split; auto. left. split; auto. split; [exists a1, b1; auto|]. intros p q d' P Q D'. apply (Max (p, q)); auto. apply in_prod; auto. }
        apply ge_trans with d1; auto. apply (M a1 b1); auto. rewrite Mt, in_app_iff. auto.
    - rewrite Mt in B. apply in_app_or in B as [B|B].
      + destruct (ldist_below pairwise cdistance ltb dsum ddiv inf m vectors I TO u t1 a b d Gu G1 N1 A B Dab) as (d1 & L1 & Q). rewrite <- L in L1. apply ge_trans with d1; auto.
      + destruct (ldist_below pairwise cdistance ltb dsum ddiv inf m vectors I TO u t2 a b d Gu G2 N2 A B Dab) as (d1 & L1 & Q). rewrite <- L in L1. apply ge_trans with d1; auto.
    - destruct LK as [E|E]; rewrite E in L; discriminate.
    - destruct LK as [E|E]; rewrite E in L; discriminate.
  Qed.

  Definition bound (h : D) (F : list tree) : Prop := forall u1 u2 d, before F u1 u2 -> ldist u1 u2 d -> ltb d h = false.

  Lemma merge_bound it l1 t1 l2 t2 l3 t d0 : forest_ok it (l1 ++ t1 :: l2 ++ t2 :: l3) -> nearest (l1 ++ t1 :: l2 ++ t2 :: l3) t1 t2 ->
    node_over mean vectors it (l1 ++ t1 :: l2 ++ t2 :: l3) [t1; t2] t -> ldist t1 t2 d0 -> bound d0 (l1 ++ l2 ++ l3 ++ [t]).
  Proof using I TO SYM INF LK.
    set (ts := l1 ++ t1 :: l2 ++ t2 :: l3). intros FO (d1 & L1 & NI & Min) NO L0. assert (d0 = d1) as -> by (apply (ldist_fun pairwise cdistance ltb dsum ddiv inf linkage m vectors I t1 t2 d0 d1 TO L0 L1)).
    assert (G := trees_inids _ _ _ _ _ FO). rewrite Forall_forall in G.
    assert (M0 : members t = members t1 ++ members t2) by (destruct NO as (_ & _ & -> & _); simpl; rewrite app_nil_r; auto).
    assert (T1 : In t1 ts) by (apply in_elt). assert (T2 : In t2 ts) by (apply in_or_app; right; right; apply in_elt).
    assert (Sub : forall u, In u (l1 ++ l2 ++ l3) -> In u ts) by (intro u; unfold ts; rewrite !in_app_iff; simpl; rewrite in_app_iff; simpl; tauto).
    assert (B1 : forall u, In u (l1 ++ l2 ++ l3) -> before ts u t1 \/ before ts t1 u).
    { intros u U. apply in_app_or in U as [U|U].
      - left. apply in_split in U as (p & q & ->). exists p, (q ++ t1 :: l2 ++ t2 :: l3). split; [unfold ts; rewrite <- app_assoc; auto|apply in_elt].
      - right. exists l1, (l2 ++ t2 :: l3). split; auto. rewrite in_app_iff in *. simpl. tauto. }
    assert (B2 : forall u, In u (l1 ++ l2 ++ l3) -> before ts u t2 \/ before ts t2 u).
    { intros u U. rewrite app_assoc in U. apply in_app_or in U as [U|U].
      - left. apply in_app_or in U as [U|U]; apply in_split in U as (p & q & ->).
        + exists p, (q ++ t1 :: l2 ++ t2 :: l3). split; [unfold ts; rewrite <- app_assoc; auto|]. apply in_or_app; right; right; apply in_elt.
        + exists (l1 ++ t1 :: p), (q ++ t2 :: l3). split; [unfold ts; rewrite <- ?app_assoc; simpl; rewrite <- ?app_assoc; auto|apply in_elt].
      - right. exists (l1 ++ t1 :: l2), l3. split; auto. unfold ts. rewrite <- app_assoc. auto. }
    assert (Far : forall u w d', in_ids m u -> in_ids m w -> before ts u w \/ before ts w u -> ldist u w d' -> ltb d' d1 = false).
    { intros u w d' Gu Gw [B|B] Ld; [apply (Min u w d' B Ld)|apply (Min w u d' B)]. apply ldist_sym; auto. }
    intros u1 u2 d B Ld. replace (l1 ++ l2 ++ l3 ++ [t]) with ((l1 ++ l2 ++ l3) ++ [t]) in B by (rewrite <- !app_assoc; auto).
    apply before_app_inv in B as [B|[B|[B1' B2']]].
    - apply (Min u1 u2); auto. unfold ts. apply before_app_inv in B as [B|[B|[X Y]]].
      + destruct B as (p & q & -> & Q). exists p, (q ++ t1 :: l2 ++ t2 :: l3). split; [rewrite <- app_assoc; auto|apply in_or_app; auto].
      + apply before_app_inv in B as [B|[B|[X Y]]].
        * destruct B as (p & q & -> & Q). exists (l1 ++ t1 :: p), (q ++ t2 :: l3). split; [rewrite <- ?app_assoc; simpl; rewrite <- ?app_assoc; auto|apply in_or_app; auto].
        * destruct B as (p & q & -> & Q). exists (l1 ++ t1 :: l2 ++ t2 :: p), q. split; auto. rewrite <- ?app_assoc. simpl. rewrite <- ?app_assoc. auto.
        * apply in_split in X as (p & q & ->). exists (l1 ++ t1 :: p), (q ++ t2 :: l3). split; [rewrite <- ?app_assoc; simpl; rewrite <- ?app_assoc; auto|].
          apply in_or_app; right; right; auto.
      + apply in_split in X as (p & q & ->). exists p, (q ++ t1 :: l2 ++ t2 :: l3). split; [rewrite <- app_assoc; auto|].
        rewrite in_app_iff in *. simpl. rewrite in_app_iff. simpl. tauto.
    - destruct B as ([|? [|? ?]] & ? & E & Q); try discriminate. injection E as _ <-. destruct Q.
    - destruct B2' as [<-|[]]. assert (Gu : in_ids m u1) by (apply G, Sub; auto).
      apply (ldist_union u1 t1 t2 t d d1); auto; intros d' Ld'; [apply (Far u1 t1)|apply (Far u1 t2)]; auto.
  Qed.

  Notation old v F := (In v (flat_map nodes F)).

  Lemma order it F root tr : trace_ it F root tr -> forest_ok it F ->
    (forall v, In v (nodes root) -> old v F \/ (it <= iteration v /\ forall h v1 v2 d, bound h F -> children v = [v1; v2] -> ldist v1 v2 d -> ltb d h = false)) /\
    (forall u v u1 u2 v1 v2 du dv, In u (nodes root) -> In v (nodes root) -> children u = [u1; u2] -> children v = [v1; v2] -> iteration u < iteration v ->
      ldist u1 u2 du -> ldist v1 v2 dv -> old u F \/ old v F \/ ltb dv du = false).
  Proof using I TO SYM INF LK.
    induction 1 as [it t|it l1 t1 l2 t2 l3 t root tr CL NO A IH|it ts root L ST NO]; intros FO.
    - simpl. rewrite app_nil_r. split; auto.
    - set (ts := l1 ++ t1 :: l2 ++ t2 :: l3) in *. destruct IH as [IH1 IH2].
      { apply (merge_ok mean m vectors I it l1 t1 l2 t2 l3 t); auto. destruct CL as (d & [[_ E]|[N _]] & NI & _); congruence. }
      assert (It : iteration t = it) by apply NO. assert (Ch : children t = [t1; t2]) by apply NO.
      assert (Bt : before ts t1 t2) by (exists l1, (l2 ++ t2 :: l3); split; auto; apply in_elt).
      assert (Old : forall v, old v (l1 ++ l2 ++ l3 ++ [t]) -> old v ts \/ v = t).
      { intros v V. apply in_flat_map in V as (w & W & V). rewrite !in_app_iff in W. simpl in W.
        assert (X : forall w, (In w l1 \/ In w l2 \/ In w l3) \/ w = t1 \/ w = t2 -> In v (nodes w) -> old v ts).
        { intros w' W' V'. apply in_flat_map. exists w'. split; auto. unfold ts. rewrite in_app_iff. simpl. rewrite in_app_iff. simpl. intuition. }
        destruct W as [W|[W|[W|[<-|[]]]]]; try (left; apply (X w); auto; fail).
        destruct t as [i it' c dp mb ce]. cbn in Ch. subst c. simpl in V. rewrite app_nil_r in V. destruct V as [<-|V]; auto.
        left. apply in_app_or in V as [V|V]; [apply (X t1)|apply (X t2)]; auto. }
      destruct CL as (d0 & L0 & CL'). assert (CL : nearest ts t1 t2) by (exists d0; auto).
      split.
      + intros v V. destruct (IH1 v V) as [O|[Le Q]].
        * destruct (Old v O) as [O'| ->]; auto. right. split; [lia|]. intros h v1 v2 d B E Ld. rewrite Ch in E. injection E as <- <-. apply (B t1 t2); auto.
        * right. split; [lia|]. intros h v1 v2 d B E Ld. apply ge_trans with d0; [|apply (B t1 t2); auto].
          apply (Q d0 v1 v2 d); auto. apply (merge_bound it l1 t1 l2 t2 l3 t d0); auto.
      + intros u v u1 u2 v1 v2 du dv U V Eu Ev Lt Lu Lv. destruct (IH2 u v u1 u2 v1 v2 du dv U V Eu Ev Lt Lu Lv) as [O|[O|O]]; auto.
        * destruct (Old u O) as [O'| ->]; auto. destruct (IH1 v V) as [O'|[Le Q]].
          -- destruct (Old v O') as [O2| ->]; auto. lia.
          -- right; right. rewrite Ch in Eu. injection Eu as <- <-. apply (Q du v1 v2 dv); auto. apply (merge_bound it l1 t1 l2 t2 l3 t du); auto.
        * destruct (Old v O) as [O'| ->]; auto. destruct (IH1 u U) as [O'|[Le Q]]; [|lia]. destruct (Old u O') as [O2| ->]; auto. lia.
    - assert (It : iteration root = it) by apply NO. assert (Ch : children root = ts) by apply NO.
      assert (Nd : forall v, In v (nodes root) -> v = root \/ old v ts).
      { intros v V. destruct root as [i it' c dp mb ce]. cbn in Ch. subst c. destruct V as [<-|V]; auto. }
      split.
      + intros v V. destruct (Nd v V) as [-> |O]; auto. right. split; [lia|]. intros h v1 v2 d B E Ld. apply (B v1 v2); auto. rewrite <- Ch, E. apply before_head. left; auto.
      + intros u v u1 u2 v1 v2 du dv U V Eu Ev Lt Lu Lv. destruct (Nd u U) as [-> |O]; auto. destruct (Nd v V) as [-> |O]; auto. lia.
  Qed.
End Order.

(*PROP C112, single and complete linkage: of two merges, the one made first is between clusters that are not farther apart. *)
Lemma C112_merge_order_partial_proof :
  forall vec D (eqD : EqB D) pairwise cdistance ltb dsum ddiv inf mean linkage m vectors nb s s' d root u u1 u2 v v1 v2 du dv,
    strict_total_order ltb -> (forall X i j, pairwise X i j = pairwise X j i) -> (forall x, ltb inf x = false) ->
    linkage = str "single" \/ linkage = str "complete" -> reachable m ->
    cluster vec D pairwise cdistance ltb dsum ddiv inf mean linkage m vectors nb s = (s', Ok d) -> h_root vec s' = Some root ->
    subtree u root -> subtree v root -> t_children vec u = [u1; u2] -> t_children vec v = [v1; v2] ->
    t_iteration vec u < t_iteration vec v ->
    linkage_distance pairwise cdistance ltb dsum ddiv inf linkage m vectors u1 u2 du ->
    linkage_distance pairwise cdistance ltb dsum ddiv inf linkage m vectors v1 v2 dv ->
    ltb dv du = false.
Proof.
  intros vec D eqD pairwise cdistance ltb dsum ddiv inf mean linkage m vectors nb s s' d root u u1 u2 v v1 v2 du dv TO SYM INF LK R E Er Su Sv Eu Ev Lt Lu Lv.
  apply reachable_inv in R. assert (MK : make_hierarchical linkage = Ok linkage) by (destruct LK as [-> | ->]; reflexivity).
  destruct (trace_of_run eqD pairwise cdistance ltb dsum ddiv inf mean linkage m vectors nb s s' d TO R MK E) as (root' & first & tr & Er' & ST & T & _).
  rewrite Er in Er'. injection Er' as <-. assert (FO := start_ok mean m vectors R first ST).
  destruct (order pairwise cdistance ltb dsum ddiv inf mean linkage m vectors R TO SYM INF LK 1 first root tr T FO) as [_ Q].
  assert (No : forall w w1 w2, t_children vec w = [w1; w2] -> ~ In w (flat_map nodes first)).
  { intros w w1 w2 Ew J. apply in_flat_map in J as (t & Jt & J). assert (X := proj2 (start_zero mean m vectors first ST t Jt)).
    destruct t as [i it ch dp mb ce]. cbn in X. subst ch. destruct J as [<-|[]]. discriminate. }
  destruct (Q u v u1 u2 v1 v2 du dv (proj2 (nodes_subtree u root) Su) (proj2 (nodes_subtree v root) Sv) Eu Ev Lt Lu Lv) as [O|[O|O]]; auto; exfalso; [exact (No _ _ _ Eu O)|exact (No _ _ _ Ev O)].
Qed.
(*EX
(** Four points; "c" and "d" must be apart, so that "b" joins "c" and "a" joins "d". *)
Definition A := str "a". Definition B := str "b". Definition C := str "c". Definition E := str "d".
Definition four : mgr := run [CallAddConstraint C E CANNOT_LINK 1%Q] (init [A; B; C; E]).
Definition spots : dict pystr Z := [(A, 0); (B, 5); (C, 7); (E, 8)]%Z.
Definition done4 := cluster Z Z pw (fun x y => Z.abs (x - y)%Z) Z.ltb zsum (fun d n => (d / Z.of_nat n)%Z) 1000000%Z zmean (str "complete") four spots (Some 2%Z) (fresh_hier Z).
Example C112_ex : reachable four /\ exists s' d root, done4 = (s', Ok d) /\ h_root Z s' = Some root /\
  map (fun u => (t_iteration Z u, map (t_members Z) (t_children Z u))) (filter (fun u => Nat.ltb 0 (t_iteration Z u)) (nodes root)) =
    [(3, [[E]; [A; B; C]]); (2, [[A]; [B; C]]); (1, [[B]; [C]])].
Proof. split; [apply run_reachable|]. do 3 eexists. split; [vm_compute; reflexivity|]. split; vm_compute; reflexivity. Qed.
EX*)

(** Points of the plane with integer coordinates (all the distances below are integers). *)
Definition euclid (p q : Z * Z) : Z := Z.sqrt ((fst p - fst q) * (fst p - fst q) + (snd p - snd q) * (snd p - snd q)).
Definition euclid_rows (X : list (Z * Z)) (i j : nat) : Z := euclid (nth i X (0, 0)%Z) (nth j X (0, 0)%Z).
Definition total (l : list Z) : Z := fold_right Z.add 0%Z l.
Definition middle (l : list (Z * Z)) : Z * Z :=
  (total (map fst l) / Z.of_nat (length l), total (map snd l) / Z.of_nat (length l))%Z.
Definition plane := cluster (Z * Z) Z euclid_rows euclid Z.ltb total (fun d n => (d / Z.of_nat n)%Z) 1000000%Z middle.
Definition plane_distance := linkage_distance euclid_rows euclid Z.ltb total (fun d n => (d / Z.of_nat n)%Z) 1000000%Z.

Definition tri_ids : list pystr := [str "a"; str "b"; str "c"].
Definition tri : dict pystr (Z * Z) := [(str "a", (-120, 0)); (str "b", (120, 0)); (str "c", (0, 209))]%Z.

(** Six data, four of them linked. *)
Definition star_ids : list pystr := [str "a"; str "b"; str "c"; str "d"; str "e"; str "f"].
Definition star : dict pystr (Z * Z) :=
  [(str "a", (-120, 0)); (str "b", (120, 0)); (str "c", (0, 64)); (str "d", (0, 64)); (str "e", (0, -64)); (str "f", (0, -64))]%Z.
Definition star_mgr : mgr := run [CallAddConstraint (str "c") (str "d") MUST_LINK 1%Q; CallAddConstraint (str "d") (str "e") MUST_LINK 1%Q;
  CallAddConstraint (str "e") (str "f") MUST_LINK 1%Q] (init star_ids).

Lemma no_cannot m names :
  forallb (fun p => match snd (get_inferred_constraint (fst p) (snd p) m) with Ok o => negb (opt_is o CANNOT_LINK) | _ => true end) (list_prod names names) = true ->
  forall t1 t2 : tree (Z * Z), (forall x, In x (t_members _ t1) -> In x names) -> (forall x, In x (t_members _ t2) -> In x names) -> ~ incompatible m t1 t2.
Proof.
  intros F t1 t2 S1 S2 (a & b & A & B & Q). rewrite forallb_forall in F. specialize (F (a, b)). cbn [fst snd] in F.
  unfold inferred, ask in Q. rewrite Q in F. cbn in F. discriminate F. apply in_prod; auto.
Qed.

Lemma plane_far m names vectors X a b i j : ask get_list_of_managed_data_IDs m = Ok names -> map (fun x => dget x vectors) names = map Some X ->
  nth_error names i = Some a -> nth_error names j = Some b -> distance_is euclid_rows m vectors (a, b) (euclid_rows X i j).
Proof. intros E R A B. exists names, X, i, j. auto. Qed.

(*PROP C112 (refuted for "average"): the distance between two clusters is that of their centroids; the second merge is between closer clusters than the first. *)
Lemma C112_average_refuted_proof :
  exists m vectors s' d root u u1 u2 v v1 v2 du dv, reachable m /\
    plane (str "average") m vectors (Some 2%Z) (fresh_hier (Z * Z)) = (s', Ok d) /\ h_root _ s' = Some root /\
    subtree u root /\ subtree v root /\ t_children _ u = [u1; u2] /\ t_children _ v = [v1; v2] /\ t_iteration _ u < t_iteration _ v /\
    plane_distance (str "average") m vectors u1 u2 du /\ plane_distance (str "average") m vectors v1 v2 dv /\ (dv < du)%Z.
Proof.
  exists (init tri_ids), tri. do 3 eexists.
  eexists. eexists. eexists. eexists. eexists. eexists. exists 240%Z, 209%Z.
  split; [exact (run_reachable _ [])|]. split; [vm_compute; reflexivity|]. split; [vm_compute; reflexivity|].
  split; [eapply subtree_child; [right; left; reflexivity|apply subtree_self]|]. split; [apply subtree_self|].
  split; [reflexivity|]. split; [reflexivity|]. split; [vm_compute; lia|].
  split; [|split; [|lia]].
  - right. split.
    + apply (no_cannot _ tri_ids); [vm_compute; reflexivity| |]; simpl; tauto.
    + right. right. left. split; reflexivity.
  - right. split.
    + apply (no_cannot _ tri_ids); [vm_compute; reflexivity| |]; simpl; tauto.
    + right. right. left. split; reflexivity.
Qed.

(*PROP C112 (refuted for "ward"): four data are linked from the start; the second merge is between closer clusters than the first. *)
Lemma C112_ward_refuted_proof :
  exists m vectors s' d root u u1 u2 v v1 v2 du dv, reachable m /\
    plane (str "ward") m vectors (Some 2%Z) (fresh_hier (Z * Z)) = (s', Ok d) /\ h_root _ s' = Some root /\
    subtree u root /\ subtree v root /\ t_children _ u = [u1; u2] /\ t_children _ v = [v1; v2] /\ t_iteration _ u < t_iteration _ v /\
    plane_distance (str "ward") m vectors u1 u2 du /\ plane_distance (str "ward") m vectors v1 v2 dv /\ (dv < du)%Z.
Proof.
  exists star_mgr, star. do 3 eexists.
  eexists. eexists. eexists. eexists. eexists. eexists. exists 240%Z, 230%Z.
  split; [apply run_reachable|]. split; [vm_compute; reflexivity|]. split; [vm_compute; reflexivity|].
  split; [eapply subtree_child; [right; left; reflexivity|apply subtree_self]|]. split; [apply subtree_self|].
  split; [reflexivity|]. split; [reflexivity|]. split; [vm_compute; lia|].
  assert (Far : forall a b i j, nth_error star_ids i = Some a -> nth_error star_ids j = Some b -> distance_is euclid_rows star_mgr star (a, b) (euclid_rows (vals star) i j))
    by (intros a b i j A B; apply (plane_far _ star_ids); auto; vm_compute; reflexivity).
  split; [|split; [|lia]].
  - right. split.
    + apply (no_cannot _ star_ids); [vm_compute; reflexivity| |]; simpl; tauto.
    + right. right. right. split; [reflexivity|]. exists [240%Z]. split; [|reflexivity]. repeat constructor. apply (Far _ _ 0 1); reflexivity.
  - right. split.
    + apply (no_cannot _ star_ids); [vm_compute; reflexivity| |]; simpl; tauto.
    + right. right. right. split; [reflexivity|]. eexists. split; [|].
      2: instantiate (1 := [euclid_rows (vals star) 2 3; euclid_rows (vals star) 2 4; euclid_rows (vals star) 2 5; euclid_rows (vals star) 2 0; euclid_rows (vals star) 2 1; euclid_rows (vals star) 3 4; euclid_rows (vals star) 3 5; euclid_rows (vals star) 3 0; euclid_rows (vals star) 3 1; euclid_rows (vals star) 4 5; euclid_rows (vals star) 4 0; euclid_rows (vals star) 4 1; euclid_rows (vals star) 5 0; euclid_rows (vals star) 5 1; euclid_rows (vals star) 0 1]); reflexivity.
      constructor; [apply (Far _ _ 2 3); reflexivity|].
      constructor; [apply (Far _ _ 2 4); reflexivity|].
      constructor; [apply (Far _ _ 2 5); reflexivity|].
      constructor; [apply (Far _ _ 2 0); reflexivity|].
      constructor; [apply (Far _ _ 2 1); reflexivity|].
      constructor; [apply (Far _ _ 3 4); reflexivity|].
      constructor; [apply (Far _ _ 3 5); reflexivity|].
      constructor; [apply (Far _ _ 3 0); reflexivity|].
      constructor; [apply (Far _ _ 3 1); reflexivity|].
      constructor; [apply (Far _ _ 4 5); reflexivity|].
      constructor; [apply (Far _ _ 4 0); reflexivity|].
      constructor; [apply (Far _ _ 4 1); reflexivity|].
      constructor; [apply (Far _ _ 5 0); reflexivity|].
      constructor; [apply (Far _ _ 5 1); reflexivity|].
      constructor; [apply (Far _ _ 0 1); reflexivity|].
      constructor.
Qed.
