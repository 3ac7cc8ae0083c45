(** * Clearly separated clusters are found (C142). *)

From Coq Require Import String List Bool Arith ZArith QArith Lia Permutation Relations.
(*HEADER
From Coq Require Import String List Bool Arith ZArith QArith Permutation Lia Relations.
From Verif Require Import Base Manager Spec ManagerInv ManagerQueries ManagerThms SamplingSpec ClusterSpec ClusterProofs KMeans KMeansSpec Hierarchical HierSpec CutSpec SepSpec SeparatedThms.
Import ListNotations.
Open Scope nat_scope.
HEADER*)
From Verif Require Import Base Manager Spec Closure ManagerProofs ManagerInv ManagerQueries ManagerThms
  Sampling SamplingSpec SamplingProofs SamplingThms Rename ClusterSpec RenameThms ClusterProofs KMeans KMeansSpec KMeansProofs KMeansThms
  Hierarchical HierSpec HierProofs HierRun HierTree HierThms CutSpec CutThms InversionThms NarrowThms StableThms SepSpec.
Import ListNotations.
Open Scope nat_scope.
Open Scope py_scope.

Section Separated.
  Context {vec D : Type}.
  Variable pairwise : list vec -> nat -> nat -> D.
  Variable cdistance : vec -> vec -> D.
  Variable ltb : D -> D -> bool.
  Variable dsum : list D -> D.
  Variable ddiv : D -> nat -> D.
  Variable inf : D.
  Variable mean : list vec -> vec.
  Variable linkage : pystr.
  Variable m : mgr.
  Variable vectors : dict pystr vec.
  Hypothesis I : Inv m.
  Hypothesis TO : strict_total_order ltb.
  Hypothesis SYM : forall X i j, pairwise X i j = pairwise X j i.
  Hypothesis SMALL : forall X i j, ltb (pairwise X i j) inf = true.
  Hypothesis LK : linkage = str "single" \/ linkage = str "complete".
  Variable e : dict pystr Z.
  Hypothesis RE : respects m e.
  Notation tree := (tree vec).
  Notation members := (t_members vec).
  Notation ldist := (linkage_distance pairwise cdistance ltb dsum ddiv inf linkage m vectors).
  Notation nearest := (closest pairwise cdistance ltb dsum ddiv inf linkage m vectors).
  Notation halted := (stopped pairwise cdistance ltb dsum ddiv inf linkage m vectors).
  Notation dis := (distance_is pairwise m vectors).
  Notation trace_ := (run_trace mean vectors nearest halted).
  Notation full := (full m e).
  Hypothesis SEP : forall a b x y d d', In a (ids m) -> In b (ids m) -> In x (ids m) -> In y (ids m) ->
    dget a e = dget b e -> ~ inferred m a b (Some MUST_LINK) -> dget x e <> dget y e -> ~ inferred m x y (Some CANNOT_LINK) ->
    dis (a, b) d -> dis (x, y) d' -> ltb d d' = true.
  Variable first : list tree.
  Hypothesis FST : start mean m vectors first.

  Lemma small a b d : dis (a, b) d -> ltb d inf = true.
  Proof. intros (l & rows & i & j & _ & _ & _ & _ & ->). apply SMALL. Qed.

  (** Two compatible clusters are at the distance of two of their data. *)
  Lemma ldist_some t1 t2 : in_ids m t1 -> in_ids m t2 -> ~ incompatible m t1 t2 -> exists a b d, In a (members t1) /\ In b (members t2) /\ dis (a, b) d /\ ldist t1 t2 d.
  Proof.
    intros [N1 I1] [N2 I2] NI.
    assert (NE : list_prod (members t1) (members t2) <> []) by (destruct (members t1), (members t2); try congruence; discriminate).
    assert (TT : forall p, In p (list_prod (members t1) (members t2)) -> exists d, dis p d).
    { intros [a b] J. apply in_prod_iff in J as [A B]. apply (start_dis pairwise mean vectors m I first FST); auto. }
    destruct LK as [EL|EL].
    - destruct (least pairwise ltb m vectors I TO _ NE TT) as ([a b] & d & J & Dd & Min). apply in_prod_iff in J as [A B]. exists a, b, d. repeat (split; auto).
      right. split; auto. right; left. split; auto. split; [exists a, b; auto|]. intros p q d' P Q D'. apply (Min (p, q)); auto. apply in_prod; auto.
    - destruct (greatest pairwise ltb m vectors I TO _ NE TT) as ([a b] & d & J & Dd & Max). apply in_prod_iff in J as [A B]. exists a, b, d. repeat (split; auto).
      right. split; auto. left. split; auto. split; [exists a, b; auto|]. intros p q d' P Q D'. apply (Max (p, q)); auto. apply in_prod; auto.
  Qed.
  Lemma ldist_witness t1 t2 d : ldist t1 t2 d -> ~ incompatible m t1 t2 -> exists a b, In a (members t1) /\ In b (members t2) /\ dis (a, b) d.
  Proof.
    intros LD NI. destruct LD as [[Q _]|[_ [(_ & H & _)|[(_ & H & _)|[(Q & _)|(Q & _)]]]]]; auto; [destruct (NI Q)| |]; destruct LK as [-> | ->]; discriminate.
  Qed.

  (** A pair of clusters of the same class, when one is left. *)
  Lemma candidate it F x y : forest_ok mean m vectors it F -> (forall a b, together first a b -> together F a b) -> within e F ->
    In x (ids m) -> In y (ids m) -> dget x e = dget y e -> ~ together F x y ->
    exists u1 u2 d a b, before F u1 u2 /\ ldist u1 u2 d /\ dis (a, b) d /\ In a (ids m) /\ In b (ids m) /\ dget a e = dget b e /\ ~ inferred m a b (Some MUST_LINK).
  Proof.
    intros FO RF W X Y E NT. assert (GI := trees_inids _ _ _ _ _ FO). rewrite Forall_forall in GI.
    destruct (in_forest mean m vectors it F x FO X) as (tx & Tx & Mx & Gx), (in_forest mean m vectors it F y FO Y) as (ty & Ty & My & Gy).
    assert (NQ : tx <> ty) by (intros ->; apply NT; exists ty; auto).
    assert (SE : forall a b, In a (members tx) -> In b (members ty) -> dget a e = dget b e).
    { intros a b A B. rewrite (W a x) by (exists tx; auto). rewrite (W b y) by (exists ty; auto). auto. }
    assert (NI : ~ incompatible m tx ty).
    { intros (a & b & A & B & Q). apply (proj2 RE) in Q; [|apply managed_ids; apply Gx; auto|apply managed_ids; apply Gy; auto]. apply Q. auto. }
    assert (PF := ok_parted mean vectors m I it F FO).
    assert (NM : forall a b, In a (members tx) -> In b (members ty) -> ~ inferred m a b (Some MUST_LINK)).
    { intros a b A B Q. assert (Tab : together F a b).
      { apply RF. destruct (inferred_inI m I a b _ Q) as [Ia Ib]. apply inferred_ml in Q; auto. apply ml_linked in Q; auto. apply (comps_common m a b I Ia Ib) in Q. destruct Q as (c & Cc & Ca & Cb).
        destruct FST as (cs & Ec & FF & _). rewrite ask_components in Ec by auto. injection Ec as <-.
        destruct (Forall2_In_l _ _ _ _ FF Cc) as (t & Tt & (_ & _ & Em & _)). exists t. rewrite Em. auto. }
      destruct Tab as (u & U & Ua & Ub). apply NQ. rewrite (parted_unique F tx u a); auto; [|apply PF]. symmetry. apply (parted_unique F ty u b); auto. apply PF. }
    destruct (ldist_some tx ty Gx Gy NI) as (a & b & d & A & B & Dab & LD).
    destruct (before_total F tx ty Tx Ty NQ) as [BF|BF].
    - exists tx, ty, d, a, b. repeat (split; auto); [apply Gx|apply Gy]; auto.
    - exists ty, tx, d, a, b. split; auto. split; [|repeat (split; auto); [apply Gx|apply Gy]; auto].
      apply (ldist_sym pairwise cdistance ltb dsum ddiv inf linkage m vectors I SYM LK); auto.
  Qed.

  Lemma finds it F root tr : trace_ it F root tr -> forest_ok mean m vectors it F -> (forall a b, together first a b -> together F a b) -> within e F ->
    exists F', In F' tr /\ within e F' /\ full F' /\ (forall G, In G tr -> length F' <= length G -> G = F' \/ length F' < length G).
  Proof.
    induction 1 as [it t|it l1 t1 l2 t2 l3 t root tr CL NO A IH|it ts root L ST NO]; intros FO RF W.
    - exists [t]. split; [left; auto|]. split; auto. assert (C := ok_covers mean vectors m it [t]). split.
      { intros x y X Y _. apply (C _ FO) in X. apply (C _ FO) in Y. destruct X as (u & [<-|[]] & X & _), Y as (u & [<-|[]] & Y & _). exists t. split; [left|]; auto. }
      intros G [<-|[]]; auto.
    - assert (LEN := trace_len mean vectors _ _ _ _ _ _ A). destruct (full_dec m e (l1 ++ t1 :: l2 ++ t2 :: l3)) as [FU|(x & y & X & Y & E & NT)].
      + exists (l1 ++ t1 :: l2 ++ t2 :: l3). split; [left; auto|]. split; auto. split; auto.
        intros G [<-|J] Le; auto. specialize (LEN G J). rewrite !app_length in *. cbn in *. rewrite !app_length in *. cbn in *. lia.
      + assert (FO2 := ok_next pairwise cdistance ltb dsum ddiv inf mean vectors linkage m I it l1 t1 l2 t2 l3 t FO CL NO).
        assert (W2 : within e (l1 ++ l2 ++ l3 ++ [t])).
        { set (F := l1 ++ t1 :: l2 ++ t2 :: l3) in *. assert (T1 : In t1 F) by apply in_elt. assert (T2 : In t2 F) by (unfold F; apply in_or_app; right; right; apply in_elt).
          assert (GI := trees_inids _ _ _ _ _ FO). rewrite Forall_forall in GI.
          assert (M0 : members t = members t1 ++ members t2) by (destruct NO as (_ & _ & Em & _); rewrite Em; cbn; rewrite app_nil_r; auto).
          assert (K : forall a b, In a (members t1) -> In b (members t2) -> dget a e = dget b e).
          { destruct (candidate it F x y FO RF W X Y E NT) as (u1 & u2 & d & a & b & BF & LD & Dab & Ia & Ib & Eab & NM).
            destruct CL as (d0 & LD0 & NI0 & Min). destruct (Min u1 u2 d BF LD) as [Lt _].
            assert (NC : ~ incompatible m t1 t2) by (destruct LD0 as [[_ Q]|[Q _]]; [congruence|auto]).
            destruct (ldist_witness t1 t2 d0 LD0 NC) as (p & q & P & Q & Dpq).
            assert (Epq : dget p e = dget q e).
            { assert (DEC : dget p e = dget q e \/ dget p e <> dget q e) by (destruct (dget p e) as [i|], (dget q e) as [j|]; try (right; congruence); auto; destruct (Z.eq_dec i j); [left|right]; congruence).
              destruct DEC as [|NE]; auto. exfalso.
              assert (ltb d d0 = true); [|congruence]. apply (SEP a b p q); auto; [apply (GI t1 T1); auto|apply (GI t2 T2); auto|]. intro Z0. apply NC. exists p, q. auto. }
            intros a0 b0 A0 B0. rewrite (W a0 p) by (exists t1; auto). rewrite (W b0 q) by (exists t2; auto). auto. }
          intros a b (u & U & Ua & Ub). rewrite !in_app_iff in U. cbn in U.
          assert (OLD : In u F -> dget a e = dget b e) by (intro O; apply W; exists u; auto).
          assert (INC : In u l1 \/ In u l2 \/ In u l3 -> In u F) by (unfold F; rewrite in_app_iff; cbn; rewrite in_app_iff; cbn; tauto).
          destruct U as [U|[U|[U|[<-|[]]]]]; auto. rewrite M0 in Ua, Ub. apply in_app_or in Ua, Ub.
          destruct Ua as [Ua|Ua], Ub as [Ub|Ub]; auto; [apply W; exists t1; auto|symmetry; auto|apply W; exists t2; auto]. }
        destruct IH as (F' & J & W' & FU & ONE); auto.
        { intros a b Q. eapply together_up; eauto. }
        assert (LF := LEN F' J). exists F'. split; [right; auto|]. split; auto. split; auto.
        assert (LL : length F' < length (l1 ++ t1 :: l2 ++ t2 :: l3)) by (rewrite !app_length in *; cbn in *; rewrite !app_length in *; cbn in *; lia).
        intros G [<-|JG]; auto.
    - destruct (full_dec m e ts) as [FU|(x & y & X & Y & E & NT)].
      + exists ts. split; [left; auto|]. split; auto. split; auto. intros G [<-|[<-|[]]]; auto. cbn. lia.
      + exfalso. destruct (candidate it ts x y FO RF W X Y E NT) as (u1 & u2 & d & a & b & BF & LD & Dab & _).
        destruct ST as [NL _]. apply small in Dab. rewrite (NL u1 u2 d BF LD) in Dab. discriminate.
  Qed.
End Separated.

Lemma forest_count {vec} (F : list (tree vec)) (e : dict pystr Z) l : parted F -> (forall x, together F x x <-> In x l) -> within e F ->
  (forall x y, In x l -> In y l -> dget x e = dget y e -> together F x y) -> NoDup (keys e) -> (forall x, In x (keys e) <-> In x l) -> length F = nb_clusters_of e.
Proof.
  intros P C W FU NK K.
  set (f := fun t : tree vec => match t_members vec t with x :: _ => match dget x e with Some c => c | None => 0%Z end | [] => 0%Z end).
  assert (M0 : forall t, In t F -> exists x, In x (t_members vec t) /\ In x l /\ dget x e = Some (f t)).
  { intros t T. assert (N := proj2 P t T). unfold f. destruct (t_members vec t) as [|x ms] eqn:E; [congruence|]. exists x. split; [left; auto|].
    assert (X : In x l) by (apply C; exists t; rewrite E; split; [auto|split; left; auto]). split; auto.
    destruct (dget x e) eqn:Ed; auto. exfalso. apply dget_None in Ed. apply Ed, K. auto. }
  unfold nb_clusters_of. rewrite <- (map_length f F). apply Permutation_length. apply NoDup_Permutation.
  - assert (INJ : forall t u, In t F -> In u F -> f t = f u -> t = u).
    { intros t u T U E. destruct (M0 t T) as (x & X & Xl & Ex), (M0 u U) as (y & Y & Yl & Ey). destruct (FU x y Xl Yl) as (v & V & Vx & Vy); [congruence|].
      rewrite (parted_unique F t v x); auto; [|apply P]. symmetry. apply (parted_unique F u v y); auto. apply P. }
    assert (ND : NoDup F).
    { destruct P as [N NE]. clear - N NE. induction F as [|t F IH]; constructor.
      - intro J. cbn in N. destruct (NoDup_app_inv _ _ N) as (_ & _ & DJ). destruct (t_members vec t) as [|x l] eqn:E; [apply (NE t); [left|]; auto|].
        apply (DJ x); [left; auto|]. apply in_flat_map. exists t. rewrite E. split; [auto|left; auto].
      - cbn in N. destruct (NoDup_app_inv _ _ N) as (_ & N2 & _). apply IH; auto. intros u U. apply NE. right. auto. }
    clear - ND INJ. induction ND as [|t F N ND IH]; cbn; constructor.
    + intro J. apply in_map_iff in J as (u & E & U). apply N. rewrite (INJ t u); auto; [left|right]; auto.
    + apply IH. intros u v U V. apply INJ; right; auto.
  - apply NoDup_nodup.
  - intro v. rewrite nodup_In. split.
    + intro V. apply in_map_iff in V as (t & <- & T). destruct (M0 t T) as (x & X & _ & Ex). eapply dget_vals; eauto.
    + intro V. apply vals_dget in V as [x Ex]; auto. assert (X : In x (keys e)) by (eapply dget_Some_key; eauto). apply K, C in X. destruct X as (t & T & X & _).
      destruct (M0 t T) as (y & Y & _ & Ey). apply in_map_iff. exists t. split; auto. assert (Q : dget y e = dget x e) by (apply W; exists t; auto). congruence.
Qed.

(*PROP Single and complete linkage, cut by iteration, find the true clusters as soon as every undecided pair of one cluster is nearer than every
    undecided pair of two clusters; constraints decide the other pairs. *)
Lemma C142_separated_partial_proof :
  forall vec D (eqD : EqB D) pairwise cdistance ltb dsum ddiv inf mean linkage m vectors nb s s' d e,
    strict_total_order ltb -> (forall X i j, pairwise X i j = pairwise X j i) -> (forall X i j, ltb (pairwise X i j) inf = true) ->
    linkage = str "single" \/ linkage = str "complete" ->
    reachable m -> NoDup (keys e) -> covers_exactly m e -> respects m e ->
    separated_where_undecided ltb (distance_is pairwise m vectors) m e ->
    cluster vec D pairwise cdistance ltb dsum ddiv inf mean linkage m vectors nb s = (s', Ok d) ->
    exists d', compute_predicted_clusters vec (Z.of_nat (nb_clusters_of e)) (str "iteration") s' = (s', Ok d') /\ same_partition d' e.
Proof.
  intros vec D eqD pairwise cdistance ltb dsum ddiv inf mean linkage m vectors nb s s' d e TO SYM SMALL LK R NK CE RE SEP E.
  apply reachable_inv in R.
  assert (MK : make_hierarchical linkage = Ok linkage) by (destruct LK as [-> | ->]; reflexivity).
  destruct (trace_of_run eqD pairwise cdistance ltb dsum ddiv inf mean linkage m vectors nb s s' d TO R MK E) as (root & first & tr & Er & ST & T & Q).
  destruct (Q (Z.of_nat (nb_clusters_of e))) as (d' & G & Ec & (JG & KG & MG) & [K GA] & Can & Co). exists d'. split; auto.
  assert (FO := start_ok mean m vectors R first ST).
  assert (W0 : within e first).
  { intros x y X. assert (X' := start_ml mean m vectors R first ST x y X). destruct (inferred_inI m R x y _ X'). apply RE; auto; apply managed_ids; auto. }
  destruct (finds pairwise cdistance ltb dsum ddiv inf mean linkage m vectors R TO SYM SMALL LK e RE) with (first := first) (it := 1) (F := first) (root := root) (tr := tr)
    as (F & JF & WF & FF & ONE); auto.
  { intros a b x y l l' A B X Y. intros. apply (SEP a b x y l l'); auto; apply managed_ids; auto. }
  destruct (trace_good pairwise cdistance ltb dsum ddiv inf mean vectors linkage m R 1 first root tr T FO F JF) as (PF & CF & _ & _).
  assert (LF : length F = nb_clusters_of e).
  { apply (forest_count F e (ids m)); auto. intro x. rewrite (CE x), managed_ids. tauto. }
  assert (LG : length G <= length F) by (apply MG; auto; lia).
  assert (GF : G = F).
  { assert (H := trace_len mean vectors _ _ _ _ _ _ T F JF). destruct (ONE G JG) as [|Lt]; [|auto|lia]. destruct KG as [KG| ->]; lia. }
  subst G. split.
  - intro x. rewrite (Co x), (CE x). tauto.
  - intros x y X Y. rewrite (GA x y X Y). apply Co in X, Y. rewrite managed_ids in X, Y. split; [apply WF|apply FF; auto].
Qed.

(*EX
(** "c" is as near to "d" as to "b"; a CANNOT_LINK decides. *)
Definition pw (X : list Z) (i j : nat) : Z := if (i =? j)%nat then 0%Z else Z.min 9999 (Z.abs (nth i X 0 - nth j X 0))%Z.
Definition hier_Z (linkage : pystr) := cluster Z Z pw (fun x y => Z.abs (x - y)%Z) Z.ltb (fold_right Z.add 0%Z) (fun d n => (d / Z.of_nat n)%Z) 10000%Z (fun l => nth 0 l 0%Z) linkage.
Definition A := str "a". Definition B := str "b". Definition C := str "c". Definition E := str "d".
Definition told : mgr := run [CallAddConstraint C E CANNOT_LINK 1%Q; CallAddConstraint A C MUST_LINK 1%Q] (init [A; B; C; E]).
Definition points : dict pystr Z := [(A, 0); (B, 3); (C, 7); (E, 11)]%Z.
Definition truth : dict pystr Z := [(A, 5); (B, 5); (C, 5); (E, 8)]%Z.
Example C142_ex :
  strict_total_order Z.ltb /\ (forall X i j, pw X i j = pw X j i) /\ (forall X i j, Z.ltb (pw X i j) 10000 = true) /\ reachable told /\
  NoDup (keys truth) /\ covers_exactly told truth /\ respects told truth /\ nb_clusters_of truth = 2 /\
  separated_where_undecided Z.ltb (distance_is pw told points) told truth /\ ~ separated Z.ltb (distance_is pw told points) told truth /\
  result (compute_predicted_clusters Z 2 (str "iteration")) (fst (hier_Z (str "complete") told points (Some 2%Z) (fresh_hier Z))) = Ok [(A, 0); (B, 0); (C, 0); (E, 1)]%Z.
Proof.
  split; [split; [split; [|split]|]; intros; rewrite ?Z.ltb_lt, ?Z.ltb_ge, ?Z.ltb_irrefl in *; try lia; auto|].
  split; [intros X i j; unfold pw; destruct (Nat.eqb_spec i j), (Nat.eqb_spec j i); subst; try congruence; lia|].
  split; [intros X i j; unfold pw; destruct (i =? j)%nat; apply Z.ltb_lt; lia|].
  split; [apply run_reachable|]. split; [repeat constructor; simpl; intuition discriminate|].
  assert (In4 : forall x, managed told x <-> In x [A; B; C; E]) by (intro x; rewrite managed_ids; reflexivity).
  split; [intro x; rewrite In4; reflexivity|]. split.
  { split; intros a b Ma Mb Q; apply In4 in Ma, Mb; simpl in Ma, Mb; repeat destruct Ma as [<-|Ma]; try tauto; repeat destruct Mb as [<-|Mb]; try tauto;
    vm_compute in Q; try discriminate; vm_compute; congruence. }
  split; [vm_compute; reflexivity|]. split; [|split; [|vm_compute; reflexivity]].
  - intros a b x y l l' Ma Mb Mx My E1 N1 E2 N2 (l1 & rows & i & j & El & Er & Ni & Nj & ->) (l2 & rows2 & i' & j' & El2 & Er2 & Ni' & Nj' & ->).
    vm_compute in El. injection El as <-. vm_compute in El2. injection El2 as <-.
    assert (RW : forall r, map (fun x => dget x points) [A; B; C; E] = map Some r -> r = [0; 3; 7; 11]%Z).
    { intros r Q. vm_compute in Q. do 4 (destruct r as [|? r]; [discriminate|]). destruct r; [|discriminate]. injection Q as <- <- <- <-. auto. }
    rewrite (RW _ Er), (RW _ Er2). cbn [fst snd] in Ni, Nj, Ni', Nj'. clear - E1 N1 E2 N2 Ni Nj Ni' Nj'.
    assert (W1 : forall n z, nth_error [A; B; C; E] n = Some z -> n < 4) by (intros n z Q; apply (nth_error_Some [A; B; C; E]); congruence).
    assert (Wi := W1 _ _ Ni). assert (Wj := W1 _ _ Nj). assert (Wi' := W1 _ _ Ni'). assert (Wj' := W1 _ _ Nj'). clear W1.
    assert (W4 : forall n, n < 4 -> n = 0 \/ n = 1 \/ n = 2 \/ n = 3) by (intros; lia).
    destruct (W4 _ Wi) as [->|[->|[->| ->]]], (W4 _ Wj) as [->|[->|[->| ->]]]; vm_compute in Ni, Nj; injection Ni as <-; injection Nj as <-;
      try (exfalso; apply N1; vm_compute; reflexivity); try (vm_compute in E1; discriminate);
      destruct (W4 _ Wi') as [->|[->|[->| ->]]], (W4 _ Wj') as [->|[->|[->| ->]]]; vm_compute in Ni', Nj'; injection Ni' as <-; injection Nj' as <-;
      try (exfalso; apply N2; vm_compute; reflexivity); try (exfalso; apply E2; vm_compute; reflexivity); vm_compute; reflexivity.
  - intro Sp. specialize (Sp B C C E 4%Z 4%Z). assert (H : (4 <? 4)%Z = true); [|vm_compute in H; discriminate].
    apply Sp; try (apply In4; simpl; auto); try reflexivity; try (vm_compute; discriminate).
    + exists [A; B; C; E], [0; 3; 7; 11]%Z, 1, 2. repeat split.
    + exists [A; B; C; E], [0; 3; 7; 11]%Z, 2, 3. repeat split.
Qed.
EX*)

(** Whether the listed data, with their true clusters, are separated; [dist] is the distance of two vectors. *)
Definition apart_on {vec} (dist : vec -> vec -> Z) (l : list (pystr * vec * Z)) : bool :=
  forallb (fun p => forallb (fun q => forallb (fun r => forallb (fun s =>
    negb (Z.eqb (snd p) (snd q)) || Z.eqb (snd r) (snd s) || Z.ltb (dist (snd (fst p)) (snd (fst q))) (dist (snd (fst r)) (snd (fst s)))) l) l) l) l.
Definition names_on {vec} (l : list (pystr * vec * Z)) := map (fun p => fst (fst p)) l.
Definition vectors_on {vec} (l : list (pystr * vec * Z)) : dict pystr vec := map fst l.
Definition truth_on {vec} (l : list (pystr * vec * Z)) : dict pystr Z := map (fun p => (fst (fst p), snd p)) l.

Lemma dget_on {vec V} (f : pystr * vec * Z -> V) l x p : NoDup (names_on l) -> In p l -> fst (fst p) = x -> dget x (map (fun p => (fst (fst p), f p)) l) = Some (f p).
Proof.
  induction l as [|q l IH]; intros N J E; [destruct J|]. cbn in N. inversion N as [|? ? N1 N2]; subst. destruct J as [->|J].
  - cbn. unfold dget. cbn. rewrite eqb_refl. auto.
  - cbn [map]. rewrite <- (IH N2 J eq_refl). unfold dget. cbn. destruct (eqb_spec (fst (fst p)) (fst (fst q))) as [Q|Q]; auto.
    exfalso. apply N1. rewrite <- Q. apply in_map_iff. exists p. auto.
Qed.

Lemma names_managed {vec} (l : list (pystr * vec * Z)) x : NoDup (names_on l) -> managed (init (names_on l)) x <-> exists p, In p l /\ fst (fst p) = x.
Proof.
  intro N. rewrite managed_ids, init_ids, dedup_id by auto. unfold names_on. rewrite in_map_iff. split; intros (p & A & B); exists p; auto.
Qed.

Lemma separated_on {vec} (dist : vec -> vec -> Z) d0 l : NoDup (names_on l) -> apart_on dist l = true ->
  separated Z.ltb (distance_is (fun X i j => dist (nth i X d0) (nth j X d0)) (init (names_on l)) (vectors_on l)) (init (names_on l)) (truth_on l).
Proof.
  intros N AP a b x y d d' Ma Mb Mx My E1 E2 (l1 & rows & i & j & El & Er & Ni & Nj & ->) (l2 & rows2 & i' & j' & El2 & Er2 & Ni' & Nj' & ->).
  rewrite ask_managed, init_ids, dedup_id in El, El2 by auto. injection El as <-. injection El2 as <-. cbn [fst snd] in *.
  assert (V : forall p, In p l -> dget (fst (fst p)) (vectors_on l) = Some (snd (fst p))).
  { intros p P. replace (vectors_on l) with (map (fun p : pystr * vec * Z => (fst (fst p), snd (fst p))) l); [apply (dget_on (fun p => snd (fst p)) l _ p); auto|].
    unfold vectors_on. apply map_ext. intros [[n0 v0] c0]. reflexivity. }
  assert (TR : forall p, In p l -> dget (fst (fst p)) (truth_on l) = Some (snd p)) by (intros p P; apply (dget_on (fun p => snd p) l _ p); auto).
  assert (RW : forall r, map (fun x => dget x (vectors_on l)) (names_on l) = map Some r -> r = map (fun p : pystr * vec * Z => snd (fst p)) l).
  { intros r Q. unfold names_on in Q. rewrite map_map in Q. assert (Q2 : map (fun p : pystr * vec * Z => dget (fst (fst p)) (vectors_on l)) l = map (fun p => Some (snd (fst p))) l) by (apply map_ext_in; auto).
    rewrite Q2 in Q. rewrite <- (map_map (fun p : pystr * vec * Z => snd (fst p)) Some) in Q. clear - Q. revert r Q. induction (map (fun p : pystr * vec * Z => snd (fst p)) l) as [|v k IH]; intros [|w r] Q; cbn in Q; try discriminate; auto.
    injection Q as <- Q. f_equal. auto. }
  rewrite (RW _ Er), (RW _ Er2). clear rows rows2 Er Er2 RW.
  assert (NT : forall n z, nth_error (names_on l) n = Some z -> exists p, In p l /\ fst (fst p) = z /\ nth n (map (fun p : pystr * vec * Z => snd (fst p)) l) d0 = snd (fst p)).
  { intros n z Q. unfold names_on in Q. rewrite nth_error_map in Q. destruct (nth_error l n) as [p|] eqn:En; [|discriminate]. injection Q as <-. exists p. split; [apply nth_error_In in En; auto|]. split; auto.
    apply nth_error_nth. rewrite nth_error_map, En. auto. }
  destruct (NT _ _ Ni) as (p & P & Ep & ->), (NT _ _ Nj) as (q & Q & Eq & ->), (NT _ _ Ni') as (r & R & Err & ->), (NT _ _ Nj') as (s & S0 & Es & ->).
  subst a b x y. rewrite !TR in E1, E2 by auto.
  unfold apart_on in AP. rewrite forallb_forall in AP. specialize (AP p P). rewrite forallb_forall in AP. specialize (AP q Q). rewrite forallb_forall in AP. specialize (AP r R).
  rewrite forallb_forall in AP. specialize (AP s S0). apply orb_true_iff in AP as [AP|AP]; auto. apply orb_true_iff in AP as [AP|AP].
  - exfalso. injection E1 as E1. rewrite E1, Z.eqb_refl in AP. discriminate.
  - exfalso. apply E2. apply Z.eqb_eq in AP. congruence.
Qed.
Lemma covers_on {vec} (l : list (pystr * vec * Z)) : NoDup (names_on l) -> NoDup (keys (truth_on l)) /\ covers_exactly (init (names_on l)) (truth_on l).
Proof.
  intro N. assert (K : keys (truth_on l) = names_on l) by (unfold keys, truth_on, names_on; rewrite map_map; reflexivity).
  rewrite K. split; auto. intro x. rewrite K, managed_ids, init_ids, dedup_id by auto. tauto.
Qed.

(** Points of a line, and of the plane (100 times the distance, rounded). *)
Definition line_gap (x y : Z) : Z := Z.min 99999 (Z.abs (x - y)).
Definition plane_gap (p q : Z * Z) : Z := Z.min 99999 (Z.sqrt (10000 * ((fst p - fst q) * (fst p - fst q) + (snd p - snd q) * (snd p - snd q)))).
Definition line_mean (l : list Z) : Z := (fold_right Z.add 0 l / Z.of_nat (length l))%Z.
Definition plane_mean (l : list (Z * Z)) : Z * Z := (line_mean (map fst l), line_mean (map snd l)).
Definition hier_line := cluster Z Z (fun X i j => line_gap (nth i X 0%Z) (nth j X 0%Z)) line_gap Z.ltb (fold_right Z.add 0%Z) (fun d n => (d / Z.of_nat n)%Z) 100000%Z line_mean.
Definition hier_plane := cluster (Z * Z) Z (fun X i j => plane_gap (nth i X (0, 0)%Z) (nth j X (0, 0)%Z)) plane_gap Z.ltb (fold_right Z.add 0%Z) (fun d n => (d / Z.of_nat n)%Z) 100000%Z plane_mean.

Ltac names_differ := vm_compute; repeat constructor; simpl; intuition discriminate.

(** Four data close together, two others far away. *)
Definition six_on : list (pystr * Z * Z) := [(str "a", 0, 0); (str "b", 1, 0); (str "c", 2, 0); (str "d", 3, 0); (str "e", 100, 1); (str "f", 150, 2)]%Z.
(*PROP The cut that [cluster] makes can miss clearly separated clusters, with each linkage and without any constraint: it splits the biggest one. *)
Lemma C142_default_refuted_proof :
  forall linkage, In linkage [str "single"; str "complete"; str "average"; str "ward"] ->
  exists pairwise cdistance dsum ddiv inf mean names vectors e d,
    strict_total_order Z.ltb /\ (forall X i j, pairwise X i j = pairwise X j i) /\ (forall X i j, Z.ltb (pairwise X i j) inf = true) /\
    NoDup (keys e) /\ covers_exactly (init names) e /\ separated Z.ltb (distance_is pairwise (init names) vectors) (init names) e /\
    result (cluster Z Z pairwise cdistance Z.ltb dsum ddiv inf mean linkage (init names) vectors (Some (Z.of_nat (nb_clusters_of e)))) (fresh_hier Z) = Ok d /\
    nb_clusters_of d = nb_clusters_of e /\ ~ same_partition d e.
Proof.
  intros linkage LK. exists (fun X i j => line_gap (nth i X 0%Z) (nth j X 0%Z)), line_gap, (fold_right Z.add 0%Z), (fun d n => (d / Z.of_nat n)%Z), 100000%Z, line_mean,
    (names_on six_on), (vectors_on six_on), (truth_on six_on), [(str "a", 0); (str "b", 0); (str "c", 1); (str "d", 1); (str "e", 2); (str "f", 2)]%Z.
  assert (N : NoDup (names_on six_on)) by names_differ.
  split; [split; [split; [|split]|]; intros; rewrite ?Z.ltb_lt, ?Z.ltb_ge, ?Z.ltb_irrefl in *; try lia; auto|].
  split; [intros; unfold line_gap; lia|]. split; [intros; unfold line_gap; apply Z.ltb_lt; lia|].
  split; [apply covers_on; auto|]. split; [apply covers_on; auto|]. split; [apply separated_on; auto|].
  split; [destruct LK as [<-|[<-|[<-|[<-|[]]]]]; vm_compute; reflexivity|]. split; [vm_compute; reflexivity|].
  intros [_ P]. specialize (P (str "a") (str "c")). vm_compute in P. intuition discriminate.
Qed.

(** A triangle with two equal long sides and a fourth point behind its top; a triangle with equal sides and a fourth point near its top. *)
Definition average_on : list (pystr * (Z * Z) * Z) := [(str "a", (0, 48), 0); (str "b", (0, -48), 0); (str "c", (90, 0), 1); (str "d", (190, 0), 1)]%Z.
Definition ward_on : list (pystr * (Z * Z) * Z) := [(str "a", (-87, 50), 0); (str "b", (-87, -50), 0); (str "c", (0, 0), 0); (str "d", (102, 0), 1)]%Z.
(*PROP Average and ward linkage can miss clearly separated clusters with the cut by iteration too, with four points of the plane and no constraint. *)
Lemma C142_average_ward_refuted_proof :
  forall linkage, In linkage [str "average"; str "ward"] ->
  exists pairwise cdistance dsum ddiv inf mean names vectors e d,
    strict_total_order Z.ltb /\ (forall X i j, pairwise X i j = pairwise X j i) /\ (forall X i j, Z.ltb (pairwise X i j) inf = true) /\
    NoDup (keys e) /\ covers_exactly (init names) e /\ separated Z.ltb (distance_is pairwise (init names) vectors) (init names) e /\
    result (compute_predicted_clusters (Z * Z) (Z.of_nat (nb_clusters_of e)) (str "iteration"))
      (fst (cluster (Z * Z) Z pairwise cdistance Z.ltb dsum ddiv inf mean linkage (init names) vectors (Some 2%Z) (fresh_hier (Z * Z)))) = Ok d /\
    nb_clusters_of d = nb_clusters_of e /\ ~ same_partition d e.
Proof.
  intros linkage LK. exists (fun X i j => plane_gap (nth i X (0, 0)%Z) (nth j X (0, 0)%Z)), plane_gap, (fold_right Z.add 0%Z), (fun d n => (d / Z.of_nat n)%Z), 100000%Z, plane_mean.
  assert (SY : forall (X : list (Z * Z)) i j, plane_gap (nth i X (0, 0)%Z) (nth j X (0, 0)%Z) = plane_gap (nth j X (0, 0)%Z) (nth i X (0, 0)%Z)).
  { intros. unfold plane_gap. do 2 f_equal. ring. }
  assert (SM : forall (X : list (Z * Z)) i j, Z.ltb (plane_gap (nth i X (0, 0)%Z) (nth j X (0, 0)%Z)) 100000 = true) by (intros; unfold plane_gap; apply Z.ltb_lt; lia).
  assert (TO : strict_total_order Z.ltb) by (split; [split; [|split]|]; intros; rewrite ?Z.ltb_lt, ?Z.ltb_ge, ?Z.ltb_irrefl in *; try lia; auto).
  destruct LK as [<-|[<-|[]]].
  - exists (names_on average_on), (vectors_on average_on), (truth_on average_on), [(str "a", 0); (str "b", 0); (str "c", 0); (str "d", 1)]%Z.
    assert (N : NoDup (names_on average_on)) by names_differ.
    split; auto. split; auto. split; auto. split; [apply covers_on; auto|]. split; [apply covers_on; auto|]. split; [apply separated_on; auto|].
    split; [vm_compute; reflexivity|]. split; [vm_compute; reflexivity|]. intros [_ P]. specialize (P (str "a") (str "c")). vm_compute in P. intuition discriminate.
  - exists (names_on ward_on), (vectors_on ward_on), (truth_on ward_on), [(str "a", 0); (str "b", 0); (str "c", 1); (str "d", 1)]%Z.
    assert (N : NoDup (names_on ward_on)) by names_differ.
    split; auto. split; auto. split; auto. split; [apply covers_on; auto|]. split; [apply covers_on; auto|]. split; [apply separated_on; auto|].
    split; [vm_compute; reflexivity|]. split; [vm_compute; reflexivity|]. intros [_ P]. specialize (P (str "a") (str "c")). vm_compute in P. intuition discriminate.
Qed.

(** Two data of one cluster, and one of another, are drawn as first centroids. *)
Definition kmeans_on : list (pystr * Z * Z) := [(str "a", 1000, 0); (str "b", 1001, 0); (str "c", 0, 1); (str "d", 1, 1); (str "e", 100, 2); (str "f", 101, 2)]%Z.
(*PROP KMeans can miss clearly separated clusters without any constraint, however many rounds it makes: it depends on the data drawn first. *)
Lemma C142_kmeans_refuted_proof :
  exists pairwise dsum mean shuffle set_order names vectors e d,
    valid_shuffle shuffle /\ valid_set_order set_order /\
    NoDup (keys e) /\ covers_exactly (init names) e /\ separated Z.ltb (distance_is (fun X => pairwise X X) (init names) vectors) (init names) e /\
    nb_clusters_of d = nb_clusters_of e /\ ~ same_partition d e /\
    forall rounds tolerance, (0 < tolerance)%Z ->
      result (KMeans.cluster Z Z pairwise Z.ltb dsum mean shuffle set_order (mkKParams Z (3 + rounds) tolerance) (init names) vectors (Some (Z.of_nat (nb_clusters_of e)))) (fresh_kmeans Z) = Ok d.
Proof.
  exists (fun X Y i j => line_gap (nth i X 0%Z) (nth j Y 0%Z)), (fold_right Z.add 0%Z), line_mean, (fun l => l), (nodup Z.eq_dec),
    (names_on kmeans_on), (vectors_on kmeans_on), (truth_on kmeans_on), [(str "a", 0); (str "b", 1); (str "c", 2); (str "d", 2); (str "e", 2); (str "f", 2)]%Z.
  assert (N : NoDup (names_on kmeans_on)) by names_differ.
  split; [intro l; auto|]. split; [intro l; split; [apply NoDup_nodup|intro x; apply nodup_In]|].
  split; [apply covers_on; auto|]. split; [apply covers_on; auto|]. split; [apply separated_on; auto|]. split; [vm_compute; reflexivity|].
  split; [intros [_ P]; specialize (P (str "a") (str "b")); vm_compute in P; intuition discriminate|].
  intros rounds [|t|t] Pos; try lia. vm_compute. reflexivity.
Qed.
