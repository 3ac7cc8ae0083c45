(** * KMeans and constraints that the clusters meet anyway (C143). *)

From Coq Require Import String List Bool Arith ZArith QArith Lia Permutation.
(*HEADER
From Coq Require Import String List Bool Arith ZArith QArith Permutation Lia.
From Verif Require Import Base Manager Spec ManagerThms ManagerInv ManagerQueries SamplingSpec ClusterSpec ClusterProofs KMeansSpec KMeans HierSpec KStableThms.
Import ListNotations.
Open Scope nat_scope.
Open Scope py_scope.
HEADER*)
From Verif Require Import Base Manager Spec Closure ManagerProofs ManagerInv ManagerQueries ManagerThms
  Sampling SamplingSpec SamplingProofs Rename RenameThms ClusterSpec ClusterProofs KMeans KMeansSpec KMeansProofs KMeansRun HierSpec ThreadsThms KMeansThms.
Import ListNotations.
Open Scope nat_scope.
Open Scope py_scope.

Section Round.
  Context {vec D : Type} `{EqB D}.
  Variable pairwise : list vec -> list vec -> nat -> nat -> D.
  Variable ltb : D -> D -> bool.
  Variables m m' : mgr.
  Hypothesis I : Inv m.
  Hypothesis I' : Inv m'.
  Hypothesis IDS : ids m' = ids m.
  Hypothesis MLM : forall a b, In a (ids m) -> In b (ids m) -> ml m a b = true -> ml m' a b = true.
  Hypothesis CLM : forall a b, In a (ids m) -> In b (ids m) -> cl m a b = true -> cl m' a b = true.
  Hypothesis TO : strict_total_order ltb.
  Variable vectors : dict pystr vec.
  Variable nb : nat.
  Variable centroids : dict Z vec.
  Variable table : dict pystr (dict Z D).
  Hypothesis NDC : NoDup (keys centroids).
  Hypothesis POS : forall c, In c (keys centroids) -> (0 <= c)%Z.
  Hypothesis GT : good_table pairwise m vectors centroids table.
  Variable d : dict pystr Z.
  Hypothesis DP : forall y, In y (ids m) -> (0 <= label d y)%Z.
  Hypothesis DML : forall a b, In a (ids m) -> In b (ids m) -> ml m' a b = true -> label d a = label d b.
  Hypothesis DCL : forall a b, In a (ids m) -> In b (ids m) -> cl m' a b = true -> label d a <> label d b.
  Notation inI x := (In x (ids m)).
  Notation choose n := (choose_cluster vec D ltb n (ids m) nb centroids table).
  Notation loop n fuel := (assign_loop vec D ltb n (ids m) nb fuel centroids table).
  Notation st_ok := (st_ok pairwise ltb m vectors centroids).

  Lemma In_or (y : pystr) l : In y l \/ ~ In y l.
  Proof. destruct (mem y l) eqn:E; [left; apply mem_In; auto|right; apply mem_nIn; auto]. Qed.

  (** All clusters blocked: a new number. *)
  Lemma choose_new n new x : Inv n -> ids n = ids m -> keys new = ids m -> inI x -> (forall c, In c (keys centroids) -> blk n new x c) ->
    choose n new x = (mx <-- py_max_Z (vals new) ;;; Ok (Z.max (mx + 1) (Z.of_nat nb))).
  Proof.
    intros In_ EI K X B. unfold choose_cluster. rewrite <- EI. destruct (not_compatible_run n In_ new x) as (nc & -> & NC); [congruence|congruence|]. cbn [rbind].
    assert (E : filter (fun c => negb (mem c nc)) (keys centroids) = []).
    { destruct (filter (fun c => negb (mem c nc)) (keys centroids)) as [|c l] eqn:E; auto. exfalso.
      assert (J : In c (filter (fun c => negb (mem c nc)) (keys centroids))) by (rewrite E; left; auto).
      apply filter_In in J as [J1 J2]. apply negb_true_iff, mem_nIn in J2. apply J2, NC. apply B, J1. }
    rewrite E. auto.
  Qed.

  Lemma py_max_Z_ext a b : a <> [] -> (forall z, In z a <-> In z b) -> py_max_Z a = py_max_Z b.
  Proof.
    clear. intros NE E.
    assert (MX : forall l x, In (fold_left Z.max l x) (x :: l) /\ forall y, In y (x :: l) -> (y <= fold_left Z.max l x)%Z).
    { induction l as [|z l IH]; intro x; [split; [left; auto|intros y [<-|[]]; cbn; lia]|]. cbn [fold_left]. destruct (IH (Z.max x z)) as [A B]. split.
      - destruct A as [A|A]; [|right; right; auto]. rewrite <- A. destruct (Z.max_spec x z) as [[_ ->]|[_ ->]]; [right; left|left]; auto.
      - intros y [<-|[<-|Y]]; [specialize (B (Z.max x z) (or_introl eq_refl)); lia|specialize (B (Z.max x z) (or_introl eq_refl)); lia|apply B; right; auto]. }
    destruct a as [|x a]; [congruence|]. destruct b as [|y b]; [exfalso; apply (E x); left; auto|]. cbn. f_equal.
    destruct (MX a x) as [A1 A2], (MX b y) as [B1 B2]. apply Z.le_antisymm; [apply B2, E, A1|apply A2, E, B1].
  Qed.

  Lemma label_vals new y : keys new = ids m -> inI y -> In (label new y) (vals new).
  Proof. intros K Y. assert (E := label_get m new y K Y). apply dget_vals in E. auto. Qed.

  Record lag (todo todo' : list pystr) (new' : dict pystr Z) : Prop := {
    lag_keys : keys new' = ids m;
    lag_todo : exists P, todo' = filter P (ids m);
    lag_incl : incl todo' todo;
    lag_free : forall y, In y todo' -> label new' y = (-1)%Z;
    lag_done : forall y, inI y -> ~ In y todo' -> label new' y = label d y;
    lag_closed : forall y z, inI y -> inI z -> ml m' y z = true -> In y todo' -> In z todo';
    lag_why : forall y, In y todo -> ~ In y todo' -> exists z, inI z /\ ~ In z todo /\ ml m' y z = true }.

  Lemma choose_same todo new todo' new' x : st_ok todo new -> (forall y, inI y -> ~ In y todo -> label new y = label d y) ->
    lag todo todo' new' -> inI x -> In x todo -> In x todo' -> choose m new x = Ok (label d x) -> choose m' new' x = Ok (label d x).
  Proof.
    intros S DN L X T T' C. assert (K := st_keys _ _ _ _ _ _ _ S). assert (K' := lag_keys _ _ _ L).
    assert (BB : forall c, blk m new x c -> blk m' new' x c).
    { intros c (y & Y & Ly & N & Q). exists y. rewrite IDS. split; auto. split; [|auto].
      assert (NT : ~ In y todo) by (intro J; apply N; rewrite <- Ly; apply (st_free _ _ _ _ _ _ _ S y J)).
      rewrite (lag_done _ _ _ L y Y); [rewrite <- DN by auto; auto|]. intro J. apply NT, (lag_incl _ _ _ L y J). }
    assert (BD : ~ blk m' new' x (label d x)).
    { intros (y & Y & Ly & N & Q). rewrite IDS in Y. assert (NT : ~ In y todo') by (intro J; apply N; rewrite <- Ly; apply (lag_free _ _ _ L y J)).
      rewrite (lag_done _ _ _ L y Y NT) in Ly. apply (DCL x y X Y Q). auto. }
    destruct (choose_run pairwise ltb m I vectors nb centroids table new x NDC GT K X) as (c & E & Alt). rewrite C in E. injection E as <-.
    assert (GT' : good_table pairwise m' vectors centroids table) by (unfold good_table in *; rewrite IDS; auto).
    assert (CR := choose_run pairwise ltb m' I' vectors nb centroids table new' x NDC GT'). rewrite IDS in CR.
    destruct (CR K' X) as (c' & E' & Alt'). clear CR.
    destruct Alt as [(Kc & _ & Min)|(All & _)].
    - destruct Alt' as [(Kc' & NB' & Min')|(All' & _)].
      2:{ exfalso. apply BD. destruct (All' _ Kc) as (y & Q). exists y. rewrite IDS. auto. }
      rewrite E'. f_equal. destruct TO as [SW TR]. specialize (Min SW). specialize (Min' SW).
      destruct (GT x X) as (row & _ & G). destruct (G _ Kc) as (l & _ & Dl). destruct (G _ Kc') as (l' & _ & Dl').
      assert (NB2 : ~ blk m new x c') by (intro Q; apply NB'; apply BB in Q; destruct Q as (y & Q); rewrite IDS in Q; exists y; auto).
      assert (BD2 : ~ (exists y, inI y /\ label new' y = label d x /\ label d x <> (-1)%Z /\ cl m' x y = true)) by (intros (y & Q); apply BD; exists y; rewrite IDS; auto).
      destruct (Z.eq_dec c' (label d x)) as [|NE]; auto. exfalso.
      assert (A1 : ltb l' l = false) by (destruct (ltb l' l) eqn:Q; auto; exfalso; apply NB2; apply (Min c' l l'); auto).
      assert (A2 : ltb l l' = false) by (destruct (ltb l l') eqn:Q; auto; exfalso; apply BD2; apply (Min' (label d x) l' l); auto).
      assert (l = l') by (apply TR; auto). subst l'.
      destruct (SamplingProofs.before_total (keys centroids) (label d x) c' Kc Kc') as [B|B]; [auto| |].
      + apply NB2. apply (Min c' l l); auto.
      + apply BD2. apply (Min' (label d x) l l); auto.
    - rewrite (choose_new m' new' x I' IDS K' X) by (intros c0 C0; apply BB; apply All; auto). rewrite <- C.
      rewrite (choose_new m new x I eq_refl K X) by auto. rewrite (py_max_Z_ext (vals new') (vals new)); auto.
      + intro Q. destruct new'; [|discriminate]. cbn in K'. rewrite <- K' in X. destruct X.
      + assert (ND := inv_nodup m I). assert (N1 : NoDup (keys new)) by (rewrite K; auto). assert (N1' : NoDup (keys new')) by (rewrite K'; auto).
        assert (M1 : (-1)%Z = label new x) by (symmetry; apply (st_free _ _ _ _ _ _ _ S); auto).
        assert (M1' : (-1)%Z = label new' x) by (symmetry; apply (lag_free _ _ _ L); auto).
        intro z. split; intro Z0.
        * apply vals_dget in Z0 as [y Ey]; auto. assert (Y : inI y) by (rewrite <- K'; apply (dget_Some_key _ _ Ey)). rewrite (label_get m) in Ey by auto. injection Ey as <-.
          destruct (In_or y todo') as [J|J].
          -- rewrite (lag_free _ _ _ L y J), M1. apply label_vals; auto.
          -- rewrite (lag_done _ _ _ L y Y J). destruct (In_or y todo) as [Jt|Jt].
             ++ destruct (lag_why _ _ _ L y Jt J) as (w & W & Nw & Q). rewrite (DML y w) by auto. rewrite <- DN by auto. apply label_vals; auto.
             ++ rewrite <- DN by auto. apply label_vals; auto.
        * apply vals_dget in Z0 as [y Ey]; auto. assert (Y : inI y) by (rewrite <- K; apply (dget_Some_key _ _ Ey)). rewrite (label_get m) in Ey by auto. injection Ey as <-.
          destruct (In_or y todo) as [J|J].
          -- rewrite (st_free _ _ _ _ _ _ _ S y J), M1'. apply label_vals; auto.
          -- rewrite DN by auto. rewrite <- (lag_done _ _ _ L y Y) by (intro Q; apply J, (lag_incl _ _ _ L y Q)). apply label_vals; auto.
  Qed.

  Lemma propagated n x c todo new : Inv n -> ids n = ids m -> inI x -> NoDup todo -> incl todo (ids m) -> keys new = ids m ->
    exists new1, propagate n (ids m) x todo (dset x c new) = Ok (filter (fun y => negb (ml n x y)) todo, new1) /\ keys new1 = ids m /\
      forall y, inI y -> label new1 y = if ml n x y then c else label new y.
  Proof.
    intros In_ EI X ND IC K. assert (K1 : keys (dset x c new) = ids n) by (rewrite EI, keys_dset_in; auto; rewrite K; auto).
    assert (PR := propagate_run n In_ x todo (dset x c new)). rewrite EI in PR, K1. destruct (PR X ND IC K1) as (new1 & R & K2 & G). exists new1. split; auto. split; auto.
    intros y Y. rewrite G by auto. unfold label at 1 2. rewrite !dget_dset, eqb_refl. unfold label.
    destruct (ml n x y) eqn:E; auto. destruct (eqb_spec y x); subst; auto. rewrite ml_refl in E; auto; [discriminate|]. rewrite EI. auto.
  Qed.

  Lemma loop_step fuel todo x new r : st_ok (todo ++ [x]) new -> loop m (S fuel) (todo ++ [x]) new = Ok r ->
    exists c new1, choose m new x = Ok c /\ (forall y, inI y -> label new1 y = if ml m x y then c else label new y) /\
      st_ok (filter (fun y => negb (ml m x y)) todo) new1 /\ loop m fuel (filter (fun y => negb (ml m x y)) todo) new1 = Ok r.
  Proof.
    intros S E. assert (S' := S). destruct S' as [[P ET] K F Pos Cl ML CL J].
    assert (ND : NoDup (todo ++ [x])) by (rewrite ET; apply NoDup_filter_list, inv_nodup; auto).
    assert (INC : forall y, In y (todo ++ [x]) -> inI y) by (intros y Y; rewrite ET in Y; apply filter_In in Y; tauto).
    assert (X : inI x) by (apply INC; apply in_or_app; right; left; auto).
    cbn [assign_loop] in E. assert (PL : pop_last (todo ++ [x]) = Some (todo, x)) by (apply pop_last_Some; auto). rewrite PL in E.
    destruct (choose_run pairwise ltb m I vectors nb centroids table new x NDC GT K X) as (c & Ec & _). rewrite Ec in E. cbn [rbind] in E.
    destruct (propagated m x c todo new I eq_refl X) as (new1 & R & K1 & G); auto.
    { apply NoDup_app_inv in ND. tauto. }
    { intros y Y. apply INC, in_or_app. auto. }
    rewrite R in E. cbn [rbind fst snd] in E. exists c, new1. split; auto. split; auto. split; auto.
    eapply step_ok; eauto.
  Qed.

  Lemma loop_keeps fuel : forall todo new r, st_ok todo new -> loop m fuel todo new = Ok r -> forall y, inI y -> ~ In y todo -> label r y = label new y.
  Proof.
    induction fuel as [|fuel IH]; intros todo new r S E y Y N; destruct (pop_last todo) as [[todo1 x]|] eqn:PL.
    - cbn [assign_loop] in E. rewrite PL in E. discriminate.
    - cbn [assign_loop] in E. rewrite PL in E. injection E as <-. auto.
    - apply pop_last_Some in PL. subst todo. destruct (loop_step _ _ _ _ _ S E) as (c & new1 & _ & G & S1 & E1).
      rewrite (IH _ _ _ S1 E1 y Y), G by (auto; intro Q; apply N, in_or_app; left; apply filter_In in Q; tauto).
      destruct (ml m x y) eqn:M0; auto. exfalso. apply N.
      apply (st_closed _ _ _ _ _ _ _ S x y); auto; [|apply in_or_app; right; left; auto].
      destruct (st_todo _ _ _ _ _ _ _ S) as [P ET]. assert (Q : In x (todo1 ++ [x])) by (apply in_or_app; right; left; auto). rewrite ET in Q. apply filter_In in Q. tauto.
    - cbn [assign_loop] in E. rewrite PL in E. injection E as <-. auto.
  Qed.

  Lemma loop_same fuel : forall todo new fuel' todo' new', st_ok todo new -> loop m fuel todo new = Ok d -> lag todo todo' new' -> length todo' <= fuel' ->
    loop m' fuel' todo' new' = Ok d.
  Proof.
    induction fuel as [|fuel IH]; intros todo new fuel' todo' new' S E L Lf; destruct (pop_last todo) as [[todo1 x]|] eqn:PL.
    1: { cbn [assign_loop] in E. rewrite PL in E. discriminate. }
    1,3: cbn [assign_loop] in E; rewrite PL in E; injection E as ->; apply pop_last_None in PL; subst todo;
      assert (E0 : todo' = []) by (destruct todo' as [|z l]; auto; destruct (lag_incl _ _ _ L z (or_introl eq_refl))); subst todo';
      assert (E1 : new' = d) by (assert (Kd := st_keys _ _ _ _ _ _ _ S); assert (K' := lag_keys _ _ _ L); apply dict_ext; [rewrite K'; apply inv_nodup; auto|congruence|];
        intro y; destruct (In_or y (ids m)) as [Y|Y];
        [rewrite !(label_get m) by auto; f_equal; apply (lag_done _ _ _ L); auto
        |rewrite !(proj2 (dget_None _ _)) by congruence; auto]); subst new'; destruct fuel'; reflexivity.
    apply pop_last_Some in PL. subst todo. destruct (loop_step _ _ _ _ _ S E) as (c & new1 & Ec & G & S1 & E1).
    assert (XT : In x (todo1 ++ [x])) by (apply in_or_app; right; left; auto).
    destruct (st_todo _ _ _ _ _ _ _ S) as [P ET]. assert (INC : forall y, In y (todo1 ++ [x]) -> inI y) by (intros y Y; rewrite ET in Y; apply filter_In in Y; tauto).
    assert (X : inI x) by auto. assert (Mx : ml m x x = true) by (apply ml_refl; auto).
    assert (NX : ~ In x (filter (fun y => negb (ml m x y)) todo1)) by (rewrite filter_In, Mx; cbn; intuition discriminate).
    assert (Dx : label d x = c) by (rewrite (loop_keeps _ _ _ _ S1 E1 x X NX), G, Mx; auto). rewrite <- Dx in Ec.
    assert (DN : forall y, inI y -> ~ In y (todo1 ++ [x]) -> label new y = label d y) by (intros y Y N; symmetry; apply (loop_keeps _ _ _ _ S E); auto).
    assert (SUB : forall y, In y (filter (fun y => negb (ml m x y)) todo1) -> In y (todo1 ++ [x])) by (intros y Y; apply in_or_app; left; apply filter_In in Y; tauto).
    assert (L0 := L). destruct L as [K' [P' EP'] IC FR DO CL WH].
    destruct (In_or x todo') as [XT'|XT'].
    - assert (EF : todo' = filter P' todo1 ++ [x]).
      { assert (Q : todo' = filter P' (todo1 ++ [x])).
        { rewrite ET, filter_filter. rewrite EP' at 1. apply filter_ext_In. intros y Y. destruct (P' y) eqn:Py; [|rewrite andb_false_r; auto].
          assert (J : In y todo') by (rewrite EP'; apply filter_In; auto). apply IC in J. rewrite ET in J. apply filter_In in J as [_ ->]. auto. }
        rewrite Q, filter_app. cbn [filter]. assert (Px : P' x = true) by (rewrite EP' in XT'; apply filter_In in XT'; tauto). rewrite Px. auto. }
      set (todo2 := filter P' todo1) in *. clearbody todo2. rewrite EF in Lf, XT', EP', IC, FR, DO, CL, WH, L0 |- *. clear EF.
      rewrite app_length in Lf. cbn in Lf. destruct fuel' as [|fuel']; [lia|].
      cbn [assign_loop]. assert (PL : pop_last (todo2 ++ [x]) = Some (todo2, x)) by (apply pop_last_Some; auto). rewrite PL.
      rewrite (choose_same _ _ _ _ x S DN L0 X XT XT' Ec). cbn [rbind].
      assert (ND : NoDup (todo2 ++ [x])) by (rewrite EP'; apply NoDup_filter_list, inv_nodup; auto).
      destruct (propagated m' x (label d x) todo2 new' I' IDS X) as (new2 & R & K2 & G2); auto.
      { apply NoDup_app_inv in ND. tauto. }
      { intros y Y. apply INC, IC, in_or_app. auto. }
      rewrite R. cbn [rbind fst snd]. assert (Mx' : ml m' x x = true) by (apply MLM; auto).
      assert (InT : forall y, In y (filter (fun y => negb (ml m' x y)) todo2) <-> In y (todo2 ++ [x]) /\ ml m' x y = false).
      { intro y. rewrite filter_In, negb_true_iff, in_app_iff. cbn. split; [tauto|]. intros [[A|[<-|[]]] B]; auto. congruence. }
      apply (IH _ _ _ _ _ S1 E1).
      + constructor; auto.
        * exists (fun y => P' y && negb (ml m' x y)). rewrite <- filter_filter, <- EP', filter_app. cbn [filter]. rewrite Mx'. cbn. rewrite app_nil_r. auto.
        * intros y Y. apply InT in Y as [Y1 Y2]. assert (Yi : inI y) by auto. apply filter_In. assert (Y3 := IC y Y1). apply in_app_or in Y3 as [Y3|[<-|[]]]; [|congruence].
          split; auto. destruct (ml m x y) eqn:M0; auto. rewrite (MLM x y X Yi M0) in Y2. discriminate.
        * intros y Y. apply InT in Y as [Y1 Y2]. rewrite G2 by auto. rewrite Y2. auto.
        * intros y Y N. rewrite G2 by auto. destruct (ml m' x y) eqn:M0; [apply DML; auto|]. apply DO; auto. intro Q. apply N, InT. auto.
        * intros y z Y Z M0 J. apply InT in J as [J1 J2]. apply InT. split; [apply (CL y z); auto|].
          destruct (ml m' x z) eqn:Q; auto. rewrite <- J2. symmetry. apply (ml_trans m' I' x z y); auto; rewrite ?IDS; auto. rewrite ml_sym; auto; rewrite IDS; auto.
        * intros y Y N. assert (Yi : inI y) by (apply INC, SUB, Y). destruct (In_or y (todo2 ++ [x])) as [J|J].
          -- exists x. split; auto. split; auto. rewrite ml_sym by (auto; rewrite IDS; auto). destruct (ml m' x y) eqn:Q; auto. destruct N. apply InT. auto.
          -- destruct (WH y (SUB y Y) J) as (z & Z & Nz & Q). exists z. split; auto.
      + assert (LF : length (filter (fun y => negb (ml m' x y)) todo2) <= length todo2) by (clear; induction todo2 as [|z l IHl]; cbn; auto; destruct (negb (ml m' x z)); cbn; lia). lia.
    - apply (IH _ _ _ _ _ S1 E1); auto. constructor; auto.
      + exists P'; auto.
      + intros y Y. assert (Y3 := IC y Y). assert (Yi : inI y) by auto. apply filter_In. apply in_app_or in Y3 as [Y3|[<-|[]]]; [|destruct (XT' Y)]. split; auto.
        destruct (ml m x y) eqn:M0; auto. exfalso. apply XT'. apply (CL y x); auto. rewrite ml_sym by (auto; rewrite IDS; auto). apply MLM; auto.
      + intros y Y N. destruct (WH y (SUB y Y) N) as (z & Z & Nz & Q). exists z. split; auto.
  Qed.
End Round.

Section Call.
  Context {vec D : Type} `{EqB D}.
  Variable pairwise : list vec -> list vec -> nat -> nat -> D.
  Variable ltb : D -> D -> bool.
  Variable dsum : list D -> D.
  Variable mean : list vec -> vec.
  Variable shuffle : list pystr -> list pystr.
  Variable set_order : list Z -> list Z.
  Hypothesis SO : valid_set_order set_order.
  Hypothesis SH : forall l, Permutation l (shuffle l).
  Hypothesis TO : strict_total_order ltb.
  Variables m m' : mgr.
  Hypothesis I : Inv m.
  Hypothesis I' : Inv m'.
  Hypothesis IDS : ids m' = ids m.
  Hypothesis MLM : forall a b, In a (ids m) -> In b (ids m) -> ml m a b = true -> ml m' a b = true.
  Hypothesis CLM : forall a b, In a (ids m) -> In b (ids m) -> cl m a b = true -> cl m' a b = true.
  Variable vectors : dict pystr vec.
  Variable nb : nat.
  Hypothesis NE : ids m <> [].
  Hypothesis COV : forall x, In x (ids m) -> In x (keys vectors).
  Notation iterate p n := (iterate vec D pairwise ltb dsum mean set_order p n (ids m) vectors nb).

  Lemma assign_same centroids d : good_centroids centroids -> assign vec D pairwise ltb m (ids m) vectors nb centroids = Ok d ->
    sound m d -> respects m' d -> assign vec D pairwise ltb m' (ids m) vectors nb centroids = Ok d.
  Proof.
    intros (ND & NEC & POS) E (K & _ & P) [RM RC]. unfold assign in *.
    assert (ET : distance_table vec D pairwise m' vectors centroids = distance_table vec D pairwise m vectors centroids) by (unfold distance_table; rewrite !ask_managed, IDS; auto).
    rewrite ET. destruct (distance_table_run pairwise m I vectors centroids NE COV ND NEC) as (table & Et & GT). rewrite Et in E |- *. cbn [rbind] in *.
    assert (MI : forall x, In x (ids m) -> managed m' x) by (intros x X; apply managed_ids; rewrite IDS; auto).
    refine (loop_same pairwise ltb m m' I I' IDS MLM CLM TO vectors nb centroids table ND POS GT d _ _ _ _ _ _ _ _ (initial_ok pairwise ltb m I vectors centroids) E _ (le_n _)).
    - intros a b A B Q. assert (R := RM a b (MI a A) (MI b B)). rewrite !(label_get m) in R by auto.
      assert (Q2 : inferred m' a b (Some MUST_LINK)) by (apply inferred_ml; auto; rewrite IDS; auto). specialize (R Q2). congruence.
    - intros a b A B Q. assert (R := RC a b (MI a A) (MI b B)). rewrite !(label_get m) in R by auto.
      assert (Q2 : inferred m' a b (Some CANNOT_LINK)) by (apply inferred_cl; auto; rewrite IDS; auto). specialize (R Q2). congruence.
    - assert (NDi := inv_nodup m I). constructor; auto.
      + rewrite keys_dcomp. apply dedup_id; auto.
      + exists (fun _ => true). symmetry. apply filter_all. auto.
      + intros y Y; auto.
      + intros y Y. unfold label. rewrite dget_dcomp. apply mem_In in Y. rewrite Y. auto.
      + intros; tauto.
      + intros; tauto.
  Qed.

  Lemma centroids_same : compute_centroids vec mean set_order m' vectors = compute_centroids vec mean set_order m vectors.
  Proof. unfold compute_centroids. rewrite !ask_managed, IDS. auto. Qed.

  (** The labels after each round meet the constraints of [m']. *)
  Lemma iterate_same p n : forall last s prev, follows prev (k_clusters vec s) (k_centroids vec s) -> good_centroids (k_centroids vec s) ->
    (forall j raw fc, S j <= n -> iterate p m (S j) last false s = (mkKMeans vec (k_predicted vec s) raw fc, Ok (Some raw)) -> respects m' raw) ->
    iterate p m' n last false s = iterate p m n last false s.
  Proof.
    induction n as [|n IH]; intros last s prev Fo GC HJ; [reflexivity|].
    destruct (assign_run pairwise ltb m I vectors nb NE COV _ GC) as (raw & Ea & So & _).
    destruct (compute_centroids_run mean set_order m I vectors SO NE COV raw So) as (nc & Ec & Ce & GC').
    destruct (has_converged_run pairwise ltb dsum mean p m vectors prev _ _ _ _ Fo GC So Ce) as (b & Eb & _).
    assert (STEP : forall k, iterate p m (S k) last false s = iterate p m k (Some raw) b (mkKMeans vec (k_predicted vec s) raw nc)).
    { intro k. cbn [KMeans.iterate]. unfold bind at 1, gets at 1. unfold bind at 1, gets at 1. unfold bind at 1, lift at 1. rewrite Ea.
      unfold bind at 1, lift at 1. rewrite Ec. unfold bind at 1, lift at 1. rewrite Eb. unfold bind at 1, modify at 1. unfold bind at 1, modify at 1. reflexivity. }
    assert (RR : respects m' raw).
    { apply (HJ 0 raw nc); [lia|]. rewrite STEP. destruct b; reflexivity. }
    assert (STEP' : iterate p m' (S n) last false s = iterate p m' n (Some raw) b (mkKMeans vec (k_predicted vec s) raw nc)).
    { cbn [KMeans.iterate]. unfold bind at 1, gets at 1. unfold bind at 1, gets at 1. unfold bind at 1, lift at 1. rewrite (assign_same _ _ GC Ea So RR).
      unfold bind at 1, lift at 1. rewrite centroids_same, Ec. unfold bind at 1, lift at 1. rewrite Eb. unfold bind at 1, modify at 1. unfold bind at 1, modify at 1. reflexivity. }
    rewrite STEP, STEP'. destruct b; [destruct n; reflexivity|].
    apply (IH (Some raw) _ (Some raw)).
    - right. split; auto. apply Ce.
    - exact GC'.
    - intros j raw' fc Lj Q. apply (HJ (S j) raw' fc); [lia|]. rewrite STEP. exact Q.
  Qed.

  Lemma iterate_step p n k last s : iterate p n (S k) last false s =
    match assign vec D pairwise ltb n (ids m) vectors nb (k_centroids vec s) with Raise e => (s, Raise e) | Ok raw =>
    match compute_centroids vec mean set_order n vectors raw with Raise e => (s, Raise e) | Ok nc =>
    match has_converged vec D pairwise ltb dsum p (k_clusters vec s) raw (k_centroids vec s) nc with Raise e => (s, Raise e) | Ok b =>
      iterate p n k (Some raw) b (mkKMeans vec (k_predicted vec s) raw nc) end end end.
  Proof.
    cbn [KMeans.iterate]. unfold bind at 1, gets at 1. unfold bind at 1, gets at 1. unfold bind at 1, lift at 1. destruct (assign _ _ _ _ _ _ _ _ _) as [raw|]; [|reflexivity].
    unfold bind at 1, lift at 1. destruct (compute_centroids _ _ _ _ _ _) as [nc|]; [|reflexivity]. unfold bind at 1, lift at 1.
    destruct (has_converged _ _ _ _ _ _ _ _ _ _) as [c|]; [|reflexivity]. reflexivity.
  Qed.
  Lemma iterate_tolerance p q n : kp_tolerance D p = kp_tolerance D q -> forall last b s, iterate p m n last b s = iterate q m n last b s.
  Proof.
    intro E. assert (HC : forall a b c e, has_converged vec D pairwise ltb dsum p a b c e = has_converged vec D pairwise ltb dsum q a b c e) by (intros; unfold has_converged; rewrite E; auto).
    induction n as [|n IH]; intros last b s; destruct b; auto. rewrite !iterate_step.
    destruct (assign _ _ _ _ _ _ _ _ _) as [raw|]; auto. destruct (compute_centroids _ _ _ _ _ _) as [nc|]; auto. rewrite HC. destruct (has_converged _ _ _ _ _ _ _ _ _ _) as [c|]; auto.
  Qed.

  Notation cluster p n := (KMeans.cluster vec D pairwise ltb dsum mean shuffle set_order p n vectors).
  (** The end of a call, from what the loop leaves. *)
  Definition finish (n : mgr) (left : kmeans vec * res (option (dict pystr Z))) : kmeans vec * res (dict pystr Z) :=
    (d <- (new_clusters <- (fun _ => left) ;;
           clusters <- gets (k_clusters vec) ;; clusters <- lift (rename_clusters_by_order clusters) ;; modify (set_clusters vec clusters) ;;
           new_clusters <- (match new_clusters with Some c => ret c | None => raise UnboundLocalError end) ;;
           centroids <- lift (compute_centroids vec mean set_order n vectors new_clusters) ;; modify (set_centroids vec centroids) ;; ret clusters) ;;
     modify (set_predicted vec (Some d)) ;; ret d) (fst left).

  Lemma cluster_same p nbz s : 1 <= kp_max_iteration D p -> (2 <= nbz)%Z -> nb = Nat.min (Z.to_nat nbz) (length (ids m)) ->
    (forall j d, 1 <= j <= kp_max_iteration D p -> result (cluster (mkKParams D j (kp_tolerance D p)) m (Some nbz)) s = Ok d -> respects m' d) ->
    cluster p m' (Some nbz) s = cluster p m (Some nbz) s.
  Proof.
    intros MX NB EN HJ. assert (L0 : length (ids m) <> 0) by (destruct (ids m); simpl in *; congruence).
    destruct (initialize_run shuffle m I vectors nb COV SH) as (c0 & E0 & _ & GC); [lia|lia|].
    set (s1 := mkKMeans vec None (dcomp (fun _ => (-1)%Z) (ids m)) c0).
    assert (Fo : follows None (k_clusters vec s1) (k_centroids vec s1)).
    { left. split; auto. simpl. unfold dcomp. rewrite dedup_id by (apply inv_nodup; auto).
      destruct (ids m) as [|x l]; [congruence|]. exists (-1)%Z, (vals (map (fun k => (k, (-1)%Z)) l)). split; auto. lia. }
    assert (OPEN : forall q n, ids n = ids m -> cluster q n (Some nbz) s = finish n (iterate q n (kp_max_iteration D q) None false s1)).
    { intros q n EI. unfold KMeans.cluster. unfold bind at 1, lift at 1. rewrite ask_managed, EI. destruct (Z.ltb_spec nbz 2); [lia|].
      unfold bind at 1, modify at 1. rewrite <- EN. unfold clustering_COP. unfold bind at 1. unfold bind at 1, lift at 1. rewrite E0.
      unfold bind at 1, modify at 1. unfold bind at 1, modify at 1. reflexivity. }
    rewrite !OPEN by auto. unfold finish. rewrite centroids_same. rewrite (iterate_same p (kp_max_iteration D p) None s1 None Fo GC); auto.
    intros j raw fc Lj E. set (q := mkKParams D (S j) (kp_tolerance D p)). rewrite (iterate_tolerance p q) in E by reflexivity.
    destruct (iterate_run pairwise ltb dsum mean set_order q m I vectors nb SO NE COV j s1 None None Fo GC) as (raw0 & fc0 & E1 & Ec & So & _).
    rewrite E1 in E. injection E as -> ->.
    assert (NDr : NoDup (keys raw)) by (destruct So as (-> & _); apply inv_nodup; auto).
    destruct (rename_run raw NDr) as (d & Er & _ & _ & SP).
    assert (RD : respects m' d).
    { apply (HJ (S j)); [lia|]. fold q. unfold result. rewrite OPEN by auto. change (kp_max_iteration D q) with (S j). rewrite E1.
      unfold finish. unfold bind at 1. unfold bind at 1. unfold bind at 1, gets at 1. cbn [k_clusters fst]. unfold bind at 1, lift at 1. rewrite Er.
      unfold bind at 1, modify at 1. unfold bind at 1, ret at 1. unfold bind at 1, lift at 1. rewrite Ec. reflexivity. }
    apply (respects_transfer m' d raw); auto; [|apply same_partition_sym; auto].
    apply (covers_transfer m' raw d); auto. intro x. destruct So as (-> & _). rewrite managed_ids, IDS. tauto.
  Qed.
End Call.

(*PROP When the clusters after every round (found by calls with a smaller max_iteration) meet the constraints of a second manager of the same data that
    knows all that the first knows, the call with the second manager ends with the same clusters and attributes. *)
Lemma C143_every_round_partial_proof :
  forall vec D (eqD : EqB D) pairwise ltb dzero dsum mean shuffle set_order model it tol p m m' vectors nb s d,
    valid_set_order set_order -> valid_shuffle shuffle -> strict_total_order ltb -> reachable m -> reachable m' ->
    ask get_list_of_managed_data_IDs m' = ask get_list_of_managed_data_IDs m ->
    (forall a b c, inferred m a b (Some c) -> inferred m' a b (Some c)) ->
    make_kmeans D ltb dzero model it tol = Ok p ->
    result (cluster vec D pairwise ltb dsum mean shuffle set_order p m vectors nb) s = Ok d ->
    (forall j q e, (1 <= j <= it)%Z -> make_kmeans D ltb dzero model j tol = Ok q ->
       result (cluster vec D pairwise ltb dsum mean shuffle set_order q m vectors nb) s = Ok e -> respects m' e) ->
    cluster vec D pairwise ltb dsum mean shuffle set_order p m' vectors nb s = cluster vec D pairwise ltb dsum mean shuffle set_order p m vectors nb s.
Proof.
  intros vec D eqD pairwise ltb dzero dsum mean shuffle set_order model it tol p m m' vectors nb s d SO SH TO R R' IDS MONO MK E HJ.
  apply reachable_inv in R, R'. rewrite !ask_managed in IDS. injection IDS as IDS.
  destruct (KMeansThms.returned_valid pairwise ltb dsum mean shuffle set_order SH p (make_kmeans_max _ _ _ _ _ _ MK) m vectors nb s d R E) as (n & -> & N & NE & COV).
  assert (MK' := MK). unfold make_kmeans in MK. destruct (negb (eqb model (str "COP"))) eqn:EM; [discriminate|]. destruct (Z.ltb_spec it 1); [discriminate|].
  destruct (ltb tol dzero) eqn:ET; [discriminate|]. injection MK as <-.
  apply (cluster_same pairwise ltb dsum mean shuffle set_order SO SH TO m m' R R' IDS) with (nb := Nat.min (Z.to_nat n) (length (ids m))); auto.
  - intros a b A B Q. apply inferred_ml; auto; try (rewrite IDS; auto). apply MONO. apply inferred_ml; auto.
  - intros a b A B Q. apply inferred_cl; auto; try (rewrite IDS; auto). apply MONO. apply inferred_cl; auto.
  - cbn. lia.
  - intros j e Lj Q. cbn in Lj. apply (HJ (Z.of_nat j) (mkKParams D j tol) e); [lia| |exact Q].
    unfold make_kmeans. rewrite EM, ET. destruct (Z.ltb_spec (Z.of_nat j) 1); [lia|]. rewrite Nat2Z.id. auto.
Qed.
(*EX
Definition gapk (X Y : list Z) (i j : nat) : Z := Z.abs (nth i X 0 - nth j Y 0)%Z.
Definition meank (l : list Z) : Z := (fold_right Z.add 0 l / Z.of_nat (length l))%Z.
Definition kline p := cluster Z Z gapk Z.ltb (fold_right Z.add 0%Z) meank (fun l => l) (nodup Z.eq_dec) p.
Definition A := str "a". Definition B := str "b". Definition C := str "c". Definition E := str "d". Definition F := str "e".
Definition none : mgr := init [A; B; C; E; F].
Definition some : mgr := run [CallAddConstraint C F MUST_LINK 1%Q; CallAddConstraint E C CANNOT_LINK 1%Q] none.
Definition points : dict pystr Z := [(A, 2880); (B, 2340); (C, 3420); (E, 120); (F, 3300)]%Z.
(** The clusters change from round to round, and meet the constraints of [some] after each. *)
Example C143_ex :
  valid_set_order (nodup Z.eq_dec) /\ valid_shuffle (fun l => l) /\ strict_total_order Z.ltb /\ reachable none /\ reachable some /\
  ask get_list_of_managed_data_IDs some = ask get_list_of_managed_data_IDs none /\
  make_kmeans Z Z.ltb 0%Z (str "COP") 3%Z 1%Z = Ok (mkKParams Z 3 1%Z) /\
  result (kline (mkKParams Z 1 1%Z) none points (Some 2%Z)) (fresh_kmeans Z) = Ok [(A, 0); (B, 1); (C, 0); (E, 1); (F, 0)]%Z /\
  result (kline (mkKParams Z 3 1%Z) none points (Some 2%Z)) (fresh_kmeans Z) = Ok [(A, 0); (B, 0); (C, 0); (E, 1); (F, 0)]%Z /\
  (forall a b c, inferred none a b (Some c) -> inferred some a b (Some c)) /\
  (forall j q e, (1 <= j <= 3)%Z -> make_kmeans Z Z.ltb 0%Z (str "COP") j 1%Z = Ok q ->
     result (kline q none points (Some 2%Z)) (fresh_kmeans Z) = Ok e -> respects some e).
Proof.
  assert (In5 : forall x, managed some x <-> In x [A; B; C; E; F]) by (intro x; rewrite managed_ids; reflexivity).
  split; [intro l; split; [apply NoDup_nodup|intro x; apply nodup_In]|]. split; [intro l; apply Permutation_refl|].
  split; [split; [split; [|split]|]; intros; rewrite ?Z.ltb_lt, ?Z.ltb_ge, ?Z.ltb_irrefl in *; try lia; auto|].
  split; [exact (run_reachable _ [])|]. split; [apply (run_reachable [A; B; C; E; F] [CallAddConstraint C F MUST_LINK 1%Q; CallAddConstraint E C CANNOT_LINK 1%Q])|].
  split; [vm_compute; reflexivity|]. split; [reflexivity|]. split; [vm_compute; reflexivity|]. split; [vm_compute; reflexivity|]. split.
  - intros a b c Q. assert (J : In a [A; B; C; E; F] /\ In b [A; B; C; E; F]).
    { destruct (inferred_inI none (reachable_inv _ (run_reachable [A; B; C; E; F] [])) a b _ Q). auto. }
    destruct J as [Ja Jb]. simpl in Ja, Jb. repeat destruct Ja as [<-|Ja]; try tauto; repeat destruct Jb as [<-|Jb]; try tauto;
      vm_compute in Q; try discriminate; injection Q as <-; vm_compute; reflexivity.
  - assert (GO : forall e, e = [(A, 0); (B, 1); (C, 0); (E, 1); (F, 0)]%Z \/ e = [(A, 0); (B, 0); (C, 0); (E, 1); (F, 0)]%Z -> respects some e).
    { intros e Ee. split; intros a b Ma Mb Q; apply In5 in Ma, Mb; simpl in Ma, Mb; repeat destruct Ma as [<-|Ma]; try tauto; repeat destruct Mb as [<-|Mb]; try tauto;
      vm_compute in Q; try discriminate; destruct Ee as [->| ->]; vm_compute; congruence. }
    intros j q e Lj MK R. apply GO. assert (J : j = 1%Z \/ j = 2%Z \/ j = 3%Z) by lia.
    destruct J as [->|[->| ->]]; injection MK as <-; vm_compute in R; injection R as <-; auto.
Qed.
EX*)

Definition gap_to (X Y : list Z) (i j : nat) : Z := Z.abs (nth i X 0 - nth j Y 0)%Z.
Definition mean_of (l : list Z) : Z := (fold_right Z.add 0 l / Z.of_nat (length l))%Z.
Definition five : list pystr := [str "a"; str "b"; str "c"; str "d"; str "e"].
(*PROP It is not enough that the clusters found in the end meet a new constraint, of either type: one that they meet can change them, so a right answer can make a
    right result wrong. *)
Lemma C143_end_refuted_proof :
  forall t, In t [MUST_LINK; CANNOT_LINK] ->
  exists pairwise dsum mean shuffle set_order p names a b m' vectors k d d',
    valid_set_order set_order /\ valid_shuffle shuffle /\ strict_total_order Z.ltb /\ make_kmeans Z Z.ltb 0%Z (str "COP") 20%Z 1%Z = Ok p /\
    result (add_constraint a b t 1%Q) (init names) = Ok true /\ m' = fst (add_constraint a b t 1%Q (init names)) /\
    result (cluster Z Z pairwise Z.ltb dsum mean shuffle set_order p (init names) vectors (Some k)) (fresh_kmeans Z) = Ok d /\
    respects m' d /\
    result (cluster Z Z pairwise Z.ltb dsum mean shuffle set_order p m' vectors (Some k)) (fresh_kmeans Z) = Ok d' /\
    ~ same_partition d d'.
Proof.
  assert (SO : valid_set_order (nodup Z.eq_dec)) by (intro l; split; [apply NoDup_nodup|intro x; apply nodup_In]).
  assert (TO : strict_total_order Z.ltb) by (split; [split; [|split]|]; intros; rewrite ?Z.ltb_lt, ?Z.ltb_ge, ?Z.ltb_irrefl in *; try lia; auto).
  assert (GO : forall a b t k pts d d' x y, let m' := run [CallAddConstraint a b t 1%Q] (init five) in let vectors := combine five pts in
    let kline n := result (cluster Z Z gap_to Z.ltb (fold_right Z.add 0%Z) mean_of (fun l => l) (nodup Z.eq_dec) (mkKParams Z 20 1%Z) n vectors (Some k)) (fresh_kmeans Z) in
    result (add_constraint a b t 1%Q) (init five) = Ok true -> m' = fst (add_constraint a b t 1%Q (init five)) -> ids m' = five -> kline (init five) = Ok d -> kline m' = Ok d' ->
    forallb (fun u => forallb (fun v => (if ml m' u v then match dget u d, dget v d with Some p, Some q => Z.eqb p q | _, _ => false end else true) &&
                                        (if cl m' u v then match dget u d, dget v d with Some p, Some q => negb (Z.eqb p q) | _, _ => false end else true)) five) five = true ->
    In x (keys d) -> In y (keys d) -> dget x d = dget y d -> dget x d' <> dget y d' ->
    exists pairwise dsum mean shuffle set_order p names a b m' vectors k d d',
    valid_set_order set_order /\ valid_shuffle shuffle /\ strict_total_order Z.ltb /\ make_kmeans Z Z.ltb 0%Z (str "COP") 20%Z 1%Z = Ok p /\
    result (add_constraint a b t 1%Q) (init names) = Ok true /\ m' = fst (add_constraint a b t 1%Q (init names)) /\
    result (cluster Z Z pairwise Z.ltb dsum mean shuffle set_order p (init names) vectors (Some k)) (fresh_kmeans Z) = Ok d /\
    respects m' d /\
    result (cluster Z Z pairwise Z.ltb dsum mean shuffle set_order p m' vectors (Some k)) (fresh_kmeans Z) = Ok d' /\
    ~ same_partition d d').
  { intros a b t k pts d d' x y m' vectors kline OK EM EI E E' RS X Y E1 E2.
    exists gap_to, (fold_right Z.add 0%Z), mean_of, (fun l => l), (nodup Z.eq_dec), (mkKParams Z 20 1%Z), five, a, b, m', vectors, k, d, d'.
    split; auto. split; [intro l; apply Permutation_refl|]. split; auto. split; [reflexivity|]. split; auto. split; auto. split; auto. split; [|split; auto; intros [_ Q]; apply E2, Q; auto].
    assert (R' : reachable m') by (unfold m'; exact (run_reachable five [CallAddConstraint a b t 1%Q])). apply reachable_inv in R'.
    assert (MI : forall z, managed m' z -> In z (ids m') /\ In z five).
    { intros z Z0. apply managed_ids in Z0. rewrite <- EI. auto. }
    rewrite forallb_forall in RS. split; intros u v Mu Mv Q; apply MI in Mu as [Mu Fu], Mv as [Mv Fv]; specialize (RS u Fu); rewrite forallb_forall in RS; specialize (RS v Fv).
    - apply inferred_ml in Q; auto. rewrite Q in RS. apply andb_true_iff in RS as [RS _]. destruct (dget u d), (dget v d); try discriminate. apply Z.eqb_eq in RS. congruence.
    - apply inferred_cl in Q; auto. rewrite Q in RS. apply andb_true_iff in RS as [_ RS]. destruct (dget u d) as [p|], (dget v d) as [q|]; try discriminate. destruct (Z.eqb_spec p q); [discriminate|congruence]. }
  intros t [<-|[<-|[]]].
  - apply (GO (str "a") (str "b") MUST_LINK 2%Z [2880; 2340; 3420; 120; 3300]%Z [(str "a", 0); (str "b", 0); (str "c", 0); (str "d", 1); (str "e", 0)]%Z [(str "a", 0); (str "b", 0); (str "c", 1); (str "d", 0); (str "e", 1)]%Z (str "a") (str "c")); vm_compute; try reflexivity; try discriminate; tauto.
  - apply (GO (str "c") (str "e") CANNOT_LINK 3%Z [3120; 3300; 2580; 1560; 3060]%Z [(str "a", 0); (str "b", 0); (str "c", 1); (str "d", 2); (str "e", 0)]%Z [(str "a", 0); (str "b", 1); (str "c", 2); (str "d", 2); (str "e", 0)]%Z (str "a") (str "b")); vm_compute; try reflexivity; try discriminate; tauto.
Qed.
