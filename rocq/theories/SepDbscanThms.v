(** * DBScan finds clearly separated clusters (C142). *)

From Coq Require Import String List Bool Arith ZArith QArith Lia Permutation Relations Sorted.
(*HEADER
From Coq Require Import String List Bool Arith ZArith QArith Permutation Lia Relations.
From Verif Require Import Base Manager Spec ManagerThms ManagerInv ManagerQueries SamplingSpec ClusterSpec ClusterProofs KMeansSpec Dbscan DbscanSpec DbscanThms SepDbscanThms.
Import ListNotations.
Open Scope nat_scope.
Open Scope py_scope.
HEADER*)
From Verif Require Import Base Manager Spec Closure ManagerProofs ManagerInv ManagerQueries ManagerThms
  Sampling SamplingSpec SamplingProofs ClusterSpec ClusterProofs KMeansSpec JsonThms Dbscan DbscanSpec DbscanThms DensitySpec DensityThms.
Import ListNotations.
Open Scope nat_scope.
Open Scope py_scope.

Section Result.
  Variable l : list pystr.
  Variables near must cannot : pystr -> pystr -> Prop.
  Variables enough big : nat -> Prop.
  Variable e : dict pystr Z.
  Hypothesis ND : NoDup l.
  Hypothesis nearE : forall x y, In x l -> In y l -> (near x y <-> dget x e = dget y e).
  Hypothesis mustS : forall x y, In x l -> In y l -> must x y -> dget x e = dget y e.
  Hypothesis cannotS : forall x y, In x l -> In y l -> cannot x y -> dget x e <> dget y e.
  Hypothesis mate : forall x, In x l -> exists y, In y l /\ y <> x /\ dget x e = dget y e.
  Hypothesis plenty : forall x ns, In x l -> NoDup ns -> (forall z, In z l -> dget x e = dget z e -> In z ns) -> enough (length ns).

  Section Turns.
    Variable N : pystr -> list pystr.
    Variable sg : pystr -> pystr -> Prop.
    Hypothesis T : turns l near cannot enough N sg.
    Notation local := (local l cannot enough N sg).
    Notation noise := (noise l cannot enough N sg).
    Notation reach := (reach l must cannot enough N sg).
    Notation owns := (owns l must cannot enough N sg).
    Notation core := (core l must cannot enough N sg).
    Notation leads := (leads l must cannot enough N sg).

    Lemma no_single z : In z l -> ~ singles cannot enough N sg z.
    Proof.
      destruct T as (_ & TE & _). intros Z0 (_ & _ & a & b & A & B & Q). apply TE in A as (A & Na & _); auto. apply TE in B as (B & Nb & _); auto.
      apply (cannotS a b A B Q). apply nearE in Na, Nb; auto. congruence.
    Qed.
    Lemma no_ever z : ~ ever l cannot enough N sg z.
    Proof. intros (w & W & S & _). apply (no_single w W S). Qed.
    Lemma no_sg x y : In x l -> ~ sg x y.
    Proof.
      intros X Q. destruct T as (_ & _ & TS). apply TS in Q as (z & B & S & _); auto. apply (no_single z); auto. destruct B as (a & b & -> & _). apply in_elt.
    Qed.
    Lemma hood x y : In x l -> In y (N x) <-> In y l /\ dget x e = dget y e.
    Proof.
      intro X. destruct T as (_ & TE & _). rewrite TE by auto. split.
      - intros (Y & Q & _). split; auto. apply nearE; auto.
      - intros (Y & Q). split; auto. split; [apply nearE; auto|apply no_sg; auto].
    Qed.
    Lemma hood_enough x : In x l -> enough (length (N x)).
    Proof. intro X. apply (plenty x); auto; [apply T; auto|]. intros z Z0 Q. apply hood; auto. Qed.
    Lemma local_same x y : In x l -> local x y <-> In y l /\ dget x e = dget y e.
    Proof.
      intro X. rewrite <- hood by auto. split.
      - intros [[Q _]|(_ & _ & Q)]; auto. destruct (no_ever x Q).
      - intro Q. right. split; [apply no_ever|]. split; auto. apply hood_enough; auto.
    Qed.
    Lemma reach_same x y : In x l -> In y l -> reach x y <-> dget x e = dget y e.
    Proof.
      intros X Y. split.
      - intros [->|[Q|[Q _]]]; auto. apply local_same in Q; tauto.
      - intro Q. right; left. apply local_same; auto.
    Qed.
    Lemma in_before_l x y : before l x y -> In x l.
    Proof. intros (a & b & -> & _). apply in_elt. Qed.
    Lemma owns_first x y : In x l -> owns x y <-> In y l /\ dget x e = dget y e /\ forall z, before l z x -> dget z e <> dget x e.
    Proof.
      intro X. split.
      - intros (Y & Q & F). apply reach_same in Q; auto. split; auto. split; auto. intros z B E. apply (F z B). apply reach_same; auto; [eapply in_before_l; eauto|congruence].
      - intros (Y & Q & F). split; auto. split; [apply reach_same; auto|]. intros z B R. apply reach_same in R; auto; [|eapply in_before_l; eauto]. apply (F z B). congruence.
    Qed.
    Lemma core_same x y : In x l -> leads x -> core x y <-> In y l /\ dget x e = dget y e.
    Proof.
      intros X (O & _). apply owns_first in O as (_ & _ & F); auto. split.
      - intros [[Y Q]|Q]; [split; auto|apply owns_first in Q; tauto].
      - intros [Y Q]. right. apply owns_first; auto.
    Qed.
    Lemma leads_first x : In x l -> leads x <-> forall z, before l z x -> dget z e <> dget x e.
    Proof.
      intro X. split.
      - intros (O & _). apply owns_first in O; tauto.
      - intro F. split; [apply owns_first; auto|]. destruct (mate x X) as (y & Y & NE & Q). exists y. split; auto. right. apply owns_first; auto.
    Qed.
    Lemma absorbs_same x C ks C' ks' : In x l -> absorbs l near cannot enough N sg C ks C' ks' -> (forall k, In k ks -> In k l) ->
      (forall y, C y <-> In y l /\ dget x e = dget y e) -> forall y, C' y <-> In y l /\ dget x e = dget y e.
    Proof.
      intro X. induction 1 as [C C' E|C C' k ks E NJ|C C' k ks ks' [(a & b & Ca & Lb & Nab) _] A IH]; intros KL H y.
      - rewrite <- E. auto.
      - rewrite <- E. auto.
      - apply IH; [intros; apply KL; right; auto|]. intro z. assert (Kl : In k l) by (apply KL; left; auto). rewrite H, local_same by auto.
        apply H in Ca as [Al Ea]. apply local_same in Lb as [Bl Eb]; auto. apply nearE in Nab; auto. assert (Q : dget x e = dget k e) by congruence. rewrite Q. tauto.
    Qed.
    Lemma absorbs_left C ks C' ks' : absorbs l near cannot enough N sg C ks C' ks' -> forall k, In k ks' -> In k ks.
    Proof. induction 1; intros z Z0; auto. right; auto. Qed.
    Lemma grow_same xs ks Cs ks' : grow l near must cannot enough N sg xs ks Cs ks' -> (forall x, In x xs -> In x l /\ leads x) -> (forall k, In k ks -> In k l) ->
      forall t x, nth_error xs t = Some x -> exists C, nth_error Cs t = Some C /\ forall y, C y <-> In y l /\ dget x e = dget y e.
    Proof.
      induction 1 as [ks|x xs ks C ks' Cs ks'' A G IH]; intros XL KL t x0 Ht; [destruct t; discriminate|].
      destruct t as [|t].
      - injection Ht as <-. exists C. split; auto. destruct (XL x (or_introl eq_refl)) as [X LX]. apply (absorbs_same x _ _ _ _ X A); auto. intro y. apply core_same; auto.
      - cbn in Ht. assert (XL' : forall z, In z xs -> In z l /\ leads z) by (intros; apply XL; right; auto).
        assert (KL' : forall k, In k ks' -> In k l) by (intros; apply KL; apply (absorbs_left _ _ _ _ A); auto).
        destruct (IH XL' KL' t x0 Ht) as (C0 & E & H). exists C0. auto.
    Qed.
    Lemma grow_len xs ks Cs ks' : grow l near must cannot enough N sg xs ks Cs ks' -> length Cs = length xs.
    Proof. induction 1; cbn; congruence. Qed.
  End Turns.

  Lemma first_of_class x : In x l -> exists f, In f l /\ dget x e = dget f e /\ forall z, before l z f -> dget z e <> dget f e.
  Proof.
    clear - ND. intro X. assert (DEC : forall z, dget z e = dget x e \/ dget z e <> dget x e).
    { intro z. destruct (dget z e) as [p|], (dget x e) as [q|]; try (right; congruence); auto. destruct (Z.eq_dec p q); [left|right]; congruence. }
    assert (H : forall l1 l2, l = l1 ++ l2 -> (forall z, In z l1 -> dget z e <> dget x e) -> In x l2 -> exists f a b, l = a ++ f :: b /\ dget f e = dget x e /\ forall z, In z a -> dget z e <> dget x e).
    { intros l1 l2. revert l1. induction l2 as [|y l2 IH]; intros l1 E H J; [destruct J|]. destruct (DEC y) as [Q|Q]; [exists y, l1, l2; auto|].
      apply (IH (l1 ++ [y])); [rewrite <- app_assoc; auto| |destruct J as [->|J]; [congruence|auto]]. intros z Z0. apply in_app_or in Z0 as [Z0|[<-|[]]]; auto. }
    destruct (H [] l eq_refl (fun z J => match J with end) X) as (f & a & b & E & Q & F). exists f. split; [rewrite E; apply in_elt|]. split; auto.
    intros z (c & d & E' & J). rewrite Q. apply F. rewrite E in ND. assert (N2 := ND). rewrite E in E'. clear - E' J N2.
    revert c E'. induction a as [|y a IH]; intros c E'.
    - destruct c as [|w c]; cbn in E'; injection E' as -> E'.
      + cbn in N2. inversion N2; subst. tauto.
      + cbn in N2. inversion N2 as [|? ? N3 _]; subst. destruct N3. apply in_or_app. right. right. auto.
    - destruct c as [|w c]; cbn in E'; injection E' as -> E'; [left; auto|]. right. cbn in N2. inversion N2; subst. eapply IH; eauto.
  Qed.

  Lemma result_separated d : dbscan_result l near must cannot enough big d ->
    (forall x, In x l -> exists c, dget x d = Some c /\ (0 <= c)%Z) /\ forall x y, In x l -> In y l -> (dget x d = dget y d <-> dget x e = dget y e).
  Proof.
    intros (N & sg & L & K & Cs & ks & R & TT & TU & (LN & LL & LO) & (_ & KK) & G & _ & _ & g & G1 & G2 & G3 & G4 & G5).
    assert (GS := grow_same N sg TU _ _ _ _ G). assert (GL := grow_len N sg _ _ _ _ G).
    assert (IC : forall x, In x l -> exists t f, nth_error L t = Some f /\ In f l /\ dget x e = dget f e /\ g x = Some (inl t)).
    { intros x X. destruct (first_of_class x X) as (f & Fl & Q & F).
      assert (JF : In f L) by (apply LL; split; auto; apply (leads_first N sg TU); auto).
      destruct (In_nth_error _ _ JF) as [t Et]. exists t, f. split; auto. split; auto. split; auto. apply G1. split.
      - destruct (GS) with (t := t) (x := f) as (C & EC & H); auto; [intros z Z0; apply LL; auto|intros k Kk; apply KK; auto|]. exists C. split; auto. apply H. split; [auto|congruence].
      - intros t' (C & EC & Cx). assert (Lt : t' < length L) by (rewrite <- GL; apply nth_error_Some; congruence).
        destruct (nth_error L t') as [f'|] eqn:Et'; [|apply nth_error_None in Et'; lia].
        destruct (GS) with (t := t') (x := f') as (C' & EC' & H); auto; [intros z Z0; apply LL; auto|intros k Kk; apply KK; auto|].
        rewrite EC in EC'. injection EC' as <-. apply H in Cx as [_ Q']. assert (JF' := nth_error_In _ _ Et'). apply LL in JF' as [Fl' LF'].
        assert (LF2 := proj1 (leads_first N sg TU f' Fl') LF'). clear LF'. rename LF2 into LF'.
        assert (f = f').
        { destruct (eqb_spec f f') as [|NE]; auto. exfalso. assert (BT := SamplingProofs.before_total l f f' Fl Fl' NE).
          destruct BT as [B|B]; [apply (LF' f B)|apply (F f' B)]; congruence. }
        subst f'. rewrite NoDup_nth_error in LN. rewrite (LN t' t); [auto|auto|congruence]. }
    split.
    - intros x X. destruct (IC x X) as (t & f & _ & _ & _ & Gx). apply G4; auto. congruence.
    - intros x y X Y. destruct (IC x X) as (t & f & Et & Fl & Q & Gx), (IC y Y) as (t' & f' & Et' & Fl' & Q' & Gy).
      rewrite G5 by (auto; congruence). rewrite Gx, Gy. split; intro E.
      + injection E as <-. congruence.
      + do 2 f_equal. assert (A := nth_error_In _ _ Et). assert (B := nth_error_In _ _ Et'). apply LL in A as [_ A], B as [_ B].
        assert (A2 := proj1 (leads_first N sg TU f Fl) A). assert (B2 := proj1 (leads_first N sg TU f' Fl') B).
        assert (f = f').
        { destruct (eqb_spec f f') as [|NE]; auto. exfalso. assert (BT := SamplingProofs.before_total l f f' Fl Fl' NE).
          destruct BT as [BB|BB]; [apply (B2 f BB)|apply (A2 f' BB)]; congruence. }
        subst f'. rewrite NoDup_nth_error in LN. apply LN; [apply nth_error_Some|]; congruence.
  Qed.
End Result.

(*PROP DBScan finds the true clusters when eps separates them (two data are within eps of each other exactly when they are of one cluster), each has at
    least two data and at least min_samples, and the constraints are right. *)
Lemma C142_dbscan_proof :
  forall vec D pairwise leb ltb of_nat setlist eps ms p m vectors nb s d e,
    valid_setlist setlist -> make_dbscan D leb of_nat eps ms = Ok p -> strict_weak_order ltb -> (forall x y, leb x y = negb (ltb y x)) ->
    (forall rows i, leb (pairwise rows i i) eps = true) -> reachable m -> ~ managed m (str "NONE") ->
    covers_exactly m e -> respects m e ->
    (forall x y, managed m x -> managed m y -> (within pairwise leb eps m vectors x y <-> dget x e = dget y e)) ->
    (forall x, managed m x -> exists ns, NoDup ns /\ 2 <= length ns /\ Z.to_nat ms <= length ns /\ forall z, In z ns -> managed m z /\ dget z e = dget x e) ->
    result (cluster vec D pairwise leb ltb of_nat setlist p m vectors nb) s = Ok d ->
    same_partition d e /\ forall x c, dget x d = Some c -> (0 <= c)%Z.
Proof.
  intros vec D pairwise leb ltb of_nat setlist eps ms p m vectors nb s d e SL MK SW LE RF R NN CE RE NE BIGS E.
  assert (CV : covers_exactly m d).
  { unfold result in E. destruct (cluster vec D pairwise leb ltb of_nat setlist p m vectors nb s) as [s' r] eqn:Ec. cbn [snd] in E. subst r.
    destruct (C46_dbscan_partition_proof _ _ _ _ _ _ _ _ _ _ _ _ _ _ _ _ SL MK RF R Ec) as [CV _]. exact CV. }
  assert (EI := ask_managed m). assert (Q := C75_dbscan_functional_proof _ _ _ _ _ _ _ _ _ _ _ _ _ _ _ _ SL MK RF SW LE R NN E EI).
  assert (ND := inv_nodup m (reachable_inv m R)).
  destruct RE as [RM RC]. assert (MI := managed_ids m).
  destruct (result_separated (ids m) (within pairwise leb eps m vectors) (fun a b => inferred m a b (Some MUST_LINK)) (fun a b => inferred m a b (Some CANNOT_LINK))
    (fun n => Z.to_nat ms <= n) (fun n => leb eps (of_nat n) = true) e ND) with (d := d) as [P0 P1]; auto.
  - intros x y X Y. apply NE; apply MI; auto.
  - intros x y X Y H. apply RM; auto; apply MI; auto.
  - intros x y X Y H. apply RC; auto; apply MI; auto.
  - intros x X. destruct (BIGS x) as (ns & N1 & N2 & _ & N4); [apply MI; auto|].
    destruct ns as [|a [|b ns]]; cbn in N2; try lia. destruct (eqb_spec a x) as [->|NA].
    + exists b. destruct (N4 b) as [B1 B2]; [right; left; auto|]. split; [apply MI; auto|]. split; [|auto]. intros ->. inversion N1 as [|? ? N5 _]; subst. apply N5. left; auto.
    + exists a. destruct (N4 a) as [B1 B2]; [left; auto|]. split; [apply MI; auto|]. auto.
  - intros x ns X Nn H. destruct (BIGS x) as (k & N1 & _ & N3 & N4); [apply MI; auto|]. etransitivity; [exact N3|].
    apply NoDup_incl_length; auto. intros z Z0. destruct (N4 z Z0) as [Z1 Z2]. apply H; [apply MI; auto|auto].
  - split; [split|].
    + intro x. rewrite (CV x), (CE x). tauto.
    + intros x y X Y. apply CV, MI in X. apply CV, MI in Y. auto.
    + intros x c Ex. destruct (P0 x) as (c' & E' & Z0); [apply MI, CV; apply (dget_Some_key _ _ Ex)|]. congruence.
Qed.
(*EX
(** eps 2 on a line: two clusters, one of three data; "a" and "c" are told to be together and "a" and "e" apart. *)
Definition pw (X : list Z) (i j : nat) : Z := Z.abs (nth i X 0 - nth j X 0)%Z.
Definition A := str "a". Definition B := str "b". Definition C := str "c". Definition E := str "d". Definition F := str "e".
Definition told : mgr := run [CallAddConstraint A C MUST_LINK 1%Q; CallAddConstraint A F CANNOT_LINK 1%Q] (init [A; B; C; E; F]).
Definition points : dict pystr Z := [(A, 0); (B, 5); (C, 2); (E, 6); (F, 7)]%Z.
Definition truth : dict pystr Z := [(A, 4); (B, 9); (C, 4); (E, 9); (F, 9)]%Z.
Example C142_dbscan_ex :
  make_dbscan Z Z.leb Z.of_nat 2%Z 2%Z = Ok (mkDBParams Z 2%Z 2) /\ strict_weak_order Z.ltb /\ (forall x y, Z.leb x y = negb (Z.ltb y x)) /\
  (forall rows i, Z.leb (pw rows i i) 2 = true) /\ reachable told /\ ~ managed told (str "NONE") /\ covers_exactly told truth /\ respects told truth /\
  (forall x y, managed told x -> managed told y -> (within pw Z.leb 2%Z told points x y <-> dget x truth = dget y truth)) /\
  (forall x, managed told x -> exists ns, NoDup ns /\ 2 <= length ns /\ Z.to_nat 2 <= length ns /\ forall z, In z ns -> managed told z /\ dget z truth = dget x truth) /\
  result (cluster Z Z pw Z.leb Z.ltb Z.of_nat dedup (mkDBParams Z 2%Z 2) told points None) fresh_dbscan = Ok [(A, 0); (B, 1); (C, 0); (E, 1); (F, 1)]%Z.
Proof.
  split; [reflexivity|]. split; [split; [|split]; intros; rewrite ?Z.ltb_lt, ?Z.ltb_ge, ?Z.ltb_irrefl in *; try lia; auto|].
  split; [intros; rewrite Z.leb_antisym; auto|]. split; [intros; unfold pw; apply Z.leb_le; lia|]. split; [apply run_reachable|].
  assert (In5 : forall x, managed told x <-> In x [A; B; C; E; F]) by (intro x; rewrite managed_ids; reflexivity).
  split; [rewrite In5; simpl; intuition discriminate|]. split; [intro x; rewrite In5; reflexivity|]. split.
  { split; intros a b Ma Mb Q; apply In5 in Ma, Mb; simpl in Ma, Mb; repeat destruct Ma as [<-|Ma]; try tauto; repeat destruct Mb as [<-|Mb]; try tauto;
    vm_compute in Q; try discriminate; vm_compute; congruence. }
  split; [|split; [|vm_compute; reflexivity]].
  - assert (W : forall a b, In a [A; B; C; E; F] -> In b [A; B; C; E; F] -> within pw Z.leb 2%Z told points a b ->
      exists i j, nth_error [A; B; C; E; F] i = Some a /\ nth_error [A; B; C; E; F] j = Some b /\ (pw [0; 5; 2; 6; 7]%Z i j <= 2)%Z).
    { intros a b _ _ (l & (l1 & rows & i & j & El & Er & Ni & Nj & ->) & Hl). apply Z.leb_le in Hl. vm_compute in El. injection El as <-.
      assert (RW : forall r, map (fun x => dget x points) [A; B; C; E; F] = map Some r -> r = [0; 5; 2; 6; 7]%Z).
      { intros r Q. vm_compute in Q. repeat (destruct r as [|? r]; try discriminate Q). cbn in Q. injection Q. intros; subst; auto. }
      apply RW in Er as ->. exists i, j. auto. }
    assert (W' : forall i j a b, nth_error [A; B; C; E; F] i = Some a -> nth_error [A; B; C; E; F] j = Some b -> Z.leb (pw [0; 5; 2; 6; 7]%Z i j) 2 = true -> within pw Z.leb 2%Z told points a b).
    { intros i j a b Ni Nj L. eexists. split; [|exact L]. exists [A; B; C; E; F], [0; 5; 2; 6; 7]%Z, i, j. repeat split; auto. }
    intros x y Mx My. apply In5 in Mx, My. split.
    + intro Q. destruct (W x y Mx My Q) as (i & j & Ni & Nj & L).
      destruct i as [|[|[|[|[|i]]]]]; [injection Ni as <-|injection Ni as <-|injection Ni as <-|injection Ni as <-|injection Ni as <-|destruct i; discriminate Ni];
      (destruct j as [|[|[|[|[|j]]]]]; [injection Nj as <-|injection Nj as <-|injection Nj as <-|injection Nj as <-|injection Nj as <-|destruct j; discriminate Nj]);
      vm_compute in L; try (destruct L; reflexivity); reflexivity.
    + intro Q. destruct (In_nth_error _ _ Mx) as [i Ni], (In_nth_error _ _ My) as [j Nj]. apply (W' i j); auto.
      destruct i as [|[|[|[|[|i]]]]]; [injection Ni as <-|injection Ni as <-|injection Ni as <-|injection Ni as <-|injection Ni as <-|destruct i; discriminate Ni];
      (destruct j as [|[|[|[|[|j]]]]]; [injection Nj as <-|injection Nj as <-|injection Nj as <-|injection Nj as <-|injection Nj as <-|destruct j; discriminate Nj]);
      vm_compute in Q; try discriminate Q; reflexivity.
  - assert (L2 : forall a b, a <> b -> managed told a -> managed told b -> dget a truth = dget b truth -> exists ns, NoDup ns /\ 2 <= length ns /\ Z.to_nat 2 <= length ns /\ forall z, In z ns -> managed told z /\ dget z truth = dget a truth).
    { intros a b NE Ma Mb Q. exists [a; b]. split; [constructor; [simpl; intuition congruence|constructor; [simpl; tauto|constructor]]|]. split; [simpl; lia|]. split; [simpl; lia|].
      intros z [<-|[<-|[]]]; auto. }
    intros x Mx. apply In5 in Mx. simpl in Mx. destruct Mx as [<-|[<-|[<-|[<-|[<-|[]]]]]];
      [apply (L2 A C)|apply (L2 B E)|apply (L2 C A)|apply (L2 E F)|apply (L2 F E)]; try discriminate; try reflexivity; apply In5; simpl; tauto.
Qed.
EX*)
