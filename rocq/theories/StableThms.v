(** * Constraints that the present clusters meet (C141). *)

From Coq Require Import String List Bool Arith ZArith QArith Lia Permutation Relations.
(*HEADER
From Coq Require Import String List Bool Arith ZArith QArith Permutation Lia Relations.
From Verif Require Import Base Manager Spec ManagerInv ManagerQueries ManagerThms SamplingSpec ClusterSpec ClusterProofs KMeansSpec Hierarchical HierSpec CutSpec StableThms.
Import ListNotations.
Open Scope nat_scope.
HEADER*)
From Verif Require Import Base Manager Spec Closure ManagerProofs ManagerInv ManagerQueries ManagerThms
  Sampling SamplingSpec SamplingProofs SamplingThms Rename ClusterSpec RenameThms ClusterProofs KMeans KMeansSpec KMeansProofs KMeansThms
  Hierarchical HierSpec HierProofs HierRun HierTree HierThms CutSpec CutThms InversionThms NarrowThms.
Import ListNotations.
Open Scope nat_scope.
Open Scope py_scope.

Section Forests.
  Context {vec : Type}.
  Notation tree := (tree vec).
  Notation members := (t_members vec).

  (** The clusters of the forest are not empty and have no common data. *)
  Definition parted (F : list tree) : Prop := NoDup (flat_map members F) /\ forall t, In t F -> members t <> [].

  Lemma together_dec (F : list tree) x y : together F x y \/ ~ together F x y.
  Proof.
    destruct (existsb (fun t => mem x (members t) && mem y (members t)) F) eqn:E.
    - left. apply existsb_exists in E as (t & T & E). apply andb_true_iff in E as [X Y]. exists t. rewrite <- !mem_In. auto.
    - right. intros (t & T & X & Y). assert (Q : existsb (fun t => mem x (members t) && mem y (members t)) F = true); [|congruence].
      apply existsb_exists. exists t. apply mem_In in X, Y. rewrite X, Y. auto.
  Qed.

  Lemma parted_unique (F : list tree) t u x : NoDup (flat_map members F) -> In t F -> In u F -> In x (members t) -> In x (members u) -> t = u.
  Proof.
    induction F as [|c F IH]; intros N T U X Y; [destruct T|]. cbn [flat_map] in N. destruct (NoDup_app_inv _ _ N) as (_ & N2 & DJ).
    destruct T as [->|T], U as [->|U]; auto; exfalso; (eapply DJ; [eassumption|]); apply in_flat_map; eauto.
  Qed.
  Lemma forallb_counter {A} (f : A -> bool) l : forallb f l = false -> exists x, In x l /\ f x = false.
  Proof.
    induction l as [|x l IH]; cbn; [discriminate|]. intro Q. apply andb_false_iff in Q as [Q|Q]; [exists x; auto|]. destruct (IH Q) as (z & Z0 & E). eauto.
  Qed.
  Lemma together_trans (F : list tree) x y z : parted F -> together F x y -> together F y z -> together F x z.
  Proof.
    intros [N _] (t & T & X & Y) (u & U & Y' & Z). rewrite (parted_unique F t u y N T U Y Y') in *. exists u. auto.
  Qed.
  Lemma together_sym (F : list tree) x y : together F x y -> together F y x.
  Proof. intros (t & T & X & Y). exists t. auto. Qed.


  Lemma covers_length (F G : list tree) : parted F -> parted G -> (forall x, together F x x -> together G x x) -> (forall x y, together F x x -> together F y y -> together G x y -> together F x y) ->
    length F <= length G.
  Proof.
    intros PF PG C R.
    assert (H : forall t, In t F -> exists u x, In u G /\ In x (members t) /\ In x (members u)).
    { intros t T. destruct (members t) as [|x l] eqn:E; [destruct PF as [_ NE]; destruct (NE t T E)|].
      assert (X : In x (members t)) by (rewrite E; left; auto).
      destruct (C x) as (u & U & Xu & _); [exists t; auto|]. exists u, x. split; auto. split; [left|]; auto. }
    assert (INJ : forall t t' u x x', In t F -> In t' F -> In u G -> In x (members t) -> In x (members u) -> In x' (members t') -> In x' (members u) -> t = t').
    { intros t t' u x x' T T' U X Xu X' Xu'. destruct (R x x') as (w & Wf & Wx & Wx'); [exists t; auto|exists t'; auto|exists u; auto|].
      rewrite (parted_unique F t w x); auto; [|apply PF]. symmetry. apply (parted_unique F t' w x'); auto. apply PF. }
    assert (ND : NoDup F).
    { destruct PF as [N NE]. clear - N NE. induction F as [|t F IH]; constructor.
      - intro J. cbn in N. destruct (NoDup_app_inv _ _ N) as (_ & _ & DJ). destruct (members t) as [|x l] eqn:E; [apply (NE t); [left|]; auto|].
        apply (DJ x); [left; auto|]. apply in_flat_map. exists t. rewrite E. split; [auto|left; auto].
      - cbn in N. destruct (NoDup_app_inv _ _ N) as (_ & N2 & _). apply IH; auto. intros u U. apply NE. right. auto. }
    clear C R PG PF. revert G H INJ. induction ND as [|t F NI ND IH]; intros G H INJ; cbn [length]; [lia|].
    destruct (H t (or_introl eq_refl)) as (u & x & U & X & Xu). apply in_split in U as (G1 & G2 & ->).
    rewrite app_length. cbn [length]. specialize (IH (G1 ++ G2)). rewrite app_length in IH. rewrite Nat.add_succ_r. apply le_n_S. apply IH.
    - intros t' T'. destruct (H t' (or_intror T')) as (u' & x' & U' & X' & Xu'). exists u', x'. split; auto. apply in_app_or in U'. apply in_or_app.
      destruct U' as [U'|[->|U']]; auto. exfalso. apply NI. rewrite (INJ t t' u' x x'); auto; [left; auto|right; auto|apply in_elt].
    - intros t1 t2 u' x1 x2 T1 T2 U'. apply INJ; [right|right|]; auto. apply in_app_or in U'. apply in_or_app. destruct U'; [left|right; right]; auto.
  Qed.
End Forests.

Section Runs.
  Context {vec D : Type}.
  Variable pairwise : list vec -> nat -> nat -> D.
  Variable cdistance : vec -> vec -> D.
  Variable ltb : D -> D -> bool.
  Variable dsum : list D -> D.
  Variable ddiv : D -> nat -> D.
  Variable inf : D.
  Variable mean : list vec -> vec.
  Variable vectors : dict pystr vec.
  Notation tree := (tree vec).
  Notation members := (t_members vec).

  (** ** Facts about the runs of one manager *)
  Section One.
    Variable linkage : pystr.
    Notation nearest m := (closest pairwise cdistance ltb dsum ddiv inf linkage m vectors).
    Notation halted m := (stopped pairwise cdistance ltb dsum ddiv inf linkage m vectors).
    Notation trace_ m := (run_trace mean vectors (nearest m) (halted m)).
    Variable m : mgr.
    Hypothesis I : Inv m.

    Lemma cannot_sym a b : inferred m a b (Some CANNOT_LINK) -> inferred m b a (Some CANNOT_LINK).
    Proof. intro Q. destruct (inferred_inI m I a b _ Q) as [A B]. apply inferred_cl; auto. rewrite cl_sym by auto. apply inferred_cl; auto. Qed.
    Lemma ok_parted it F : forest_ok mean m vectors it F -> parted F.
    Proof.
      intro FO. split.
      - apply (Permutation_NoDup (Permutation_sym (fo_members _ _ _ _ _ FO))). apply (inv_nodup m I).
      - intros t T. assert (G := trees_inids _ _ _ _ _ FO). rewrite Forall_forall in G. apply (G t T).
    Qed.
    Lemma ok_covers it F x : forest_ok mean m vectors it F -> together F x x <-> In x (ids m).
    Proof.
      intro FO. rewrite <- (Permutation_in' (eq_refl x) (fo_members _ _ _ _ _ FO)), in_flat_map. split.
      - intros (t & T & X & _). eauto.
      - intros (t & T & X). exists t. auto.
    Qed.
    Lemma ok_next it l1 t1 l2 t2 l3 t : forest_ok mean m vectors it (l1 ++ t1 :: l2 ++ t2 :: l3) -> nearest m (l1 ++ t1 :: l2 ++ t2 :: l3) t1 t2 ->
      node_over mean vectors it (l1 ++ t1 :: l2 ++ t2 :: l3) [t1; t2] t -> forest_ok mean m vectors (S it) (l1 ++ l2 ++ l3 ++ [t]).
    Proof.
      intros FO CL NO. apply (merge_ok mean m vectors I it l1 t1 l2 t2 l3 t); auto.
      destruct CL as (d & [[_ E]|[N _]] & NI & _); [congruence|auto].
    Qed.

    (** Every two data have a distance. *)
    Lemma start_dis F : start mean m vectors F -> forall x y, In x (ids m) -> In y (ids m) -> exists d, distance_is pairwise m vectors (x, y) d.
    Proof.
      intro ST. assert (FO := start_ok mean m vectors I F ST).
      assert (C : forall x, In x (ids m) -> In x (keys vectors)).
      { intros x X. destruct (in_forest mean m vectors 1 F x FO X) as (t & T & M0 & _). destruct ST as (cs & _ & FF & _).
        destruct (Forall2_In_r _ _ _ _ FF T) as (c & _ & (_ & _ & _ & _ & rows & R & _)). apply in_split in M0 as (l1 & l2 & E). unfold vectors_are in R. rewrite E, map_app in R. cbn [map] in R.
        destruct (dget x vectors) as [v|] eqn:Ev; [apply (dget_Some_key _ _ Ev)|]. exfalso. assert (J : In None (map Some rows)) by (rewrite <- R; apply in_elt).
        apply in_map_iff in J as (r & J & _). discriminate. }
      destruct (KMeansProofs.rows_of m vectors C) as (rows & _ & R). intros x y X Y.
      destruct (In_nth_error _ _ X) as [p P], (In_nth_error _ _ Y) as [q Q]. exists (pairwise rows p q). exists (ids m), rows, p, q. rewrite ask_managed. auto 6.
    Qed.

    (** Every forest of a run partitions the data, and joins what was joined before. *)
    Lemma trace_good it F root tr : trace_ m it F root tr -> forest_ok mean m vectors it F -> forall F', In F' tr ->
      parted F' /\ (forall x, together F' x x <-> In x (ids m)) /\ (forall x y, together F x y -> together F' x y) /\ 1 <= length F'.
    Proof.
      induction 1 as [it t|it l1 t1 l2 t2 l3 t root tr CL NO A IH|it ts root L ST NO]; intros FO F' J.
      - destruct J as [<-|[]]. split; [eapply ok_parted; eauto|]. split; [intro x; eapply ok_covers; eauto|]. auto.
      - destruct J as [<-|J].
        + split; [eapply ok_parted; eauto|]. split; [intro x; eapply ok_covers; eauto|]. split; auto. rewrite app_length. cbn. lia.
        + destruct (IH (ok_next it l1 t1 l2 t2 l3 t FO CL NO) F' J) as (P & C & U & Ln). split; auto. split; auto. split; auto.
          intros x y T. apply U. eapply together_up; eauto.
      - destruct J as [<-|[<-|[]]].
        + split; [eapply ok_parted; eauto|]. split; [intro x; eapply ok_covers; eauto|]. split; auto. lia.
        + assert (M0 : members root = flat_map members ts) by apply NO.
          assert (P := ok_parted it ts FO). assert (C := ok_covers it ts). split; [|split; [|split; [|cbn; lia]]].
          * split; [cbn; rewrite app_nil_r, M0; apply P|]. intros t [<-|[]]. rewrite M0. destruct ts as [|u ts]; [cbn in L; lia|].
            destruct P as [_ NE]. specialize (NE u (or_introl eq_refl)). cbn. destruct (members u); [congruence|discriminate].
          * intro x. rewrite <- (C x FO). split.
            -- intros (t & [<-|[]] & X & _). rewrite M0 in X. apply in_flat_map in X as (u & U & X). exists u. auto.
            -- intros (t & T & X & _). exists root. split; [left; auto|]. rewrite M0. split; apply in_flat_map; eauto.
          * intros x y (t & T & X & Y). exists root. split; [left; auto|]. rewrite M0. split; apply in_flat_map; eauto.
    Qed.

    (** What comes after a forest of a run. *)
    Lemma trace_next it F root tr T : trace_ m it F root tr -> In T tr ->
      length T = 1 \/ (exists T', In T' tr /\ S (length T') = length T) \/ (In [root] tr /\ halted m T).
    Proof.
      induction 1 as [it t|it l1 t1 l2 t2 l3 t root tr CL NO A IH|it ts root L ST NO]; intro J.
      - destruct J as [<-|[]]. auto.
      - destruct J as [<-|J].
        + right; left. exists (l1 ++ l2 ++ l3 ++ [t]). split; [right; eapply trace_head; eauto|].
          rewrite !app_length. cbn. rewrite !app_length. cbn. lia.
        + destruct (IH J) as [Q|[(T' & J' & Q)|[J' Q]]]; auto; right; [left; exists T'; split; [right|]; auto|right; split; [right|]; auto].
      - destruct J as [<-|[<-|[]]]; auto. right; right. split; auto. right; left; auto.
    Qed.
  End One.

  Notation single := (str "single").
  Notation nearest m := (closest pairwise cdistance ltb dsum ddiv inf single m vectors).
  Notation halted m := (stopped pairwise cdistance ltb dsum ddiv inf single m vectors).
  Notation trace_ m := (run_trace mean vectors (nearest m) (halted m)).

  (** ** The runs of two managers of the same data *)
  Section Two.
    Variables m m' : mgr.
    Hypothesis I : Inv m.
    Hypothesis I' : Inv m'.
    Hypothesis IDS : ids m' = ids m.
    Hypothesis MONO : forall a b c, inferred m a b (Some c) -> inferred m' a b (Some c).
    Hypothesis TO : strict_total_order ltb.
    Hypothesis SYM : forall X i j, pairwise X i j = pairwise X j i.
    Hypothesis SMALL : forall X i j, ltb (pairwise X i j) inf = true.
    Variable e : dict pystr Z.
    Hypothesis RE : respects m' e.
    Notation dis := (distance_is pairwise m vectors).
    Notation dis' := (distance_is pairwise m' vectors).
    Hypothesis TIE : forall a b x y d, In a (ids m) -> In b (ids m) -> In x (ids m) -> In y (ids m) ->
      a <> b -> dget a e = dget b e -> dget x e <> dget y e -> dis (a, b) d -> dis (x, y) d -> False.

    Lemma dis_same a b d : dis (a, b) d <-> dis' (a, b) d.
    Proof.
      unfold distance_is. rewrite !ask_managed, IDS. split; intro Q; exact Q.
    Qed.
    Lemma dis_small a b d : dis (a, b) d -> ltb d inf = true.
    Proof. intros (l & rows & i & j & _ & _ & _ & _ & ->). apply SMALL. Qed.
    Lemma managed' x : managed m' x <-> In x (ids m).
    Proof. rewrite managed_ids by auto. rewrite IDS. tauto. Qed.

    (** An infinite distance is that of clusters with a CANNOT_LINK constraint. *)
    Lemma infinite t1 t2 : linkage_distance pairwise cdistance ltb dsum ddiv inf single m vectors t1 t2 inf -> incompatible m t1 t2.
    Proof.
      intros [[Q _]|[_ [[Q _]|[[_ [(a & b & _ & _ & Dab) _]]|[[Q _]|[Q _]]]]]]; auto; try discriminate.
      exfalso. apply dis_small in Dab. destruct TO as [[IR _] _]. rewrite IR in Dab. discriminate.
    Qed.

    Definition refining (F G : list tree) : Prop := forall x y, together F x y -> together G x y.
    Definition full (F : list tree) : Prop := forall x y, In x (ids m) -> In y (ids m) -> dget x e = dget y e -> together F x y.
    Definition meeting (F : list tree) v1 v2 : Prop := exists tu tv, In tu F /\ In tv F /\ In v1 (members tu) /\ In v2 (members tv) /\ incompatible m' tu tv.

    Lemma both_trees t1 t2 (F G : list tree) x y : parted F -> parted G -> In t1 G -> In t2 G -> refining G F ->
      In x (members t1) -> In y (members t2) -> together F x y -> forall a b, In a (members t1) -> In b (members t2) -> together F a b.
    Proof.
      intros PF PG T1 T2 RF X Y Q a b A B. apply (together_trans F a x b PF); [apply RF; exists t1; auto|].
      apply (together_trans F x y b PF); auto. apply RF. exists t2. auto.
    Qed.

    Lemma bridge it G root tr : trace_ m it G root tr -> forest_ok mean m vectors it G -> forall F, parted F -> refining G F ->
      forall T, In T tr -> within e T -> (exists x y, together T x y /\ ~ together F x y) ->
      forall v1 v2 d, In v1 (ids m) -> In v2 (ids m) -> ~ together F v1 v2 -> ~ meeting F v1 v2 -> dis (v1, v2) d -> (forall x, In x (ids m) -> together F x x) ->
      exists x0 y0 d0, In x0 (ids m) /\ In y0 (ids m) /\ dget x0 e = dget y0 e /\ ~ together F x0 y0 /\ dis (x0, y0) d0 /\ ltb d d0 = false.
    Proof.
      induction 1 as [it t|it l1 t1 l2 t2 l3 t root tr CL NO A IH|it ts root L ST NO]; intros FO F PF RF T J W NR v1 v2 d V1 V2 NT NM Dv CO.
      - destruct J as [<-|[]]. destruct NR as (x & y & Q & N). destruct (N (RF x y Q)).
      - destruct J as [<-|J]. { destruct NR as (x & y & Q & N). destruct (N (RF x y Q)). }
        assert (FO2 := ok_next single m I it l1 t1 l2 t2 l3 t FO CL NO). set (G := l1 ++ t1 :: l2 ++ t2 :: l3) in *. set (G' := l1 ++ l2 ++ l3 ++ [t]) in *.
        assert (PG := ok_parted m I it G FO). assert (T1 : In t1 G) by apply in_elt. assert (T2 : In t2 G) by (unfold G; apply in_or_app; right; right; apply in_elt).
        assert (GI := trees_inids _ _ _ _ _ FO). rewrite Forall_forall in GI.
        destruct (trace_good single m I (S it) G' root tr A FO2 T J) as (PT & CT & UT & _).
        assert (M0 : members t = members t1 ++ members t2) by (destruct NO as (_ & _ & Em & _); rewrite Em; cbn; rewrite app_nil_r; auto).
        assert (Tt : In t G') by (unfold G'; rewrite !in_app_iff; cbn; auto).
        destruct (members t1) as [|x l] eqn:E1. { destruct (proj2 PG t1 T1 E1). }
        destruct (members t2) as [|y l'] eqn:E2. { destruct (proj2 PG t2 T2 E2). }
        assert (X : In x (members t1)) by (rewrite E1; left; auto). assert (Y : In y (members t2)) by (rewrite E2; left; auto).
        rewrite <- E1, <- E2 in M0. clear l l' E1 E2.
        destruct (together_dec F x y) as [Q|Q].
        + apply (IH FO2 F PF) with (T := T) (v1 := v1) (v2 := v2) (d := d); auto.
          assert (K := both_trees t1 t2 F G x y PF PG T1 T2 RF X Y Q).
          intros a b (u & U & Ua & Ub). unfold G' in U. rewrite !in_app_iff in U. cbn in U.
          assert (OLD : In u G -> together F a b) by (intro O; apply RF; exists u; auto).
          assert (INC : In u l1 \/ In u l2 \/ In u l3 -> In u G) by (unfold G; rewrite in_app_iff; cbn; rewrite in_app_iff; cbn; tauto).
          destruct U as [U|[U|[U|[<-|[]]]]]; auto.
          rewrite M0 in Ua, Ub. apply in_app_or in Ua, Ub.
          destruct Ua as [Ua|Ua], Ub as [Ub|Ub]; auto; [apply RF; exists t1; auto|apply together_sym; auto|apply RF; exists t2; auto].
        + assert (NTG : ~ together G v1 v2) by (intro Z0; apply NT; auto).
          destruct (nearest_least pairwise cdistance ltb dsum ddiv inf mean m vectors I TO SYM it G t1 t2 v1 v2 d FO CL V1 V2 NTG Dv)
            as [(a & b & d0 & Ma & Mb & Dab & Lt)|(tu & tv & Tu & Tv & Mu & Mv & (a & b & Ma & Mb & Qc))].
          * exists a, b, d0. split; [apply (GI t1 T1); auto|]. split; [apply (GI t2 T2); auto|]. split; [|split; [|split; auto]].
            -- apply W, UT. exists t. rewrite M0. split; auto. split; apply in_or_app; auto.
            -- intro Z0. apply Q. exact (both_trees t1 t2 F G a b PF PG T1 T2 RF Ma Mb Z0 x y X Y).
          * exfalso. apply NM. destruct (RF v1 a) as (fu & Fu & F1 & Fa); [exists tu; auto|]. destruct (RF v2 b) as (fv & Fv & F2 & Fb); [exists tv; auto|].
            exists fu, fv. repeat (split; auto). exists a, b. auto.
      - destruct J as [<-|[<-|[]]]. { destruct NR as (x & y & Q & N). destruct (N (RF x y Q)). }
        exfalso. destruct ST as (_ & t1 & t2 & Bf & LD). apply infinite in LD. destruct LD as (a & b & Ma & Mb & Q).
        assert (M0 : members root = flat_map members ts) by apply NO.
        assert (T12 : In t1 ts /\ In t2 ts) by (destruct Bf as (p & q & -> & Jq); split; [apply in_elt|apply in_or_app; right; right; auto]). destruct T12 as [T1 T2].
        assert (GI := trees_inids _ _ _ _ _ FO). rewrite Forall_forall in GI.
        apply MONO in Q. apply (proj2 RE) in Q; try (apply managed'; [apply (GI t1 T1)|apply (GI t2 T2)]; auto).
        + apply Q, W. exists root. rewrite M0. split; [left; auto|]. split; apply in_flat_map; eauto.
        + apply managed'. apply (GI t1 T1); auto.
        + apply managed'. apply (GI t2 T2); auto.
    Qed.

    (** The run of the first manager, with a forest that is exactly [e]. *)
    Variables (first : list tree) (root : tree) (tr : list (list tree)) (T : list tree).
    Hypothesis FST : start mean m vectors first.
    Hypothesis TR : trace_ m 1 first root tr.
    Hypothesis JT : In T tr.
    Hypothesis WT : within e T.
    Hypothesis FT : full T.

    Lemma full_dec F : full F \/ exists x y, In x (ids m) /\ In y (ids m) /\ dget x e = dget y e /\ ~ together F x y.
    Proof.
      destruct (forallb (fun p => negb (match dget (fst p) e, dget (snd p) e with Some a, Some b => Z.eqb a b | None, None => true | _, _ => false end)
        || existsb (fun t => mem (fst p) (members t) && mem (snd p) (members t)) F) (list_prod (ids m) (ids m))) eqn:Q.
      - left. intros x y X Y E. rewrite forallb_forall in Q. specialize (Q (x, y)). rewrite in_prod_iff in Q. specialize (Q (conj X Y)). cbn [fst snd] in Q.
        rewrite E in Q. assert (R0 : (match dget y e with Some a => match dget y e with Some b => Z.eqb a b | None => false end | None => match dget y e with Some _ => false | None => true end end) = true)
          by (destruct (dget y e); auto; apply Z.eqb_refl).
        rewrite R0 in Q. cbn in Q. apply existsb_exists in Q as (t & Tt & Q). apply andb_true_iff in Q as [A B]. apply mem_In in A, B. exists t. auto.
      - right. apply forallb_counter in Q as ([x y] & J & Q). apply in_prod_iff in J as [X Y]. cbn [fst snd] in Q. apply orb_false_iff in Q as [Q1 Q2].
        exists x, y. split; auto. split; auto. split.
        + apply negb_false_iff in Q1. destruct (dget x e), (dget y e); try discriminate; auto. apply Z.eqb_eq in Q1. congruence.
        + intros (t & Tt & A & B). assert (Z0 : existsb (fun t => mem x (members t) && mem y (members t)) F = true); [|congruence].
          apply existsb_exists. exists t. apply mem_In in A, B. rewrite A, B. auto.
    Qed.

    Lemma step it l1 t1 l2 t2 l3 : let F := l1 ++ t1 :: l2 ++ t2 :: l3 in
      forest_ok mean m' vectors it F -> refining first F -> within e F -> nearest m' F t1 t2 -> ~ full F ->
      forall a b, In a (members t1) -> In b (members t2) -> dget a e = dget b e.
    Proof.
      intros F FO RF W CL NF a0 b0 A0 B0. destruct (full_dec F) as [Q|(x & y & X & Y & Exy & NT)]; [destruct (NF Q)|].
      assert (PF := ok_parted m' I' it F FO). assert (T1 : In t1 F) by apply in_elt. assert (T2 : In t2 F) by (unfold F; apply in_or_app; right; right; apply in_elt).
      assert (GI := trees_inids _ _ _ _ _ FO). rewrite Forall_forall in GI.
      assert (CO : forall z, In z (ids m) -> together F z z) by (intros z Z0; apply (ok_covers m' it F z FO); rewrite IDS; auto).
      assert (NC := merge_compatible pairwise cdistance ltb dsum ddiv inf m' vectors F t1 t2 CL).
      assert (DJ : forall z, In z (members t1) -> In z (members t2) -> False).
      { intros z Z1 Z2. destruct PF as [N _]. unfold F in N. rewrite flat_map_app in N. cbn [flat_map] in N. destruct (NoDup_app_inv _ _ N) as (_ & N2 & _).
        destruct (NoDup_app_inv _ _ N2) as (_ & _ & D0). apply (D0 z Z1). apply in_flat_map. exists t2. split; auto. apply in_elt. }
      destruct CL as (d & LD & Ninf & Min). 
      assert (CL : nearest m' F t1 t2) by (exists d; auto).
      assert (K : exists a b, In a (members t1) /\ In b (members t2) /\ dis' (a, b) d /\ forall a' b' d', In a' (members t1) -> In b' (members t2) -> dis' (a', b') d' -> ltb d' d = false).
      { destruct LD as [[Q _]|[_ [[Q _]|[[_ [(a & b & A & B & Dab) LE]]|[[Q _]|[Q _]]]]]]; try discriminate; [destruct (NC Q)|]. exists a, b. auto. }
      destruct K as (a & b & A & B & Dab & LE).
      assert (Ia : In a (ids m)) by (rewrite <- IDS; apply (GI t1 T1); auto). assert (Ib : In b (ids m)) by (rewrite <- IDS; apply (GI t2 T2); auto).
      assert (Nab : ~ together F a b).
      { intros (u & U & Ua & Ub). apply (DJ a); auto. rewrite (parted_unique F t2 u b); auto. apply PF. }
      assert (NM : ~ meeting F a b).
      { intros (tu & tv & Tu & Tv & Mu & Mv & Q). apply NC. rewrite (parted_unique F t1 tu a), (parted_unique F t2 tv b); auto; apply PF. }
      assert (Dab0 := proj2 (dis_same a b d) Dab).
      destruct (bridge 1 first root tr TR (start_ok mean m vectors I first FST) F PF RF T JT WT) with (v1 := a) (v2 := b) (d := d)
        as (x0 & y0 & d0 & X0 & Y0 & E0 & N0 & D0 & L0); auto.
      { exists x, y. split; auto. }
      assert (E : dget a e = dget b e).
      { assert (DEC : dget a e = dget b e \/ dget a e <> dget b e) by (destruct (dget a e) as [p|], (dget b e) as [q|]; try (right; congruence); auto; destruct (Z.eq_dec p q); [left|right]; congruence).
        destruct DEC as [|NE]; auto. exfalso.
        assert (X0' : In x0 (ids m')) by (rewrite IDS; auto). assert (Y0' : In y0 (ids m')) by (rewrite IDS; auto).
        destruct (nearest_least pairwise cdistance ltb dsum ddiv inf mean m' vectors I' TO SYM it F t1 t2 x0 y0 d0 FO CL X0' Y0' N0 (proj1 (dis_same x0 y0 d0) D0))
          as [(a' & b' & d1 & Ma & Mb & D1 & L1)|(tu & tv & Tu & Tv & Mu & Mv & (a' & b' & Ma & Mb & Qc))].
        - assert (L2 := LE a' b' d1 Ma Mb D1). assert (L3 : ltb d0 d = false).
          { destruct TO as [[IR [TRN NTR]] _]. destruct (ltb d0 d) eqn:Z0; auto. destruct (NTR _ d1 _ Z0); congruence. }
          assert (d = d0) as <- by (apply TO; auto). apply (TIE x0 y0 a b d); auto. intros <-. apply N0. auto.
        - apply (proj2 RE) in Qc; [|apply managed'; rewrite <- IDS; apply (GI tu Tu); auto|apply managed'; rewrite <- IDS; apply (GI tv Tv); auto].
          apply Qc. rewrite <- (W x0 a') by (exists tu; auto). rewrite <- (W y0 b') by (exists tv; auto). auto. }
      rewrite (W a0 a), (W b0 b); auto; [exists t2|exists t1]; auto.
    Qed.

    Definition all_apart : Prop := forall x y, In x (ids m) -> In y (ids m) -> dget x e <> dget y e ->
      exists a b, In a (ids m) /\ In b (ids m) /\ dget a e = dget x e /\ dget b e = dget y e /\ inferred m' a b (Some CANNOT_LINK).

    Lemma meets it F root' tr' : trace_ m' it F root' tr' -> forest_ok mean m' vectors it F -> refining first F -> within e F ->
      exists F', In F' tr' /\ within e F' /\ full F' /\
        (forall G, In G tr' -> length F' <= length G -> G = F' \/ length F' < length G) /\
        (all_apart -> forall G, In G tr' -> length G < length F' -> length G = 1).
    Proof.
      induction 1 as [it t|it l1 t1 l2 t2 l3 t root' tr' CL NO A IH|it ts root' L ST NO]; intros FO RF W.
      - exists [t]. split; [left; auto|]. split; auto. assert (C := ok_covers m' it [t]). split.
        { intros x y X Y _. rewrite <- IDS in X, Y. apply (C _ FO) in X. apply (C _ FO) in Y. destruct X as (u & [<-|[]] & X & _), Y as (u & [<-|[]] & Y & _). exists t. split; [left|]; auto. }
        split; [intros G [<-|[]]; auto|]. intros _ G [<-|[]]; lia.
      - destruct (full_dec (l1 ++ t1 :: l2 ++ t2 :: l3)) as [FU|NF].
        + exists (l1 ++ t1 :: l2 ++ t2 :: l3). split; [left; auto|]. split; auto. split; auto.
          assert (LEN := trace_len mean vectors _ _ _ _ _ _ A). split.
          * intros G [<-|J] Le; auto. specialize (LEN G J). rewrite !app_length in *. cbn in *. rewrite !app_length in *. cbn in *. lia.
          * intros AP. exfalso. set (F := l1 ++ t1 :: l2 ++ t2 :: l3) in *. assert (PF := ok_parted m' I' it F FO).
            assert (T1 : In t1 F) by apply in_elt. assert (T2 : In t2 F) by (unfold F; apply in_or_app; right; right; apply in_elt).
            assert (GI := trees_inids _ _ _ _ _ FO). rewrite Forall_forall in GI.
            assert (DJ : forall z, In z (members t1) -> In z (members t2) -> False).
            { intros z Z1 Z2. destruct PF as [N _]. unfold F in N. rewrite flat_map_app in N. cbn [flat_map] in N. destruct (NoDup_app_inv _ _ N) as (_ & N2 & _).
              destruct (NoDup_app_inv _ _ N2) as (_ & _ & D0). apply (D0 z Z1). apply in_flat_map. exists t2. split; auto. apply in_elt. }
            apply (merge_compatible pairwise cdistance ltb dsum ddiv inf m' vectors F t1 t2 CL).
            destruct (members t1) as [|x l] eqn:E1. { destruct (proj2 PF t1 T1 E1). }
            destruct (members t2) as [|y l'] eqn:E2. { destruct (proj2 PF t2 T2 E2). }
            assert (X : In x (members t1)) by (rewrite E1; left; auto). assert (Y : In y (members t2)) by (rewrite E2; left; auto). rewrite <- E1, <- E2 in DJ. clear E1 E2.
            assert (Ix : In x (ids m)) by (rewrite <- IDS; apply (GI t1 T1); auto). assert (Iy : In y (ids m)) by (rewrite <- IDS; apply (GI t2 T2); auto).
            assert (U1 : forall z, In z (ids m) -> dget z e = dget x e -> In z (members t1)).
            { intros z Z0 E. destruct (FU z x Z0 Ix E) as (u & U & Uz & Ux). rewrite (parted_unique F t1 u x); auto. apply PF. }
            assert (U2 : forall z, In z (ids m) -> dget z e = dget y e -> In z (members t2)).
            { intros z Z0 E. destruct (FU z y Z0 Iy E) as (u & U & Uz & Uy). rewrite (parted_unique F t2 u y); auto. apply PF. }
            destruct (AP x y Ix Iy) as (a & b & Ia & Ib & Ea & Eb & Q). { intro E. apply (DJ x); auto. }
            exists a, b. split; [auto|]. split; auto.
        + assert (FO2 := ok_next single m' I' it l1 t1 l2 t2 l3 t FO CL NO).
          assert (W2 : within e (l1 ++ l2 ++ l3 ++ [t])).
          { assert (NF' : ~ full (l1 ++ t1 :: l2 ++ t2 :: l3)) by (intro FU; destruct NF as (x & y & X & Y & E & N); apply N; auto).
            assert (K := step it l1 t1 l2 t2 l3 FO RF W CL NF'). set (F := l1 ++ t1 :: l2 ++ t2 :: l3) in *.
            assert (T1 : In t1 F) by apply in_elt. assert (T2 : In t2 F) by (unfold F; apply in_or_app; right; right; apply in_elt).
            assert (M0 : members t = members t1 ++ members t2) by (destruct NO as (_ & _ & Em & _); rewrite Em; cbn; rewrite app_nil_r; auto).
            intros a b (u & U & Ua & Ub). rewrite !in_app_iff in U. cbn in U.
            assert (OLD : In u F -> dget a e = dget b e) by (intro O; apply W; exists u; auto).
            assert (INC : In u l1 \/ In u l2 \/ In u l3 -> In u F) by (unfold F; rewrite in_app_iff; cbn; rewrite in_app_iff; cbn; tauto).
            destruct U as [U|[U|[U|[<-|[]]]]]; auto. rewrite M0 in Ua, Ub. apply in_app_or in Ua, Ub.
            destruct Ua as [Ua|Ua], Ub as [Ub|Ub]; auto; [apply W; exists t1; auto|symmetry; auto|apply W; exists t2; auto]. }
          destruct IH as (F' & J & W' & FU & ONE & AP); auto.
          { intros x y Q. eapply together_up; eauto. }
          assert (LEN := trace_len mean vectors _ _ _ _ _ _ A F' J).
          exists F'. split; [right; auto|]. split; auto. split; auto.
          assert (LL : length F' < length (l1 ++ t1 :: l2 ++ t2 :: l3)) by (rewrite !app_length in *; cbn in *; rewrite !app_length in *; cbn in *; lia).
          split; [intros G [<-|JG]; auto|]. intros P G [<-|JG]; [lia|auto].
      - destruct (full_dec ts) as [FU|(x & y & X & Y & Exy & NT)].
        + exists ts. split; [left; auto|]. split; auto. split; auto. split.
          * intros G [<-|[<-|[]]]; auto. cbn. lia.
          * intros _ G [<-|[<-|[]]]; auto. lia.
        + exfalso. assert (GI := trees_inids _ _ _ _ _ FO). rewrite Forall_forall in GI.
          assert (CO : forall z, In z (ids m) -> together ts z z) by (intros z Z0; apply (ok_covers m' it ts z FO); rewrite IDS; auto).
          destruct (CO x X) as (tx & Tx & Mx & _), (CO y Y) as (ty & Ty & My & _).
          assert (NQ : tx <> ty) by (intros ->; apply NT; exists ty; auto).
          assert (IN : incompatible m' tx ty).
          { destruct (incompatible_dec m' I' tx ty (GI tx Tx) (GI ty Ty)) as [|NI]; auto. exfalso. destruct ST as [NL _].
            destruct (start_dis m I first FST x y X Y) as (d & Dd). apply dis_same in Dd.
            assert (LO : exists d', linkage_distance pairwise cdistance ltb dsum ddiv inf single m' vectors tx ty d' /\ ltb d d' = false).
            { apply (ldist_below pairwise cdistance ltb dsum ddiv inf m' vectors I' TO tx ty x y d); auto. }
            assert (LO' : exists d', linkage_distance pairwise cdistance ltb dsum ddiv inf single m' vectors ty tx d' /\ ltb d d' = false).
            { apply (ldist_below pairwise cdistance ltb dsum ddiv inf m' vectors I' TO ty tx y x d); auto; [|apply dis_sym; auto].
              intros (a & b & Ma & Mb & Q). apply NI. exists b, a. split; auto. split; auto. apply cannot_sym; auto. }
            assert (SM := dis_small x y d (proj2 (dis_same x y d) Dd)). destruct TO as [[IR [TRN NTR]] _].
            assert (ABS : forall d', ltb d d' = false -> ltb d' inf = false -> False) by (intros d' L1 L2; destruct (NTR _ d' _ SM); congruence).
            destruct (before_total ts tx ty Tx Ty NQ) as [Bf|Bf]; [destruct LO as (d' & LD & L1)|destruct LO' as (d' & LD & L1)]; apply (ABS d' L1); eapply NL; eauto. }
          destruct IN as (a & b & Ma & Mb & Q). apply (proj2 RE) in Q; [|apply managed'; rewrite <- IDS; apply (GI tx Tx); auto|apply managed'; rewrite <- IDS; apply (GI ty Ty); auto].
          apply Q. rewrite <- (W x a) by (exists tx; auto). rewrite <- (W y b) by (exists ty; auto). auto.
    Qed.

    Lemma exact_length F : parted F -> (forall x, together F x x <-> In x (ids m)) -> within e F -> full F -> length F = length T.
    Proof.
      intros PF CF WF FF. destruct (trace_good single m I 1 first root tr TR (start_ok mean m vectors I first FST) T JT) as (PT & CT & _ & _).
      apply Nat.le_antisymm; apply covers_length; auto.
      - intro x. rewrite CF, CT. auto.
      - intros x y X Y Q. rewrite CF in X, Y. apply FF; auto.
      - intro x. rewrite CF, CT. auto.
      - intros x y X Y Q. rewrite CT in X, Y. apply FT; auto.
    Qed.

    Lemma same_cut k first' root' tr' G : start mean m' vectors first' -> trace_ m' 1 first' root' tr' -> last_with k first tr T -> last_with k first' tr' G ->
      within e G /\ full G.
    Proof.
      intros FST' TR' (_ & KT & MT) (JG & KG & MG).
      assert (FO := start_ok mean m vectors I first FST). assert (FO' := start_ok mean m' vectors I' first' FST').
      assert (W0 : within e first').
      { intros x y X. assert (X' := start_ml mean m' vectors I' first' FST' x y X). destruct (inferred_inI m' I' x y _ X'). apply RE; auto; apply managed_ids; auto. }
      assert (ML' : forall x y, In x (ids m) -> In y (ids m) -> inferred m' x y (Some MUST_LINK) -> together first' x y).
      { intros x y X Y Q. rewrite <- IDS in X, Y. apply inferred_ml in Q; auto. apply ml_linked in Q; auto. apply (comps_common m' x y I' X Y) in Q. destruct Q as (c & Cc & Cx & Cy).
        destruct FST' as (cs & E & FF & _). rewrite ask_components in E by auto. injection E as <-.
        destruct (Forall2_In_l _ _ _ _ FF Cc) as (t & Tt & (_ & _ & Em & _)). exists t. rewrite Em. auto. }
      assert (R0 : refining first first').
      { intros x y Q. assert (Q' := start_ml mean m vectors I first FST x y Q). destruct (inferred_inI m I x y _ Q'). apply ML'; auto. }
      destruct (meets 1 first' root' tr' TR' FO' R0 W0) as (F & JF & WF & FF & ONE & AP).
      assert (GF := trace_good single m' I' 1 first' root' tr' TR' FO' F JF). rewrite IDS in GF. destruct GF as (PF & CF & _ & _).
      assert (GG := trace_good single m' I' 1 first' root' tr' TR' FO' G JG). rewrite IDS in GG. destruct GG as (PG & CG & _ & LG).
      assert (LEN := exact_length F PF CF WF FF).
      assert (LF' := trace_len mean vectors _ _ _ _ _ _ TR'). 
      destruct (Z_le_gt_dec k (Z.of_nat (length T))) as [KT'|KT'].
      - (* a forest with at least [k] clusters *)
        assert (LE : length G <= length F) by (apply MG; auto; rewrite LEN; auto).
        destruct (Nat.eq_dec (length G) (length F)) as [Q|NQ].
        { destruct (ONE G JG) as [->|Lt]; [lia|auto|lia]. }
        exfalso. assert (Lt : length G < length F) by lia.
        destruct KG as [KG| ->]; [|specialize (LF' F JF); lia].
        destruct (trace_next single m 1 first root tr T TR JT) as [Q|[(T' & J' & Q)|[J' HT]]]; [lia| |].
        + assert (length T <= length T') by (apply MT; auto; lia). lia.
        + destruct (Z_le_gt_dec k 1) as [K1|K1]. { assert (length T <= 1) by (apply (MT [root]); auto). lia. }
          assert (G1 : length G = 1); [|lia]. apply AP; auto.
          destruct (trace_good single m I 1 first root tr TR FO T JT) as (PT & CT & _ & _).
          intros x y X Y N. destruct (proj2 (CT x) X) as (tx & Tx & Mx & _), (proj2 (CT y) Y) as (ty & Ty & My & _).
          assert (NQ' : tx <> ty) by (intros ->; apply N, WT; exists ty; auto).
          assert (INT : forall t, In t T -> in_ids m t).
          { intros t Tt. split; [apply PT; auto|]. intros z Z0. apply CT. exists t. auto. }
          assert (IN : incompatible m tx ty).
          { destruct (incompatible_dec m I tx ty (INT tx Tx) (INT ty Ty)) as [|NI]; auto. exfalso. destruct HT as [NL _].
            destruct (start_dis m I first FST x y X Y) as (d & Dd).
            assert (LO : exists d', linkage_distance pairwise cdistance ltb dsum ddiv inf single m vectors tx ty d' /\ ltb d d' = false).
            { apply (ldist_below pairwise cdistance ltb dsum ddiv inf m vectors I TO tx ty x y d); auto. }
            assert (LO' : exists d', linkage_distance pairwise cdistance ltb dsum ddiv inf single m vectors ty tx d' /\ ltb d d' = false).
            { apply (ldist_below pairwise cdistance ltb dsum ddiv inf m vectors I TO ty tx y x d); auto; [|apply dis_sym; auto].
              intros (a & b & Ma & Mb & Q). apply NI. exists b, a. split; auto. split; auto. apply cannot_sym; auto. }
            assert (SM := dis_small x y d Dd). destruct TO as [[IR [TRN NTR]] _].
            assert (ABS : forall d', ltb d d' = false -> ltb d' inf = false -> False) by (intros d' L1 L2; destruct (NTR _ d' _ SM); congruence).
            destruct (before_total T tx ty Tx Ty NQ') as [Bf|Bf]; [destruct LO as (d' & LD & L1)|destruct LO' as (d' & LD & L1)]; apply (ABS d' L1); eapply NL; eauto. }
          destruct IN as (a & b & Ma & Mb & Q). exists a, b. split; [apply (INT tx Tx); auto|]. split; [apply (INT ty Ty); auto|].
          split; [apply WT; exists tx; auto|]. split; [apply WT; exists ty; auto|auto].
      - (* fewer than [k] clusters *)
        assert (E0 : T = first) by (destruct KT as [KT|KT]; [lia|auto]).
        assert (FF' : full first') by (intros x y X Y E; apply R0; rewrite <- E0; apply FT; auto).
        assert (GF := trace_good single m' I' 1 first' root' tr' TR' FO' first' (trace_head mean vectors _ _ _ _ _ _ TR')). rewrite IDS in GF. destruct GF as (P1 & C1 & _ & _).
        assert (L1 := exact_length first' P1 C1 W0 FF').
        destruct KG as [KG| ->]; [|auto]. assert (LG' := LF' G JG). lia.
    Qed.
  End Two.
End Runs.

(*PROP Single linkage, cut by iteration: when constraints are added that the clusters already meet, the clusters stay the same (when no two
    distances, one within and one across the clusters, are equal). *)
Lemma C141_single_partial_proof :
  forall vec D (eqD : EqB D) pairwise cdistance ltb dsum ddiv inf mean m m' vectors nb nb' s s' t t' d d' k e,
    strict_total_order ltb -> (forall X i j, pairwise X i j = pairwise X j i) -> (forall X i j, ltb (pairwise X i j) inf = true) ->
    reachable m -> reachable m' ->
    ask get_list_of_managed_data_IDs m' = ask get_list_of_managed_data_IDs m ->
    (forall a b c, inferred m a b (Some c) -> inferred m' a b (Some c)) ->
    cluster vec D pairwise cdistance ltb dsum ddiv inf mean (str "single") m vectors nb s = (s', Ok d) ->
    cluster vec D pairwise cdistance ltb dsum ddiv inf mean (str "single") m' vectors nb' t = (t', Ok d') ->
    compute_predicted_clusters vec k (str "iteration") s' = (s', Ok e) ->
    respects m' e ->
    (forall a b x y l, managed m a -> managed m b -> managed m x -> managed m y -> a <> b -> dget a e = dget b e -> dget x e <> dget y e ->
      distance_is pairwise m vectors (a, b) l -> ~ distance_is pairwise m vectors (x, y) l) ->
    compute_predicted_clusters vec k (str "iteration") t' = (t', Ok e).
Proof.
  intros vec D eqD pairwise cdistance ltb dsum ddiv inf mean m m' vectors nb nb' s s' t t' d d' k e TO SYM SMALL R R' IDS MONO E E' Ec RE TIE.
  apply reachable_inv in R, R'. rewrite !ask_managed in IDS. injection IDS as IDS.
  destruct (trace_of_run eqD pairwise cdistance ltb dsum ddiv inf mean (str "single") m vectors nb s s' d TO R eq_refl E) as (root & first & tr & Er & ST & T & Q).
  destruct (trace_of_run eqD pairwise cdistance ltb dsum ddiv inf mean (str "single") m' vectors nb' t t' d' TO R' eq_refl E') as (root' & first' & tr' & Er' & ST' & T' & Q').
  destruct (Q k) as (e0 & F & Ec0 & LW & [K G] & Can & Co). rewrite Ec in Ec0. injection Ec0 as <-.
  destruct (Q' k) as (e' & F' & Ec' & LW' & [K' G'] & Can' & Co'). rewrite Ec'. do 2 f_equal.
  assert (FO := start_ok mean m vectors R first ST). assert (JF := proj1 LW).
  destruct (trace_good pairwise cdistance ltb dsum ddiv inf mean vectors (str "single") m R 1 first root tr T FO F JF) as (PF & CF & _ & _).
  assert (TG : forall x y, In x (ids m) -> In y (ids m) -> (dget x e = dget y e <-> together F x y)) by (intros x y X Y; apply G; apply Co, managed_ids; auto).
  assert (WF : within e F).
  { intros x y X. apply TG; auto; apply CF; destruct X as (u & U & Ux & Uy); exists u; auto. }
  destruct (same_cut pairwise cdistance ltb dsum ddiv inf mean vectors m m' R R' IDS MONO TO SYM SMALL e RE) with (first := first) (root := root) (tr := tr) (T := F) (k := k)
    (first' := first') (root' := root') (tr' := tr') (G := F') as [WG FG]; auto.
  { intros a b x y l A B X Y N1 N2 N3 D1 D2. apply (TIE a b x y l); auto; apply managed_ids; auto. }
  { intros x y X Y X'. apply TG; auto. }
  apply canonical_unique; auto. split.
  - intro x. rewrite (Co x), (Co' x), !managed_ids by auto. rewrite IDS. tauto.
  - intros x y X Y. assert (X0 := X). assert (Y0 := Y). rewrite (G' x y X0 Y0). apply Co' in X, Y. rewrite managed_ids, IDS in X, Y by auto. split; [apply WG|apply FG; auto].
Qed.

(*EX
(** Five points on a line, cut into three clusters; then a MUST_LINK and a CANNOT_LINK that the clusters meet. *)
Definition pw (X : list Z) (i j : nat) : Z := if (i =? j)%nat then 0%Z else Z.min 9999 (Z.abs (nth i X 0 - nth j X 0))%Z.
Definition hier_Z (linkage : pystr) := cluster Z Z pw (fun x y => Z.abs (x - y)%Z) Z.ltb (fold_right Z.add 0%Z) (fun d n => (d / Z.of_nat n)%Z) 10000%Z (fun l => nth 0 l 0%Z) linkage.
Definition A := str "a". Definition B := str "b". Definition C := str "c". Definition E := str "d". Definition F := str "e".
Definition before_ : mgr := init [A; B; C; E; F].
Definition after_ : mgr := run [CallAddConstraint A C MUST_LINK 1%Q; CallAddConstraint A E CANNOT_LINK 1%Q] (init [A; B; C; E; F]).
Definition points : dict pystr Z := [(A, 0); (B, 1); (C, 3); (E, 10); (F, 15)]%Z.
Definition found : dict pystr Z := [(A, 0); (B, 0); (C, 0); (E, 1); (F, 2)]%Z.
Example C141_single_ex :
  strict_total_order Z.ltb /\ (forall X i j, pw X i j = pw X j i) /\ (forall X i j, Z.ltb (pw X i j) 10000 = true) /\
  reachable before_ /\ reachable after_ /\ ask get_list_of_managed_data_IDs after_ = ask get_list_of_managed_data_IDs before_ /\
  (forall a b c, inferred before_ a b (Some c) -> inferred after_ a b (Some c)) /\
  result (compute_predicted_clusters Z 3 (str "iteration")) (fst (hier_Z (str "single") before_ points (Some 3%Z) (fresh_hier Z))) = Ok found /\
  respects after_ found /\ inferred after_ A C (Some MUST_LINK) /\ inferred after_ C E (Some CANNOT_LINK) /\
  (forall a b x y l, managed before_ a -> managed before_ b -> managed before_ x -> managed before_ y -> a <> b -> dget a found = dget b found -> dget x found <> dget y found ->
    distance_is pw before_ points (a, b) l -> ~ distance_is pw before_ points (x, y) l) /\
  result (compute_predicted_clusters Z 3 (str "iteration")) (fst (hier_Z (str "single") after_ points (Some 3%Z) (fresh_hier Z))) = Ok found.
Proof.
  split; [split; [split; [|split]|]; intros; rewrite ?Z.ltb_lt, ?Z.ltb_ge, ?Z.ltb_irrefl in *; try lia; auto|].
  split; [intros X i j; unfold pw; destruct (Nat.eqb_spec i j), (Nat.eqb_spec j i); subst; try congruence; lia|].
  split; [intros X i j; unfold pw; destruct (i =? j)%nat; apply Z.ltb_lt; lia|].
  split; [exact (run_reachable _ [])|]. split; [apply run_reachable|]. split; [reflexivity|].
  assert (In5 : forall x, managed before_ x <-> In x [A; B; C; E; F]) by (intro x; rewrite managed_ids by exact (reachable_inv _ (run_reachable _ [])); reflexivity).
  assert (In5' : forall x, managed after_ x <-> In x [A; B; C; E; F]) by (intro x; rewrite managed_ids by (apply reachable_inv, run_reachable); reflexivity).
  split.
  { intros a b c Q. assert (Qa : In a [A; B; C; E; F] /\ In b [A; B; C; E; F]) by exact (inferred_inI before_ (reachable_inv _ (run_reachable _ [])) a b _ Q).
    destruct Qa as [Ia Ib]. simpl in Ia, Ib. repeat destruct Ia as [<-|Ia]; try tauto; repeat destruct Ib as [<-|Ib]; try tauto; vm_compute in Q; try discriminate; injection Q as <-; vm_compute; reflexivity. }
  split; [vm_compute; reflexivity|]. split.
  { split; intros a b Ma Mb Q; apply In5' in Ma, Mb; simpl in Ma, Mb; repeat destruct Ma as [<-|Ma]; try tauto; repeat destruct Mb as [<-|Mb]; try tauto;
    vm_compute in Q; try discriminate; vm_compute; congruence. }
  split; [vm_compute; reflexivity|]. split; [vm_compute; reflexivity|]. split; [|vm_compute; reflexivity].
  intros a b x y l Ma Mb Mx My N1 N2 N3 (l1 & rows & i & j & El & Er & Ni & Nj & ->) (l2 & rows2 & i' & j' & El2 & Er2 & Ni' & Nj' & Eq).
  vm_compute in El. injection El as <-. vm_compute in El2. injection El2 as <-.
  assert (RW : forall r, map (fun x => dget x points) [A; B; C; E; F] = map Some r -> r = [0; 1; 3; 10; 15]%Z).
  { intros r Q. vm_compute in Q. do 5 (destruct r as [|? r]; [discriminate|]). destruct r; [|discriminate]. injection Q as <- <- <- <- <-. auto. }
  rewrite (RW _ Er), (RW _ Er2) in Eq. cbn [fst snd] in Ni, Nj, Ni', Nj'. clear - N1 N2 N3 Ni Nj Ni' Nj' Eq.
  assert (W1 : forall n z, nth_error [A; B; C; E; F] n = Some z -> n < 5) by (intros n z Q; apply (nth_error_Some [A; B; C; E; F]); congruence).
  assert (Wi := W1 _ _ Ni). assert (Wj := W1 _ _ Nj). assert (Wi' := W1 _ _ Ni'). assert (Wj' := W1 _ _ Nj'). clear W1.
  assert (W5 : forall n, n < 5 -> n = 0 \/ n = 1 \/ n = 2 \/ n = 3 \/ n = 4) by (intros; lia).
  destruct (W5 _ Wi) as [->|[->|[->|[->| ->]]]], (W5 _ Wj) as [->|[->|[->|[->| ->]]]]; vm_compute in Ni, Nj; injection Ni as <-; injection Nj as <-;
    try (exfalso; apply N1; reflexivity); try (vm_compute in N2; discriminate);
    destruct (W5 _ Wi') as [->|[->|[->|[->| ->]]]], (W5 _ Wj') as [->|[->|[->|[->| ->]]]]; vm_compute in Ni', Nj'; injection Ni' as <-; injection Nj' as <-;
    try (exfalso; apply N3; reflexivity); vm_compute in Eq; discriminate.
Qed.
EX*)

(** Four data on a line. *)
Definition gap (X : list Z) (i j : nat) : Z := if (i =? j)%nat then 0%Z else Z.min 9999 (Z.abs (nth i X 0 - nth j X 0))%Z.
Definition hier_gap := cluster Z Z gap (fun x y => Z.abs (x - y)%Z) Z.ltb (fold_right Z.add 0%Z) (fun d n => (d / Z.of_nat n)%Z) 10000%Z
  (fun l => (fold_right Z.add 0 l / Z.of_nat (length l))%Z).
Definition four_new : mgr := init [str "a"; str "b"; str "c"; str "d"].
Lemma managed_four cs : (forall x, managed (run cs four_new) x <-> In x (ids (run cs four_new))).
Proof. intro x. apply managed_ids. Qed.

Lemma distinct_four (w x y z : Z) : map (fun i => dget i ([(str "a", w); (str "b", x); (str "c", y); (str "d", z)] : dict pystr Z)) (ids four_new) = map Some [w; x; y; z].
Proof. reflexivity. Qed.

Ltac fin p q := 
    first [ vm_compute; reflexivity
          | match goal with |- NoDup _ => vm_compute; repeat constructor; simpl; intuition discriminate end
          | match goal with |- respects _ _ => let a := fresh in let b := fresh in split; intros a b ?Ma ?Mb ?Q; apply managed_four in Ma, Mb; simpl in Ma, Mb;
              repeat destruct Ma as [<-|Ma]; try tauto; repeat destruct Mb as [<-|Mb]; try tauto; vm_compute in Q; try discriminate; vm_compute; congruence end
          | let P := fresh in intros [_ P]; specialize (P p q); vm_compute in P; intuition discriminate ].

Lemma four_distinct : forall w x y z, let r := [w; x; y; z] in NoDup [gap r 0 1; gap r 0 2; gap r 0 3; gap r 1 2; gap r 1 3; gap r 2 3] ->
    forall a b p q l, a <> b -> p <> q -> distance_is gap four_new [(str "a", w); (str "b", x); (str "c", y); (str "d", z)] (a, b) l ->
    distance_is gap four_new [(str "a", w); (str "b", x); (str "c", y); (str "d", z)] (p, q) l -> (p = a /\ q = b) \/ (p = b /\ q = a).
Proof.
  intros w x y z r ND a b p q l N1 N2 (l1 & rows & i & j & El & Er & Ni & Nj & ->) (l2 & rows2 & i' & j' & El2 & Er2 & Ni' & Nj' & Eq).
    rewrite ask_managed in El, El2. injection El as <-. injection El2 as <-. rewrite distinct_four in Er, Er2.
    assert (RW : forall r' : list Z, map Some r = map Some r' -> r' = r).
    { unfold r. intros r' Q. do 4 (destruct r' as [|? r']; [discriminate|]). destruct r'; [|discriminate]. injection Q as <- <- <- <-. auto. }
    rewrite (RW _ Er), (RW _ Er2) in Eq. cbn [fst snd] in Ni, Nj, Ni', Nj'. clear Er Er2 RW rows rows2.
    assert (W1 : forall n v, nth_error (ids four_new) n = Some v -> n < 4) by (intros n v Q; apply (nth_error_Some (ids four_new)); congruence).
    assert (Wi := W1 _ _ Ni). assert (Wj := W1 _ _ Nj). assert (Wi' := W1 _ _ Ni'). assert (Wj' := W1 _ _ Nj'). clear W1.
    assert (GS : forall i j, gap r i j = gap r j i) by (intros m0 n0; unfold gap; rewrite (Nat.eqb_sym n0 m0); destruct (m0 =? n0)%nat; lia).
    assert (IJ : i <> j) by (intros ->; congruence). assert (IJ' : i' <> j') by (intros ->; congruence).
    assert (K : (i' = i /\ j' = j) \/ (i' = j /\ j' = i)).
    { rewrite (GS 0 1), (GS 0 2), (GS 0 3), (GS 1 2), (GS 1 3), (GS 2 3) in ND. clear Ni Nj Ni' Nj'.
      assert (W4 : forall n, n < 4 -> n = 0 \/ n = 1 \/ n = 2 \/ n = 3) by (intros; lia).
      assert (G1 := GS 0 1). assert (G2 := GS 0 2). assert (G3 := GS 0 3). assert (G4 := GS 1 2). assert (G5 := GS 1 3). assert (G6 := GS 2 3).
      revert Eq GS ND G1 G2 G3 G4 G5 G6. generalize (gap r). intros g Eq GS ND G1 G2 G3 G4 G5 G6. clear GS. rewrite !NoDup_cons_iff in ND. cbn [In] in ND. 
      destruct (W4 _ Wi) as [->|[->|[->| ->]]], (W4 _ Wj) as [->|[->|[->| ->]]]; try congruence;
      destruct (W4 _ Wi') as [->|[->|[->| ->]]], (W4 _ Wj') as [->|[->|[->| ->]]]; try congruence; auto; exfalso; rewrite ?G1, ?G2, ?G3, ?G4, ?G5, ?G6 in Eq; clear - ND Eq; intuition congruence. }
    destruct K as [[-> ->]|[-> ->]]; [left|right]; split; congruence.
Qed.

(*PROP With the cut that [cluster] makes, every linkage can change clusters that meet a new constraint, even when all distances differ: a right
    answer can make a right result wrong. *)
Lemma C141_default_refuted_proof :
  forall linkage, In linkage [str "single"; str "complete"; str "average"; str "ward"] ->
  exists pairwise cdistance dsum ddiv inf mean m m' vectors k d d',
    strict_total_order Z.ltb /\ (forall X i j, pairwise X i j = pairwise X j i) /\ (forall X i j, Z.ltb (pairwise X i j) inf = true) /\
    reachable m /\ (exists a b c, result (add_constraint a b c 1%Q) m = Ok true /\ m' = fst (add_constraint a b c 1%Q m)) /\
    (forall a b x y l, a <> b -> x <> y -> distance_is pairwise m vectors (a, b) l -> distance_is pairwise m vectors (x, y) l -> (x = a /\ y = b) \/ (x = b /\ y = a)) /\
    result (cluster Z Z pairwise cdistance Z.ltb dsum ddiv inf mean linkage m vectors (Some k)) (fresh_hier Z) = Ok d /\
    respects m' d /\
    result (cluster Z Z pairwise cdistance Z.ltb dsum ddiv inf mean linkage m' vectors (Some k)) (fresh_hier Z) = Ok d' /\
    ~ same_partition d d'.
Proof.
  assert (TO : strict_total_order Z.ltb) by (split; [split; [|split]|]; intros; rewrite ?Z.ltb_lt, ?Z.ltb_ge, ?Z.ltb_irrefl in *; try lia; auto).
  assert (SY : forall X i j, gap X i j = gap X j i) by (intros X i j; unfold gap; destruct (Nat.eqb_spec i j), (Nat.eqb_spec j i); subst; try congruence; lia).
  assert (SM : forall X i j, Z.ltb (gap X i j) 10000 = true) by (intros X i j; unfold gap; destruct (i =? j)%nat; apply Z.ltb_lt; lia).
  assert (DI := four_distinct).
  assert (GO : forall linkage w x y z a b c k d d',
    let vectors := [(str "a", w); (str "b", x); (str "c", y); (str "d", z)] in let m' := run [CallAddConstraint a b c 1%Q] four_new in
    let r := [w; x; y; z] in NoDup [gap r 0 1; gap r 0 2; gap r 0 3; gap r 1 2; gap r 1 3; gap r 2 3] ->
    result (add_constraint a b c 1%Q) four_new = Ok true -> m' = fst (add_constraint a b c 1%Q four_new) -> result (hier_gap linkage four_new vectors (Some k)) (fresh_hier Z) = Ok d -> respects m' d ->
    result (hier_gap linkage m' vectors (Some k)) (fresh_hier Z) = Ok d' -> ~ same_partition d d' ->
    exists pairwise cdistance dsum ddiv inf mean m m' vectors k d d',
    strict_total_order Z.ltb /\ (forall X i j, pairwise X i j = pairwise X j i) /\ (forall X i j, Z.ltb (pairwise X i j) inf = true) /\
    reachable m /\ (exists a b c, result (add_constraint a b c 1%Q) m = Ok true /\ m' = fst (add_constraint a b c 1%Q m)) /\
    (forall a b x y l, a <> b -> x <> y -> distance_is pairwise m vectors (a, b) l -> distance_is pairwise m vectors (x, y) l -> (x = a /\ y = b) \/ (x = b /\ y = a)) /\
    result (cluster Z Z pairwise cdistance Z.ltb dsum ddiv inf mean linkage m vectors (Some k)) (fresh_hier Z) = Ok d /\
    respects m' d /\
    result (cluster Z Z pairwise cdistance Z.ltb dsum ddiv inf mean linkage m' vectors (Some k)) (fresh_hier Z) = Ok d' /\
    ~ same_partition d d').
  { intros linkage w x y z a b c k d d' vectors m' r ND OK EM E1 RE E2 NS.
    exists gap, (fun x y => Z.abs (x - y)%Z), (fold_right Z.add 0%Z), (fun d n => (d / Z.of_nat n)%Z), 10000%Z, (fun l => (fold_right Z.add 0 l / Z.of_nat (length l))%Z), four_new, m', vectors, k, d, d'.
    split; auto. split; auto. split; auto. split; [exact (run_reachable _ [])|]. split; [exists a, b, c; split; auto|]. split; [apply DI; auto|]. auto. }
  intros linkage [<-|[<-|[<-|[<-|[]]]]].
  - apply (GO _ 400 1800 2700 2500 (str "b") (str "c") CANNOT_LINK 3 [(str "a", 0); (str "b", 1); (str "c", 2); (str "d", 2)] [(str "a", 0); (str "b", 0); (str "c", 1); (str "d", 2)])%Z; fin (str "a") (str "b").
  - apply (GO _ 1200 1800 2700 100 (str "b") (str "c") MUST_LINK 2 [(str "a", 0); (str "b", 0); (str "c", 0); (str "d", 1)] [(str "a", 0); (str "b", 1); (str "c", 1); (str "d", 0)])%Z; fin (str "a") (str "b").
  - apply (GO _ 1400 0 2400 800 (str "b") (str "d") MUST_LINK 2 [(str "a", 0); (str "b", 0); (str "c", 1); (str "d", 0)] [(str "a", 0); (str "b", 1); (str "c", 0); (str "d", 1)])%Z; fin (str "a") (str "b").
  - apply (GO _ 1200 1800 2700 100 (str "b") (str "c") MUST_LINK 2 [(str "a", 0); (str "b", 0); (str "c", 0); (str "d", 1)] [(str "a", 0); (str "b", 1); (str "c", 1); (str "d", 0)])%Z; fin (str "a") (str "b").
Qed.

(*PROP With the cut by iteration, complete, average and ward linkage can still change clusters that meet a new constraint, even when all distances differ. *)
Lemma C141_by_iteration_refuted_proof :
  forall linkage, In linkage [str "complete"; str "average"; str "ward"] ->
  exists pairwise cdistance dsum ddiv inf mean m m' vectors d d',
    strict_total_order Z.ltb /\ (forall X i j, pairwise X i j = pairwise X j i) /\ (forall X i j, Z.ltb (pairwise X i j) inf = true) /\
    reachable m /\ (exists a b, result (add_constraint a b MUST_LINK 1%Q) m = Ok true /\ m' = fst (add_constraint a b MUST_LINK 1%Q m)) /\
    (forall a b x y l, a <> b -> x <> y -> distance_is pairwise m vectors (a, b) l -> distance_is pairwise m vectors (x, y) l -> (x = a /\ y = b) \/ (x = b /\ y = a)) /\
    result (compute_predicted_clusters Z 2 (str "iteration"))
      (fst (cluster Z Z pairwise cdistance Z.ltb dsum ddiv inf mean linkage m vectors (Some 2%Z) (fresh_hier Z))) = Ok d /\
    respects m' d /\
    result (compute_predicted_clusters Z 2 (str "iteration"))
      (fst (cluster Z Z pairwise cdistance Z.ltb dsum ddiv inf mean linkage m' vectors (Some 2%Z) (fresh_hier Z))) = Ok d' /\
    ~ same_partition d d'.
Proof.
  assert (TO : strict_total_order Z.ltb) by (split; [split; [|split]|]; intros; rewrite ?Z.ltb_lt, ?Z.ltb_ge, ?Z.ltb_irrefl in *; try lia; auto).
  assert (SY : forall X i j, gap X i j = gap X j i) by (intros X i j; unfold gap; destruct (Nat.eqb_spec i j), (Nat.eqb_spec j i); subst; try congruence; lia).
  assert (SM : forall X i j, Z.ltb (gap X i j) 10000 = true) by (intros X i j; unfold gap; destruct (i =? j)%nat; apply Z.ltb_lt; lia).
  assert (GO : forall linkage w x y z a b d d',
    let vectors := [(str "a", w); (str "b", x); (str "c", y); (str "d", z)] in let m' := run [CallAddConstraint a b MUST_LINK 1%Q] four_new in
    let r := [w; x; y; z] in NoDup [gap r 0 1; gap r 0 2; gap r 0 3; gap r 1 2; gap r 1 3; gap r 2 3] ->
    result (add_constraint a b MUST_LINK 1%Q) four_new = Ok true -> m' = fst (add_constraint a b MUST_LINK 1%Q four_new) ->
    result (compute_predicted_clusters Z 2 (str "iteration")) (fst (hier_gap linkage four_new vectors (Some 2%Z) (fresh_hier Z))) = Ok d -> respects m' d ->
    result (compute_predicted_clusters Z 2 (str "iteration")) (fst (hier_gap linkage m' vectors (Some 2%Z) (fresh_hier Z))) = Ok d' -> ~ same_partition d d' ->
    exists pairwise cdistance dsum ddiv inf mean m m' vectors d d',
    strict_total_order Z.ltb /\ (forall X i j, pairwise X i j = pairwise X j i) /\ (forall X i j, Z.ltb (pairwise X i j) inf = true) /\
    reachable m /\ (exists a b, result (add_constraint a b MUST_LINK 1%Q) m = Ok true /\ m' = fst (add_constraint a b MUST_LINK 1%Q m)) /\
    (forall a b x y l, a <> b -> x <> y -> distance_is pairwise m vectors (a, b) l -> distance_is pairwise m vectors (x, y) l -> (x = a /\ y = b) \/ (x = b /\ y = a)) /\
    result (compute_predicted_clusters Z 2 (str "iteration"))
      (fst (cluster Z Z pairwise cdistance Z.ltb dsum ddiv inf mean linkage m vectors (Some 2%Z) (fresh_hier Z))) = Ok d /\
    respects m' d /\
    result (compute_predicted_clusters Z 2 (str "iteration"))
      (fst (cluster Z Z pairwise cdistance Z.ltb dsum ddiv inf mean linkage m' vectors (Some 2%Z) (fresh_hier Z))) = Ok d' /\
    ~ same_partition d d').
  { intros linkage w x y z a b d d' vectors m' r ND OK EM E1 RE E2 NS.
    exists gap, (fun x y => Z.abs (x - y)%Z), (fold_right Z.add 0%Z), (fun d n => (d / Z.of_nat n)%Z), 10000%Z, (fun l => (fold_right Z.add 0 l / Z.of_nat (length l))%Z), four_new, m', vectors, d, d'.
    split; auto. split; auto. split; auto. split; [exact (run_reachable _ [])|]. split; [exists a, b; split; auto|]. split; [apply four_distinct; auto|]. auto. }
  intros linkage [<-|[<-|[<-|[]]]].
  - apply (GO _ 1200 1800 2700 100 (str "b") (str "c") [(str "a", 0); (str "b", 0); (str "c", 0); (str "d", 1)] [(str "a", 0); (str "b", 1); (str "c", 1); (str "d", 0)])%Z; fin (str "a") (str "b").
  - apply (GO _ 1400 0 2400 800 (str "b") (str "d") [(str "a", 0); (str "b", 0); (str "c", 1); (str "d", 0)] [(str "a", 0); (str "b", 1); (str "c", 0); (str "d", 1)])%Z; fin (str "a") (str "b").
  - apply (GO _ 1200 1800 2700 100 (str "b") (str "c") [(str "a", 0); (str "b", 0); (str "c", 0); (str "d", 1)] [(str "a", 0); (str "b", 1); (str "c", 1); (str "d", 0)])%Z; fin (str "a") (str "b").
Qed.

(*PROP With equal distances within and across the clusters, single linkage can change them too. *)
Lemma C141_tie_refuted_proof :
  exists pairwise cdistance dsum ddiv inf mean m m' vectors d d',
    strict_total_order Z.ltb /\ (forall X i j, pairwise X i j = pairwise X j i) /\ (forall X i j, Z.ltb (pairwise X i j) inf = true) /\
    reachable m /\ (exists a b, result (add_constraint a b MUST_LINK 1%Q) m = Ok true /\ m' = fst (add_constraint a b MUST_LINK 1%Q m)) /\
    result (compute_predicted_clusters Z 2 (str "iteration"))
      (fst (cluster Z Z pairwise cdistance Z.ltb dsum ddiv inf mean (str "single") m vectors (Some 2%Z) (fresh_hier Z))) = Ok d /\
    respects m' d /\
    result (compute_predicted_clusters Z 2 (str "iteration"))
      (fst (cluster Z Z pairwise cdistance Z.ltb dsum ddiv inf mean (str "single") m' vectors (Some 2%Z) (fresh_hier Z))) = Ok d' /\
    ~ same_partition d d'.
Proof.
  exists gap, (fun x y => Z.abs (x - y)%Z), (fold_right Z.add 0%Z), (fun d n => (d / Z.of_nat n)%Z), 10000%Z, (fun l => nth 0 l 0%Z), four_new,
    (run [CallAddConstraint (str "a") (str "c") MUST_LINK 1%Q] four_new), [(str "a", 1); (str "b", 2); (str "c", 0); (str "d", 3)]%Z,
    [(str "a", 0); (str "b", 0); (str "c", 0); (str "d", 1)]%Z, [(str "a", 0); (str "b", 1); (str "c", 0); (str "d", 1)]%Z.
  split; [split; [split; [|split]|]; intros; rewrite ?Z.ltb_lt, ?Z.ltb_ge, ?Z.ltb_irrefl in *; try lia; auto|].
  split; [intros X i j; unfold gap; destruct (Nat.eqb_spec i j), (Nat.eqb_spec j i); subst; try congruence; lia|].
  split; [intros X i j; unfold gap; destruct (i =? j)%nat; apply Z.ltb_lt; lia|].
  split; [exact (run_reachable _ [])|]. split; [exists (str "a"), (str "c"); split; vm_compute; reflexivity|].
  split; [vm_compute; reflexivity|]. split.
  { split; intros a b Ma Mb Q; apply managed_four in Ma, Mb; simpl in Ma, Mb; repeat destruct Ma as [<-|Ma]; try tauto; repeat destruct Mb as [<-|Mb]; try tauto;
    vm_compute in Q; try discriminate; vm_compute; congruence. }
  split; [vm_compute; reflexivity|]. intros [_ P]. specialize (P (str "a") (str "b")). vm_compute in P. destruct P as [P _]; auto. specialize (P eq_refl). discriminate.
Qed.
