(** * Executing one round of KMeans. *)

From Coq Require Import String List Bool Arith ZArith Lia Permutation.
From Verif Require Import Base Manager Spec Closure ManagerProofs ManagerInv ManagerQueries ManagerThms
  Sampling SamplingSpec SamplingProofs SamplingThms Rename ClusterSpec RenameThms ClusterProofs KMeans KMeansSpec.
Import ListNotations.
Open Scope nat_scope.
Open Scope py_scope.

(** ** Lists. *)
Lemma pop_last_None {A} (l : list A) : pop_last l = None <-> l = [].
Proof.
  unfold pop_last. split; [|intros ->; auto]. destruct (rev l) eqn:E; [|discriminate]. intros _.
  apply (f_equal (@rev A)) in E. rewrite rev_involutive in E. auto.
Qed.
Lemma pop_last_Some {A} (l l' : list A) x : pop_last l = Some (l', x) <-> l = l' ++ [x].
Proof.
  unfold pop_last. split.
  - destruct (rev l) as [|y r] eqn:E; [discriminate|]. intro F. injection F; intros; subst.
    apply (f_equal (@rev A)) in E. rewrite rev_involutive in E. auto.
  - intros ->. rewrite rev_app_distr. simpl. rewrite rev_involutive. auto.
Qed.

Lemma list_remove_filter {K} `{EqB K} (x : K) l : NoDup l -> list_remove x l = filter (fun y => negb (eqb x y)) l.
Proof.
  induction 1 as [|y l N ND IH]; simpl; auto. destruct (eqb_spec x y); subst; simpl.
  - clear - N. induction l as [|z l IH]; simpl in *; auto. destruct (eqb_spec y z); subst; simpl; [tauto|].
    f_equal. apply IH. tauto.
  - f_equal; auto.
Qed.

Lemma filter_filter {A} (f g : A -> bool) l : filter f (filter g l) = filter (fun x => g x && f x) l.
Proof. induction l as [|x l IH]; simpl; auto. destruct (g x); simpl; [destruct (f x)|]; rewrite ?IH; auto. Qed.

Lemma filter_ext_In {A} (f g : A -> bool) l : (forall x, In x l -> f x = g x) -> filter f l = filter g l.
Proof. induction l as [|x l IH]; simpl; intro E; auto. rewrite (E x) by auto. rewrite IH; auto. Qed.

Lemma filter_all {A} (f : A -> bool) l : (forall x, In x l -> f x = true) -> filter f l = l.
Proof. induction l as [|x l IH]; simpl; intro E; auto. rewrite (E x) by auto. rewrite IH; auto. Qed.

Lemma before_filter {A} (f : A -> bool) l x y : before (filter f l) x y -> before l x y.
Proof.
  induction l as [|z l IH]; simpl; intro B.
  - destruct B as ([|] & ? & E & _); discriminate.
  - destruct (f z); [|apply before_cons; auto]. apply before_cons_inv in B. destruct B as [[-> J]|B].
    + apply before_head. apply filter_In in J. tauto.
    + apply before_cons; auto.
Qed.

Lemma py_min_In {A} (lt : A -> A -> bool) l : l <> [] -> exists k, py_min lt l = Ok k /\ In k l.
Proof.
  destruct l as [|x l]; [congruence|]. intros _. simpl. eexists; split; [reflexivity|].
  revert x. induction l as [|y l IH]; intro x; simpl; auto. destruct (lt y x).
  - destruct (IH y); auto.
  - destruct (IH x); auto.
Qed.

Lemma fold_min_least {A} (lt : A -> A -> bool) : strict_weak_order lt -> forall l x k,
  fold_left (fun best y => if lt y best then y else best) l x = k -> lt x k = false /\ forall y, In y l -> lt y k = false.
Proof.
  intros (Irr & Tr & Neg). induction l as [|y l IH]; intros x k E; simpl in *.
  - subst. split; auto. tauto.
  - apply IH in E. destruct E as [E1 E2]. destruct (lt y x) eqn:L.
    + split; [|intros z [<-|J]; auto].
      destruct (lt x k) eqn:F; auto. rewrite (Tr _ _ _ L F) in E1. auto.
    + split; auto. intros z [<-|J]; auto. destruct (lt y k) eqn:F; auto.
      destruct (Neg _ x _ F); congruence.
Qed.

Lemma py_min_least {A} (lt : A -> A -> bool) l k : strict_weak_order lt -> py_min lt l = Ok k -> forall y, In y l -> lt y k = false.
Proof.
  intros S. destruct l as [|x l]; simpl; [discriminate|]. intro E. injection E as E.
  destruct (fold_min_least lt S l x k E) as [E1 E2]. intros y [<-|J]; auto.
Qed.

Lemma py_max_Z_spec l : l <> [] -> exists k, py_max_Z l = Ok k /\ forall y, In y l -> (y <= k)%Z.
Proof.
  destruct l as [|x l]; [congruence|]. intros _. simpl. eexists; split; [reflexivity|].
  assert (G : forall l x, (x <= fold_left Z.max l x)%Z /\ forall y, In y l -> (y <= fold_left Z.max l x)%Z).
  { clear. induction l as [|y l IH]; intro x; simpl; [split; [lia|tauto]|].
    destruct (IH (Z.max x y)) as [H1 H2]. split; [lia|]. intros z [<-|J]; auto. lia. }
  destruct (G l x). intros y [<-|J]; auto.
Qed.

(** Dictionary built by [{f c: c for c in l}]: the last [c] wins. *)
Section LastWins.
  Context {K V : Type} `{EqB K}.
  Variable f : V -> K.
  Notation build := (fold_left (fun d c => dset (f c) c d)).
  Lemma build_keys l : forall d k, In k (keys (build l d)) <-> In k (keys d) \/ In k (map f l).
  Proof.
    induction l as [|c l IH]; intros d k; simpl; [tauto|]. rewrite IH, In_keys_dset. split.
    - intros [[E|E]|E]; auto.
    - intros [E|[E|E]]; auto.
  Qed.
  Lemma build_get l : forall d k, dget k (build l d) =
    match find (fun c => eqb (f c) k) (rev l) with Some c => Some c | None => dget k d end.
  Proof.
    induction l as [|c l IH]; intros d k; simpl; auto. rewrite IH.
    assert (E : find (fun c0 => eqb (f c0) k) (rev l ++ [c]) =
                match find (fun c0 => eqb (f c0) k) (rev l) with Some c0 => Some c0 | None => if eqb (f c) k then Some c else None end).
    { clear IH. generalize (rev l). intro rl. induction rl as [|z r IHr]; simpl; auto. destruct (eqb (f z) k); auto. }
    rewrite E. destruct (find (fun c0 => eqb (f c0) k) (rev l)); auto. rewrite dget_dset, eqb_sym.
    destruct (eqb (f c) k); auto.
  Qed.
  Lemma find_rev_last (P : V -> bool) l c : NoDup l -> find P (rev l) = Some c ->
    In c l /\ P c = true /\ forall c', In c' l -> P c' = true -> c' = c \/ before l c' c.
  Proof.
    induction l as [|z l IH]; intros ND E; simpl in *; [discriminate|]. inversion ND as [|? ? N ND']; subst.
    assert (X : find P (rev l ++ [z]) = match find P (rev l) with Some c0 => Some c0 | None => if P z then Some z else None end).
    { clear. generalize (rev l). intro rl. induction rl as [|y r IHr]; simpl; auto. destruct (P y); auto. }
    rewrite X in E. destruct (find P (rev l)) as [c0|] eqn:F.
    - injection E; intros; subst c0. destruct (IH ND' eq_refl) as (H1 & H2 & H3). split; auto. split; auto.
      intros c' [<-|J] Pc; [right; apply before_head; auto|]. destruct (H3 c' J Pc); auto using before_cons.
    - destruct (P z) eqn:Pz; [|discriminate]. injection E; intros; subst c. split; auto. split; auto.
      intros c' [<-|J] Pc; auto. exfalso.
      assert (X2 : P c' = false) by (apply (find_none _ _ F); rewrite <- in_rev; auto). congruence.
  Qed.
End LastWins.

Section Round.
  Context {vec D : Type} `{EqB D}.
  Variable pairwise : list vec -> list vec -> nat -> nat -> D.
  Variable ltb : D -> D -> bool.
  Variable m : mgr.
  Hypothesis I : Inv m.
  Variable vectors : dict pystr vec.
  Variable nb : nat.
  Notation inI x := (In x (ids m)).

  Lemma inferred_is_ml a b : inI a -> inI b -> inferred_is m a b MUST_LINK = Ok (ml m a b).
  Proof. intros. unfold inferred_is. rewrite ask_inferred; auto. Qed.
  Lemma inferred_is_cl a b : inI a -> inI b -> inferred_is m a b CANNOT_LINK = Ok (cl m a b).
  Proof. intros. unfold inferred_is. rewrite ask_inferred; auto. Qed.

  Definition label (d : dict pystr Z) (x : pystr) : Z := match dget x d with Some c => c | None => (-1)%Z end.
  Lemma label_get d x : keys d = ids m -> inI x -> dget x d = Some (label d x).
  Proof. intros K J. destruct (dget_total d _ x K J) as [v E]. unfold label. rewrite E. auto. Qed.
  Lemma label_lookup d x : keys d = ids m -> inI x -> dlookup x d = Ok (label d x).
  Proof. intros K J. apply dlookup_Some, label_get; auto. Qed.

  Lemma not_compatible_run new x : keys new = ids m -> inI x ->
    exists nc, not_compatible m (ids m) new x = Ok nc /\
      forall c, In c nc <-> exists y, inI y /\ label new y = c /\ c <> (-1)%Z /\ cl m x y = true.
  Proof.
    intros K X. unfold not_compatible.
    rewrite (rfilter_pure _ (fun y => if Z.eqb (label new y) (-1) then false else cl m x y)).
    2:{ intros y Y. rewrite label_lookup by auto. cbn [rbind]. destruct (Z.eqb (label new y) (-1)); auto.
        apply inferred_is_cl; auto. }
    cbn [rbind]. rewrite (rmap_pure _ (label new)).
    2:{ intros y Y. apply filter_In in Y. apply label_lookup; tauto. }
    eexists; split; [reflexivity|]. intro c. rewrite in_map_iff. split.
    - intros (y & <- & Y). apply filter_In in Y. destruct Y as [Y C]. exists y.
      destruct (Z.eqb_spec (label new y) (-1)); [discriminate|]. auto.
    - intros (y & Y & <- & N & C). exists y. split; auto. apply filter_In. split; auto.
      destruct (Z.eqb_spec (label new y) (-1)); [tauto|auto].
  Qed.

  Lemma propagate_aux x c l : inI x -> incl l (ids m) -> forall todo new, NoDup todo -> keys new = ids m -> label new x = c ->
    exists new', rfold (fun st y =>
               b <-- inferred_is m x y MUST_LINK ;;;
               if b then
                 c <-- dlookup x (snd st) ;;;
                 Ok (if mem y (fst st) then list_remove y (fst st) else fst st, dset y c (snd st))
               else Ok st) l (todo, new) = Ok (filter (fun y => negb (mem y l && ml m x y)) todo, new') /\
      keys new' = ids m /\ forall y, inI y -> label new' y = if mem y l && ml m x y then c else label new y.
  Proof.
    intros X. induction l as [|z l IH]; intros L todo new ND K C.
    - exists new. simpl. split; [|auto]. rewrite filter_all; auto.
    - assert (Z0 : inI z) by (apply L; left; auto). assert (L' : incl l (ids m)) by (intros y Y; apply L; right; auto).
      cbn [rfold]. rewrite inferred_is_ml by auto. cbn [rbind fst snd]. destruct (ml m x z) eqn:M0.
      + rewrite label_lookup by auto. rewrite C. cbn [rbind].
        assert (E : (if mem z todo then list_remove z todo else todo) = filter (fun y => negb (eqb z y)) todo).
        { destruct (mem z todo) eqn:MM; [apply list_remove_filter; auto|]. symmetry. apply filter_all.
          intros y Y. apply negb_true_iff, eqb_neq. intros ->. apply mem_nIn in MM. auto. }
        rewrite E.
        assert (K' : keys (dset z c new) = ids m) by (rewrite keys_dset_in; auto; rewrite K; auto).
        destruct (IH L' (filter (fun y => negb (eqb z y)) todo) (dset z c new)) as (new' & R & KK & G); auto.
        * apply NoDup_filter_list; auto.
        * unfold label. rewrite dget_dset. destruct (eqb_spec x z); auto.
        * exists new'. split; [|split; auto].
          -- rewrite R. f_equal. f_equal. rewrite filter_filter. apply filter_ext_In. intros y _. simpl.
             rewrite (eqb_sym y z). destruct (eqb_spec z y); subst; simpl; auto. rewrite M0. auto.
          -- intros y Y. rewrite G by auto. unfold label. rewrite dget_dset. simpl.
             destruct (eqb_spec y z); subst; simpl; [rewrite M0; destruct (mem z l); auto|auto].
      + cbn [rbind]. destruct (IH L' todo new ND K C) as (new' & R & KK & G).
        exists new'. split; [|split; auto].
        * rewrite R. f_equal. f_equal. apply filter_ext_In. intros y _. simpl.
          destruct (eqb_spec y z); subst; simpl; auto. rewrite M0, andb_false_r. auto.
        * intros y Y. rewrite G by auto. simpl. destruct (eqb_spec y z); subst; simpl; auto.
          rewrite M0, andb_false_r. auto.
  Qed.

  Lemma propagate_run x todo new : inI x -> NoDup todo -> incl todo (ids m) -> keys new = ids m ->
    exists new', propagate m (ids m) x todo new = Ok (filter (fun y => negb (ml m x y)) todo, new') /\
      keys new' = ids m /\ forall y, inI y -> label new' y = if ml m x y then label new x else label new y.
  Proof.
    intros X ND T K. destruct (propagate_aux x (label new x) (ids m) X (incl_refl _) todo new ND K eq_refl) as (new' & R & KK & G).
    exists new'. unfold propagate. rewrite R. split; [|split; auto].
    - f_equal. f_equal. apply filter_ext_In. intros y Y. assert (E : mem y (ids m) = true) by (apply mem_In; auto).
      rewrite E. auto.
    - intros y Y. rewrite G by auto. assert (E : mem y (ids m) = true) by (apply mem_In; auto). rewrite E. auto.
  Qed.

  (** The distance table. *)
  Definition good_table (centroids : dict Z vec) (table : dict pystr (dict Z D)) : Prop :=
    forall x, inI x -> exists row, dget x table = Some row /\
      forall c, In c (keys centroids) -> exists d, dget c row = Some d /\ distance_to pairwise (ids m) vectors centroids x c d.

  Lemma fold_dset_gen {E K V} `{EqB K} (key : E -> K) (f : E -> V) l : forall d0, NoDup (map key l) ->
    (forall e, In e l -> dget (key e) (fold_left (fun d e => dset (key e) (f e) d) l d0) = Some (f e)) /\
    (forall x, ~ In x (map key l) -> dget x (fold_left (fun d e => dset (key e) (f e) d) l d0) = dget x d0).
  Proof using Type.
    clear. induction l as [|e l IH]; intros d0 ND; simpl in *; [split; [tauto|auto]|]. inversion ND; subst.
    destruct (IH (dset (key e) (f e) d0)) as [G1 G2]; auto. split.
    - intros e' [->|J]; auto. rewrite G2 by auto. apply dget_dset_same.
    - intros x N. rewrite G2 by tauto. apply dget_dset_other. intros ->. tauto.
  Qed.

  Lemma rows_of : (forall x, inI x -> In x (keys vectors)) -> exists rows,
    rmap (fun x => dlookup x vectors) (ids m) = Ok rows /\ vectors_are vectors (ids m) rows.
  Proof.
    intro C. destruct (rmap_total (fun x => dlookup x vectors) (ids m)) as [rows R].
    { intros x X. apply dlookup_total; auto. }
    exists rows. split; auto. apply dlookup_map; auto.
  Qed.

  Lemma distance_table_run centroids : ids m <> [] -> (forall x, inI x -> In x (keys vectors)) ->
    NoDup (keys centroids) -> keys centroids <> [] ->
    exists table, distance_table vec D pairwise m vectors centroids = Ok table /\ good_table centroids table.
  Proof.
    intros NE C ND NC. destruct (rows_of C) as (rows & R & V). unfold distance_table. rewrite ask_managed.
    cbn [rbind]. rewrite R. cbn [rbind].
    assert (LR := rmap_length _ _ _ R).
    destruct rows as [|r0 rows]; [destruct (ids m); simpl in *; [congruence|discriminate]|].
    destruct (vals centroids) as [|v0 vs] eqn:EV; [destruct centroids; simpl in *; [congruence|discriminate]|].
    eexists; split; [reflexivity|].
    intros x X. destruct (In_nth_error _ _ X) as [i Ei].
    destruct (fold_dset_gen (fun e : nat * pystr => snd e) (fun e => fold_left (fun r e' => dset (snd e') (pairwise (r0 :: rows) (v0 :: vs) (fst e) (fst e')) r)
                           (enum (keys centroids)) []) (enum (ids m)) []) as [G _].
    { change (fun e : nat * pystr => snd e) with (@snd nat pystr). rewrite enum_snd. apply inv_nodup; auto. }
    specialize (G (i, x) (enum_In _ _ _ Ei)). cbn [fst snd] in G. eexists. split; [exact G|].
    intros c Cc. destruct (In_nth_error _ _ Cc) as [j Ej].
    destruct (fold_dset_gen (fun e : nat * Z => snd e) (fun e' => pairwise (r0 :: rows) (v0 :: vs) i (fst e')) (enum (keys centroids)) []) as [G2 _].
    { change (fun e : nat * Z => snd e) with (@snd nat Z). rewrite enum_snd. auto. }
    specialize (G2 (j, c) (enum_In _ _ _ Ej)). cbn [fst snd] in G2. eexists. split; [exact G2|].
    exists (r0 :: rows), i, j. rewrite EV. auto.
  Qed.

  (** Distances are functions. *)
  Lemma distance_to_fun centroids x c d d' : NoDup (keys centroids) ->
    distance_to pairwise (ids m) vectors centroids x c d -> distance_to pairwise (ids m) vectors centroids x c d' -> d = d'.
  Proof.
    intros ND (r1 & i1 & j1 & V1 & E1 & F1 & ->) (r2 & i2 & j2 & V2 & E2 & F2 & ->).
    assert (r1 = r2) by (apply map_Some_inj; unfold vectors_are in *; congruence). subst r2.
    assert (i1 = i2).
    { apply (proj1 (NoDup_nth_error (ids m)) (inv_nodup _ I)); [apply nth_error_Some; congruence|congruence]. }
    assert (j1 = j2).
    { apply (proj1 (NoDup_nth_error (keys centroids)) ND); [apply nth_error_Some; congruence|congruence]. }
    congruence.
  Qed.

  Lemma rfold_build (f : Z -> D) (g : Z -> res D) l : (forall c, In c l -> g c = Ok (f c)) -> forall d,
    rfold (fun d c => dist <-- g c ;;; Ok (dset dist c d)) l d = Ok (fold_left (fun d c => dset (f c) c d) l d).
  Proof.
    induction l as [|c l IH]; intros E d; simpl; auto. rewrite E by (left; auto). cbn [rbind]. apply IH.
    intros; apply E; right; auto.
  Qed.

  (** The chosen cluster. *)
  Lemma choose_run centroids table new x : NoDup (keys centroids) -> good_table centroids table ->
    keys new = ids m -> inI x ->
    let blk c := exists y, inI y /\ label new y = c /\ c <> (-1)%Z /\ cl m x y = true in
    exists c, choose_cluster vec D ltb m (ids m) nb centroids table new x = Ok c /\
      ((In c (keys centroids) /\ ~ blk c /\
        (strict_weak_order ltb -> forall c' d d', distance_to pairwise (ids m) vectors centroids x c d ->
           distance_to pairwise (ids m) vectors centroids x c' d' ->
           ltb d' d = true \/ (d' = d /\ before (keys centroids) c c') -> blk c'))
       \/
       ((forall c', In c' (keys centroids) -> blk c') /\ (0 <= c)%Z /\ forall y, inI y -> (label new y < c)%Z)).
  Proof.
    intros ND GT K X blk. unfold choose_cluster.
    destruct (not_compatible_run new x K X) as (nc & R & NC). rewrite R. cbn [rbind].
    set (possible := filter (fun c => negb (mem c nc)) (keys centroids)).
    assert (P : forall c, In c possible <-> In c (keys centroids) /\ ~ blk c).
    { intro c. unfold possible, blk. rewrite filter_In, negb_true_iff, mem_nIn, NC. tauto. }
    assert (NP : NoDup possible) by (apply NoDup_filter_list; auto).
    assert (Bl : forall c, In c (keys centroids) -> ~ In c possible -> blk c).
    { intros c Cc N. unfold possible in N. rewrite filter_In, negb_true_iff, mem_nIn in N. unfold blk. rewrite <- NC.
      destruct (mem c nc) eqn:E; [apply mem_In; auto|apply mem_nIn in E; tauto]. }
    destruct possible as [|c0 ps] eqn:EP.
    - assert (NE : vals new <> []).
      { intro E. destruct new; [|discriminate]. simpl in K. rewrite <- K in X. destruct X. }
      destruct (py_max_Z_spec _ NE) as (mx & -> & MX). cbn [rbind]. eexists. split; [reflexivity|]. right.
      split; [|split].
      + intros c' C'. apply Bl; auto.
      + lia.
      + intros y Y. assert (E := label_get new y K Y). apply dget_vals in E. apply MX in E. lia.
    - rewrite <- EP in *. assert (NEP : possible <> []) by congruence. clear c0 ps EP.
      destruct (GT x X) as (row & Er & Grow).
      set (f := fun c => match dget c row with Some d => d | None => pairwise [] [] 0 0 end).
      assert (Hf : forall c, In c (keys centroids) -> dget c row = Some (f c) /\ distance_to pairwise (ids m) vectors centroids x c (f c)).
      { intros c Cc. destruct (Grow c Cc) as (d & E & Dd). unfold f. rewrite E. auto. }
      assert (RB : rfold (fun d c => row <-- dlookup x table ;;; dist <-- dlookup c row ;;; Ok (dset dist c d)) possible [] =
                   Ok (fold_left (fun d c => dset (f c) c d) possible [])).
      { rewrite (rfold_ext _ (fun d c => dist <-- dlookup c row ;;; Ok (dset dist c d))).
        - apply rfold_build. intros c Cc. apply P in Cc. apply dlookup_Some. apply Hf; tauto.
        - intros d c. rewrite (dlookup_Some _ _ Er). reflexivity. }
      rewrite RB. cbn [rbind]. clear RB R NC.
      set (dd := fold_left (fun d c => dset (f c) c d) possible []).
      destruct (py_min_In ltb (keys dd)) as (k & Ek & Ik).
      { destruct possible as [|c0 ps]; [congruence|]. intro E.
        assert (J : In (f c0) (keys dd)) by (apply build_keys; right; left; auto). rewrite E in J. destruct J. }
      rewrite Ek. cbn [rbind]. destruct (dget_In_key k dd Ik) as [c Ec]. rewrite (dlookup_Some _ _ Ec).
      exists c. split; auto. left.
      unfold dd in Ec. rewrite build_get in Ec. simpl in Ec.
      destruct (find (fun c0 => eqb (f c0) k) (rev possible)) as [c1|] eqn:F; [|discriminate]. injection Ec; intros; subst c1.
      apply find_rev_last in F; auto. destruct F as (F1 & F2 & F3). apply eqb_eq in F2.
      apply P in F1. destruct F1 as [F1 F1']. split; auto. split; auto.
      intros SWO c' d d' D1 D2 L.
      destruct (Hf c F1) as [_ Dc]. assert (d = k) by (rewrite <- F2; eapply distance_to_fun; eauto). subst d.
      assert (C' : In c' (keys centroids)).
      { destruct D2 as (? & ? & ? & _ & _ & E & _). apply nth_error_In in E. auto. }
      apply Bl; auto. intro Pc.
      destruct (Hf c' C') as [_ Dc']. assert (d' = f c') by (eapply distance_to_fun; eauto). subst d'.
      destruct L as [L|[L B]].
      + rewrite (py_min_least _ _ _ SWO Ek) in L; [discriminate|]. apply build_keys. right. apply in_map; auto.
      + destruct (F3 c' Pc) as [->|B']; [apply eqb_eq; auto| |].
        * eapply before_asym; [exact ND| |]; exact B.
        * apply before_filter in B'. eapply before_asym; [exact ND| |]; eauto.
  Qed.
End Round.
