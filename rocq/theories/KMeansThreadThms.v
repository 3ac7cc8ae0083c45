(** * Threads that cluster with KMeans while one thread adds constraints (C154). *)

From Coq Require Import String List Bool Arith ZArith QArith Lia Permutation.
(*HEADER
From Coq Require Import String List Bool Arith ZArith QArith Permutation Lia.
From Verif Require Import Base Manager Spec ManagerThms ManagerInv ManagerQueries Sampling SamplingSpec ClusterSpec KMeans KMeansSpec Threads ThreadSpec ThreadsThms Readers ReadersSpec ReadersThms ListingSpec
  SampleThread KMeansThread KMeansThreadSpec KMeansThreadThms.
Import ListNotations.
Open Scope nat_scope.

Definition A := str "a". Definition B := str "b". Definition C := str "c".

HEADER*)
From Verif Require Import Base Manager Spec Closure ManagerProofs ManagerInv ManagerQueries ManagerSem ManagerThms Sampling SamplingSpec SamplingProofs SamplingThms
  Rename ClusterSpec RenameThms ClusterProofs KMeans KMeansSpec KMeansProofs KMeansRun KMeansThms
  Threads ThreadSpec ThreadsThms Readers ReadersSpec ReadersThms Listing ListingSpec ListingThms SampleThread SampleThreadThms KMeansThread KMeansThreadSpec.
Import ListNotations.
Open Scope nat_scope.

Lemma filter_shorter {T} (f : T -> bool) l : length (filter f l) <= length l.
Proof. induction l as [|x l IH]; cbn; auto. destruct (f x); cbn; lia. Qed.

(** ** Alone *)
Lemma alone_inferred m a b : Inv m -> alone (p_get_inferred_constraint a b) m = (m, ask (get_inferred_constraint a b) m).
Proof. intro I. rewrite does_inferred. unfold ask. rewrite run_inferred by auto. reflexivity. Qed.
Lemma alone_inferred_is m a b t : Inv m -> alone (p_inferred_is a b t) m = (m, inferred_is m a b t).
Proof.
  intro I. unfold p_inferred_is, inferred_is. rewrite alone_bind, alone_inferred by auto. destruct (ask (get_inferred_constraint a b) m); reflexivity.
Qed.
Lemma alone_fold {A S} (f : S -> A -> prog S) (g : S -> A -> res S) l m : (forall s x, alone (f s x) m = (m, g s x)) -> forall s, alone (pfold f l s) m = (m, rfold g l s).
Proof.
  intro E. induction l as [|x l IH]; intro s; cbn [pfold rfold]; [reflexivity|]. rewrite alone_bind, E. destruct (g s x); cbn [rbind]; auto.
Qed.
Lemma alone_not_compatible m l new x : Inv m -> alone (p_not_compatible l new x) m = (m, not_compatible m l new x).
Proof.
  intro I. unfold p_not_compatible, not_compatible. rewrite alone_bind.
  rewrite (alone_filter _ (fun y => rbind (dlookup y new) (fun c => if Z.eqb c (-1) then Ok false else inferred_is m x y CANNOT_LINK))).
  - destruct (rfilter _ l); reflexivity.
  - intros y _. destruct (dlookup y new) as [c|]; [|reflexivity]. cbn [pbind rbind]. destruct (Z.eqb c (-1)); [reflexivity|]. apply alone_inferred_is; auto.
Qed.
Lemma alone_propagate m l x todo new : Inv m -> alone (p_propagate l x todo new) m = (m, propagate m l x todo new).
Proof.
  intro I. unfold p_propagate, propagate. apply alone_fold. intros s y. rewrite alone_bind, alone_inferred_is by auto.
  destruct (inferred_is m x y MUST_LINK) as [[]|]; reflexivity.
Qed.

Section Alone.
  Context {vec D : Type} `{EqB D}.
  Variable pairwise : list vec -> list vec -> nat -> nat -> D.
  Variable ltb : D -> D -> bool.
  Variable dsum : list D -> D.
  Variable mean : list vec -> vec.
  Variable shuffle : list pystr -> list pystr.
  Variable set_order : list Z -> list Z.

  Lemma alone_assign_loop m l nb fuel centroids table : Inv m -> forall todo new,
    alone (p_assign_loop vec D ltb l nb fuel centroids table todo new) m = (m, assign_loop vec D ltb m l nb fuel centroids table todo new).
  Proof.
    intro I. induction fuel as [|fuel IH]; intros todo new; cbn [p_assign_loop assign_loop]; destruct (pop_last todo) as [[todo' x]|]; try reflexivity.
    rewrite alone_bind, alone_not_compatible by auto. unfold choose_cluster. destruct (not_compatible m l new x) as [nc|]; [|reflexivity]. cbn [rbind].
    change (match filter (fun c => negb (mem c nc)) (keys centroids) with [] => _ | _ => _ end) with (choose_among vec D ltb nb centroids table new x nc).
    destruct (choose_among vec D ltb nb centroids table new x nc) as [c|]; [|reflexivity]. cbn [pbind rbind].
    rewrite alone_bind, alone_propagate by auto. destruct (propagate m l x todo' (dset x c new)) as [st|]; [|reflexivity]. apply IH.
  Qed.

  Lemma alone_iterate m p l vectors nb rounds : Inv m -> forall clusters centroids last conv s, k_clusters vec s = clusters -> k_centroids vec s = centroids ->
    exists s' r, iterate vec D pairwise ltb dsum mean set_order p m l vectors nb rounds last conv s = (s', r) /\
      alone (p_iterate vec D pairwise ltb dsum mean set_order p l vectors nb rounds clusters centroids last conv) m = (m, rbind r (fun x => Ok (x, k_clusters vec s'))).
  Proof.
    intro I. induction rounds as [|n IH]; intros clusters centroids last conv s <- <-; cbn [iterate p_iterate]; destruct conv; try (eexists; eexists; split; reflexivity).
    unfold bind at 1, gets at 1. unfold bind at 1, gets at 1. unfold bind at 1, lift at 1. unfold p_assign, assign. rewrite alone_bind. cbn [pread pbind alone].
    destruct (distance_table vec D pairwise m vectors (k_centroids vec s)) as [table|]; cbn [pbind rbind alone]; [|eexists; eexists; split; reflexivity].
    rewrite alone_assign_loop by auto. destruct (assign_loop _ _ _ _ _ _ _ _ _ _ _) as [raw|]; [|eexists; eexists; split; reflexivity].
    unfold bind at 1, lift at 1. cbn [alone pbind].
    destruct (compute_centroids vec mean set_order m vectors raw) as [nc|]; cbn [pbind alone]; [|eexists; eexists; split; reflexivity].
    unfold bind at 1, lift at 1. destruct (has_converged _ _ _ _ _ _ _ _ _ _) as [b|]; cbn [pbind alone]; [|eexists; eexists; split; reflexivity].
    unfold bind at 1, modify at 1. unfold bind at 1, modify at 1. apply IH; reflexivity.
  Qed.
End Alone.

(** ** The answers do not change when only CANNOT_LINK constraints are added, except from nothing to CANNOT_LINK *)
Lemma cannot_keeps_stored m a b v p q : Inv m -> stored (cdict (fst (exec (CallAddConstraint a b CANNOT_LINK v) m))) MUST_LINK p q <-> stored (cdict m) MUST_LINK p q.
Proof.
  intro I. cbn [exec]. unfold bind. destruct (accepts m a b CANNOT_LINK) eqn:A.
  - destruct (run_add_constraint m a b CANNOT_LINK v I A) as (m' & E & _ & _ & S & Q). rewrite E. cbn [fst ret]. destruct (addf m a b) as [c|] eqn:F.
    + rewrite Q by congruence. tauto.
    + unfold stored. rewrite S. destruct (same_pair a b p q) eqn:SP; [|tauto]. unfold same_pair in SP. apply andb_true_iff in SP as [E1 E2]. apply eqb_eq in E1, E2. subst p q.
      split; intros [w X]; [injection X as X _; discriminate|]. rewrite addf_lo_hi in F. rewrite X in F. discriminate.
  - rewrite (run_add_constraint_raise m a b CANNOT_LINK v I A). tauto.
Qed.

Section Clustering.
  Variable m0 : mgr.
  Variable cs : list wcall.
  Hypothesis R0 : reachable m0.
  Hypothesis AC : Forall only_adds_constraints cs.
  Notation N := (ReadersThms.N m0 cs).
  Notation here := (SampleThreadThms.here m0 cs).
  Notation inI x := (In x (ids m0)).

  Lemma inferred_answer a b lo r hi : inI a -> inI b -> watch here lo (p_get_inferred_constraint a b) r hi -> exists n, r = Ok (infer (N n) a b).
  Proof.
    intros Ia Ib W. apply (watch_impl here (seen m0 cs)) in W; [|intros ? ? [? _]; auto].
    apply (inferred_right m0 cs R0 (adds cs AC)) in W as (n & _ & _ & ->). exists n. rewrite run_inferred by (apply N_inv; auto).
    replace (both (N n) a b) with true by (symmetry; apply both_true; rewrite (N_ids m0 cs R0 AC); auto). reflexivity.
  Qed.
  Lemma inferred_is_answer a b t lo r hi : inI a -> inI b -> watch here lo (p_inferred_is a b t) r hi -> exists n, r = Ok (opt_is (infer (N n) a b) t).
  Proof.
    intros Ia Ib W. unfold p_inferred_is in W. apply watch_bind in W as (x & n1 & W1 & W2). apply inferred_answer in W1 as [n ->]; auto.
    apply watch_done_inv in W2 as [-> _]. exists n. auto.
  Qed.

  (** What was CANNOT_LINK stays so. *)
  Lemma cl_stays n a b : inI a -> inI b -> cl m0 a b = true -> cl (N n) a b = true.
  Proof.
    intros Ia Ib C. assert (In_ : Inv (N n)) by (apply N_inv; auto). apply cl_spec in C. apply cl_spec. unfold infer in C.
    destruct (dget b (ctrans m0)) as [e|] eqn:E; [|discriminate]. destruct (mem a (t_ml e)); [discriminate|]. destruct (mem a (t_cl e)) eqn:M; [|discriminate].
    destruct (N_below m0 cs R0 (adds cs AC) 0 n (Nat.le_0_l _) b e E) as (e' & E' & _ & Q). apply mem_In, Q, mem_In in M.
    assert (IA : In a (ids (N n))) by (rewrite (N_ids m0 cs R0 AC); auto). assert (IB : In b (ids (N n))) by (rewrite (N_ids m0 cs R0 AC); auto).
    unfold infer. rewrite E', M. destruct (mem a (t_ml e')) eqn:M2; auto. exfalso. apply mem_In in M, M2. assert (Rp := inv_rep _ In_).
    apply (rep_excl (N n) a b In_).
    - apply (infer_ML (N n) a b); auto. unfold infer. rewrite E'. apply mem_In in M2. rewrite M2. auto.
    - apply separated_sym. apply (rep_cl _ _ _ Rp b e' E'). auto.
  Qed.
  Lemma ml_stays n a b : inI a -> inI b -> ml m0 a b = true -> ml (N n) a b = true.
  Proof.
    intros Ia Ib C. apply ml_spec in C. apply ml_spec. unfold infer in *.
    destruct (dget b (ctrans m0)) as [e|] eqn:E; [|discriminate]. destruct (mem a (t_ml e)) eqn:M; [|destruct (mem a (t_cl e)); discriminate].
    destruct (N_below m0 cs R0 (adds cs AC) 0 n (Nat.le_0_l _) b e E) as (e' & E' & Q & _). apply mem_In, Q, mem_In in M. rewrite E', M. auto.
  Qed.

  Lemma ml_same n a b : no_new_links m0 (N (length cs)) -> inI a -> inI b -> ml (N n) a b = ml m0 a b.
  Proof.
    intros NL Ia Ib. apply eq_true_iff_eq. split; [|apply ml_stays; auto]. intro M.
    assert (X : forall x k, In x (ids m0) -> In x (ids (N k))) by (intros; rewrite (N_ids m0 cs R0 AC); auto).
    apply (inferred_ml m0 (reachable_inv _ R0)); auto. apply NL. apply inferred_ml; auto; [apply N_inv; auto|].
    destruct (Nat.le_gt_cases n (length cs)) as [L|L]; [|rewrite (N_end m0 cs n) in M by lia; auto].
    apply ml_spec in M. apply ml_spec. unfold infer in *.
    destruct (dget b (ctrans (N n))) as [e|] eqn:E; [|discriminate]. destruct (mem a (t_ml e)) eqn:Mm; [|destruct (mem a (t_cl e)); discriminate].
    destruct (N_below m0 cs R0 (adds cs AC) n (length cs) L b e E) as (e' & E' & Q & _). apply mem_In, Q, mem_In in Mm. rewrite E', Mm. auto.
  Qed.
  Lemma cannot_links_only : Forall only_adds_cannot_links cs -> no_new_links m0 (N (length cs)).
  Proof.
    intros OC. assert (G : forall n a b, inI a -> inI b -> ml (N n) a b = true -> ml m0 a b = true).
    { intros n a b Ia Ib. induction n as [|n IH]; [auto|]. intro M. apply IH. clear IH. destruct (nth_error cs n) as [c|] eqn:E.
      - assert (X : exists a b v, c = WAdd a b CANNOT_LINK v).
        { rewrite Forall_forall in OC. apply nth_error_In, OC in E. destruct c; cbn in E; try tauto. subst. eauto. }
        destruct X as (x & y & v & ->). assert (I1 : Inv (N n)) by (apply N_inv; auto). assert (I2 : Inv (N (S n))) by (apply N_inv; auto).
        assert (Q : forall p q, stored (cdict (N (S n))) MUST_LINK p q <-> stored (cdict (N n)) MUST_LINK p q).
        { intros p q. rewrite (N_step m0 cs n _ E). apply cannot_keeps_stored; auto. }
        rewrite ml_linked in * by (auto; rewrite (N_ids m0 cs R0 AC); auto). revert M. apply linked_mono; intros p q H; left; apply Q; auto.
      - apply nth_error_None in E. rewrite (N_end m0 cs (S n)), <- (N_end m0 cs n) in M by lia. auto. }
    intros a b Hh. assert (I1 : Inv (N (length cs))) by (apply N_inv; auto). destruct (inferred_inI _ I1 _ _ _ Hh) as [A B]. apply inferred_ml in Hh; auto.
    rewrite (N_ids m0 cs R0 AC) in A, B. apply (inferred_ml m0 (reachable_inv _ R0)); auto. apply (G (length cs)); auto.
  Qed.

  Lemma filter_dones (f : pystr -> prog bool) (P : pystr -> bool -> Prop) l lo r hi :
    (forall y lo r hi, In y l -> watch here lo (f y) r hi -> exists b, r = Ok b /\ P y b) -> watch here lo (pfilter f l) r hi ->
    exists l', r = Ok l' /\ incl l' l /\ forall y, In y l -> ~ In y l' -> P y false.
  Proof.
    intro F. revert lo r hi. induction l as [|y l IH]; intros lo r hi W; cbn [pfilter] in W.
    - apply watch_done_inv in W as [-> _]. exists []. split; auto. split; [apply incl_refl|]. intros ? [].
    - apply watch_bind in W as (x & n1 & W1 & W2). apply F in W1 as (b & -> & Pb); [|left; auto].
      apply watch_bind in W2 as (x & n2 & W2 & W3). apply IH in W2 as (l' & -> & I1 & I2); [|intros; eapply F; [right|]; eauto].
      apply watch_done_inv in W3 as [-> _]. exists (if b then y :: l' else l'). split; auto. split.
      + destruct b; [apply incl_cons; [left; auto|apply incl_tl; auto]|apply incl_tl; auto].
      + intros z [<-|J] Nz; [destruct b; auto; destruct Nz; left; auto|]. apply I2; auto. intro Jz. apply Nz. destruct b; [right|]; auto.
  Qed.

  Lemma not_compatible_right new x lo r hi : keys new = ids m0 -> inI x -> watch here lo (p_not_compatible (ids m0) new x) r hi ->
    exists nc, r = Ok nc /\ forall y, inI y -> label new y <> (-1)%Z -> cl m0 x y = true -> In (label new y) nc.
  Proof.
    intros K X W. unfold p_not_compatible in W. apply watch_bind in W as (u & n1 & W1 & W2).
    apply (filter_dones _ (fun y b => label new y <> (-1)%Z -> cl m0 x y = true -> b = true)) in W1 as (l & -> & I1 & I2).
    - rewrite (rmap_pure _ (label new)) in W2. 2:{ intros y J. apply (label_lookup m0); auto. }
      apply watch_done_inv in W2 as [-> _]. eexists; split; [reflexivity|]. intros y Y L C. apply in_map.
      destruct (mem y l) eqn:M; [apply mem_In; auto|]. apply mem_nIn in M. discriminate (I2 y Y M L C).
    - intros y lo' r' hi' Y W. rewrite (label_lookup m0) in W by auto. cbn [pbind] in W. destruct (Z.eqb_spec (label new y) (-1)).
      + apply watch_done_inv in W as [-> _]. exists false. split; [auto|tauto].
      + apply inferred_is_answer in W as [n0 ->]; auto. eexists. split; [reflexivity|]. intros _ C. apply (cl_stays n0) in C; auto.
  Qed.

  Lemma propagate_right x c l : inI x -> incl l (ids m0) -> NoDup l -> forall todo new lo r hi, NoDup todo -> keys new = ids m0 -> label new x = c ->
    watch here lo (p_propagate l x todo new) r hi ->
    exists f new', r = Ok (filter (fun y => negb (mem y l && f y)) todo, new') /\ keys new' = ids m0 /\
      (forall y, inI y -> label new' y = if mem y l && f y then c else label new y) /\ forall y, In y l -> exists n, f y = ml (N n) x y.
  Proof.
    intros X. induction l as [|z l IH]; intros L NDl todo new lo r hi ND K C W; unfold p_propagate in W; cbn [pfold] in W.
    - apply watch_done_inv in W as [-> _]. exists (fun _ => false), new. simpl. rewrite filter_all by auto. split; auto. split; auto. split; auto. intros ? [].
    - assert (Z0 : inI z) by (apply L; left; auto). assert (L' : incl l (ids m0)) by (intros y Y; apply L; right; auto). inversion NDl as [|? ? Nz NDl']; subst.
      apply watch_bind in W as (u & n1 & W1 & W2). apply watch_bind in W1 as (b & n2 & W0 & W1). apply inferred_is_answer in W0 as [n0 ->]; auto.
      change (opt_is (infer (N n0) x z) MUST_LINK) with (ml (N n0) x z) in W1. cbn [fst snd] in W1.
      assert (NM : mem z l = false) by (apply mem_nIn; auto). destruct (ml (N n0) x z) eqn:M0.
      + rewrite (label_lookup m0) in W1 by auto. cbn [rbind] in W1. apply watch_done_inv in W1 as [-> ->].
        assert (E : (if mem z todo then list_remove z todo else todo) = filter (fun y => negb (eqb z y)) todo).
        { destruct (mem z todo) eqn:MM; [apply list_remove_filter; auto|]. symmetry. apply filter_all.
          intros y Y. apply negb_true_iff, eqb_neq. intros ->. apply mem_nIn in MM. auto. }
        rewrite E in W2. change (pfold _ l (?a, ?b)) with (p_propagate l x a b) in W2.
        assert (K' : keys (dset z (label new x) new) = ids m0) by (rewrite keys_dset_in; auto; rewrite K; auto).
        apply IH in W2 as (f & new' & -> & KK & G & Fn); auto.
        * exists (fun y => if eqb y z then true else f y), new'. split; [|split; [auto|split]].
          -- f_equal. f_equal. rewrite filter_filter. apply filter_ext_In. intros y _. simpl.
             rewrite (eqb_sym y z). destruct (eqb_spec z y); subst; simpl; auto.
          -- intros y Y. rewrite G by auto. unfold label. rewrite dget_dset. simpl.
             destruct (eqb_spec y z); subst; simpl; [destruct (mem z l && f z); auto|auto].
          -- intros y [<-|Y]; [rewrite eqb_refl; exists n0; auto|]. destruct (eqb_spec y z); [subst; tauto|]. auto.
        * apply NoDup_filter_list; auto.
        * unfold label. rewrite dget_dset. destruct (eqb_spec x z); auto.
      + apply watch_done_inv in W1 as [-> ->]. change (pfold _ l (?a, ?b)) with (p_propagate l x a b) in W2.
        apply IH in W2 as (f & new' & -> & KK & G & Fn); auto.
        exists (fun y => if eqb y z then false else f y), new'. split; [|split; [auto|split]].
        * f_equal. f_equal. apply filter_ext_In. intros y _. simpl. destruct (eqb_spec y z); subst; simpl; auto. rewrite NM. auto.
        * intros y Y. rewrite G by auto. simpl. destruct (eqb_spec y z); subst; simpl; auto. rewrite NM. auto.
        * intros y [<-|Y]; [rewrite eqb_refl; exists n0; auto|]. destruct (eqb_spec y z); [subst; tauto|]. auto.
  Qed.

  Context {vec D : Type} `{EqB D}.
  Variable pairwise : list vec -> list vec -> nat -> nat -> D.
  Variable ltb : D -> D -> bool.
  Variable dsum : list D -> D.
  Variable mean : list vec -> vec.
  Variable shuffle : list pystr -> list pystr.
  Variable set_order : list Z -> list Z.
  Hypothesis SO : valid_set_order set_order.
  Hypothesis SH : valid_shuffle shuffle.
  Variable p : kparams D.
  Variable vectors : dict pystr vec.
  Hypothesis NE : ids m0 <> [].
  Hypothesis COV : forall x, inI x -> In x (keys vectors).
  Variable nb : nat.

  Lemma choose_among_ok centroids table new x nc : good_table pairwise m0 vectors centroids table -> (forall c, In c (keys centroids) -> (0 <= c)%Z) -> keys new = ids m0 -> inI x ->
    exists c, choose_among vec D ltb nb centroids table new x nc = Ok c /\ (0 <= c)%Z /\ (~ In c nc \/ forall y, inI y -> (label new y < c)%Z).
  Proof.
    intros GT POS K X. unfold choose_among. set (possible := filter (fun c => negb (mem c nc)) (keys centroids)).
    assert (P : forall c, In c possible -> In c (keys centroids) /\ ~ In c nc) by (intros c J; apply filter_In in J as [J1 J2]; rewrite negb_true_iff, mem_nIn in J2; auto).
    destruct possible as [|c0 ps] eqn:EP.
    - assert (NV : vals new <> []). { intro E. destruct new; [|discriminate]. simpl in K. rewrite <- K in X. destruct X. }
      destruct (py_max_Z_spec _ NV) as (mx & -> & MX). cbn [rbind]. eexists. split; [reflexivity|]. split; [lia|]. right.
      intros y Y. assert (E := label_get m0 new y K Y). apply dget_vals in E. apply MX in E. lia.
    - rewrite <- EP in *. assert (NEP : possible <> []) by congruence. clear c0 ps EP. destruct (GT x X) as (row & Er & Grow).
      set (f := fun c => match dget c row with Some d => d | None => pairwise [] [] 0 0 end).
      assert (RB : rfold (fun d c => rbind (dlookup x table) (fun row => rbind (dlookup c row) (fun dist => Ok (dset dist c d)))) possible [] =
                   Ok (fold_left (fun d c => dset (f c) c d) possible [])).
      { rewrite (rfold_ext _ (fun d c => rbind (dlookup c row) (fun dist => Ok (dset dist c d)))).
        - apply (rfold_build f (fun c => dlookup c row)). intros c Cc. apply P in Cc as [Cc _]. destruct (Grow c Cc) as (d & E & _). apply dlookup_Some. unfold f. rewrite E. auto.
        - intros d c. rewrite (dlookup_Some _ _ Er). reflexivity. }
      rewrite RB. cbn [rbind]. set (dd := fold_left (fun d c => dset (f c) c d) possible []).
      destruct (py_min_In ltb (keys dd)) as (k & Ek & Ik).
      { destruct possible as [|c0 ps]; [congruence|]. intro E. assert (J : In (f c0) (keys dd)) by (apply build_keys; right; left; auto). rewrite E in J. destruct J. }
      rewrite Ek. cbn [rbind]. destruct (dget_In_key k dd Ik) as [c Ec]. rewrite (dlookup_Some _ _ Ec). exists c. split; auto.
      unfold dd in Ec. rewrite build_get in Ec. simpl in Ec. destruct (find (fun c0 => eqb (f c0) k) (rev possible)) as [c1|] eqn:F; [|discriminate]. injection Ec; intros; subst c1.
      apply find_some in F as [F _]. apply in_rev in F. apply P in F as [F1 F2]. auto.
  Qed.

  (** What holds while the data are assigned. *)
  Record assigning (todo : list pystr) (new : dict pystr Z) : Prop := {
    as_nodup : NoDup todo;
    as_incl : incl todo (ids m0);
    as_keys : keys new = ids m0;
    as_done : forall y, inI y -> ~ In y todo -> (0 <= label new y)%Z;
    as_todo : no_new_links m0 (N (length cs)) -> forall y, In y todo -> label new y = (-1)%Z;
    as_ml : no_new_links m0 (N (length cs)) -> forall y z, inI y -> inI z -> ml m0 y z = true -> label new y = label new z;
    as_cl : no_new_links m0 (N (length cs)) -> forall y z, inI y -> inI z -> cl m0 y z = true -> (0 <= label new y)%Z -> label new y <> label new z }.

  Definition round_result (raw : dict pystr Z) : Prop :=
    keys raw = ids m0 /\ (forall c, In c (vals raw) -> (0 <= c)%Z) /\ (no_new_links m0 (N (length cs)) -> respects m0 raw).

  Lemma assigning_start : assigning (ids m0) (dcomp (fun _ => (-1)%Z) (ids m0)).
  Proof.
    assert (I0 := reachable_inv _ R0). assert (ND := inv_nodup _ I0).
    assert (LB : forall y, label (dcomp (fun _ => (-1)%Z) (ids m0)) y = (-1)%Z).
    { intro y. unfold label, dcomp. generalize (dedup (ids m0)). intro l. induction l as [|z l IH]; cbn; auto. destruct (eqb y z); auto. }
    split; auto; try (intros; rewrite !LB in *; auto; lia).
    - apply incl_refl.
    - unfold dcomp. rewrite dedup_id by auto. unfold keys. rewrite map_map. cbn. apply map_id.
    - intros y Y F. destruct (F Y).
  Qed.

  Lemma assigned new : assigning [] new -> round_result new.
  Proof.
    intros [_ _ K DN _ ML CL]. assert (I0 := reachable_inv _ R0). split; auto. split.
    - intros c C. apply vals_dget in C; [|rewrite K; apply inv_nodup; auto]. destruct C as [y E]. assert (Y : inI y) by (rewrite <- K; eapply dget_Some_key; eauto).
      assert (Q := DN y Y (fun x => x)). rewrite (label_get m0) in E by auto. injection E as <-. auto.
    - intro OC. split.
      + intros a b A B Hh. apply managed_ids in A. apply managed_ids in B. apply inferred_ml in Hh; auto. rewrite !(label_get m0) by auto. f_equal. apply ML; auto.
      + intros a b A B Hh. apply managed_ids in A. apply managed_ids in B. apply inferred_cl in Hh; auto. rewrite !(label_get m0) by auto. intro E. injection E. apply CL; auto.
  Qed.

  Lemma assign_loop_right centroids table : good_table pairwise m0 vectors centroids table -> (forall c, In c (keys centroids) -> (0 <= c)%Z) ->
    forall fuel todo new lo r hi, length todo <= fuel -> assigning todo new ->
    watch here lo (p_assign_loop vec D ltb (ids m0) nb fuel centroids table todo new) r hi -> exists raw, r = Ok raw /\ round_result raw.
  Proof.
    intros GT POS. assert (I0 := reachable_inv _ R0).
    induction fuel as [|fuel IH]; intros todo new lo r hi Lf A W; cbn [p_assign_loop] in W; destruct (pop_last todo) as [[todo' x]|] eqn:P.
    - apply pop_last_Some in P. subst. rewrite app_length in Lf. cbn in Lf. lia.
    - apply pop_last_None in P. subst. apply watch_done_inv in W as [-> _]. exists new. split; auto. apply assigned; auto.
    - apply pop_last_Some in P. subst todo. destruct A as [ND IN K DN TD ML CL].
      assert (X : inI x) by (apply IN, in_or_app; right; left; auto). apply NoDup_remove in ND as [ND NX]. rewrite app_nil_r in ND, NX.
      apply watch_bind in W as (u & n1 & W1 & W). apply not_compatible_right in W1 as (nc & -> & NC); auto.
      destruct (choose_among_ok centroids table new x nc GT POS K X) as (c & Ec & Pc & Hc). rewrite Ec in W. cbn [pbind] in W.
      apply watch_bind in W as (st & n2 & W1 & W).
      assert (K' : keys (dset x c new) = ids m0) by (rewrite keys_dset_in; auto; rewrite K; auto).
      assert (LX : forall y, label (dset x c new) y = if eqb y x then c else label new y) by (intro y; unfold label; rewrite dget_dset; destruct (eqb y x); auto).
      apply (propagate_right x c) in W1 as (f & new' & -> & KK & G & Fn); auto; [|apply incl_refl|apply inv_nodup; auto|rewrite LX, eqb_refl; auto].
      cbn [fst snd] in W.
      assert (MI : forall y, inI y -> mem y (ids m0) = true) by (intros; apply mem_In; auto).
      assert (G' : forall y, inI y -> label new' y = if f y then c else if eqb y x then c else label new y).
      { intros y Y. rewrite G, MI, LX by auto. reflexivity. } clear G.
      apply IH in W; auto.
      + etransitivity; [apply filter_shorter|]. rewrite app_length in Lf. cbn in Lf. lia.
      + assert (SI : forall y, In y (filter (fun y => negb (mem y (ids m0) && f y)) todo') <-> In y todo' /\ f y = false).
        { intro y. rewrite filter_In, negb_true_iff. split; intros [J1 J2]; split; auto.
          - rewrite MI in J2; auto. apply IN, in_or_app; auto.
          - rewrite J2. apply andb_false_r. }
        assert (FX : no_new_links m0 (N (length cs)) -> forall y, inI y -> f y = ml m0 x y).
        { intros OC y Y. destruct (Fn y Y) as [n ->]. apply ml_same; auto. }
        assert (G2 : no_new_links m0 (N (length cs)) -> forall y, inI y -> label new' y = if ml m0 x y then c else label new y).
        { intros OC y Y. rewrite G', (FX OC) by auto. destruct (eqb_spec y x); auto. subst. rewrite (ml_refl m0 I0) by auto. auto. }
        assert (LN : no_new_links m0 (N (length cs)) -> label new x = (-1)%Z) by (intro OC; apply TD; auto; apply in_or_app; right; left; auto).
        assert (SEP : forall y, inI y -> cl m0 x y = true -> (0 <= label new y)%Z -> c <> label new y).
        { intros y Y C Q E. destruct Hc as [Hc|Hc]; [|specialize (Hc y Y); lia]. apply Hc. rewrite E. apply NC; auto. lia. }
        split; auto.
        * apply NoDup_filter_list; auto.
        * intros y J. apply SI in J as [J _]. apply IN, in_or_app; auto.
        * intros y Y J. rewrite G' by auto. destruct (f y) eqn:Fy; auto. destruct (eqb_spec y x); auto. apply DN; auto.
          intro Q. apply in_app_iff in Q as [Q|[Q|[]]]; [|congruence]. apply J, SI; auto.
        * intros OC y J. apply SI in J as [J Fy]. assert (Y : inI y) by (apply IN, in_or_app; auto). rewrite G2, <- (FX OC), Fy by auto. apply TD; auto. apply in_or_app; auto.
        * intros OC y z Y Z0 M. rewrite !G2 by auto. assert (E : ml m0 x y = ml m0 x z); [|rewrite <- E; destruct (ml m0 x y); auto].
          assert (M' : ml m0 z y = true) by (rewrite (ml_sym m0 I0); auto).
          apply eq_true_iff_eq. split; intro Q; [apply (ml_trans m0 I0 x y z)|apply (ml_trans m0 I0 x z y)]; auto.
        * intros OC y z Y Z0 C. rewrite !G2 by auto. destruct (ml m0 x y) eqn:M1, (ml m0 x z) eqn:M2.
          -- exfalso. apply (ml_cl m0 y z); auto. apply (ml_trans m0 I0 y x z); auto. rewrite (ml_sym m0 I0) by auto. auto.
          -- intros _ E. assert (Cx : cl m0 x z = true) by (apply (cl_ml_l m0 I0 x y z); auto). apply (SEP z Z0 Cx); auto. lia.
          -- intros Q E. assert (Cx : cl m0 x y = true). { rewrite (cl_sym m0 I0) by auto. apply (cl_ml_r m0 I0 y z x); auto. rewrite (ml_sym m0 I0) by auto. auto. }
             apply (SEP y Y Cx); auto.
          -- intros Q. apply CL; auto.
    - apply pop_last_None in P. subst. apply watch_done_inv in W as [-> _]. exists new. split; auto. apply assigned; auto.
  Qed.

  (** The list of the data does not change. *)
  Lemma same_centroids s raw : keys (cdict s) = ids m0 -> compute_centroids vec mean set_order s vectors raw = compute_centroids vec mean set_order m0 vectors raw.
  Proof. intro K. unfold compute_centroids, ask. rewrite !run_managed, K. reflexivity. Qed.
  Lemma same_table s centroids : keys (cdict s) = ids m0 -> distance_table vec D pairwise s vectors centroids = distance_table vec D pairwise m0 vectors centroids.
  Proof. intro K. unfold distance_table, ask. rewrite !run_managed, K. reflexivity. Qed.

  Lemma assign_right centroids lo r hi : good_centroids centroids -> watch here lo (p_assign vec D pairwise ltb (ids m0) vectors nb centroids) r hi ->
    exists raw, r = Ok raw /\ round_result raw.
  Proof.
    intros (ND & NEC & POS) W. unfold p_assign in W. apply watch_bind in W as (u & n1 & W1 & W2). apply watch_read in W1 as (_ & s & [_ K] & ->). rewrite same_table in W2 by auto.
    destruct (distance_table_run pairwise m0 (reachable_inv _ R0) vectors centroids NE COV ND NEC) as (table & E & GT). rewrite E in W2.
    eapply assign_loop_right in W2; eauto. apply assigning_start.
  Qed.

  Lemma iterate_right rounds : forall clusters centroids prev last conv lo r hi, KMeansRun.follows prev clusters centroids -> good_centroids centroids ->
    (conv = true -> last = Some clusters /\ round_result clusters) -> (rounds = 0 -> last = Some clusters /\ round_result clusters) ->
    watch here lo (p_iterate vec D pairwise ltb dsum mean set_order p (ids m0) vectors nb rounds clusters centroids last conv) r hi ->
    exists raw, r = Ok (Some raw, raw) /\ round_result raw.
  Proof.
    assert (I0 := reachable_inv _ R0).
    induction rounds as [|n IH]; intros clusters centroids prev last conv lo r hi Fo GC Hc Hr W; cbn [p_iterate] in W.
    - destruct (Hr eq_refl) as [-> Q]. destruct conv; apply watch_done_inv in W as [-> _]; exists clusters; auto.
    - destruct conv; [destruct (Hc eq_refl) as [-> Q]; apply watch_done_inv in W as [-> _]; exists clusters; auto|].
      apply watch_bind in W as (u & n1 & W1 & W). apply assign_right in W1 as (raw & -> & RR); auto. assert (Q := RR). destruct Q as (K & Pos & _).
      apply watch_bind in W as (u & n2 & W1 & W). apply watch_read in W1 as (_ & s & [_ Ks] & ->). rewrite same_centroids in W by auto.
      destruct (compute_centroids_total mean set_order m0 I0 vectors SO NE COV raw K Pos) as (nc & Ec & Ce & GC'). rewrite Ec in W.
      destruct (has_converged_total pairwise ltb dsum mean p m0 vectors prev clusters raw centroids nc Fo GC Pos Ce) as (b & Eb & _). rewrite Eb in W. cbn [pbind] in W.
      apply (IH raw nc (Some raw)) in W; auto. right. split; auto. apply Ce.
  Qed.
End Clustering.

Lemma kmeans_right m0 cs : reachable m0 -> Forall only_adds_constraints cs -> forall {vec D : Type} `{EqB D} (pairwise : list vec -> list vec -> nat -> nat -> D) ltb dsum mean shuffle set_order p vectors nbz lo r hi,
  valid_set_order set_order -> valid_shuffle shuffle -> 1 <= kp_max_iteration D p -> has_ids m0 -> covers (Some vectors) m0 -> (2 <= nbz)%Z ->
  watch (SampleThreadThms.here m0 cs) lo (p_kmeans vec D pairwise ltb dsum mean shuffle set_order p vectors (Some nbz)) r hi ->
  exists d, r = Ok d /\ canonical d /\ covers_exactly m0 d /\ (no_new_links m0 (ReadersThms.N m0 cs (length cs)) -> respects m0 d).
Proof.
  intros R0 AC vec D EB pairwise ltb dsum mean shuffle set_order p vectors nbz lo r hi SO SH MX HI (v' & Ev & COV) NB W. injection Ev as <-.
  assert (I0 := reachable_inv _ R0). assert (NE := proj1 (has_ids_spec m0) HI).
  assert (CV : forall x, In x (ids m0) -> In x (keys vectors)) by (intros x X; apply COV, managed_ids; auto).
  unfold p_kmeans in W. apply watch_bind in W as (u & n1 & W1 & W). apply watch_read in W1 as (_ & s & [_ K] & ->). rewrite K in W. destruct (Z.ltb_spec nbz 2); [lia|].
  cbv zeta in W. set (nb := Nat.min (Z.to_nat nbz) (length (ids m0))) in *.
  assert (L0 : length (ids m0) <> 0) by (destruct (ids m0); simpl in *; congruence).
  destruct (initialize_run shuffle m0 I0 vectors nb CV SH) as (c0 & E0 & IC & GC); [lia|lia|]. rewrite E0 in W. cbn [pbind] in W.
  apply watch_bind in W as (u & n2 & W1 & W). apply (iterate_right m0 cs R0 AC pairwise ltb dsum mean set_order SO p vectors NE CV nb _ _ _ None) in W1 as (raw & -> & RR); auto; [| |discriminate|lia].
  - cbn [fst snd] in W. destruct RR as (Kr & Pos & RS).
    assert (NDr : NoDup (keys raw)) by (rewrite Kr; apply inv_nodup; auto). destruct (rename_run raw NDr) as (d & Er & _ & Can & SP). rewrite Er in W. cbn [pbind] in W.
    apply watch_bind in W as (u & n3 & W1 & W). apply watch_read in W1 as (_ & s' & [_ K'] & ->).
    rewrite (same_centroids m0 mean set_order vectors s' raw K') in W.
    destruct (compute_centroids_total mean set_order m0 I0 vectors SO NE CV raw Kr Pos) as (nc & Ec & _). rewrite Ec in W. apply watch_done_inv in W as [-> _].
    assert (CE : covers_exactly m0 raw) by (intro x; rewrite Kr; symmetry; apply managed_ids).
    exists d. split; auto. split; auto. split; [eapply covers_transfer; eauto|]. intro OC. eapply respects_transfer; eauto.
  - left. split; auto. unfold dcomp. rewrite dedup_id by (apply inv_nodup; auto).
    destruct (ids m0) as [|x l]; [congruence|]. exists (-1)%Z, (vals (map (fun k => (k, (-1)%Z)) l)). split; auto. lia.
Qed.

Lemma silent_inferred_is a b t : silent (p_inferred_is a b t).
Proof. apply silent_bind; [apply silent_inferred|intro; exact I]. Qed.
Lemma silent_fold {A S} (f : S -> A -> prog S) l : (forall s x, silent (f s x)) -> forall s, silent (pfold f l s).
Proof. intro F. induction l as [|x l IH]; intro s; cbn [pfold]; [exact I|]. apply silent_bind; auto. Qed.
Lemma silent_assign_loop {vec D} `{EqB D} ltb l nb fuel centroids table : forall todo new, silent (p_assign_loop vec D ltb l nb fuel centroids table todo new).
Proof.
  induction fuel as [|fuel IH]; intros todo new; cbn [p_assign_loop]; destruct (pop_last todo) as [[todo' x]|]; try exact I.
  apply silent_bind.
  - apply silent_bind; [|intro; exact I]. apply silent_filter. intro y. apply silent_bind; [exact I|]. intro c. destruct (Z.eqb c (-1)); [exact I|apply silent_inferred_is].
  - intro nc. apply silent_bind; [exact I|]. intro c. apply silent_bind; [|intro; apply IH]. apply silent_fold. intros s y. apply silent_bind; [apply silent_inferred_is|]. intros []; exact I.
Qed.
Lemma silent_iterate {vec D} `{EqB D} pairwise ltb dsum mean set_order p l vectors nb rounds : forall clusters centroids last conv,
  silent (p_iterate vec D pairwise ltb dsum mean set_order p l vectors nb rounds clusters centroids last conv).
Proof.
  induction rounds as [|n IH]; intros clusters centroids last conv; cbn [p_iterate]; destruct conv; try exact I.
  apply silent_bind; [apply silent_bind; [cbn; auto|intro; apply silent_assign_loop]|]. intro. apply silent_bind; [cbn; auto|]. intro. apply silent_bind; [exact I|]. intro. apply IH.
Qed.
Lemma silent_kmeans {vec D} `{EqB D} pairwise ltb dsum mean shuffle set_order p vectors nb : silent (p_kmeans vec D pairwise ltb dsum mean shuffle set_order p vectors nb).
Proof.
  unfold p_kmeans. apply silent_bind; [cbn; auto|]. intro l. destruct nb as [nb|]; [|exact I]. destruct (nb <? 2)%Z; [exact I|]. cbv zeta. apply silent_bind; [exact I|]. intro.
  apply silent_bind; [apply silent_iterate|]. intros [new c]. apply silent_bind; [exact I|]. intro. apply silent_bind; [destruct new; exact I|]. intro. apply silent_bind; [cbn; auto|]. intro. exact I.
Qed.

Lemma clusterings_watched {vec D} `{EqB D} pairwise ltb dsum mean shuffle set_order m cs (qs : list (clustering_call vec D)) m' r rs : reachable m -> Forall only_adds_constraints cs ->
  interleaved m (p_left (p_wsession cs) :: map (fun q => p_right (p_kmeans vec D pairwise ltb dsum mean shuffle set_order (fst (fst q)) (snd (fst q)) (Some (snd q)))) qs) m' (r :: rs) ->
  (m' = run (map as_wcall cs) m /\ r = Ok (inl (snd (one_by_one (map as_wcall cs) m)))) /\
  Forall2 (fun q x => exists r0 hi, x = rbind r0 (fun d => Ok (inr d)) /\
     watch (SampleThreadThms.here m cs) 0 (p_kmeans vec D pairwise ltb dsum mean shuffle set_order (fst (fst q)) (snd (fst q)) (Some (snd q))) r0 hi) qs rs.
Proof.
  intros R AC J. destruct (session_trail m cs R (adds cs AC) cs 0 eq_refl (Nat.le_0_l _)) as [e T].
  assert (T2 : trail (SampleThreadThms.here m cs) 0 (p_wsession cs) m e).
  { apply trail_and; [exact T|]. destruct (sd_session cs AC m) as [S1 _]. intros x [<-|Ix]; auto. }
  assert (PE : SampleThreadThms.here m cs e (fst (alone (p_wsession cs) m))) by (eapply trail_end; eauto).
  destruct (silent_watch (SampleThreadThms.here m cs) m (p_left (p_wsession cs)) _ m' r rs 0 e J) as [E W].
  { apply Forall_forall. intros p Ip. apply in_map_iff in Ip as (q & <- & _). apply silent_bind; [apply silent_kmeans|intro; exact I]. }
  { unfold p_left. eapply trail_bind; [exact T2|]. rewrite alone_wsession in *. cbn. auto. }
  unfold p_left in E. rewrite alone_bind, alone_wsession in E. cbn [alone] in E. injection E as <- <-. split; auto.
  clear J T T2 PE. revert rs W. induction qs as [|q qs IH]; intros rs W; inversion W as [|? ? ? ? [hi Hw] W']; subst; constructor; auto.
  unfold p_right in Hw. apply watch_bind in Hw as (x & n1 & H1 & H2). exists x, n1. split; auto. destruct x; [apply watch_done_inv in H2 as [-> _]|destruct H2 as [-> _]]; reflexivity.
Qed.

(*PROP C154: the clustering alone, action by action, leaves the manager as it is and ends with the result of the method. *)
Lemma C154_alone_proof : forall vec D (EB : EqB D) pairwise ltb dsum mean shuffle set_order p vectors nb s m, reachable m ->
  alone (p_kmeans vec D pairwise ltb dsum mean shuffle set_order p vectors nb) m = (m, result (KMeans.cluster vec D pairwise ltb dsum mean shuffle set_order p m vectors nb) s).
Proof.
  intros vec D EB pairwise ltb dsum mean shuffle set_order p vectors nb s m R. assert (I := reachable_inv _ R).
  unfold p_kmeans, result, KMeans.cluster. rewrite alone_bind. cbn [p_ids pread alone]. unfold bind at 1, lift at 1. rewrite ask_managed.
  destruct nb as [nb|]; [|reflexivity]. destruct (nb <? 2)%Z; [reflexivity|]. cbv zeta. unfold bind at 1, modify at 1. unfold bind at 1, clustering_COP. unfold bind at 1, lift at 1.
  destruct (initialize_centroids vec shuffle (ids m) vectors _) as [c0|]; cbn [pbind]; [|reflexivity].
  unfold bind at 1, modify at 1. unfold bind at 1, modify at 1. unfold bind at 1.
  set (s1 := set_clusters vec (dcomp (fun _ => (-1)%Z) (ids m)) (set_centroids vec c0 (set_predicted vec None s))).
  destruct (alone_iterate pairwise ltb dsum mean set_order m p (ids m) vectors (Nat.min (Z.to_nat nb) (length (ids m))) (kp_max_iteration D p) I
     (dcomp (fun _ => (-1)%Z) (ids m)) c0 None false s1 eq_refl eq_refl) as (s' & r & E1 & E2).
  rewrite E1, alone_bind, E2. destruct r as [x|]; cbn [rbind]; [|reflexivity]. cbn [fst snd].
  unfold bind at 1, gets at 1. unfold bind at 1, lift at 1. destruct (rename_clusters_by_order (k_clusters vec s')) as [d|]; cbn [pbind]; [|reflexivity].
  unfold bind at 1, modify at 1. destruct x as [raw|]; [|reflexivity]. unfold bind at 1, ret at 1. unfold bind at 1, lift at 1. rewrite alone_bind. cbn [pread alone pbind].
  destruct (compute_centroids vec mean set_order m vectors raw); reflexivity.
Qed.
(*EX
Definition ex : mgr := run [CallAddConstraint B C CANNOT_LINK 1%Q] (init [A; B; C]).
Lemma ex_reachable : reachable ex. Proof. apply run_reachable. Qed.
Definition places : dict pystr Z := [(A, 9); (B, 0); (C, 10)]%Z.
Definition one_round := mkKParams Z 1 1%Z.
Example C154_alone_ex : alone (line_kmeans one_round places (Some 2%Z)) ex = (ex, Ok [(A, 0); (B, 1); (C, 0)]%Z).
Proof. vm_compute. reflexivity. Qed.
EX*)

(*PROP C154: one thread adds constraints, any number of calls, and any number of other threads cluster the data with KMeans, with the documented arguments. However their reads and writes are
    interleaved, the additions end as when they are made alone, and no clustering fails: each gives a cluster to each of the data and to nothing else, with clusters numbered by the first of
    their data in the order of the IDs. What is missing: the constraints, see below. *)
Lemma C154_no_failure_partial_proof : forall vec D (EB : EqB D) pairwise ltb dzero dsum mean shuffle set_order m cs (qs : list (clustering_call vec D)) m' r rs,
    valid_set_order set_order -> valid_shuffle shuffle -> reachable m -> Forall only_adds_constraints cs -> Forall (valid_kmeans_call ltb dzero m) qs ->
    interleaved m (p_left (p_wsession cs) :: map (fun q => p_right (p_kmeans vec D pairwise ltb dsum mean shuffle set_order (fst (fst q)) (snd (fst q)) (Some (snd q)))) qs) m' (r :: rs) ->
    m' = run (map as_wcall cs) m /\ r = Ok (inl (snd (one_by_one (map as_wcall cs) m))) /\
    Forall (fun x => exists d, x = Ok (inr d) /\ canonical d /\ covers_exactly m d) rs.
Proof.
  intros vec D EB pairwise ltb dzero dsum mean shuffle set_order m cs qs m' r rs SO SH R AC VA J.
  destruct (clusterings_watched pairwise ltb dsum mean shuffle set_order m cs qs m' r rs R AC J) as ((E1 & E2) & W). split; auto. split; auto. clear J E1 E2.
  revert VA. induction W as [|q x qs rs (r0 & hi & -> & H1) W IH]; intro VA; constructor; inversion VA as [|? ? Q VA']; subst; auto.
  destruct q as [[p v] nb]. cbn [fst snd] in H1. destruct Q as ((model & it & tol & MK) & HI & CO & NB).
  apply (kmeans_right m cs R AC) in H1 as (d & -> & Can & CE & _); auto; [|eapply make_kmeans_max; eauto]. exists d. auto.
Qed.
(*EX
Definition news : list wcall := [WAdd A B MUST_LINK 1%Q].
(** The constraint between [a] and [b] is added after [a] is found to be compatible with the cluster of [c], and before the data linked to [a] are put with it: [b] is put with [c]. *)
Definition turns : list nat := repeat 1 36 ++ repeat 0 (length (states (p_wsession news) ex)) ++ repeat 1 12.
Lemma ex_valid : valid_kmeans_call Z.ltb 0%Z ex (one_round, places, 2%Z).
Proof.
  split; [exists (str "COP"), 1%Z, 1%Z; reflexivity|]. split; [exists A; apply managed_ids; change (In A [A; B; C]); left; auto|]. split; [|lia].
  exists places. split; auto. intros x Mx. apply managed_ids in Mx. exact Mx.
Qed.
Example C154_no_failure_ex : Forall only_adds_constraints news /\
  exists m', interleaved ex [p_left (p_wsession news); p_right (line_kmeans one_round places (Some 2%Z))] m' [Ok (inl [Ok (VBool true)]); Ok (inr [(A, 0); (B, 0); (C, 0)]%Z)].
Proof. split; [repeat constructor|]. eexists. apply (play_interleaved turns). vm_compute. reflexivity. Qed.
EX*)

(*PROP C154: additions of CANNOT_LINK constraints let nothing new be inferred as MUST_LINK. *)
Lemma C154_cannot_links_partial_proof : forall m cs, reachable m -> Forall only_adds_cannot_links cs -> no_new_links m (run (map as_wcall cs) m).
Proof.
  intros m cs R OC. assert (AC : Forall only_adds_constraints cs) by (eapply Forall_impl; [|exact OC]; intros []; cbn; tauto).
  assert (Q := cannot_links_only m cs R AC OC). unfold ReadersThms.N in Q. rewrite firstn_all2 in Q by (rewrite map_length; auto). exact Q.
Qed.
(*EX
Definition apart : list wcall := [WAdd A C CANNOT_LINK 1%Q; WAdd A B CANNOT_LINK 1%Q].
Example C154_cannot_links_ex : Forall only_adds_cannot_links apart /\ result (get_inferred_constraint A B) ex = Ok None /\
  result (get_inferred_constraint A B) (run (map as_wcall apart) ex) = Ok (Some CANNOT_LINK).
Proof. split; [repeat constructor|]. split; reflexivity. Qed.
EX*)

(*PROP C154: when nothing new is inferred as MUST_LINK by the end of the additions, each clustering respects all the constraints that were known when it started, and perhaps not those
    that were added meanwhile. *)
Lemma C154_respects_partial_proof : forall vec D (EB : EqB D) pairwise ltb dzero dsum mean shuffle set_order m cs (qs : list (clustering_call vec D)) m' r rs,
    valid_set_order set_order -> valid_shuffle shuffle -> reachable m -> Forall only_adds_constraints cs -> Forall (valid_kmeans_call ltb dzero m) qs ->
    no_new_links m (run (map as_wcall cs) m) ->
    interleaved m (p_left (p_wsession cs) :: map (fun q => p_right (p_kmeans vec D pairwise ltb dsum mean shuffle set_order (fst (fst q)) (snd (fst q)) (Some (snd q)))) qs) m' (r :: rs) ->
    Forall (fun x => exists d, x = Ok (inr d) /\ respects m d) rs.
Proof.
  intros vec D EB pairwise ltb dzero dsum mean shuffle set_order m cs qs m' r rs SO SH R AC VA NL J.
  destruct (clusterings_watched pairwise ltb dsum mean shuffle set_order m cs qs m' r rs R AC J) as (_ & W). clear J.
  assert (NL' : no_new_links m (ReadersThms.N m cs (length cs))). { unfold ReadersThms.N. rewrite firstn_all2 by (rewrite map_length; auto). exact NL. }
  revert VA. induction W as [|q x qs rs (r0 & hi & -> & H1) W IH]; intro VA; constructor; inversion VA as [|? ? Q VA']; subst; auto.
  destruct q as [[p v] nb]. cbn [fst snd] in H1. destruct Q as ((model & it & tol & MK) & HI & CO & NB).
  apply (kmeans_right m cs R AC) in H1 as (d & -> & _ & _ & RS); auto; [|eapply make_kmeans_max; eauto]. exists d. auto.
Qed.
(*EX
(** The clustering does not know yet that [a] and [c] must be apart. *)
Example C154_respects_ex : no_new_links ex (run (map as_wcall apart) ex) /\
  exists m', interleaved ex [p_left (p_wsession apart); p_right (line_kmeans one_round places (Some 2%Z))] m' [Ok (inl [Ok (VBool true); Ok (VBool true)]); Ok (inr [(A, 0); (B, 1); (C, 0)]%Z)].
Proof.
  split; [apply C154_cannot_links_partial; [apply ex_reachable|repeat constructor]|].
  eexists. apply (play_interleaved (repeat 1 36 ++ repeat 0 (length (states (p_wsession apart) ex)) ++ repeat 1 13)). vm_compute. reflexivity.
Qed.
EX*)

(** The oracles of the examples. *)
Lemma line_valid : valid_set_order line_order /\ valid_shuffle (@rev pystr).
Proof. split; [intro l; split; [apply NoDup_nodup|intro; apply nodup_In]|intro l; apply Permutation_rev]. Qed.

(*PROP C154: one MUST_LINK constraint added while KMeans runs, and two data with a CANNOT_LINK known from the start get the same cluster. *)
Lemma C154_cannot_refuted_proof : exists m cs (q : clustering_call Z Z) m' r d,
    valid_set_order line_order /\ valid_shuffle (@rev pystr) /\ reachable m /\ Forall only_adds_constraints cs /\ valid_kmeans_call Z.ltb 0%Z m q /\
    interleaved m [p_left (p_wsession cs); p_right (line_kmeans (fst (fst q)) (snd (fst q)) (Some (snd q)))] m' [r; Ok (inr d)] /\
    ~ respects_cannot_links m d.
Proof.
  pose (a := str "a"). pose (b := str "b"). pose (c := str "c").
  exists (run [CallAddConstraint b c CANNOT_LINK 1%Q] (init [a; b; c])), [WAdd a b MUST_LINK 1%Q], (mkKParams Z 1 1%Z, [(a, 9); (b, 0); (c, 10)]%Z, 2%Z).
  eexists. exists (Ok (inl [Ok (VBool true)])), [(a, 0); (b, 0); (c, 0)]%Z.
  split; [apply line_valid|]. split; [apply line_valid|]. split; [apply run_reachable|]. split; [repeat constructor|]. split; [|split].
  - split; [exists (str "COP"), 1%Z, 1%Z; reflexivity|]. split; [exists a; apply managed_ids; change (In a [a; b; c]); left; auto|]. split; [|lia].
    eexists. split; [reflexivity|]. intros x Mx. apply managed_ids in Mx. exact Mx.
  - apply (play_interleaved (repeat 1 36 ++ repeat 0 (length (states (p_wsession [WAdd a b MUST_LINK 1%Q]) (run [CallAddConstraint b c CANNOT_LINK 1%Q] (init [a; b; c])))) ++ repeat 1 12)).
    vm_compute. reflexivity.
  - intro R. apply (R b c).
    + apply managed_ids. change (In b [a; b; c]). cbn [In]. auto.
    + apply managed_ids. change (In c [a; b; c]). cbn [In]. auto.
    + vm_compute. reflexivity.
    + vm_compute. reflexivity.
Qed.

(*PROP C154: one MUST_LINK constraint added while KMeans runs, and two data with a MUST_LINK known from the start get different clusters. *)
Lemma C154_must_refuted_proof : exists m cs (q : clustering_call Z Z) m' r d,
    valid_set_order line_order /\ valid_shuffle (@rev pystr) /\ reachable m /\ Forall only_adds_constraints cs /\ valid_kmeans_call Z.ltb 0%Z m q /\
    interleaved m [p_left (p_wsession cs); p_right (line_kmeans (fst (fst q)) (snd (fst q)) (Some (snd q)))] m' [r; Ok (inr d)] /\
    ~ respects_must_links m d.
Proof.
  pose (a := str "a"). pose (b := str "b"). pose (c := str "d").
  exists (run [CallAddConstraint b c MUST_LINK 1%Q] (init [a; b; c])), [WAdd a b MUST_LINK 1%Q], (mkKParams Z 1 1%Z, [(a, 10); (b, 10); (c, 0)]%Z, 2%Z).
  eexists. exists (Ok (inl [Ok (VBool true)])), [(a, 0); (b, 1); (c, 0)]%Z.
  split; [apply line_valid|]. split; [apply line_valid|]. split; [apply run_reachable|]. split; [repeat constructor|]. split; [|split].
  - split; [exists (str "COP"), 1%Z, 1%Z; reflexivity|]. split; [exists a; apply managed_ids; change (In a [a; b; c]); left; auto|]. split; [|lia].
    eexists. split; [reflexivity|]. intros x Mx. apply managed_ids in Mx. exact Mx.
  - apply (play_interleaved (repeat 1 27 ++ repeat 0 (length (states (p_wsession [WAdd a b MUST_LINK 1%Q]) (run [CallAddConstraint b c MUST_LINK 1%Q] (init [a; b; c])))) ++ repeat 1 5)).
    vm_compute. reflexivity.
  - intro R. specialize (R b c). assert (X : dget b [(a, 0); (b, 1); (c, 0)]%Z = dget c [(a, 0); (b, 1); (c, 0)]%Z).
    { apply R.
      - apply managed_ids. change (In b [a; b; c]). cbn [In]. auto.
      - apply managed_ids. change (In c [a; b; c]). cbn [In]. auto.
      - vm_compute. reflexivity. }
    vm_compute in X. discriminate.
Qed.
