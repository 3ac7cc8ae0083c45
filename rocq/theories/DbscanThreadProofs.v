(** * DBScan with answers of the manager that change meanwhile: the phases never fail, and what they keep (for C157). *)

From Coq Require Import String List Bool Arith ZArith QArith Lia Permutation.
From Verif Require Import Base Manager Spec Closure ManagerProofs ManagerInv ManagerQueries ManagerSem ManagerThms Sampling SamplingSpec SamplingProofs SamplingThms
  Rename ClusterSpec RenameThms ClusterProofs KMeans KMeansSpec KMeansProofs KMeansThms Hierarchical HierSpec HierTree HierProofs HierRun Dbscan DbscanSpec DbscanProofs DbscanRun DbscanThms
  Threads ThreadSpec ThreadsThms Readers ReadersSpec ReadersThms Listing ListingSpec ListingThms SampleThread SampleThreadThms KMeansThread KMeansThreadSpec KMeansThreadThms
  DbscanThread DbscanThreadSpec.
Import ListNotations.
Open Scope nat_scope.
Open Scope py_scope.

Lemma rfold_inv {T S} (P : list T -> S -> Prop) (f : S -> T -> res S) l : (forall x rest s, P (x :: rest) s -> exists s', f s x = Ok s' /\ P rest s') ->
  forall s, P l s -> exists s', rfold f l s = Ok s' /\ P [] s'.
Proof.
  intro H. induction l as [|x l IH]; intros s Ps; cbn [rfold]; [eauto|]. destruct (H _ _ _ Ps) as (s1 & E & P1). rewrite E. cbn [rbind]. auto.
Qed.

Section Loose.
  Variable m0 : mgr.
  Variable cs : list wcall.
  Hypothesis R0 : reachable m0.
  Hypothesis AC : Forall only_adds_constraints cs.
  Notation N := (ReadersThms.N m0 cs).
  Notation here := (SampleThreadThms.here m0 cs).
  Notation l := (ids m0).
  Let I0 : Inv m0 := reachable_inv _ R0.
  Let ND : NoDup l := inv_nodup m0 I0.
  Definition quiet : Prop := no_new_links m0 (N (length cs)).

  Lemma filter_both (f : pystr -> prog bool) (P : pystr -> bool -> Prop) k lo r hi :
    (forall y lo r hi, In y k -> watch here lo (f y) r hi -> exists b, r = Ok b /\ P y b) -> watch here lo (pfilter f k) r hi ->
    exists k', r = Ok k' /\ incl k' k /\ (forall y, In y k' -> P y true) /\ forall y, In y k -> ~ In y k' -> P y false.
  Proof.
    intro F. revert lo r hi. induction k as [|y k IH]; intros lo r hi W; cbn [pfilter] in W.
    - apply watch_done_inv in W as [-> _]. exists []. split; auto. split; [apply incl_refl|]. split; [intros ? []|intros ? []].
    - apply watch_bind in W as (x & n1 & W1 & W2). apply F in W1 as (b & -> & Pb); [|left; auto].
      apply watch_bind in W2 as (x & n2 & W2 & W3). apply IH in W2 as (k' & -> & I1 & I2 & I3); [|intros; eapply F; [right|]; eauto].
      apply watch_done_inv in W3 as [-> _]. exists (if b then y :: k' else k'). split; auto. split; [|split].
      + destruct b; [apply incl_cons; [left; auto|apply incl_tl; auto]|apply incl_tl; auto].
      + intros z J. destruct b; [destruct J as [<-|J]|]; auto.
      + intros z [<-|J] Nz; [destruct b; auto; destruct Nz; left; auto|]. apply I3; auto. intro Jz. apply Nz. destruct b; [right|]; auto.
  Qed.
  Lemma map_each {A B} (f : A -> prog B) (P : A -> B -> Prop) k : (forall x lo r hi, In x k -> watch here lo (f x) r hi -> exists y, r = Ok y /\ P x y) ->
    forall lo r hi, watch here lo (pmap f k) r hi -> exists ys, r = Ok ys /\ Forall2 P k ys.
  Proof.
    intro F. induction k as [|x k IH]; intros lo r hi W; cbn [pmap] in W.
    - apply watch_done_inv in W as [-> _]. eauto.
    - apply watch_bind in W as (u & n1 & W1 & W2). apply F in W1 as (y & -> & Py); [|left; auto].
      apply watch_bind in W2 as (u & n2 & W2 & W3). apply IH in W2 as (ys & -> & Q); [|intros; eapply F; [right|]; eauto].
      apply watch_done_inv in W3 as [-> _]. eauto.
  Qed.

  Lemma conflict_right xs ys lo r hi : incl xs l -> incl ys l -> watch here lo (p_conflict xs ys) r hi -> exists b, r = Ok b /\ (b = false -> clash m0 xs ys = false).
  Proof.
    intros X Y W. unfold p_conflict in W. apply watch_bind in W as (u & n1 & W1 & W2).
    apply (map_each _ (fun j row => forall i, In i ys -> cl m0 j i = true -> In i row)) in W1 as (rows & -> & F).
    - apply watch_done_inv in W2 as [-> _]. eexists. split; [reflexivity|]. intro E. apply clash_false. intros a b A B. destruct (cl m0 a b) eqn:C; auto. exfalso.
      destruct (Forall2_In_l _ _ _ _ F A) as (row & Jr & Q). specialize (Q b B C).
      assert (T : existsb (fun r => negb (Nat.eqb (length r) 0)) rows = true); [|congruence]. apply existsb_exists. exists row. split; auto. destruct row; [destruct Q|reflexivity].
    - intros j lo' r' hi' J W. apply (filter_both _ (fun i b => cl m0 j i = true -> b = true)) in W as (row & -> & _ & _ & Q).
      + exists row. split; auto. intros i Ji C. destruct (mem i row) eqn:M; [apply mem_In; auto|]. apply mem_nIn in M. discriminate (Q i Ji M C).
      + intros i lo2 r2 hi2 Ji W0. apply inferred_is_answer in W0 as [n ->]; auto. eexists. split; [reflexivity|]. intro C. apply (cl_stays m0 cs R0 AC n) in C; auto.
  Qed.

  Record linked_to (comp : dict pystr (list pystr)) : Prop := {
    lt_keys : keys comp = l;
    lt_incl : forall i c, dget i comp = Some c -> incl c l;
    lt_quiet : quiet -> forall i c y, dget i comp = Some c -> In y c -> ml m0 i y = true }.
  Lemma compatible_right lo r hi : watch here lo (p_compatible l) r hi -> exists comp, r = Ok comp /\ linked_to comp.
  Proof.
    intro W. unfold p_compatible in W.
    apply (map_each _ (fun j e => fst e = j /\ incl (snd e) l /\ (quiet -> forall y, In y (snd e) -> ml m0 j y = true))) in W as (comp & -> & F).
    - exists comp. split; auto.
      assert (G : forall i c, dget i comp = Some c -> In i l /\ incl c l /\ (quiet -> forall y, In y c -> ml m0 i y = true)).
      { intros i c E. apply dget_In in E. destruct (Forall2_In_r _ _ _ _ F E) as (j & J & Q1 & Q2). cbn [fst snd] in *. subst j. auto. }
      constructor.
      + clear - F. induction F as [|x e k c [E _] F IH]; [reflexivity|]. cbn [keys map]. f_equal; auto.
      + intros i c E. apply (G i c E).
      + intros Q i c y E. apply (G i c E). auto.
    - intros j lo' r' hi' J W0. apply watch_bind in W0 as (u & n1 & W1 & W2). apply (filter_both _ (fun i b => quiet -> b = true -> ml m0 j i = true)) in W1 as (c & -> & I1 & I2 & _).
      + apply watch_done_inv in W2 as [-> _]. eexists. split; [reflexivity|]. cbn [fst snd]. split; auto.
      + intros i lo2 r2 hi2 Ji W3. apply inferred_is_answer in W3 as [n ->]; auto. eexists. split; [reflexivity|]. intros Q B.
        rewrite <- (ml_same m0 cs R0 AC n j i); auto.
  Qed.

  Section Run.
    Context {D : Type}.
    Variables leb ltb : D -> D -> bool.
    Variable of_nat : nat -> D.
    Variable setlist : list pystr -> list pystr.
    Variable p : db_params D.
    Variable table : dict pystr (dict pystr D).
    Hypothesis SL : valid_setlist setlist.
    Hypothesis TG : forall x y, In x l -> In y l -> exists d, table_get D table (x, y) = Ok d.
    Hypothesis REFL : forall x, In x l -> DbscanProofs.near D leb p table x x = true.
    Hypothesis MS : 1 <= db_min_samples D p.
    Notation neighbors := (neighbors D leb p m0 table).

    Lemma SLI k x : In x (setlist k) -> In x k. Proof. apply SL. Qed.

    (** ** Local clusters *)
    Lemma label_inv done s x b : In x l -> ~ In x done -> local_inv m0 done s -> single (fst s) x = false -> (b = false -> clash m0 (neighbors (fst s) x) (neighbors (fst s) x) = false) ->
      local_inv m0 (done ++ [x]) (label_local D p s x (neighbors (fst s) x) b).
    Proof.
      intros J NI [K N0 IN DN TD LC PT] S CB. destruct s as [labels local]. cbn [fst snd] in *. unfold label_local. cbn [fst snd].
      assert (XN : In x (neighbors labels x)) by (apply neighbors_In; auto).
      assert (XU : lab labels x = UNLABELED) by (destruct (TD x NI) as [Q|Q]; auto; unfold single in S; rewrite Q in S; discriminate).
      destruct (_ <? _) eqn:SM; [|destruct b].
      - constructor; cbn [fst snd]; [|exact N0|exact IN| | | |exact PT].
        + rewrite keys_dset_in; auto. rewrite K; auto.
        + intros y Y. rewrite lab_dset. destruct (eqb_spec y x); [discriminate|]. apply in_app_or in Y as [Y|[Y|[]]]; [auto|congruence].
        + intros y Y. rewrite lab_dset. destruct (eqb_spec y x); [subst; exfalso; apply Y, in_or_app; simpl; auto|]. apply TD. intro Q. apply Y, in_or_app. auto.
        + intros y Y. rewrite lab_dset. rewrite LC by auto. destruct (eqb_spec y x); [subst y; rewrite XU|tauto]. split; intros [Q|Q]; discriminate.
      - constructor; cbn [fst snd].
        + rewrite (keys_fold_dset_in (fun _ => SINGLE_CORE)); auto. intros y Y. rewrite K. apply neighbors_incl in Y; auto.
        + apply (NoDup_keys_fold_dset (fun y => [y])); auto.
        + intros y Y. apply (In_keys_fold_dset (fun y => [y])) in Y as [Y|Y]; auto. eapply neighbors_incl; eauto.
        + intros y Y. rewrite lab_fold. destruct (mem y _) eqn:MY; [discriminate|]. apply in_app_or in Y as [Y|[Y|[]]]; [auto|].
          subst y. apply mem_nIn in MY. contradiction.
        + intros y Y. rewrite lab_fold. destruct (mem y _) eqn:MY; [auto|]. apply TD. intro Q. apply Y, in_or_app. auto.
        + intros y Y. rewrite lab_fold. rewrite (In_keys_fold_dset (fun y => [y])), LC by auto.
          destruct (mem y _) eqn:MY; [apply mem_In in MY|apply mem_nIn in MY]; tauto.
        + intros y pts. rewrite (dget_fold_dset (fun y => [y])). destruct (mem y _) eqn:MY; [|apply PT]. intro E. injection E as <-. apply mem_In, neighbors_incl in MY.
          split; [repeat constructor; simpl; tauto|]. split; [intros z [<-|[]]; auto|]. split; [simpl; auto|]. apply clash_singleton; auto.
      - constructor; cbn [fst snd].
        + rewrite keys_dset_in; auto. rewrite K; auto.
        + apply NoDup_keys_dset; auto.
        + intros y Y. apply In_keys_dset in Y as [->|Y]; auto.
        + intros y Y. rewrite lab_dset. destruct (eqb_spec y x); [discriminate|]. apply in_app_or in Y as [Y|[Y|[]]]; [auto|congruence].
        + intros y Y. rewrite lab_dset. destruct (eqb_spec y x); [subst; exfalso; apply Y, in_or_app; simpl; auto|]. apply TD. intro Q. apply Y, in_or_app. auto.
        + intros y Y. rewrite lab_dset, In_keys_dset, LC by auto. destruct (eqb_spec y x); [tauto|]. split; [intros [Q|Q]; [contradiction|auto]|auto].
        + intros y pts. rewrite dget_dset. destruct (eqb_spec y x) as [->|Q]; [|apply PT]. intro E. injection E as <-.
          split; [apply neighbors_NoDup; auto|]. split; [apply neighbors_incl|]. auto.
    Qed.

    Lemma local_right rest : forall done s lo r hi, l = done ++ rest -> local_inv m0 done s -> watch here lo (pfold (p_local_step D leb p table l) rest s) r hi ->
      exists s', r = Ok s' /\ local_inv m0 l s'.
    Proof.
      induction rest as [|x rest IH]; intros done s lo r hi El LI W; cbn [pfold] in W.
      - apply watch_done_inv in W as [-> _]. rewrite app_nil_r in El. exists s. split; auto. rewrite El. exact LI.
      - assert (J : In x l) by (rewrite El; apply in_or_app; simpl; auto).
        assert (Nd : ~ In x done). { assert (NDl := ND). rewrite El in NDl. apply NoDup_app_inv in NDl as (_ & _ & N3). intro Q. apply (N3 x); simpl; auto. }
        assert (El' : l = (done ++ [x]) ++ rest) by (rewrite <- app_assoc; auto).
        apply watch_bind in W as (u & n1 & W1 & W2). unfold p_local_step in W1. rewrite (lookup_lab m0 (fst s) x (li_keys _ _ _ LI) J) in W1. cbn [pbind] in W1.
        destruct (is_single (lab (fst s) x)) eqn:S.
        + apply watch_done_inv in W1 as [-> _]. apply (IH (done ++ [x]) s _ _ _ El') in W2; auto. destruct LI as [K N0 IN DN TD LC PT]. constructor; auto.
          * intros y Y. apply in_app_or in Y as [Y|[<-|[]]]; auto. destruct (lab (fst s) x); discriminate.
          * intros y Y. apply TD. intro Q. apply Y, in_or_app. auto.
        + rewrite (rfilter_pure _ (fun y => negb (single (fst s) y))) in W1 by (intros y Y; rewrite (lookup_lab m0 (fst s) y (li_keys _ _ _ LI) Y); auto). cbn [rbind] in W1.
          rewrite (rfilter_pure _ (DbscanProofs.near D leb p table x)) in W1 by (intros y Y; apply filter_In in Y as [Y _]; rewrite (table_dist D p m0 table TG) by auto; auto).
          change (filter (DbscanProofs.near D leb p table x) (filter (fun y => negb (single (fst s) y)) l)) with (neighbors (fst s) x) in W1. cbn [pbind] in W1.
          apply watch_bind in W1 as (b & n2 & W0 & W1). apply conflict_right in W0 as (b' & -> & CB); try apply neighbors_incl.
          apply watch_done_inv in W1 as [-> _]. apply (IH (done ++ [x]) _ _ _ _ El') in W2; auto. apply label_inv; auto.
    Qed.

    (** ** Core clusters *)
    Section Core.
      Variables (labels : dict pystr label) (local comp : dict pystr (list pystr)).
      Hypothesis LI : local_inv m0 l (labels, local).
      Hypothesis LT : linked_to comp.
      Definition quiet_noise (x : pystr) : bool := is_noise (lab labels x).
      Lemma present x : In x l -> In x (keys local) <-> quiet_noise x = false.
      Proof.
        intro J. pose proof (li_local _ _ _ LI x J) as Q. cbn [fst snd] in Q. rewrite Q. unfold quiet_noise. pose proof (li_done _ _ _ LI x J) as U. cbn [fst] in U.
        destruct (lab labels x); cbn [is_noise]; split; auto; try congruence; intros [X|X]; discriminate.
      Qed.
      Definition mine (i : pystr) : list pystr := if quiet_noise i then [i] else match dget i local with Some pts => pts | None => [i] end.
      Lemma mine_ok i : In i l -> NoDup (mine i) /\ incl (mine i) l /\ In i (mine i) /\ clash m0 (mine i) (mine i) = false.
      Proof.
        intro J. unfold mine. destruct (quiet_noise i); [|destruct (dget i local) as [pts|] eqn:E]; [|exact (li_pts _ _ _ LI i pts E)|].
        all: (split; [repeat constructor; simpl; tauto|]); (split; [intros z [<-|[]]; auto|]); (split; [simpl; auto|]); apply clash_singleton; auto.
      Qed.
      Definition near_or_linked (x y : pystr) : Prop := In y (mine x) \/ exists c, dget x comp = Some c /\ In y c.
      Record core_inv (s : merging) : Prop := {
        ci_a : keys (fst s) = l;
        ci_c : keys (snd s) = l;
        ci_b : forall x c y, dget x (snd s) = Some c -> In y c -> near_or_linked x y }.

      Lemma merge_step_loose clusters_of i j s js : In i l -> In j l -> dget i comp = Some js -> In j js -> core_inv s ->
        exists s', merge_step setlist labels local clusters_of i i (mine i) s j = Ok s' /\ core_inv s'.
      Proof.
        intros Ji Jj Ec Jc [Ka Kc B]. destruct s as [assigned core]. cbn [fst snd] in *. unfold merge_step.
        pose proof (li_keys _ _ _ LI) as KL. cbn [fst] in KL. rewrite (lookup_lab m0 labels j KL Jj). cbn [rbind]. fold (quiet_noise j).
        destruct (mine_ok i Ji) as (P1 & P2 & P3 & P4).
        assert (G : forall more : list pystr, incl more l -> NoDup more -> (forall y, In y more -> near_or_linked i y) -> exists s', (st <-- claim i assigned more ;;;
            (let '(assigned, taken) := st in old <-- dlookup i core ;;; Ok (assigned, dset i (setlist (old ++ taken ++ [i; j])) core))) = Ok s' /\ core_inv s').
        { intros more M1 M2 M3. destruct (claim_run m0 i more assigned Ka M1 M2) as (a' & E & K' & _). rewrite E. cbn [rbind].
          destruct (dget_In_key i core) as [old Eo]; [rewrite Kc; auto|]. rewrite (dlookup_Some _ _ Eo). cbn [rbind]. eexists. split; [reflexivity|]. constructor; cbn [fst snd]; auto.
          - rewrite keys_dset_in; auto. rewrite Kc; auto.
          - intros x c y. rewrite dget_dset. destruct (eqb_spec x i) as [->|Q]; [|apply B]. intro X. injection X as <-. intro Y. apply SLI in Y.
            apply in_app_or in Y as [Y|Y]; [eapply B; eauto|]. apply in_app_or in Y as [Y|[<-|[<-|[]]]].
            + apply filter_In in Y as [Y _]. auto.
            + left. auto.
            + right. eauto. }
        destruct (quiet_noise j) eqn:NJ.
        - cbn [rbind]. apply G; auto. intros y Y. left. auto.
        - assert (MJ : In j (keys local)) by (apply present; auto). rewrite (mem_true j _ MJ). cbn [rbind]. apply G.
          + intros z Z. apply SLI in Z. apply in_app_or in Z as [Z|[<-|[]]]; auto.
          + apply SL.
          + intros y Y. apply SLI in Y. apply in_app_or in Y as [Y|[<-|[]]]; [left; auto|right; eauto].
      Qed.

      Lemma merge_loose : exists merged, merge_compatible setlist l (labels, local) comp = Ok merged /\ core_inv merged.
      Proof.
        unfold merge_compatible. cbv zeta. cbn [fst snd]. match goal with |- context [merge_point _ _ _ _ ?c] => set (clusters_of := c) end.
        destruct (rfold_inv (fun rest s => incl rest l /\ core_inv (snd s)) (merge_point setlist labels local comp clusters_of) l) with (s := (@nil pystr, (dcomp (fun _ : pystr => NONE) l, dcomp (fun _ : pystr => @nil pystr) l)))
          as ([an st] & E & _ & CI).
        - intros i rest [analyzed [assigned core]] [IR CI]. cbn [snd] in CI. assert (Ji : In i l) by (apply IR; left; auto).
          assert (IR' : incl rest l) by (intros z Z; apply IR; right; auto). unfold merge_point. destruct (mem i analyzed); [eexists; split; [reflexivity|split; auto]|].
          destruct (dget_In_key i comp) as [js Ej]; [rewrite (lt_keys _ LT); auto|]. rewrite (dlookup_Some _ _ Ej). cbn [rbind].
          destruct js as [|j0 js0] eqn:E0; [cbn [rbind]; eexists; split; [reflexivity|split; auto]|]. rewrite <- E0 in *. clear E0 j0 js0.
          pose proof (li_keys _ _ _ LI) as KL. cbn [fst] in KL. rewrite (lookup_lab m0 labels i KL Ji). cbn [rbind]. fold (quiet_noise i).
          assert (CP : (if quiet_noise i then Ok (i, [i]) else if mem i (keys local) then pts <-- dlookup i local ;;; Ok (i, pts)
                    else c <-- local_cluster_of clusters_of assigned i ;;; pts <-- dlookup c local ;;; Ok (c, pts)) = Ok (i, mine i)).
          { unfold mine. destruct (quiet_noise i) eqn:NI; auto. assert (Q : In i (keys local)) by (apply present; auto). rewrite (mem_true _ _ Q).
            destruct (dget_In_key _ _ Q) as [pts EP]. rewrite (dlookup_Some _ _ EP), EP. reflexivity. }
          rewrite CP. cbn [rbind fst snd].
          destruct (rfold_inv (fun todo s => incl todo js /\ core_inv s) (merge_step setlist labels local clusters_of i i (mine i)) js) with (s := (assigned, core)) as (st & E & _ & CI').
          + intros j todo s [IT CS]. assert (Jj : In j js) by (apply IT; left; auto).
            destruct (merge_step_loose clusters_of i j s js Ji (lt_incl _ LT i js Ej j Jj) Ej Jj CS) as (s' & E & CI'). exists s'. split; auto. split; auto. intros z Z. apply IT. right; auto.
          + split; [apply incl_refl|auto].
          + rewrite E. cbn [rbind]. eexists. split; [reflexivity|]. split; auto.
        - split; [apply incl_refl|]. cbn [snd]. constructor; cbn [fst snd].
          + rewrite keys_dcomp. apply dedup_id, ND.
          + rewrite keys_dcomp. apply dedup_id, ND.
          + intros x c y E. rewrite dget_dcomp in E. destruct (mem x l); [|discriminate]. injection E as <-. intros [].
        - rewrite E. cbn [rbind snd]. exists st. auto.
      Qed.

      Lemma clean_loose merged : core_inv merged -> exists cores, clean l merged = Ok cores /\ forall k c, In (k, c) cores -> In k l /\ c <> [] /\ forall y, In y c -> near_or_linked k y.
      Proof.
        intros [Ka Kc B]. destruct merged as [assigned core]. cbn [fst snd] in *. unfold clean.
        assert (SUB : forall (d : dict pystr (list pystr)) x, NoDup (keys d) -> In x (keys d) -> exists d', dpop_strict x d = Ok d' /\ NoDup (keys d') /\ incl d' d /\ (forall e, In e d' -> fst e <> x) /\ forall y, y <> x -> In y (keys d) -> In y (keys d')).
        { intros d x Nd J. rewrite (dpop_strict_run x d Nd J). eexists. split; [reflexivity|]. split; [|split; [|split]].
          - rewrite (keys_filter (fun k => negb (eqb x k))). apply NoDup_filter_list; auto.
          - intros e Q. apply filter_In in Q. tauto.
          - intros e Q E. apply filter_In in Q as [_ Q]. apply negb_true_iff, eqb_neq in Q. congruence.
          - intros y Ny Y. rewrite (keys_filter (fun k => negb (eqb x k))). apply filter_In. split; auto. apply negb_true_iff, eqb_neq. auto. }
        destruct (rfold_inv (fun rest d => NoDup rest /\ incl rest l /\ NoDup (keys d) /\ incl d core /\ (forall x, In x rest -> In x (keys d)) /\ forall e, In e d -> snd e <> [] \/ In (fst e) rest)
          (fun core x => c <-- dlookup x core ;;; match c with [] => dpop_strict x core | _ => a <-- dlookup x assigned ;;; if eqb a x then Ok core else dpop_strict x core end) l) with (s := core)
          as (c1 & E1 & _ & _ & N1 & I1 & _ & F1).
        { intros x rest d (NR & IR & Nd & Id & Jd & Fd). inversion NR as [|? ? NR1 NR2]; subst. assert (Jx : In x (keys d)) by (apply Jd; left; auto).
          destruct (dget_In_key _ _ Jx) as [c Ec]. rewrite (dlookup_Some _ _ Ec). cbn [rbind].
          assert (POP : exists s', dpop_strict x d = Ok s' /\ NoDup rest /\ incl rest l /\ NoDup (keys s') /\ incl s' core /\ (forall x, In x rest -> In x (keys s')) /\ forall e, In e s' -> snd e <> [] \/ In (fst e) rest).
          { destruct (SUB d x Nd Jx) as (d' & E & N' & I' & X' & Y'). exists d'. split; auto. split; auto. split; [intros z Z; apply IR; right; auto|]. split; auto.
            split; [intros z Z; auto|]. split; [intros z Z; apply Y'; [intros ->; contradiction|apply Jd; right; auto]|].
            intros e J. destruct (Fd e (I' e J)) as [Q|[Q|Q]]; auto. exfalso. apply (X' e J). auto. }
          destruct c as [|c0 c]; [exact POP|]. rewrite (lookup_asg m0 assigned x Ka) by (apply IR; left; auto). cbn [rbind]. destruct (eqb _ x); [|exact POP].
          exists d. split; auto. split; auto. split; [intros z Z; apply IR; right; auto|]. split; auto. split; auto. split; [intros z Z; apply Jd; right; auto|].
          intros [k v] J. destruct (Fd _ J) as [Q|[Q|Q]]; auto. cbn [fst snd] in *. subst k. left. rewrite (In_dget x d v Nd J) in Ec. injection Ec as ->. discriminate. }
        { split; [exact ND|]. split; [apply incl_refl|]. split; [rewrite Kc; exact ND|]. split; [apply incl_refl|]. split; [intros x X; rewrite Kc; auto|].
          intros [k v] J. right. cbn [fst]. rewrite <- Kc. apply in_map_iff. exists (k, v). auto. }
        rewrite E1. cbn [rbind].
        destruct (rfold_inv (fun rest d => NoDup (keys d) /\ incl d c1)
          (fun core x => if mem x (keys core) then c <-- dlookup x core ;;; if length c <? 2 then dpop_strict x core else Ok core else Ok core) l) with (s := c1) as (c2 & E2 & N2 & I2).
        { intros x rest d [Nd Id]. destruct (mem x (keys d)) eqn:M; [|eauto]. apply mem_In in M. destruct (dget_In_key _ _ M) as [c Ec]. rewrite (dlookup_Some _ _ Ec). cbn [rbind].
          destruct (length c <? 2); [|eauto]. destruct (SUB d x Nd M) as (d' & E & N' & I' & _). exists d'. split; auto. split; auto. intros z Z. auto. }
        { split; [auto|apply incl_refl]. }
        rewrite E2. exists c2. split; auto. intros k c J. apply I2 in J. destruct (F1 _ J) as [Q|[]]. apply I1 in J. cbn [snd] in Q.
        assert (NDc : NoDup (keys core)) by (rewrite Kc; exact ND). split; [rewrite <- Kc; apply in_map_iff; exists (k, c); auto|]. split; auto.
        intros y Y. apply (B k c y); auto. apply In_dget; auto.
      Qed.

      Definition good (c : list pystr) : Prop := incl c l /\ (quiet -> clash m0 c c = false).
      Lemma near_or_linked_good i c : In i l -> (forall y, In y c -> near_or_linked i y) -> good c.
      Proof.
        intros Ji E. destruct (mine_ok i Ji) as (P1 & P2 & P3 & P4). assert (IC : incl c l).
        { intros y Y. destruct (E y Y) as [Q|(js & Q1 & Q2)]; [auto|]. apply (lt_incl _ LT i js); auto. }
        split; auto. intro Q. assert (CASE : forall y, In y c -> ml m0 i y = true \/ In y (mine i)).
        { intros y Y. destruct (E y Y) as [X|(js & Q1 & Q2)]; auto. left. eapply (lt_quiet _ LT); eauto. }
        rewrite clash_false in P4.
        assert (NP : forall y, In y c -> cl m0 i y = false).
        { intros y Y. destruct (CASE y Y) as [X|X]; [|apply P4; auto]. destruct (cl m0 i y) eqn:C; auto. exfalso. eapply ml_cl; eauto. }
        apply clash_false. intros a b A B. pose proof (IC a A) as Ja. pose proof (IC b B) as Jb. destruct (cl m0 a b) eqn:C; auto. destruct (CASE a A) as [QA|QA].
        - assert (X : cl m0 i b = true) by (apply (cl_ml_l m0 I0 i a b); auto). rewrite (NP b B) in X. discriminate.
        - destruct (CASE b B) as [QB|QB]; [|rewrite (P4 a b) in C; auto].
          assert (X : cl m0 a i = true) by (apply (cl_ml_r m0 I0 a b i); auto; rewrite ml_sym; auto). rewrite cl_sym in X by auto. rewrite (NP a A) in X. discriminate.
      Qed.
    End Core.

    (** ** Absorption *)
    Definition locals_good (lc : dict pystr (list pystr)) : Prop := NoDup (keys lc) /\ forall k pts, In (k, pts) lc -> pts <> [] /\ good pts.
    Lemma locals_start labels local : local_inv m0 l (labels, local) -> locals_good local.
    Proof.
      intro LI. split; [exact (li_nodup _ _ _ LI)|]. intros k pts J. destruct (li_pts _ _ _ LI k pts) as (_ & Q1 & Q2 & Q3); [apply In_dget; auto; exact (li_nodup _ _ _ LI)|].
      split; [intros ->; destruct Q2|]. split; auto.
    Qed.

    Lemma absorb_right fuel : forall c lc lo r hi, length lc < fuel -> c <> [] -> good c -> locals_good lc -> watch here lo (p_absorb D ltb setlist p table fuel c lc) r hi ->
      exists c' lc', r = Ok (c', lc') /\ good c' /\ locals_good lc'.
    Proof.
      induction fuel as [|fuel IH]; intros c lc lo r hi L Nc Gc Gl W; [lia|]. cbn [p_absorb] in W. destruct lc as [|e0 lc0] eqn:ELC; [apply watch_done_inv in W as [-> _]; eauto|]. rewrite <- ELC in *.
      assert (NEl : keys lc <> []) by (rewrite ELC; discriminate). clear ELC e0 lc0. destruct Gl as [Nk Gl]. destruct Gc as [Ic Qc].
      assert (GL : locals_good lc) by (split; auto). assert (GC : good c) by (split; auto).
      rewrite (rmap_pure _ (fun e => (fst e, mind D ltb p table c (snd e)))) in W.
      2:{ intros [k pts] J. cbn [fst snd]. destruct (Gl k pts J) as [Q1 [Q2 _]]. rewrite (cluster_distance_run D ltb p m0 table TG); auto. }
      cbn [pbind] in W. set (ds := map (fun e : pystr * list pystr => (fst e, mind D ltb p table c (snd e))) lc) in *.
      assert (KD : keys ds = keys lc) by (unfold ds, keys; rewrite map_map; auto).
      destruct (py_min_In str_ltb (keys ds)) as (k & Ek & Jk); [congruence|]. rewrite Ek in W. cbn [pbind] in W.
      destruct (dget_In_key _ _ Jk) as [d Ed]. rewrite (dlookup_Some _ _ Ed) in W. cbn [pbind] in W. destruct (ltb (db_eps D p) d); [apply watch_done_inv in W as [-> _]; eauto|].
      rewrite KD in Jk. destruct (dget_In_key _ _ Jk) as [pts Ep]. rewrite (dlookup_Some _ _ Ep) in W. cbn [pbind] in W. destruct (Gl k pts (dget_In _ _ Ep)) as [Np [Ip Qp]].
      apply watch_bind in W as (u & n1 & W1 & W). apply conflict_right in W1 as (b & -> & CB); auto. destruct b; [apply watch_done_inv in W as [-> _]; eauto|]. specialize (CB eq_refl).
      assert (DP : dpop k lc = filter (fun e => negb (eqb k (fst e))) lc).
      { pose proof (dpop_strict_run k lc Nk Jk) as Q. unfold dpop_strict in Q. rewrite (mem_true _ _ Jk) in Q. congruence. }
      apply IH in W; auto.
      - assert (Q : length (dpop k lc) < length lc); [|lia]. clear - Jk. induction lc as [|[k' v'] lc IHl]; [destruct Jk|]. cbn [dpop]. destruct (eqb_spec k k'); cbn [length]; [lia|].
        destruct Jk as [Q|Q]; [cbn [fst] in Q; congruence|]. apply IHl in Q. lia.
      - intro Q. destruct pts as [|z pts]; [congruence|]. assert (Z : In z (setlist (c ++ z :: pts))) by (apply SL, in_or_app; simpl; auto). rewrite Q in Z. destruct Z.
      - split; [intros z Z; apply SLI, in_app_or in Z as [Z|Z]; auto|]. intro Q. specialize (Qc Q). specialize (Qp Q). rewrite clash_false in Qc, Qp, CB. apply clash_false.
        intros a b A B. apply SLI, in_app_or in A as [A|A]; apply SLI, in_app_or in B as [B|B]; auto. rewrite cl_sym by auto. auto.
      - split; [rewrite DP, (keys_filter (fun x => negb (eqb k x))); apply NoDup_filter_list; auto|]. intros k' pts' J. rewrite DP in J. apply filter_In in J as [J _]. eauto.
    Qed.

    Lemma merge_right cores : forall lc lo r hi, (forall k c, In (k, c) cores -> c <> [] /\ good c) -> locals_good lc -> watch here lo (p_merge_cannot_links D ltb setlist p table cores lc) r hi ->
      exists cores' lc', r = Ok (cores', lc') /\ (forall c, In c (vals cores') -> good c) /\ locals_good lc'.
    Proof.
      induction cores as [|[k c] cores IH]; intros lc lo r hi HC HL W; cbn [p_merge_cannot_links] in W.
      - apply watch_done_inv in W as [-> _]. exists [], lc. split; auto. split; [intros c []|auto].
      - destruct (HC k c (or_introl eq_refl)) as [Q1 Q2]. apply watch_bind in W as (u & n1 & W1 & W). apply absorb_right in W1 as (c' & lc' & -> & G1 & G2); auto. cbn [fst snd] in W.
        apply watch_bind in W as (u & n2 & W1 & W). apply IH in W1 as (cores' & lc2 & -> & G3 & G4); auto; [|intros k' c2 J; apply (HC k' c2); right; auto].
        apply watch_done_inv in W as [-> _]. eexists. eexists. split; [reflexivity|]. cbn [fst snd]. split; auto. intros c2 [<-|J]; auto.
    Qed.

    (** ** Numbers *)
    Lemma number_loose cores lc : (forall c, In c (vals cores) -> good c) -> locals_good lc ->
      exists d, number_clusters D leb of_nat p l cores lc = Ok d /\ covers_exactly m0 d /\ NoDup (keys d) /\ regular_and_ignored m0 d /\ (quiet -> respects_cannot_links m0 d).
    Proof.
      intros GC [NL GL]. unfold number_clusters. set (s1 := final_core (vals cores) ([], 0%Z)). set (s2 := final_local D leb of_nat p (vals lc) s1).
      assert (NM1 : named (fst s1) (snd s1) (core_group (vals cores))).
      { apply named_ext with (g := fun x => match lastidx (vals cores) x with Some j => Some (inl (0 + j)) | None => None end).
        - intro x. unfold core_group. destruct (lastidx (vals cores) x); auto.
        - apply (final_core_named (vals cores) [] 0%Z (fun _ => None) 0); [|discriminate]. constructor; [constructor|lia|tauto|discriminate|congruence]. }
      set (g := local_groups D leb of_nat p lc (core_group (vals cores))).
      assert (NM : named (fst s2) (snd s2) g).
      { unfold s2, g. rewrite (surjective_pairing s1). apply final_local_named; auto. intros x k _. unfold core_group. destruct (lastidx _ x); discriminate. }
      assert (NB : numbered good (fst s2) (snd s2)).
      { apply final_local_numbered; [|apply final_core_numbered; [exact GC|apply numbered_start]]. intros c J. apply in_map_iff in J as ([k c'] & Q & J). cbn [snd] in Q. subst c'. apply (GL k c J). }
      destruct (rename_run (fst s2) (nm_nodup _ _ _ NM)) as (rr & RE & _). rewrite RE. cbn [rbind]. rewrite (final_ignored_eq l ND rr). cbn [fst].
      assert (IN : incl (keys (fst s2)) l).
      { intros x X. apply dget_In_key in X as [v E]. destruct (nb_good _ _ _ NB v) as (c & [->|G] & H); apply H in E; [destruct E|]. apply G; auto. }
      exists (final l rr). split; auto.
      split; [intro x; rewrite (final_keys_In l (fst s2) rr (snd s2) g NM IN RE), managed_ids; tauto|].
      split; [apply (final_nodup l ND (fst s2) rr (snd s2) g NM RE)|]. split.
      - exists l, rr, (ignored l rr). split; [apply ask_managed; auto|]. split; auto. split; [apply (rr_ok (fst s2) rr (snd s2) g NM RE)|].
        assert (L : length (ignored l rr) = length (missing l rr)) by (rewrite <- (keys_ignored l rr); unfold keys; rewrite map_length; auto).
        rewrite L. split; [apply vals_ignored|]. intros x y B. rewrite keys_ignored in B. apply KMeansProofs.before_filter in B. auto.
      - intros QU a b Ma Mb CL Q. apply managed_ids in Ma, Mb. apply (inferred_cl m0 I0) in CL; auto. destruct (g a) eqn:Ga.
        + assert (Gn : g a <> None) by congruence. apply (final_same _ ND (fst s2) rr (snd s2) g NM RE a b Ma Mb Gn) in Q.
          apply (nm_same _ _ _ NM a b Gn) in Q. destruct (dget a (fst s2)) as [v|] eqn:Ea; [|apply (nm_none _ _ _ NM) in Ea; congruence].
          destruct (nb_good _ _ _ NB v) as (c & [->|[_ F]] & H); [destruct (H a Ea)|]. specialize (F QU). rewrite clash_false in F. rewrite (F a b) in CL; [discriminate|apply H; auto|apply H; auto].
        + destruct (final_none _ ND (fst s2) rr (snd s2) g NM RE a Ma Ga) as (v & Ev & _).
          assert (Eb : dget b (final l rr) = Some v) by congruence.
          pose proof (final_distinct _ ND (fst s2) rr (snd s2) g NM RE a b v Ma Mb Ga Ev Eb). subst b. rewrite cl_irrefl in CL; auto. discriminate.
    Qed.
  End Run.
End Loose.

Lemma dbscan_right m0 cs : reachable m0 -> Forall only_adds_constraints cs -> forall {vec D : Type} (pairwise : list vec -> nat -> nat -> D) leb ltb of_nat setlist q lo r hi,
  valid_setlist setlist -> valid_dbscan_call pairwise leb of_nat m0 q -> watch (SampleThreadThms.here m0 cs) lo (p_dbscan vec D pairwise leb ltb of_nat setlist (fst q) (snd q) None) r hi ->
  exists d, r = Ok d /\ covers_exactly m0 d /\ NoDup (keys d) /\ regular_and_ignored m0 d /\ (quiet m0 cs -> respects_cannot_links m0 d).
Proof.
  intros R0 AC vec D pairwise leb ltb of_nat setlist [p vectors] lo r hi SL ((eps & ms & MK) & RF & HI & (v' & Ev & COV)) W. injection Ev as <-. cbn [fst snd] in *.
  assert (I0 := reachable_inv _ R0). assert (NE := proj1 (has_ids_spec m0) HI). apply make_ok in MK as (_ & MS & _).
  assert (CV : forall x, In x (ids m0) -> In x (keys vectors)) by (intros x X; apply COV, managed_ids; auto).
  unfold p_dbscan in W. apply watch_bind in W as (u & n1 & W1 & W). apply watch_read in W1 as (_ & s & [_ K] & ->). rewrite K in W.
  apply watch_bind in W as (u & n2 & W1 & W). apply watch_read in W1 as (_ & s' & [_ K'] & ->).
  assert (ST : pairwise_table vec D pairwise s' vectors = pairwise_table vec D pairwise m0 vectors) by (unfold pairwise_table, ask; rewrite !run_managed, K'; reflexivity).
  rewrite ST in W. destruct (pairwise_table_run pairwise m0 vectors I0 CV NE) as (table & ET & GT). rewrite ET in W.
  assert (TG := table_total pairwise m0 vectors table GT). assert (RL := near_refl pairwise leb p RF m0 vectors I0 table GT).
  apply watch_bind in W as (u & n3 & W1 & W). apply (local_right m0 cs R0 AC leb p table TG RL (ids m0) []) in W1 as ([labels local] & -> & LI); auto.
  2:{ apply (after_inv D leb p m0 table I0 TG RL []); [intros x []|constructor]. }
  apply watch_bind in W as (u & n4 & W1 & W). apply (compatible_right m0 cs R0 AC) in W1 as (comp & -> & LT).
  destruct (merge_loose m0 cs R0 setlist SL labels local comp LI LT) as (merged & EM & CI). rewrite EM in W. cbn [pbind] in W.
  destruct (clean_loose m0 R0 labels local comp merged CI) as (cores & EC & HC). rewrite EC in W. cbn [pbind snd] in W.
  apply watch_bind in W as (u & n5 & W1 & W). apply (merge_right m0 cs R0 AC ltb setlist p table SL TG MS) in W1 as (cores' & lc' & -> & G1 & G2).
  - apply watch_done_inv in W as [-> _]. cbn [fst snd]. destruct (number_loose m0 cs R0 leb of_nat p MS cores' lc' G1 G2) as (d & -> & R). exists d. auto.
  - intros k c J. destruct (HC k c J) as (Q1 & Q2 & Q3). split; auto. eapply near_or_linked_good; eauto.
  - eapply locals_start; eauto.
Qed.
