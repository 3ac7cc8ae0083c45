(** * How the constrained DBScan runs: the computations without exceptions. *)

From Coq Require Import String List Bool Arith ZArith Lia Permutation Sorted.
From Verif Require Import Base Manager Spec Closure ManagerProofs ManagerInv ManagerQueries ManagerThms
  Sampling SamplingSpec SamplingProofs SamplingThms Rename ClusterSpec RenameThms ClusterProofs KMeans KMeansProofs
  Hierarchical HierSpec HierProofs Spectral Dbscan DbscanSpec.
Import ListNotations.
Open Scope nat_scope.
Open Scope py_scope.


Lemma mem_true {K} `{EqB K} (x : K) l : In x l -> mem x l = true.
Proof. apply mem_In. Qed.
Lemma mem_false {K} `{EqB K} (x : K) l : ~ In x l -> mem x l = false.
Proof. apply mem_nIn. Qed.

Lemma dget_fold_dset {V} (f : pystr -> V) l : forall d x,
  dget x (fold_left (fun d y => dset y (f y) d) l d) = if mem x l then Some (f x) else dget x d.
Proof.
  induction l as [|y l IH]; intros d x; simpl; auto. rewrite IH, dget_dset. destruct (eqb_spec x y); subst; simpl.
  - destruct (mem y l); auto.
  - destruct (mem x l); auto.
Qed.
Lemma keys_fold_dset_in {V} (f : pystr -> V) l : forall d, (forall x, In x l -> In x (keys d)) ->
  keys (fold_left (fun d y => dset y (f y) d) l d) = keys d.
Proof.
  induction l as [|y l IH]; intros d S; simpl; auto. rewrite IH; [apply keys_dset_in, S; simpl; auto|].
  intros x J. rewrite In_keys_dset. right. apply S. simpl. auto.
Qed.
Lemma In_keys_fold_dset {V} (f : pystr -> V) l : forall d x, In x (keys (fold_left (fun d y => dset y (f y) d) l d)) <-> In x l \/ In x (keys d).
Proof.
  intros d x. destruct (dget x (fold_left (fun d y => dset y (f y) d) l d)) eqn:E.
  - split; [intros _|intros _; eapply dget_Some_key; eauto]. rewrite dget_fold_dset in E. destruct (mem x l) eqn:M0; [left; apply mem_In; auto|].
    right. eapply dget_Some_key; eauto.
  - split; [intro J; apply dget_None in E; contradiction|]. rewrite dget_fold_dset in E. destruct (mem x l) eqn:M0; [discriminate|].
    apply mem_nIn in M0. apply dget_None in E. tauto.
Qed.
Lemma NoDup_keys_fold_dset {V} (f : pystr -> V) l : forall d, NoDup (keys d) -> NoDup (keys (fold_left (fun d y => dset y (f y) d) l d)).
Proof. induction l as [|y l IH]; intros d N; simpl; auto. apply IH, NoDup_keys_dset; auto. Qed.

Lemma rfold_pure {A B} (P : B -> Prop) (f : B -> A -> res B) (g : B -> A -> B) l :
  (forall b a, In a l -> P b -> f b a = Ok (g b a) /\ P (g b a)) -> forall b, P b -> rfold f l b = Ok (fold_left g l b) /\ P (fold_left g l b).
Proof.
  induction l as [|a l IH]; intros H b Pb; simpl; auto. destruct (H b a (or_introl eq_refl) Pb) as [E Pb']. rewrite E. cbn [rbind].
  apply IH; auto. intros b' a' J. apply H. right; auto.
Qed.

Lemma filter_filter {A} (f g : A -> bool) ks : filter f (filter g ks) = filter (fun x => f x && g x) ks.
Proof. induction ks as [|x ks IH]; [reflexivity|]. cbn [filter]. destruct (g x) eqn:G; cbn [filter]; [rewrite andb_true_r|rewrite andb_false_r, IH; auto]. destruct (f x); rewrite IH; auto. Qed.

Lemma filter_all {A} (f : A -> bool) ks : (forall x, In x ks -> f x = true) -> filter f ks = ks.
Proof. induction ks as [|x ks IH]; intro H; [reflexivity|]. cbn [filter]. rewrite H by (simpl; auto). f_equal. apply IH. intros y Y. apply H. simpl; auto. Qed.

Section Run.
  Variables vec D : Type.
  Variable leb ltb : D -> D -> bool.
  Variable of_nat : nat -> D.
  Variable setlist : list pystr -> list pystr.
  Variable p : db_params D.
  Variable m : mgr.
  Variable table : dict pystr (dict pystr D).
  Hypothesis I : Inv m.
  Hypothesis SL : valid_setlist setlist.
  Hypothesis TG : forall x y, In x (ids m) -> In y (ids m) -> exists d, table_get D table (x, y) = Ok d.
  Notation l := (ids m).
  Notation eps := (db_eps D p).

  Let ND : NoDup l := inv_nodup m I.

  Definition dist (x y : pystr) : D := match table_get D table (x, y) with Ok d => d | Raise _ => eps end.
  Lemma table_dist x y : In x l -> In y l -> table_get D table (x, y) = Ok (dist x y).
  Proof. intros X Y. unfold dist. destruct (TG x y X Y) as [d ->]. auto. Qed.
  Definition near (x y : pystr) : bool := leb (dist x y) eps.

  Hypothesis REFL : forall x, In x l -> near x x = true.
  Hypothesis MS : 1 <= db_min_samples D p.

  Definition clash (xs ys : list pystr) : bool := existsb (fun j => existsb (cl m j) ys) xs.
  Lemma conflict_run xs ys : incl xs l -> incl ys l -> conflict m xs ys = Ok (clash xs ys).
  Proof.
    intros X Y. unfold conflict.
    rewrite (rmap_pure _ (fun j => filter (fun i => cl m j i) ys)).
    2:{ intros j J. apply rfilter_pure. intros i Ii. apply inferred_is_cl; auto. }
    cbn [rbind]. f_equal. unfold clash. clear X. induction xs as [|j xs IH]; [reflexivity|]. cbn [map existsb]. f_equal; [|exact IH].
    clear. induction ys as [|i ys IH]; [reflexivity|]. cbn [filter existsb]. destruct (cl m j i); [reflexivity|]. exact IH.
  Qed.
  Lemma clash_spec xs ys : clash xs ys = true <-> exists a b, In a xs /\ In b ys /\ cl m a b = true.
  Proof.
    unfold clash. rewrite existsb_exists. split.
    - intros (a & A & E). apply existsb_exists in E as (b & B & E). eauto.
    - intros (a & b & A & B & E). exists a. split; auto. apply existsb_exists. eauto.
  Qed.
  Lemma clash_false xs ys : clash xs ys = false <-> forall a b, In a xs -> In b ys -> cl m a b = false.
  Proof.
    split.
    - intros E a b A B. destruct (cl m a b) eqn:C; auto. assert (Q : clash xs ys = true) by (apply clash_spec; eauto). congruence.
    - intros H. destruct (clash xs ys) eqn:E; auto. apply clash_spec in E as (a & b & A & B & C). rewrite H in C; auto.
  Qed.

  (** ** Local clusters *)
  Definition lab (labels : dict pystr label) (x : pystr) : label := match dget x labels with Some v => v | None => UNLABELED end.
  Definition single (labels : dict pystr label) (x : pystr) : bool := is_single (lab labels x).
  Lemma lookup_lab labels x : keys labels = l -> In x l -> dlookup x labels = Ok (lab labels x).
  Proof. intros K J. unfold dlookup, lab. destruct (dget x labels) eqn:E; auto. apply dget_None in E. rewrite K in E. contradiction. Qed.

  Definition neighbors (labels : dict pystr label) (x : pystr) : list pystr := filter (near x) (filter (fun y => negb (single labels y)) l).
  Lemma neighbors_In labels x y : In y (neighbors labels x) <-> In y l /\ near x y = true /\ single labels y = false.
  Proof. unfold neighbors. rewrite !filter_In, negb_true_iff. tauto. Qed.
  Lemma neighbors_incl labels x : incl (neighbors labels x) l.
  Proof. intros y J. apply neighbors_In in J. tauto. Qed.
  Lemma neighbors_NoDup labels x : NoDup (neighbors labels x).
  Proof. unfold neighbors. auto using NoDup_filter_list. Qed.

  Definition pstep (s : locals) (x : pystr) : locals :=
    let '(labels, local) := s in
    if single labels x then s
    else
      let N := neighbors labels x in
      if length N <? db_min_samples D p then (dset x NOISE labels, local)
      else if clash N N then (fold_left (fun d y => dset y SINGLE_CORE d) N labels, fold_left (fun d y => dset y [y] d) N local)
      else (dset x CORE labels, dset x N local).

  Lemma local_step_run s x : keys (fst s) = l -> In x l -> local_step D leb p m table l s x = Ok (pstep s x) /\ keys (fst (pstep s x)) = l.
  Proof.
    destruct s as [labels local]. cbn [fst]. intros K J. unfold local_step, pstep. rewrite (lookup_lab labels x K J). cbn [rbind]. fold (single labels x).
    destruct (single labels x) eqn:S; [auto|].
    rewrite (rfilter_pure _ (fun y => negb (single labels y))) by (intros y Y; rewrite (lookup_lab labels y K Y); auto). cbn [rbind].
    rewrite (rfilter_pure _ (near x)) by (intros y Y; apply filter_In in Y as [Y _]; rewrite table_dist by auto; auto). cbn [rbind].
    fold (neighbors labels x). rewrite conflict_run by (apply neighbors_incl). cbn [rbind].
    destruct (_ <? _); [split; auto; cbn [fst]; rewrite keys_dset_in; auto; rewrite K; auto|].
    destruct (clash _ _); split; auto; cbn [fst].
    - rewrite (keys_fold_dset_in (fun _ => SINGLE_CORE)); auto. intros y Y. rewrite K. apply neighbors_incl in Y; auto.
    - rewrite keys_dset_in; auto. rewrite K; auto.
  Qed.

  Definition start : locals := (dcomp (fun _ => UNLABELED) l, []).
  Lemma start_keys : keys (fst start) = l.
  Proof. cbn [start fst]. rewrite keys_dcomp. apply dedup_id; auto. Qed.
  Definition after (done : list pystr) : locals := fold_left pstep done start.
  Lemma after_snoc done x : after (done ++ [x]) = pstep (after done) x.
  Proof. unfold after. rewrite fold_left_app. reflexivity. Qed.
  Lemma local_clusters_run : local_clusters D leb p m table l = Ok (after l) /\ keys (fst (after l)) = l.
  Proof.
    unfold local_clusters, after. apply (rfold_pure (fun s : locals => keys (fst s) = l)); [|apply start_keys].
    intros s x J K. apply local_step_run; auto.
  Qed.

  Record local_inv (done : list pystr) (s : locals) : Prop := {
    li_keys : keys (fst s) = l;
    li_nodup : NoDup (keys (snd s));
    li_incl : incl (keys (snd s)) l;
    li_done : forall x, In x done -> lab (fst s) x <> UNLABELED;
    li_todo : forall x, ~ In x done -> lab (fst s) x = UNLABELED \/ lab (fst s) x = SINGLE_CORE;
    li_local : forall x, In x l -> In x (keys (snd s)) <-> lab (fst s) x = CORE \/ lab (fst s) x = SINGLE_CORE;
    li_pts : forall x pts, dget x (snd s) = Some pts -> NoDup pts /\ incl pts l /\ In x pts /\ clash pts pts = false }.

  Lemma lab_dset labels x v y : lab (dset x v labels) y = if eqb y x then v else lab labels y.
  Proof. unfold lab. rewrite dget_dset. destruct (eqb y x); auto. Qed.
  Lemma lab_fold labels N y : lab (fold_left (fun d y => dset y SINGLE_CORE d) N labels) y = if mem y N then SINGLE_CORE else lab labels y.
  Proof. unfold lab. rewrite (dget_fold_dset (fun _ => SINGLE_CORE)). destruct (mem y N); auto. Qed.

  Lemma clash_singleton x : In x l -> clash [x] [x] = false.
  Proof. intro J. apply clash_false. intros a b [<-|[]] [<-|[]]. apply cl_irrefl; auto. Qed.

  Lemma pstep_inv done s x : In x l -> ~ In x done -> local_inv done s -> local_inv (done ++ [x]) (pstep s x).
  Proof.
    intros J NI [K N0 IN DN TD LC PT]. destruct s as [labels local]. cbn [fst snd] in *.
    pose proof (local_step_run (labels, local) x K J) as [_ K']. unfold pstep in *. destruct (single labels x) eqn:S.
    { constructor; cbn [fst snd]; auto.
      - intros y Y. apply in_app_or in Y as [Y|[<-|[]]]; auto. unfold single in S. destruct (lab labels x); discriminate.
      - intros y Y. apply TD. intro Q. apply Y, in_or_app. auto. }
    cbv zeta in *.
    assert (XN : In x (neighbors labels x)) by (apply neighbors_In; auto).
    assert (XU : lab labels x = UNLABELED) by (destruct (TD x NI) as [Q|Q]; auto; unfold single in S; rewrite Q in S; discriminate).
    destruct (_ <? _) eqn:SM; [|destruct (clash (neighbors labels x) (neighbors labels x)) eqn:CLA]; cbn [fst] in K'.
    - constructor; cbn [fst snd]; [exact K'|exact N0|exact IN| | | |exact PT].
      + intros y Y. rewrite lab_dset. destruct (eqb_spec y x); [discriminate|]. apply in_app_or in Y as [Y|[Y|[]]]; [auto|congruence].
      + intros y Y. rewrite lab_dset. destruct (eqb_spec y x); [subst; exfalso; apply Y, in_or_app; simpl; auto|]. apply TD. intro Q. apply Y, in_or_app. auto.
      + intros y Y. rewrite lab_dset. rewrite LC by auto. destruct (eqb_spec y x); [subst y; rewrite XU|tauto]. split; intros [Q|Q]; discriminate.
    - constructor; cbn [fst snd]; [exact K'| | | | | |].
      + apply (NoDup_keys_fold_dset (fun y => [y])); auto.
      + intros y Y. apply (In_keys_fold_dset (fun y => [y])) in Y as [Y|Y]; auto. eapply neighbors_incl; eauto.
      + intros y Y. rewrite lab_fold. destruct (mem y _) eqn:MY; [discriminate|]. apply in_app_or in Y as [Y|[Y|[]]]; [auto|].
        subst y. apply mem_nIn in MY. contradiction.
      + intros y Y. rewrite lab_fold. destruct (mem y _) eqn:MY; [auto|]. apply TD. intro Q. apply Y, in_or_app. auto.
      + intros y Y. rewrite lab_fold. rewrite (In_keys_fold_dset (fun y => [y])), LC by auto.
        destruct (mem y _) eqn:MY; [apply mem_In in MY|apply mem_nIn in MY]; tauto.
      + intros y pts. rewrite (dget_fold_dset (fun y => [y])). destruct (mem y _) eqn:MY; [|apply PT]. intro E. injection E as <-. apply mem_In, neighbors_incl in MY.
        split; [repeat constructor; simpl; tauto|]. split; [intros z [<-|[]]; auto|]. split; [simpl; auto|]. apply clash_singleton; auto.
    - constructor; cbn [fst snd]; [exact K'| | | | | |].
      + apply NoDup_keys_dset; auto.
      + intros y Y. apply In_keys_dset in Y as [->|Y]; auto.
      + intros y Y. rewrite lab_dset. destruct (eqb_spec y x); [discriminate|]. apply in_app_or in Y as [Y|[Y|[]]]; [auto|congruence].
      + intros y Y. rewrite lab_dset. destruct (eqb_spec y x); [subst; exfalso; apply Y, in_or_app; simpl; auto|]. apply TD. intro Q. apply Y, in_or_app. auto.
      + intros y Y. rewrite lab_dset, In_keys_dset, LC by auto. destruct (eqb_spec y x); [tauto|]. split; [intros [Q|Q]; [contradiction|auto]|auto].
      + intros y pts. rewrite dget_dset. destruct (eqb_spec y x) as [->|Q]; [|apply PT]. intro E. injection E as <-.
        split; [apply neighbors_NoDup|]. split; [apply neighbors_incl|]. auto.
  Qed.

  Lemma after_inv done : incl done l -> NoDup done -> local_inv done (after done).
  Proof.
    induction done as [|x done IH] using rev_ind; intros Sb N.
    - constructor; cbn [after fold_left start fst snd]; [apply start_keys|constructor|intros x []|intros x []| | |discriminate].
      + intros x _. left. unfold lab. rewrite dget_dcomp. destruct (mem x l); auto.
      + intros x J. unfold lab. rewrite dget_dcomp, (mem_true x l J). split; [intros []|intros [Q|Q]; discriminate].
    - rewrite after_snoc. apply NoDup_app_inv in N as (N1 & _ & N2). apply pstep_inv.
      + apply Sb, in_or_app; simpl; auto.
      + intro Q. apply (N2 x); simpl; auto.
      + apply IH; auto. intros y Y. apply Sb, in_or_app; auto.
  Qed.

  Definition labels : dict pystr label := fst (after l).
  Definition local : dict pystr (list pystr) := snd (after l).
  Definition noise (x : pystr) : bool := is_noise (lab labels x).

  Lemma final_inv : local_inv l (after l).
  Proof. apply after_inv; [apply incl_refl|exact ND]. Qed.
  Lemma in_local x : In x l -> In x (keys local) <-> noise x = false.
  Proof.
    intro J. rewrite (li_local _ _ final_inv x J). fold labels. unfold noise. pose proof (li_done _ _ final_inv x J) as U. fold labels in U.
    destruct (lab labels x); cbn [is_noise]; split; auto; try congruence; intros [Q|Q]; discriminate.
  Qed.

  (** The points that [i] brings. *)
  Definition points (i : pystr) : list pystr := match dget i local with Some pts => if noise i then [i] else pts | None => [i] end.
  Lemma points_local i pts : In i l -> dget i local = Some pts -> points i = pts.
  Proof.
    intros J E. unfold points. rewrite E. assert (Q : In i (keys local)) by (eapply dget_Some_key; eauto). apply in_local in Q; auto. rewrite Q. auto.
  Qed.
  Lemma points_ok i : In i l -> NoDup (points i) /\ incl (points i) l /\ In i (points i) /\ clash (points i) (points i) = false.
  Proof.
    intro J. unfold points. destruct (dget i local) as [pts|] eqn:E; [destruct (noise i)|].
    2:{ exact (li_pts _ _ final_inv i pts E). }
    all: (split; [repeat constructor; simpl; tauto|]); (split; [intros z [<-|[]]; auto|]); (split; [simpl; auto|]); apply clash_singleton; auto.
  Qed.

  (** ** Must-links *)
  Definition free (a : pystr) : bool := eqb a NONE.
  Definition asg (assigned : dict pystr pystr) (k : pystr) : pystr := match dget k assigned with Some a => a | None => NONE end.
  Lemma lookup_asg assigned x : keys assigned = l -> In x l -> dlookup x assigned = Ok (asg assigned x).
  Proof. intros K J. unfold dlookup, asg. destruct (dget x assigned) eqn:E; auto. apply dget_None in E. rewrite K in E. contradiction. Qed.

  Lemma claim_run c pts : forall assigned, keys assigned = l -> incl pts l -> NoDup pts ->
    exists assigned', claim c assigned pts = Ok (assigned', filter (fun k => free (asg assigned k)) pts) /\ keys assigned' = l /\
      forall k, asg assigned' k = if mem k pts && free (asg assigned k) then c else asg assigned k.
  Proof.
    unfold claim.
    assert (G : forall assigned taken, keys assigned = l -> incl pts l -> NoDup pts ->
      exists assigned', rfold (fun s k => let '(assigned, taken) := s in
                 a <-- dlookup k assigned ;;; Ok (if eqb a NONE then (dset k c assigned, taken ++ [k]) else s)) pts (assigned, taken)
        = Ok (assigned', taken ++ filter (fun k => free (asg assigned k)) pts) /\ keys assigned' = l /\
      forall k, asg assigned' k = if mem k pts && free (asg assigned k) then c else asg assigned k).
    { induction pts as [|k pts IH]; intros assigned taken K S N.
      - exists assigned. cbn [rfold filter mem andb]. rewrite app_nil_r. auto.
      - assert (Jk : In k l) by (apply S; simpl; auto). cbn [rfold]. rewrite (lookup_asg assigned k K Jk). cbn [rbind]. fold (free (asg assigned k)).
        inversion N as [|? ? N1 N2]; subst. assert (S' : incl pts l) by (intros z Z; apply S; simpl; auto).
        destruct (free (asg assigned k)) eqn:F.
        + destruct (IH (dset k c assigned) (taken ++ [k])) as (a' & E & K' & H); auto; [rewrite keys_dset_in; auto; rewrite K; auto|].
          assert (AD : forall z, asg (dset k c assigned) z = if eqb z k then c else asg assigned z) by (intro z; unfold asg; rewrite dget_dset; destruct (eqb z k); auto).
          exists a'. split; [|split; auto].
          * rewrite E. cbn [filter]. rewrite F. rewrite <- app_assoc. cbn [app]. do 3 f_equal. f_equal. apply filter_ext_in. intros z Z. rewrite AD.
            destruct (eqb_spec z k); [subst; contradiction|auto].
          * intro z. rewrite H, AD. cbn [mem]. destruct (eqb_spec z k) as [->|Q]; cbn [orb]; [rewrite (mem_false k pts N1), F; auto|auto].
        + destruct (IH assigned taken K S' N2) as (a' & E & K' & H). exists a'. split; [|split; auto].
          * rewrite E. cbn [filter]. rewrite F. auto.
          * intro z. rewrite H. cbn [mem]. destruct (eqb_spec z k) as [->|Q]; cbn [orb]; [rewrite (mem_false k pts N1), F; auto|auto]. }
    intros assigned K S N. destruct (G assigned [] K S N) as (a' & E & R). exists a'. auto.
  Qed.

  (** The points [i] claims at the turn of [j]. *)
  Definition reach_at (i j k : pystr) : bool := mem k (points i) || (eqb k j && negb (noise j)).

  Definition coreof (core : dict pystr (list pystr)) (x : pystr) : list pystr := match dget x core with Some c => c | None => [] end.

  Definition compatible : dict pystr (list pystr) := map (fun j => (j, filter (ml m j) l)) l.
  Definition clusters_of : dict pystr (list pystr) :=
    map (fun j => (j, filter (fun c => match dget c local with Some pts => mem j pts | None => false end) (keys local))) l.

  Lemma merge_step_run i j assigned core : In i l -> In j l -> keys assigned = l -> keys core = l ->
    exists assigned' taken,
      merge_step setlist labels local clusters_of i i (points i) (assigned, core) j
        = Ok (assigned', dset i (setlist (coreof core i ++ taken ++ [i; j])) core) /\
      keys assigned' = l /\
      (forall k, In k taken <-> reach_at i j k = true /\ free (asg assigned k) = true) /\
      (forall k, asg assigned' k = if reach_at i j k && free (asg assigned k) then i else asg assigned k).
  Proof.
    intros Ji Jj K Kc. unfold merge_step. rewrite (lookup_lab labels j (li_keys _ _ final_inv) Jj). cbn [rbind]. fold (noise j).
    destruct (points_ok i Ji) as (P1 & P2 & P3 & P4).
    assert (LC : dlookup i core = Ok (coreof core i)).
    { unfold dlookup, coreof. destruct (dget i core) eqn:E; auto. apply dget_None in E. rewrite Kc in E. contradiction. }
    destruct (noise j) eqn:NJ.
    - cbn [rbind]. destruct (claim_run i (points i) assigned K P2 P1) as (a' & E & K' & H). rewrite E. cbn [rbind]. rewrite LC. cbn [rbind].
      exists a'; eexists; split; [reflexivity|]. split; auto. unfold reach_at. rewrite NJ. cbn [negb]. split.
      + intro k. rewrite filter_In, andb_false_r, orb_false_r, mem_In. tauto.
      + intro k. rewrite andb_false_r, orb_false_r. apply H.
    - assert (MJ : In j (keys local)) by (apply in_local; auto). rewrite (mem_true j _ MJ). cbn [rbind].
      destruct (SL (points i ++ [j])) as [S1 S2].
      assert (SI : incl (setlist (points i ++ [j])) l) by (intros z Z; apply S2 in Z; apply in_app_or in Z as [Z|[<-|[]]]; auto).
      destruct (claim_run i _ assigned K SI S1) as (a' & E & K' & H). rewrite E. cbn [rbind]. rewrite LC. cbn [rbind].
      assert (R : forall k, mem k (setlist (points i ++ [j])) = reach_at i j k).
      { intro k. unfold reach_at. rewrite NJ. cbn [negb]. rewrite andb_true_r. destruct (mem k (setlist _)) eqn:MK.
        - apply mem_In, S2, in_app_or in MK as [MK|[<-|[]]]; [rewrite (mem_true _ _ MK); auto|rewrite eqb_refl, orb_true_r; auto].
        - apply mem_nIn in MK. symmetry. apply orb_false_iff. split; [apply mem_false; intro Q|apply eqb_neq; intro Q]; apply MK, S2, in_or_app; simpl; auto. }
      exists a'; eexists; split; [reflexivity|]. split; auto. split.
      + intro k. rewrite filter_In, <- R, mem_In. tauto.
      + intro k. rewrite <- R. apply H.
  Qed.

  Lemma compatible_run : rmap (fun j => c <-- rfilter (fun i => inferred_is m j i MUST_LINK) l ;;; Ok (j, c)) l = Ok compatible.
  Proof.
    unfold compatible. apply rmap_pure. intros j J. rewrite (rfilter_pure _ (ml m j)); [reflexivity|].
    intros i Ii. unfold inferred_is. rewrite ask_inferred by auto. reflexivity.
  Qed.
  Lemma dget_map_pair {V} (f : pystr -> V) ks x : In x ks -> dget x (map (fun j => (j, f j)) ks) = Some (f x).
  Proof.
    induction ks as [|y ks IH]; [intros []|]. intro J. cbn [map dget]. destruct (eqb_spec x y) as [->|Q]; auto. apply IH. destruct J; [congruence|auto].
  Qed.

  (** The turn of [i]. *)
  Definition reach (i k : pystr) : bool := mem k (points i) || (mem k (filter (ml m i) l) && negb (noise k)).

  Lemma merge_comp_run i : In i l -> forall js assigned core, incl js l -> keys assigned = l -> keys core = l ->
    exists assigned' core',
      rfold (merge_step setlist labels local clusters_of i i (points i)) js (assigned, core) = Ok (assigned', core') /\
      keys assigned' = l /\ keys core' = l /\
      (forall x, x <> i -> coreof core' x = coreof core x) /\
      (js <> [] -> NoDup (coreof core' i)) /\
      (forall y, In y (coreof core' i) <-> In y (coreof core i) \/ (js <> [] /\ y = i) \/ In y js \/
                   existsb (fun j => reach_at i j y) js && free (asg assigned y) = true) /\
      (forall k, asg assigned' k = if existsb (fun j => reach_at i j k) js && free (asg assigned k) then i else asg assigned k).
  Proof.
    intro Ji. induction js as [|j js IH]; intros assigned core Sj K Kc.
    - exists assigned, core. cbn [rfold existsb andb]. split; auto. split; auto. split; auto. split; auto. split; [congruence|]. split; [|auto].
      intro y. split; [auto|]. intros [Q|[[Q _]|[[]|Q]]]; [auto|congruence|discriminate].
    - assert (Jj : In j l) by (apply Sj; simpl; auto). cbn [rfold].
      destruct (merge_step_run i j assigned core Ji Jj K Kc) as (a1 & taken & E & K1 & T1 & A1). rewrite E. cbn [rbind].
      set (c1 := dset i (setlist (coreof core i ++ taken ++ [i; j])) core) in *.
      assert (Kc1 : keys c1 = l) by (unfold c1; rewrite keys_dset_in; auto; rewrite Kc; auto).
      destruct (IH a1 c1 (fun z Z => Sj z (or_intror Z)) K1 Kc1) as (a2 & c2 & E2 & K2 & Kc2 & O2 & N2 & I2 & A2).
      assert (C1o : forall x, x <> i -> coreof c1 x = coreof core x) by (intros x Q; unfold coreof, c1; rewrite dget_dset_other; auto).
      assert (C1i : coreof c1 i = setlist (coreof core i ++ taken ++ [i; j])) by (unfold coreof at 1, c1; rewrite dget_dset_same; auto).
      exists a2, c2. split; auto. split; auto. split; auto. split; [intros x Q; rewrite O2, C1o; auto|]. split; [|split].
      + intros _. destruct js as [|j' js']; [|apply N2; discriminate]. cbn [rfold] in E2. injection E2 as <- <-. rewrite C1i. apply SL.
      + intro y. rewrite I2, C1i. rewrite (proj2 (SL _) y), !in_app_iff, T1. cbn [existsb In].
        rewrite A1, !andb_true_iff, orb_true_iff. destruct (reach_at i j y) eqn:R; cbn [andb].
        * destruct (free (asg assigned y)) eqn:F.
          -- split; intro; [|auto]. right; right; right. auto.
          -- rewrite F. split; [intros [[Q|[[_ Q]|[Q|[Q|[]]]]]|[[Q1 Q2]|[Q|[_ Q]]]]; try discriminate; auto|]; try (right; left; split; [discriminate|congruence]); auto.
             intros [Q|[[_ Q]|[[Q|Q]|[_ Q]]]]; try discriminate; auto 10.
        * split.
          -- intros [[Q|[[Q _]|[Q|[Q|[]]]]]|[[Q1 Q2]|[Q|[Q1 Q2]]]]; try discriminate; auto 10; right; left; split; [discriminate|congruence|discriminate|auto].
          -- intros [Q|[[_ Q]|[[Q|Q]|[[Q|Q] Q2]]]]; try discriminate; auto 10.
      + intro k. rewrite A2, A1. cbn [existsb]. destruct (reach_at i j k) eqn:R; cbn [andb orb]; auto.
        destruct (free (asg assigned k)) eqn:F; cbn [andb]; [|rewrite F, andb_false_r; auto].
        destruct (existsb _ js && free i); auto.
  Qed.

  Lemma reach_exists i k : In i l -> existsb (fun j => reach_at i j k) (filter (ml m i) l) = reach i k.
  Proof.
    intro Ji. unfold reach, reach_at. apply eq_true_iff_eq. rewrite existsb_exists, orb_true_iff, andb_true_iff, !mem_In, negb_true_iff. split.
    - intros (j & J & Q). apply orb_true_iff in Q as [Q|Q]; [left; apply mem_In; auto|]. apply andb_true_iff in Q as [Q1 Q2]. apply eqb_eq in Q1. subst k.
      apply negb_true_iff in Q2. auto.
    - intros [Q|[Q1 Q2]].
      + exists i. split; [apply filter_In; split; auto; apply ml_refl; auto|]. rewrite (mem_true _ _ Q). auto.
      + exists k. split; auto. rewrite eqb_refl, Q2. cbn. apply orb_true_r.
  Qed.

  (** Who owns [k] after the turns of [done]. *)
  Definition asg_after (done : list pystr) (k : pystr) : pystr := fold_left (fun a i => if reach i k && free a then i else a) done NONE.
  Lemma asg_after_snoc done i k : asg_after (done ++ [i]) k = if reach i k && free (asg_after done k) then i else asg_after done k.
  Proof. unfold asg_after. rewrite fold_left_app. reflexivity. Qed.

  Fixpoint pre (x : pystr) (ks : list pystr) : list pystr :=
    match ks with [] => [] | y :: ks' => if eqb x y then [] else y :: pre x ks' end.
  Lemma pre_app l1 x l2 : ~ In x l1 -> pre x (l1 ++ x :: l2) = l1.
  Proof.
    induction l1 as [|y l1 IH]; intro N; cbn [app pre]; [rewrite eqb_refl; auto|]. destruct (eqb_spec x y) as [->|Q]; [destruct N; simpl; auto|].
    f_equal. apply IH. simpl in N. tauto.
  Qed.

  Definition core0 (i y : pystr) : bool := mem y (filter (ml m i) l) || (reach i y && free (asg_after (pre i l) y)).

  Lemma merge_points_run rest : forall done analyzed assigned core, l = done ++ rest -> (forall x, In x rest -> ~ In x analyzed) ->
    keys assigned = l -> keys core = l -> (forall k, asg assigned k = asg_after done k) ->
    (forall x, In x rest -> coreof core x = []) ->
    (forall i, In i done -> NoDup (coreof core i) /\ forall y, In y (coreof core i) <-> core0 i y = true) ->
    exists analyzed' assigned' core',
      rfold (merge_point setlist labels local compatible clusters_of) rest (analyzed, (assigned, core)) = Ok (analyzed', (assigned', core')) /\
      keys core' = l /\ keys assigned' = l /\ (forall k, asg assigned' k = asg_after l k) /\
      (forall i, In i l -> NoDup (coreof core' i) /\ forall y, In y (coreof core' i) <-> core0 i y = true).
  Proof.
    induction rest as [|i rest IH]; intros done analyzed assigned core El NA K Kc HA HR HD.
    - rewrite app_nil_r in El. exists analyzed, assigned, core. rewrite El at 1 2. cbn [rfold]. rewrite El. rewrite El in K, Kc. auto.
    - assert (Ji : In i l) by (rewrite El; apply in_or_app; simpl; auto).
      assert (NDl : NoDup (done ++ i :: rest)) by (rewrite <- El; exact ND).
      destruct (NoDup_app_inv _ _ NDl) as (N1 & N2 & N3). inversion N2 as [|? ? N4 N5]; subst.
      assert (Nd : ~ In i done) by (intro Q; apply (N3 i); simpl; auto).
      cbn [rfold]. unfold merge_point at 1. rewrite (mem_false i analyzed) by (apply NA; simpl; auto).
      assert (LC : dlookup i compatible = Ok (filter (ml m i) l)) by (apply dlookup_Some; exact (dget_map_pair (fun j => filter (ml m j) l) l i Ji)).
      rewrite LC. cbn [rbind].
      assert (NE : filter (ml m i) l <> []).
      { intro Q. assert (Z : In i (filter (ml m i) l)) by (apply filter_In; split; auto; apply ml_refl; auto). rewrite Q in Z. destruct Z. }
      destruct (filter (ml m i) l) as [|j0 js] eqn:EF; [congruence|]. rewrite <- EF in *. clear NE.
      rewrite (lookup_lab labels i (li_keys _ _ final_inv) Ji). cbn [rbind]. fold (noise i).
      assert (CP : (if noise i then Ok (i, [i]) else if mem i (keys local) then pts <-- dlookup i local ;;; Ok (i, pts)
                    else c <-- local_cluster_of clusters_of assigned i ;;; pts <-- dlookup c local ;;; Ok (c, pts)) = Ok (i, points i)).
      { destruct (noise i) eqn:NI.
        - unfold points. rewrite NI. destruct (dget i local); auto.
        - assert (Q : In i (keys local)) by (apply in_local; auto). rewrite (mem_true _ _ Q). destruct (dget_In_key _ _ Q) as [pts EP].
          rewrite (dlookup_Some _ _ EP). cbn [rbind]. rewrite (points_local i pts Ji EP). auto. }
      rewrite CP. cbn [rbind fst snd].
      destruct (merge_comp_run i Ji (filter (ml m i) l) assigned core) as (a1 & c1 & E & K1 & Kc1 & O1 & N6 & I1 & A1); auto.
      { intros z Z. apply filter_In in Z. tauto. }
      rewrite E. cbn [rbind].
      assert (NE : filter (ml m i) l <> []) by (rewrite EF; discriminate).
      assert (PRE : pre i l = done) by (rewrite El; apply pre_app; auto).
      destruct (IH (done ++ [i]) (analyzed ++ [i]) a1 c1) as (an & a2 & c2 & E2 & R); auto.
      + rewrite <- app_assoc. auto.
      + intros x X Q. apply in_app_or in Q as [Q|[<-|[]]]; [apply (NA x); simpl; auto|contradiction].
      + intro k. rewrite A1, asg_after_snoc, HA, reach_exists by auto. auto.
      + intros x X. rewrite O1; [apply HR; simpl; auto|]. intros ->. contradiction.
      + intros x X. apply in_app_or in X as [X|[<-|[]]]; [rewrite O1; [auto|intros ->; contradiction]|]. split; [auto|].
        intro y. rewrite I1, (HR i) by (simpl; auto). unfold core0. rewrite PRE, orb_true_iff, mem_In, reach_exists, HA by auto. split.
        * intros [[]|[[_ ->]|[Q|Q]]]; auto. left. apply filter_In. split; auto. apply ml_refl; auto.
        * intros [Q|Q]; auto.
      + exists an, a2, c2. auto.
  Qed.

  Lemma merge_must_links_run : exists assigned core,
    merge_must_links setlist m l (after l) = Ok (assigned, core) /\ keys core = l /\ keys assigned = l /\ (forall k, asg assigned k = asg_after l k) /\
    (forall i, In i l -> NoDup (coreof core i) /\ forall y, In y (coreof core i) <-> core0 i y = true).
  Proof.
    unfold merge_must_links. pose proof (eq_refl (after l)) as E0. unfold after at 1 in E0.
    replace (after l) with (labels, local) by (unfold labels, local; destruct (after l); reflexivity). rewrite compatible_run. cbn [rbind].
    fold clusters_of.
    destruct (merge_points_run l [] [] (dcomp (fun _ => NONE) l) (dcomp (fun _ => []) l)) as (an & a & c & E & R); auto.
    - rewrite keys_dcomp. apply dedup_id, ND.
    - rewrite keys_dcomp. apply dedup_id, ND.
    - intro k. unfold asg, asg_after. rewrite dget_dcomp. destruct (mem k l); reflexivity.
    - intros x X. unfold coreof. rewrite dget_dcomp. destruct (mem x l); auto.
    - intros i [].
    - rewrite E. cbn [rbind snd]. exists a, c. auto.
  Qed.

  (** ** Cleaning *)
  Definition kept (core : dict pystr (list pystr)) (i : pystr) : bool := eqb (asg_after l i) i && (2 <=? length (coreof core i)).

  Lemma dpop_strict_run {V} k (d : dict pystr V) : NoDup (keys d) -> In k (keys d) -> dpop_strict k d = Ok (filter (fun e => negb (eqb k (fst e))) d).
  Proof.
    intros N J. unfold dpop_strict. rewrite (mem_true _ _ J). f_equal. clear J.
    induction d as [|[k' v] d IH]; [reflexivity|]. cbn [dpop filter fst]. cbn [keys map fst] in N. inversion N as [|? ? N1 N2]; subst. destruct (eqb_spec k k') as [->|Q]; cbn [negb].
    - symmetry. apply filter_all. intros [k2 v2] J. cbn [fst]. apply negb_true_iff, eqb_neq. intros ->. apply N1.
      apply in_map_iff. exists (k2, v2). auto.
    - f_equal. auto.
  Qed.
  Lemma keys_filter {V} (f : pystr -> bool) (d : dict pystr V) : keys (filter (fun e => f (fst e)) d) = filter f (keys d).
  Proof. unfold keys. induction d as [|[k v] d IH]; [reflexivity|]. cbn [filter map fst]. destruct (f k); cbn [map fst]; f_equal; auto. Qed.
  Lemma dget_filter {V} (f : pystr -> bool) (d : dict pystr V) x : dget x (filter (fun e => f (fst e)) d) = if f x then dget x d else None.
  Proof.
    induction d as [|[k v] d IH]; [destruct (f x); reflexivity|]. cbn [filter fst]. destruct (f k) eqn:F; cbn [dget].
    - destruct (eqb_spec x k) as [->|Q]; [rewrite F; auto|auto].
    - destruct (eqb_spec x k) as [->|Q]; [rewrite IH, F; auto|auto].
  Qed.

  (** One loop that pops the keys for which [drop] answers yes. *)
  Lemma pop_loop {V} (f : dict pystr V -> pystr -> res (dict pystr V)) (drop : pystr -> bool) (d0 : dict pystr V) : NoDup (keys d0) ->
    forall rest done, keys d0 = done ++ rest ->
    (forall d x, In x rest -> In x (keys d) -> dget x d = dget x d0 -> f d x = if drop x then dpop_strict x d else Ok d) ->
    rfold f rest (filter (fun e => negb (drop (fst e)) || mem (fst e) rest) d0) = Ok (filter (fun e => negb (drop (fst e))) d0).
  Proof.
    intro N. induction rest as [|x rest IH]; intros done El F.
    - cbn [rfold]. f_equal. apply filter_ext. intros [k v]. cbn [fst mem]. apply orb_false_r.
    - cbn [rfold]. assert (Jx : In x (keys d0)) by (rewrite El; apply in_or_app; simpl; auto).
      assert (NX : ~ In x rest) by (rewrite El in N; apply NoDup_app_inv in N as (_ & N & _); inversion N; auto).
      set (d := filter (fun e => negb (drop (fst e)) || mem (fst e) (x :: rest)) d0).
      assert (Kd : In x (keys d)).
      { unfold d. rewrite (keys_filter (fun k => negb (drop k) || mem k (x :: rest))). apply filter_In. split; auto. cbn [mem]. rewrite eqb_refl, orb_true_r. auto. }
      assert (Gd : dget x d = dget x d0).
      { unfold d. rewrite (dget_filter (fun k => negb (drop k) || mem k (x :: rest))). cbn [mem]. rewrite eqb_refl, orb_true_r. auto. }
      assert (NDd : NoDup (keys d)) by (unfold d; rewrite (keys_filter (fun k => negb (drop k) || mem k (x :: rest))); apply NoDup_filter_list; auto).
      rewrite (F d x) by (simpl; auto).
      assert (ST : (if drop x then dpop_strict x d else Ok d) = Ok (filter (fun e => negb (drop (fst e)) || mem (fst e) rest) d0)).
      { destruct (drop x) eqn:Dx.
        - rewrite (dpop_strict_run x d NDd Kd). f_equal. unfold d. rewrite filter_filter. apply filter_ext. intros [k v]. cbn [fst mem].
          destruct (eqb_spec x k) as [<-|Q]; cbn [negb andb].
          + rewrite Dx, (mem_false _ _ NX). reflexivity.
          + destruct (eqb_spec k x); [congruence|]. cbn [orb]. reflexivity.
        - f_equal. unfold d. apply filter_ext. intros [k v]. cbn [fst mem]. destruct (eqb_spec k x) as [->|Q]; cbn [orb]; auto. rewrite Dx. auto. }
      etransitivity; [exact (f_equal (fun r => rbind r (fun b => rfold f rest b)) ST)|]. cbn [rbind]. apply (IH (done ++ [x])); [rewrite <- app_assoc; auto|]. intros d' y J. apply F. simpl; auto.
  Qed.

  Lemma clean_run assigned core : keys core = l -> keys assigned = l -> (forall k, asg assigned k = asg_after l k) ->
    (forall i, In i l -> coreof core i <> []) ->
    clean l (assigned, core) = Ok (filter (fun e => kept core (fst e)) core).
  Proof.
    intros Kc Ka HA NE. unfold clean. assert (NDc : NoDup (keys core)) by (rewrite Kc; exact ND).
    pose proof (pop_loop (fun core x => c <-- dlookup x core ;;;
                 match c with [] => dpop_strict x core | _ => a <-- dlookup x assigned ;;; if eqb a x then Ok core else dpop_strict x core end)
                 (fun x => negb (eqb (asg_after l x) x)) core NDc l [] Kc) as P1. cbv beta in P1.
    rewrite (filter_all (fun e => negb (negb (eqb (asg_after l (fst e)) (fst e))) || mem (fst e) l)) in P1.
    2:{ intros [k v] J. cbn [fst]. assert (Q : In k l) by (rewrite <- Kc; apply in_map_iff; exists (k, v); auto). rewrite (mem_true _ _ Q). apply orb_true_r. }
    rewrite P1; clear P1.
    2:{ intros d x J Kx G. unfold dlookup at 1. rewrite G. specialize (NE x J). unfold coreof in NE. destruct (dget x core) as [c|]; [|congruence]. cbn [rbind].
        destruct c; [congruence|]. rewrite (lookup_asg assigned x Ka J), HA. cbn [rbind]. destruct (eqb (asg_after l x) x); auto. }
    cbn [rbind]. set (core1 := filter (fun e => negb (negb (eqb (asg_after l (fst e)) (fst e)))) core).
    assert (K1 : keys core1 = filter (fun x => eqb (asg_after l x) x) l).
    { unfold core1. rewrite (keys_filter (fun x => negb (negb (eqb (asg_after l x) x)))), Kc. apply filter_ext. intro. apply negb_involutive. }
    assert (N1 : NoDup (keys core1)) by (rewrite K1; apply NoDup_filter_list; exact ND).
    (* the second loop, over all of l, only acts on the keys of core1 *)
    assert (SK : forall rest (d : dict pystr (list pystr)), (forall x, In x (keys d) -> In x (keys core1)) ->
      rfold (fun core x => if mem x (keys core) then c <-- dlookup x core ;;; if length c <? 2 then dpop_strict x core else Ok core else Ok core) rest d
      = rfold (fun core x => if mem x (keys core) then c <-- dlookup x core ;;; if length c <? 2 then dpop_strict x core else Ok core else Ok core)
          (filter (fun x => eqb (asg_after l x) x) rest) d).
    { induction rest as [|x rest IH]; intros d S; [reflexivity|]. cbn [filter rfold]. destruct (eqb (asg_after l x) x) eqn:E.
      - cbn [rfold]. destruct (mem x (keys d)) eqn:Mx; [|cbn [rbind]; apply IH; auto]. unfold dlookup. destruct (dget x d) as [c|]; [|reflexivity]. cbn [rbind].
        destruct (length c <? 2); [|cbn [rbind]; apply IH; auto]. unfold dpop_strict. rewrite Mx. cbn [rbind]. apply IH. intros y Y. apply S. clear - Y.
        induction d as [|[k v] d IHd]; [destruct Y|]. cbn [dpop] in Y. destruct (eqb x k); cbn [keys map fst In] in *; tauto.
      - rewrite mem_false; [cbn [rbind]; apply IH; auto|]. intro Q. apply S in Q. rewrite K1 in Q. apply filter_In in Q. destruct Q as [_ Q]. congruence. }
    rewrite (SK l core1) by auto. rewrite <- K1.
    pose proof (pop_loop (fun core x => if mem x (keys core) then c <-- dlookup x core ;;; if length c <? 2 then dpop_strict x core else Ok core else Ok core)
                 (fun x => length (coreof core1 x) <? 2) core1 N1 (keys core1) [] eq_refl) as P2. cbv beta in P2.
    rewrite (filter_all (fun e => negb (length (coreof core1 (fst e)) <? 2) || mem (fst e) (keys core1))) in P2.
    2:{ intros [k v] J. cbn [fst]. assert (Q : In k (keys core1)) by (apply in_map_iff; exists (k, v); auto). rewrite (mem_true _ _ Q). apply orb_true_r. }
    rewrite P2.
    2:{ intros d x J Kx G. rewrite (mem_true _ _ Kx). unfold dlookup. rewrite G. unfold coreof. destruct (dget x core1) eqn:E; [|apply dget_None in E; contradiction]. auto. }
    f_equal. unfold core1 at 2. rewrite filter_filter. apply filter_ext_in. intros [k v] J. cbn [fst]. unfold kept. rewrite negb_involutive, andb_comm.
    destruct (eqb (asg_after l k) k) eqn:E; cbn [andb]; auto. f_equal.
    replace (coreof core1 k) with (coreof core k); [rewrite Nat.leb_antisym; auto|]. unfold coreof, core1.
    rewrite (dget_filter (fun x => negb (negb (eqb (asg_after l x) x)))), E. auto.
  Qed.

  (** ** Absorption *)
  Definition mind (xs ys : list pystr) : D := match py_min ltb (map (fun e => dist (fst e) (snd e)) (list_prod xs ys)) with Ok d => d | Raise _ => eps end.
  Lemma cluster_distance_run xs ys : incl xs l -> incl ys l -> xs <> [] -> ys <> [] -> cluster_distance D ltb table xs ys = Ok (mind xs ys).
  Proof.
    intros X Y NX NY. unfold cluster_distance. rewrite (rmap_pure _ (fun e => dist (fst e) (snd e))).
    2:{ intros [a b] J. apply in_prod_iff in J as [A B]. apply table_dist; auto. }
    cbn [rbind]. unfold mind.
    destruct (py_min_In ltb (map (fun e => dist (fst e) (snd e)) (list_prod xs ys))) as (k & -> & _); auto.
    destruct xs, ys; try congruence. discriminate.
  Qed.

  Definition joinable (c : list pystr) (k : pystr) : bool := negb (ltb eps (mind c (points k))) && negb (clash c (points k)).
  Fixpoint absorbed (ks : list pystr) (c : list pystr) : list pystr * list pystr :=
    match ks with
    | [] => (c, [])
    | k :: ks' => if joinable c k then absorbed ks' (setlist (c ++ points k)) else (c, ks)
    end.

  Lemma sorted_head k ks : StronglySorted (fun x y => str_ltb x y = true) (k :: ks) -> forall l0, (forall x, In x l0 <-> In x (k :: ks)) ->
    py_min str_ltb l0 = Ok k.
  Proof.
    intros SS l0 E. assert (NE : l0 <> []) by (intros ->; destruct (proj2 (E k)); simpl; auto).
    destruct (py_min_In str_ltb l0 NE) as (z & EZ & Z). rewrite EZ. f_equal.
    assert (LE := py_min_least str_ltb l0 z (conj str_ltb_irrefl (conj str_ltb_trans (fun x y z => str_neg_trans x y z))) EZ k (proj2 (E k) (or_introl eq_refl))).
    apply E in Z as [Z|Z]; auto. inversion SS as [|? ? _ F]; subst. rewrite Forall_forall in F. rewrite (F z Z) in LE. discriminate.
  Qed.

  Lemma absorb_run fuel : forall c lc ks, length lc < fuel -> incl c l -> c <> [] -> NoDup (keys lc) -> (forall k, In k (keys lc) -> In k l /\ dget k lc = Some (points k)) ->
    StronglySorted (fun x y => str_ltb x y = true) ks -> (forall x, In x (keys lc) <-> In x ks) ->
    absorb D ltb setlist p m table fuel c lc = Ok (fst (absorbed ks c), filter (fun e => mem (fst e) (snd (absorbed ks c))) lc).
  Proof.
    induction fuel as [|fuel IH]; intros c lc ks L Sc Nc NDk PT SS EK; [lia|]. cbn [absorb].
    destruct ks as [|k ks].
    { destruct lc as [|[k v] lc]; [reflexivity|]. destruct (proj1 (EK k)); simpl; auto. }
    destruct lc as [|e0 lc0] eqn:ELC; [destruct (proj2 (EK k)); simpl; auto|]. rewrite <- ELC in *. clear ELC e0 lc0.
    assert (PV : forall e, In e lc -> In (fst e) l /\ snd e = points (fst e)).
    { intros [k' v'] J. assert (Q : In k' (keys lc)) by (apply in_map_iff; exists (k', v'); auto). destruct (PT k' Q) as [Q1 Q2]. split; auto. cbn [fst snd].
      rewrite (In_dget k' lc v' NDk J) in Q2. congruence. }
    rewrite (rmap_pure _ (fun e => (fst e, mind c (points (fst e))))).
    2:{ intros e J. destruct (PV e J) as [Q1 Q2]. rewrite Q2. destruct (points_ok _ Q1) as (_ & P2 & P3 & _). rewrite cluster_distance_run; auto. intro Q. rewrite Q in P3. destruct P3. }
    cbn [rbind].
    assert (KD : keys (map (fun e => (fst e, mind c (points (fst e)))) lc) = keys lc) by (unfold keys; rewrite map_map; auto). rewrite KD.
    rewrite (sorted_head k ks SS (keys lc) EK). cbn [rbind].
    assert (Jk : In k (keys lc)) by (apply EK; simpl; auto). destruct (PT k Jk) as [Jl Gk].
    assert (LD : dlookup k (map (fun e => (fst e, mind c (points (fst e)))) lc) = Ok (mind c (points k))).
    { apply dlookup_Some, In_dget; [rewrite KD; auto|]. apply in_map_iff. exists (k, points k). split; auto. apply dget_In; auto. }
    rewrite LD. cbn [rbind absorbed]. unfold joinable at 1 2. destruct (points_ok k Jl) as (_ & P2 & P3 & P4).
    assert (ALL : filter (fun e => mem (fst e) (k :: ks)) lc = lc).
    { apply filter_all. intros [k' v'] J. apply mem_true, EK, in_map_iff. exists (k', v'). auto. }
    destruct (ltb eps (mind c (points k))) eqn:LT; [cbn [negb andb fst snd]; rewrite ALL; auto|].
    rewrite (dlookup_Some _ _ Gk). cbn [rbind]. rewrite conflict_run by auto. cbn [rbind negb andb].
    destruct (clash c (points k)) eqn:CL; [cbn [negb andb fst snd]; rewrite ALL; auto|]. cbn [negb].
    assert (DP : dpop k lc = filter (fun e => negb (eqb k (fst e))) lc).
    { pose proof (dpop_strict_run k lc NDk Jk) as Q. unfold dpop_strict in Q. rewrite (mem_true _ _ Jk) in Q. congruence. }
    assert (NK : ~ In k ks).
    { inversion SS as [|? ? _ F]; subst. rewrite Forall_forall in F. intro Q. apply F in Q. rewrite str_ltb_irrefl in Q. discriminate. }
    rewrite (IH (setlist (c ++ points k)) (dpop k lc) ks).
    - f_equal. f_equal. rewrite DP, filter_filter. apply filter_ext. intros [k' v']. cbn [fst].
      destruct (mem k' (snd (absorbed ks (setlist (c ++ points k))))) eqn:MK; auto. cbn [andb]. destruct (eqb_spec k k'); auto. subst k'. exfalso.
      apply mem_In in MK. apply NK. clear - MK. revert MK. generalize (setlist (c ++ points k)). induction ks as [|a ks IHk]; intros c0 J; cbn [absorbed snd] in J; [auto|].
      destruct (joinable c0 a); [right; eapply IHk; eauto|auto].
    - assert (Q : length (dpop k lc) < length lc); [|lia]. clear - Jk. induction lc as [|[k' v'] lc IHl]; [destruct Jk|]. cbn [dpop]. destruct (eqb_spec k k'); cbn [length]; [lia|].
      destruct Jk as [Q|Q]; [cbn [fst] in Q; congruence|]. apply IHl in Q. lia.
    - intros z Z. apply SL, in_app_or in Z as [Z|Z]; auto.
    - intro Q. assert (Z : In k (setlist (c ++ points k))) by (apply SL, in_or_app; auto). rewrite Q in Z. destruct Z.
    - rewrite DP, (keys_filter (fun x => negb (eqb k x))). apply NoDup_filter_list; auto.
    - intros x X. rewrite DP, (keys_filter (fun x => negb (eqb k x))) in X. apply filter_In in X as [X1 X2]. destruct (PT x X1) as [Q1 Q2]. split; auto.
      rewrite DP, (dget_filter (fun x => negb (eqb k x))), X2. auto.
    - inversion SS; auto.
    - intro x. rewrite DP, (keys_filter (fun x => negb (eqb k x))), filter_In, EK, negb_true_iff, eqb_neq. cbn [In]. split; [intros [[Q|Q] N]; [congruence|auto]|].
      intro Q. split; auto. intros ->. contradiction.
  Qed.

  Fixpoint merged (cs : list (pystr * list pystr)) (ks : list pystr) : list (pystr * list pystr) * list pystr :=
    match cs with
    | [] => ([], ks)
    | (k, c) :: cs' => ((k, fst (absorbed ks c)) :: fst (merged cs' (snd (absorbed ks c))), snd (merged cs' (snd (absorbed ks c))))
    end.

  Lemma absorbed_suffix ks : forall c, exists block, ks = block ++ snd (absorbed ks c).
  Proof.
    induction ks as [|k ks IH]; intro c; cbn [absorbed]; [exists []; auto|]. destruct (joinable c k); [|exists []; auto].
    destruct (IH (setlist (c ++ points k))) as [b E]. exists (k :: b). cbn [app]. f_equal. auto.
  Qed.
  Lemma merged_suffix cs : forall ks, exists block, ks = block ++ snd (merged cs ks).
  Proof.
    induction cs as [|[k c] cs IH]; intro ks; cbn [merged snd]; [exists []; auto|].
    destruct (absorbed_suffix ks c) as [b1 E1]. destruct (IH (snd (absorbed ks c))) as [b2 E2]. exists (b1 ++ b2). rewrite <- app_assoc, <- E2. auto.
  Qed.
  Lemma sorted_suffix {A} (R : A -> A -> Prop) l1 l2 : StronglySorted R (l1 ++ l2) -> StronglySorted R l2.
  Proof. induction l1 as [|x l1 IH]; auto. cbn [app]. intro S. inversion S; auto. Qed.

  Lemma merge_cannot_links_run cs : forall lc ks, (forall k c, In (k, c) cs -> incl c l /\ c <> []) -> NoDup (keys lc) ->
    (forall k, In k (keys lc) -> In k l /\ dget k lc = Some (points k)) ->
    StronglySorted (fun x y => str_ltb x y = true) ks -> (forall x, In x (keys lc) <-> In x ks) ->
    merge_cannot_links D ltb setlist p m table cs lc = Ok (fst (merged cs ks), filter (fun e => mem (fst e) (snd (merged cs ks))) lc).
  Proof.
    induction cs as [|[k c] cs IH]; intros lc ks HC NDk PT SS EK; cbn [merge_cannot_links merged fst snd].
    - do 2 f_equal. symmetry. apply filter_all. intros [k v] J. apply mem_true, EK, in_map_iff. exists (k, v). auto.
    - destruct (HC k c (or_introl eq_refl)) as [S1 S2]. rewrite (absorb_run (S (length lc)) c lc ks) by (auto; lia). cbn [rbind fst snd].
      set (ks' := snd (absorbed ks c)). set (lc' := filter (fun e => mem (fst e) ks') lc).
      assert (KL : keys lc' = filter (fun x => mem x ks') (keys lc)) by (apply (keys_filter (fun x => mem x ks'))).
      destruct (absorbed_suffix ks c) as [b Eb]. fold ks' in Eb.
      rewrite (IH lc' ks').
      + cbn [rbind fst snd]. do 2 f_equal. unfold lc'. rewrite filter_filter. apply filter_ext. intros [k' v']. cbn [fst].
        destruct (mem k' (snd (merged cs ks'))) eqn:Q; auto. cbn [andb]. apply mem_true. apply mem_In in Q. destruct (merged_suffix cs ks') as [b2 E2]. rewrite E2. apply in_or_app; auto.
      + intros k' c' J. apply (HC k' c'). simpl; auto.
      + rewrite KL. apply NoDup_filter_list; auto.
      + intros x X. rewrite KL in X. apply filter_In in X as [X1 X2]. destruct (PT x X1) as [Q1 Q2]. split; auto. unfold lc'.
        rewrite (dget_filter (fun x => mem x ks')), X2. auto.
      + apply (sorted_suffix _ b). rewrite <- Eb. auto.
      + intro x. rewrite KL, filter_In, mem_In, EK. split; [tauto|]. intro Q. split; auto. rewrite Eb. apply in_or_app; auto.
  Qed.

  (** ** The clusters before they are numbered *)
  Lemma core0_In i y : In i l -> core0 i y = true -> In y l.
  Proof.
    intro Ji. unfold core0, reach. rewrite !orb_true_iff, andb_true_iff, orb_true_iff, !mem_In. intros [Q|[[Q|Q] _]].
    - apply filter_In in Q. tauto.
    - apply points_ok in Q; auto.
    - apply andb_true_iff in Q as [Q _]. apply mem_In, filter_In in Q. tauto.
  Qed.
  Lemma core0_self i : In i l -> core0 i i = true.
  Proof. intro Ji. unfold core0. rewrite mem_true; auto. apply filter_In. split; auto. apply ml_refl; auto. Qed.

  (** [i] keeps its core cluster. *)
  Definition leader (i : pystr) : bool := eqb (asg_after l i) i && existsb (fun y => negb (eqb y i) && core0 i y) l.

  Lemma two_elements {A} (c : list A) i : NoDup c -> In i c -> 2 <= length c <-> exists y, In y c /\ y <> i.
  Proof.
    intros N J. destruct c as [|a [|b c]]; cbn [length].
    - destruct J.
    - split; [lia|]. intros (y & [<-|[]] & Q). destruct J as [J|[]]. congruence.
    - split; [intros _|lia]. inversion N as [|? ? N1 N2]; subst. destruct J as [<-|J].
      + exists b. split; [simpl; auto|]. intros ->. apply N1. simpl; auto.
      + exists a. split; [simpl; auto|]. intros ->. contradiction.
  Qed.

  Definition good_cores (cores : dict pystr (list pystr)) : Prop :=
    keys cores = filter leader l /\ forall i c, In (i, c) cores -> NoDup c /\ forall y, In y c <-> core0 i y = true.

  Definition pool : list pystr := sorted_strings (keys local).
  Lemma pool_sorted : StronglySorted (fun x y => str_ltb x y = true) pool.
  Proof. apply sorted_strings_sorted. exact (li_nodup _ _ final_inv). Qed.
  Lemma pool_In x : In x (keys local) <-> In x pool.
  Proof. split; apply Permutation_in; [|apply Permutation_sym]; apply sorted_strings_perm. Qed.
  Lemma local_points k : In k (keys local) -> In k l /\ dget k local = Some (points k).
  Proof.
    intro J. pose proof (li_incl _ _ final_inv k J) as Jl. split; auto. destruct (dget_In_key _ _ J) as [pts E]. rewrite E. f_equal. symmetry. apply points_local; auto.
  Qed.

  (** The local clusters left over. *)
  Definition leftover (cores : dict pystr (list pystr)) : list (list pystr) :=
    vals (filter (fun e => mem (fst e) (snd (merged cores pool))) local).

  Lemma phases_run : exists core cores,
    merge_must_links setlist m l (after l) = Ok core /\ clean l core = Ok cores /\ good_cores cores /\
    merge_cannot_links D ltb setlist p m table cores local = Ok (fst (merged cores pool), filter (fun e => mem (fst e) (snd (merged cores pool))) local).
  Proof.
    destruct merge_must_links_run as (assigned & core & E & Kc & Ka & HA & HC).
    assert (NEc : forall i, In i l -> coreof core i <> []).
    { intros i Ji Q. assert (Z : In i (coreof core i)) by (apply HC; auto; apply core0_self; auto). rewrite Q in Z. destruct Z. }
    exists (assigned, core), (filter (fun e => kept core (fst e)) core). split; auto. split; [apply clean_run; auto|].
    assert (GC : good_cores (filter (fun e => kept core (fst e)) core)).
    { assert (V : forall i c, In (i, c) core -> In i l /\ c = coreof core i).
      { intros i c J. split; [rewrite <- Kc; apply in_map_iff; exists (i, c); auto|]. unfold coreof. rewrite (In_dget i core c); auto. rewrite Kc. exact ND. }
      split.
      - rewrite (keys_filter (kept core)), Kc. apply filter_ext_in. intros i Ji. unfold kept, leader. f_equal. destruct (HC i Ji) as [N1 N2].
        apply eq_true_iff_eq. rewrite Nat.leb_le, (two_elements (coreof core i) i N1), existsb_exists by (apply N2, core0_self; auto). split.
        + intros (y & Y & Q). apply N2 in Y. exists y. split; [apply (core0_In i); auto|]. rewrite Y, andb_true_r. apply negb_true_iff, eqb_neq. auto.
        + intros (y & Y & Q). apply andb_true_iff in Q as [Q1 Q2]. apply negb_true_iff, eqb_neq in Q1. exists y. split; auto. apply N2; auto.
      - intros i c J. apply filter_In in J as [J _]. destruct (V i c J) as [Ji ->]. apply HC; auto. }
    split; auto. apply merge_cannot_links_run.
    - intros i c J. destruct GC as [GK GV]. destruct (GV i c J) as [N1 N2].
      assert (Ji : In i l) by (assert (Q : In i (filter leader l)) by (rewrite <- GK; apply in_map_iff; exists (i, c); auto); apply filter_In in Q; tauto).
      split.
      + intros y Y. apply N2 in Y. apply (core0_In i); auto.
      + intros ->. destruct (proj2 (N2 i)). apply core0_self; auto.
    - exact (li_nodup _ _ final_inv).
    - apply local_points.
    - apply pool_sorted.
    - apply pool_In.
  Qed.

  (** Core and leftover clusters are made of managed IDs that do not clash. *)
  Definition fine (c : list pystr) : Prop := incl c l /\ clash c c = false.
  Lemma clash_app a b c : clash (a ++ b) c = clash a c || clash b c.
  Proof. unfold clash. apply existsb_app. Qed.
  Lemma clash_sym xs ys : incl xs l -> incl ys l -> clash xs ys = clash ys xs.
  Proof.
    intros X Y. apply eq_true_iff_eq. rewrite !clash_spec. split; intros (a & b & A & B & C); exists b, a; split; auto; split; auto; rewrite cl_sym; auto.
  Qed.
  Lemma clash_same a b c : (forall x, In x a <-> In x b) -> clash a c = clash b c.
  Proof. intro E. apply eq_true_iff_eq. rewrite !clash_spec. split; intros (x & y & X & Q); exists x, y; (split; [apply E; auto|auto]). Qed.

  Lemma fine_core i c : In i l -> (forall y, In y c <-> core0 i y = true) -> fine c.
  Proof.
    intros Ji E. assert (IC : incl c l) by (intros y Y; apply (core0_In i); auto; apply E; auto). split; auto.
    assert (CASE : forall y, In y c -> ml m i y = true \/ In y (points i)).
    { intros y Y. apply E in Y. unfold core0, reach in Y. rewrite !orb_true_iff, andb_true_iff, orb_true_iff, !mem_In in Y.
      destruct Y as [Y|[[Y|Y] _]]; auto; [apply filter_In in Y; tauto|]. apply andb_true_iff in Y as [Y _]. apply mem_In, filter_In in Y. tauto. }
    destruct (points_ok i Ji) as (P1 & P2 & P3 & P4). rewrite clash_false in P4.
    assert (NP : forall y, In y c -> cl m i y = false).
    { intros y Y. destruct (CASE y Y) as [Q|Q]; [|apply P4; auto]. destruct (cl m i y) eqn:C; auto. exfalso. eapply ml_cl; eauto. }
    apply clash_false. intros a b A B. pose proof (IC a A) as Ja. pose proof (IC b B) as Jb. destruct (CASE a A) as [QA|QA], (CASE b B) as [QB|QB].
    - destruct (cl m a b) eqn:C; auto. assert (Q : cl m i b = true) by (apply (cl_ml_l m I i a b); auto). rewrite (NP b B) in Q. discriminate.
    - destruct (cl m a b) eqn:C; auto. assert (Q : cl m i b = true) by (apply (cl_ml_l m I i a b); auto). rewrite (NP b B) in Q. discriminate.
    - destruct (cl m a b) eqn:C; auto. assert (Q : cl m a i = true) by (apply (cl_ml_r m I a b i); auto; rewrite ml_sym; auto). rewrite cl_sym in Q by auto. rewrite (NP a A) in Q. discriminate.
    - apply P4; auto.
  Qed.

  Lemma absorbed_fine ks : forall c, incl ks l -> fine c -> fine (fst (absorbed ks c)).
  Proof.
    induction ks as [|k ks IH]; intros c Sk F; cbn [absorbed]; auto. destruct (joinable c k) eqn:J; auto.
    apply IH; [intros z Z; apply Sk; simpl; auto|]. destruct F as [F1 F2]. destruct (points_ok k (Sk k (or_introl eq_refl))) as (_ & P2 & _ & P4).
    unfold joinable in J. apply andb_true_iff in J as [_ J]. apply negb_true_iff in J.
    assert (SE : forall x, In x (setlist (c ++ points k)) <-> In x (c ++ points k)) by (apply SL).
    assert (IA : incl (c ++ points k) l) by (apply incl_app; auto). split; [intros z Z; apply IA, SE; auto|].
    rewrite (clash_same _ _ _ SE), clash_sym; auto; [|intros z Z; apply IA, SE; auto]. rewrite (clash_same _ _ _ SE), clash_app.
    rewrite (clash_sym c), (clash_sym (points k)) by auto. rewrite !clash_app. rewrite F2, J, P4. rewrite (clash_sym (points k) c), J; auto.
  Qed.
  Lemma merged_fine cs : forall ks, incl ks l -> (forall i c, In (i, c) cs -> fine c) -> forall i c, In (i, c) (fst (merged cs ks)) -> fine c.
  Proof.
    induction cs as [|[k c] cs IH]; intros ks Sk F i c' J; cbn [merged fst] in J; [destruct J|]. destruct J as [J|J].
    - injection J as <- <-. apply absorbed_fine; auto. apply (F k c). simpl; auto.
    - apply (IH (snd (absorbed ks c)) ) with i; auto.
      + destruct (absorbed_suffix ks c) as [b E]. intros z Z. apply Sk. rewrite E. apply in_or_app; auto.
      + intros i' c'' J'. apply (F i' c''). simpl; auto.
  Qed.

  Lemma groups_fine cores : good_cores cores ->
    (forall c, In c (vals (fst (merged cores pool))) -> fine c) /\ (forall c, In c (leftover cores) -> fine c).
  Proof.
    intros [GK GV]. split.
    - intros c J. apply in_map_iff in J as ([i c'] & Q & J). cbn [snd] in Q. subst c'. apply (merged_fine cores pool) with i; auto.
      + intros z Z. apply (li_incl _ _ final_inv z). apply pool_In. auto.
      + intros i' c' J'. assert (Ji : In i' l).
        { assert (Q : In i' (filter leader l)) by (rewrite <- GK; apply in_map_iff; exists (i', c'); auto). apply filter_In in Q. tauto. }
        apply (fine_core i'); auto. apply (GV i' c' J').
    - intros c J. unfold leftover in J. apply in_map_iff in J as ([i c'] & Q & J). cbn [snd] in Q. subst c'. apply filter_In in J as [J _].
      destruct (li_pts _ _ final_inv i c) as (_ & Q & _ & R); [apply In_dget; auto; exact (li_nodup _ _ final_inv)|]. split; auto.
  Qed.

  (** ** The local clusters in terms of the turns *)
  Definition hood (x : pystr) : list pystr := neighbors (fst (after (pre x l))) x.
  Definition singled (x y : pystr) : Prop := single (fst (after (pre x l))) y = true.
  (** Any relations that say the same about the managed IDs. *)
  Variables nearP mustP cannotP : pystr -> pystr -> Prop.
  Hypothesis nearE : forall x y, In x l -> In y l -> nearP x y <-> near x y = true.
  Hypothesis mustE : forall x y, In x l -> In y l -> mustP x y <-> ml m x y = true.
  Hypothesis cannotE : forall x y, In x l -> In y l -> cannotP x y <-> cl m x y = true.
  Definition enoughP (n : nat) : Prop := db_min_samples D p <= n.
  Notation singlesP := (DbscanSpec.singles cannotP enoughP hood singled).
  Notation createsP := (DbscanSpec.creates l cannotP enoughP hood singled).
  Notation everP := (DbscanSpec.ever l cannotP enoughP hood singled).
  Notation localP := (DbscanSpec.local l cannotP enoughP hood singled).
  Notation noiseP := (DbscanSpec.noise l cannotP enoughP hood singled).

  Lemma hood_incl z : incl (hood z) l.
  Proof. apply neighbors_incl. Qed.
  Lemma clashing_hood z : DbscanSpec.clashing cannotP (hood z) <-> clash (hood z) (hood z) = true.
  Proof.
    unfold DbscanSpec.clashing. rewrite clash_spec. pose proof (hood_incl z) as H.
    split; intros (a & b & A & B & Q); exists a, b; split; auto; split; auto; apply cannotE; auto.
  Qed.

  Lemma split_pre done z rest : l = done ++ z :: rest -> pre z l = done /\ In z l /\ ~ In z done.
  Proof.
    intro E. assert (N : NoDup (done ++ z :: rest)) by (rewrite <- E; exact ND). apply NoDup_app_inv in N as (_ & _ & N).
    assert (Nz : ~ In z done) by (intro Q; apply (N z); simpl; auto). split; [rewrite E; apply pre_app; auto|]. split; auto. rewrite E. apply in_elt.
  Qed.

  Lemma before_pre z x : before l z x <-> In x l /\ In z (pre x l).
  Proof.
    split.
    - intros (l1 & l2 & E & J). apply in_split in J as (l3 & l4 & E2). subst l2.
      assert (E' : l = (l1 ++ z :: l3) ++ x :: l4) by (rewrite <- app_assoc; auto).
      destruct (split_pre _ _ _ E') as (P & J & _). rewrite P. split; auto. apply in_elt.
    - intros [J Q]. apply in_split in J as (l1 & l2 & E). destruct (split_pre _ _ _ E) as (P & _ & _). rewrite P in Q.
      rewrite E. apply before_app_m; simpl; auto.
  Qed.

  Lemma hood_split done z rest : l = done ++ z :: rest -> hood z = neighbors (fst (after done)) z /\ (forall y, singled z y <-> single (fst (after done)) y = true).
  Proof. intro E. destruct (split_pre _ _ _ E) as (P & _). unfold hood, singled. rewrite P. split; [auto|tauto]. Qed.

  Lemma hood_self z : In z l -> ~ singled z z -> In z (hood z).
  Proof. intros J S. apply neighbors_In. split; auto. split; auto. unfold singled in S. destruct (single _ z); congruence. Qed.

  Lemma single_step done z rest y : l = done ++ z :: rest ->
    (single (fst (after (done ++ [z]))) y = true <-> single (fst (after done)) y = true \/ (singlesP z /\ In y (hood z))).
  Proof.
    intro E. destruct (hood_split _ _ _ E) as (H & S). unfold DbscanSpec.singles. rewrite (clashing_hood z), (S z), H. unfold enoughP.
    rewrite after_snoc. destruct (after done) as [labs lc] eqn:EA. cbn [fst]. unfold pstep. destruct (single labs z) eqn:Sz; cbn [fst]; [split; [auto|intros [Q|[[Q _] _]]; [auto|congruence]]|].
    cbv zeta. destruct (Nat.ltb_spec (length (neighbors labs z)) (db_min_samples D p)) as [LT|GE]; [|destruct (clash _ _) eqn:CL].
    - cbn [fst]. unfold single at 1. rewrite lab_dset. destruct (eqb_spec y z) as [->|N].
      + split; [discriminate|]. intros [Q|[[_ [Q _]] _]]; [congruence|lia].
      + split; [auto|]. intros [Q|[[_ [Q _]] _]]; [auto|lia].
    - cbn [fst]. unfold single at 1. rewrite lab_fold. destruct (mem y _) eqn:MY; [apply mem_In in MY|apply mem_nIn in MY]; fold (single labs y).
      + split; [intros _; right; split; auto; split; auto; discriminate|intros _; reflexivity].
      + split; [auto|]. intros [Q|[_ Q]]; [auto|contradiction].
    - cbn [fst]. unfold single at 1. rewrite lab_dset. destruct (eqb_spec y z) as [->|N].
      + split; [discriminate|]. intros [Q|[[_ [_ Q]] _]]; congruence.
      + split; [auto|]. intros [Q|[[_ [_ Q]] _]]; [auto|congruence].
  Qed.

  Lemma single_after done : forall rest y, l = done ++ rest ->
    (single (fst (after done)) y = true <-> exists z, In z done /\ singlesP z /\ In y (hood z)).
  Proof.
    induction done as [|z done IH] using rev_ind; intros rest y E.
    - cbn [after fold_left start fst]. unfold single, lab. rewrite dget_dcomp. split; [destruct (mem y l); discriminate|intros (z & [] & _)].
    - rewrite <- app_assoc in E. cbn [app] in E. rewrite (single_step done z rest y E), (IH (z :: rest) y E). split.
      + intros [(w & W & Q)|Q]; [exists w|exists z]; (split; [apply in_or_app; simpl; auto|auto]).
      + intros (w & W & Q). apply in_app_or in W as [W|[<-|[]]]; [left; exists w; auto|auto].
  Qed.

  Lemma turns_ok : DbscanSpec.turns l nearP cannotP enoughP hood singled.
  Proof.
    split; [intros x _; apply neighbors_NoDup|]. split.
    - intros x y J. unfold hood. rewrite neighbors_In. unfold singled. split; intros (A & B & C); (split; [auto|]); (split; [apply nearE; auto|]); destruct (single _ y); congruence.
    - intros x y J. destruct (in_split _ _ J) as (l1 & l2 & E). destruct (split_pre _ _ _ E) as (P & _ & _). unfold singled at 1. rewrite P, (single_after l1 (x :: l2) y E).
      split; intros (z & Z & Q); exists z; (split; [|exact Q]); [apply before_pre; rewrite P; auto|]. apply before_pre in Z. rewrite P in Z. tauto.
  Qed.

  Lemma single_final y : single labels y = true <-> everP y.
  Proof. unfold labels. rewrite (single_after l [] y) by (rewrite app_nil_r; auto). reflexivity. Qed.

  Lemma local_after done : forall rest x, l = done ++ rest ->
    (single (fst (after done)) x = true -> dget x (snd (after done)) = Some [x]) /\
    (single (fst (after done)) x = false -> ~ In x done -> dget x (snd (after done)) = None) /\
    (single (fst (after done)) x = false -> In x done ->
       (length (hood x) < db_min_samples D p /\ lab (fst (after done)) x = NOISE /\ dget x (snd (after done)) = None) \/
       (db_min_samples D p <= length (hood x) /\ lab (fst (after done)) x = CORE /\ dget x (snd (after done)) = Some (hood x))).
  Proof.
    induction done as [|z done IH] using rev_ind; intros rest x E.
    - cbn [after fold_left start fst snd]. split; [|split; [auto|intros _ []]]. unfold single, lab. rewrite dget_dcomp. destruct (mem x l); discriminate.
    - rewrite <- app_assoc in E. cbn [app] in E. specialize (IH (z :: rest) x E). destruct (hood_split _ _ _ E) as (H & S). destruct (split_pre _ _ _ E) as (_ & Jz & Nz).
      rewrite after_snoc. destruct (after done) as [labs lc] eqn:EA. cbn [fst snd] in *. destruct IH as (I1 & I2 & I3). unfold pstep.
      destruct (single labs z) eqn:Sz; cbn [fst snd].
      { split; auto. split; [intros Q N; apply I2; auto; intro Q2; apply N, in_or_app; auto|]. intros Q J. apply in_app_or in J as [J|[<-|[]]]; [auto|congruence]. }
      assert (SC : forall v, single (dset z v labs) x = if eqb x z then is_single v else single labs x) by (intro v; unfold single; rewrite lab_dset; destruct (eqb x z); auto).
      cbv zeta. destruct (Nat.ltb_spec (length (neighbors labs z)) (db_min_samples D p)) as [LT|GE]; [|destruct (clash _ _) eqn:CL]; cbn [fst snd].
      + rewrite SC, lab_dset. destruct (eqb_spec x z) as [->|N]; cbn [is_single].
        * split; [discriminate|]. split; [intros _ Q; destruct Q; apply in_or_app; simpl; auto|]. intros _ _. left. rewrite H. auto.
        * split; auto. split; [intros Q Q2; apply I2; auto; intro Q3; apply Q2, in_or_app; auto|]. intros Q J. apply in_app_or in J as [J|[<-|[]]]; [auto|congruence].
      + unfold single. rewrite lab_fold, (dget_fold_dset (fun y => [y])). destruct (mem x _) eqn:MX; [apply mem_In in MX|apply mem_nIn in MX]; cbn [is_single].
        * split; auto. split; [discriminate|]. discriminate.
        * fold (single labs x). assert (N : x <> z) by (intros ->; apply MX; apply neighbors_In; auto).
          split; auto. split; [intros Q Q2; apply I2; auto; intro Q3; apply Q2, in_or_app; auto|]. intros Q J. apply in_app_or in J as [J|[<-|[]]]; [auto|congruence].
      + rewrite SC, lab_dset, dget_dset. destruct (eqb_spec x z) as [->|N]; cbn [is_single].
        * split; [discriminate|]. split; [intros _ Q; destruct Q; apply in_or_app; simpl; auto|]. intros _ _. right. rewrite H. auto.
        * split; auto. split; [intros Q Q2; apply I2; auto; intro Q3; apply Q2, in_or_app; auto|]. intros Q J. apply in_app_or in J as [J|[<-|[]]]; [auto|congruence].
  Qed.

  Lemma noise_iff x : In x l -> noise x = true <-> noiseP x.
  Proof.
    intro J. destruct (local_after l [] x (eq_sym (app_nil_r _))) as (L1 & L2 & L3). fold labels in *. unfold DbscanSpec.noise. rewrite <- single_final.
    unfold noise. destruct (single labels x) eqn:S.
    - unfold single in S. destruct (lab labels x); try discriminate. cbn [is_noise]. split; [discriminate|]. intros [Q _]. exfalso. auto.
    - destruct (L3 eq_refl J) as [(A & -> & _)|(A & -> & _)]; cbn [is_noise]; unfold enoughP; split; intro Q.
      + split; [discriminate|lia].
      + reflexivity.
      + discriminate.
      + destruct Q. lia.
  Qed.
  Lemma noise_false x : In x l -> noise x = false <-> ~ noiseP x.
  Proof. intro J. rewrite <- noise_iff by auto. destruct (noise x); split; congruence. Qed.

  Lemma local_iff x y : In x l -> localP x y <-> noise x = false /\ In y (points x).
  Proof.
    intro J. destruct (local_after l [] x (eq_sym (app_nil_r _))) as (L1 & L2 & L3). fold labels local in *. unfold DbscanSpec.local. rewrite <- single_final.
    unfold noise, points, enoughP. destruct (single labels x) eqn:S.
    - rewrite (L1 eq_refl). unfold noise. unfold single in S. destruct (lab labels x); try discriminate. cbn [is_noise]. split.
      + intros [[_ ->]|[Q _]]; [split; simpl; auto|exfalso; auto].
      + intros [_ [<-|[]]]. auto.
    - destruct (L3 eq_refl J) as [(A & B & C)|(A & B & C)]; rewrite C; unfold noise; rewrite B; cbn [is_noise]; (split; [intros [[Q _]|(_ & Q & R)]|intros [Q R]]); try discriminate; try lia; auto.
  Qed.

  (** ** Order of creation *)
  Lemma creates_mono done z rest x : l = done ++ z :: rest ->
    exists new, keys (snd (after (done ++ [z]))) = keys (snd (after done)) ++ new /\ (forall y, In y new -> createsP z y /\ ~ In y (keys (snd (after done)))) /\
      (forall a b, before new a b -> before l a b) /\ (createsP z x -> In x (keys (snd (after done)) ++ new)).
  Proof.
    intro E. destruct (hood_split _ _ _ E) as (H & S). destruct (split_pre _ _ _ E) as (_ & Jz & Nz).
    assert (CZ : forall y, createsP z y <-> In z l /\ single (fst (after done)) z <> true /\ db_min_samples D p <= length (neighbors (fst (after done)) z) /\
        ((clash (neighbors (fst (after done)) z) (neighbors (fst (after done)) z) = true /\ In y (neighbors (fst (after done)) z)) \/
         (clash (neighbors (fst (after done)) z) (neighbors (fst (after done)) z) <> true /\ y = z))).
    { intro y. unfold DbscanSpec.creates. rewrite (clashing_hood z), (S z), H. reflexivity. }
    rewrite after_snoc. destruct (after done) as [labs lc] eqn:EA. cbn [fst snd] in *. unfold pstep.
    assert (NB : forall a b, before (@nil pystr) a b -> before l a b) by (intros a b (l1 & l2 & Q & _); destruct l1; discriminate).
    destruct (single labs z) eqn:Sz; cbn [snd].
    { exists []. rewrite app_nil_r. split; auto. split; [intros y []|]. split; auto. intro Q. apply CZ in Q as (_ & Q & _). destruct Q. auto. }
    cbv zeta. destruct (Nat.ltb_spec (length (neighbors labs z)) (db_min_samples D p)) as [LT|GE]; [|destruct (clash _ _) eqn:CL]; cbn [snd].
    - exists []. rewrite app_nil_r. split; auto. split; [intros y []|]. split; auto. intro Q. apply CZ in Q as (_ & _ & Q & _). lia.
    - exists (filter (fun y => negb (mem y (keys lc))) (neighbors labs z)).
      assert (KF : forall ks (d : dict pystr (list pystr)), NoDup ks -> keys (fold_left (fun d y => dset y [y] d) ks d) = keys d ++ filter (fun y => negb (mem y (keys d))) ks).
      { induction ks as [|k ks IHk]; intros d N; cbn [fold_left filter]; [rewrite app_nil_r; auto|]. inversion N as [|? ? N1 N2]; subst. rewrite IHk by auto.
        destruct (mem k (keys d)) eqn:Mk; cbn [negb].
        - apply mem_In in Mk. rewrite keys_dset_in by auto. reflexivity.
        - apply mem_nIn in Mk. rewrite (dset_out _ _ _ Mk). unfold keys at 1 2. rewrite map_app. cbn [map fst]. rewrite <- app_assoc. cbn [app]. do 2 f_equal.
          apply filter_ext_in. intros y Y. f_equal. fold (keys d). apply eq_true_iff_eq. rewrite !mem_In, in_app_iff. cbn [In]. split; [|auto]. intros [Q|[Q|[]]]; auto. subst y. contradiction. }
      rewrite KF by apply neighbors_NoDup. split; auto. split; [|split].
      + intros y Y. apply filter_In in Y as [Y1 Y2]. apply negb_true_iff, mem_nIn in Y2. split; auto. apply CZ. split; auto.
      + intros a b B. apply KMeansProofs.before_filter in B. unfold neighbors in B. apply KMeansProofs.before_filter, KMeansProofs.before_filter in B. auto.
      + intro Q. apply CZ in Q as (_ & _ & _ & [[_ Q]|[Q _]]); [|exfalso; auto]. apply in_or_app. destruct (mem x (keys lc)) eqn:Mx; [apply mem_In in Mx; auto|]. right. apply filter_In. rewrite Mx. auto.
    - destruct (mem z (keys lc)) eqn:Mz.
      + exists []. apply mem_In in Mz. rewrite keys_dset_in by auto. rewrite app_nil_r. split; auto. split; [intros y []|]. split; auto.
        intro Q. apply CZ in Q as (_ & _ & _ & [[Q _]|[_ Q]]); [discriminate|subst x; auto].
      + exists [z]. apply mem_nIn in Mz. rewrite (dset_out _ _ _ Mz). unfold keys at 1. rewrite map_app. split; auto. split; [|split].
        * intros y [<-|[]]. split; auto. apply CZ. split; auto.
        * intros a b (l1 & l2 & Q & Jb). destruct l1 as [|? [|]]; try discriminate. injection Q as _ <-. destruct Jb.
        * intro Q. apply CZ in Q as (_ & _ & _ & [[Q _]|[_ Q]]); [discriminate|subst x]. apply in_or_app. simpl. auto.
  Qed.

  Notation firstP := (DbscanSpec.first_created l cannotP enoughP hood singled).
  Lemma order_after done : forall rest, l = done ++ rest ->
    (forall x, In x (keys (snd (after done))) -> exists z, In z done /\ firstP x z) /\
    (forall x z, In z done -> createsP z x -> In x (keys (snd (after done)))) /\
    (forall x y, before (keys (snd (after done))) x y -> DbscanSpec.older l cannotP enoughP hood singled x y).
  Proof.
    induction done as [|z done IH] using rev_ind; intros rest E.
    - cbn [after fold_left start snd keys map]. split; [intros x []|]. split; [intros x z []|]. intros x y (l1 & l2 & Q & _). destruct l1; discriminate.
    - rewrite <- app_assoc in E. cbn [app] in E. destruct (IH (z :: rest) E) as (I1 & I2 & I3). destruct (split_pre _ _ _ E) as (P & Jz & Nz).
      assert (FZ : forall y, createsP z y -> ~ In y (keys (snd (after done))) -> firstP y z).
      { intros y C N. split; auto. intros w W Q. apply before_pre in W as [_ W]. rewrite P in W. apply N, (I2 y w); auto. }
      destruct (creates_mono done z rest z E) as (new & EK & N1 & N2 & _).
      split; [|split].
      + intros x X. rewrite EK in X. apply in_app_or in X as [X|X].
        * destruct (I1 x X) as (w & W & F). exists w. split; auto. apply in_or_app; auto.
        * exists z. split; [apply in_or_app; simpl; auto|]. destruct (N1 x X). auto.
      + intros x w W C. rewrite EK. apply in_app_or in W as [W|[<-|[]]]; [apply in_or_app; left; apply (I2 x w); auto|].
        destruct (creates_mono done z rest x E) as (new' & EK' & _ & _ & Q). rewrite <- EK, EK'. auto.
      + intros x y B. rewrite EK in B. apply before_app_inv in B as [B|[B|[X Y]]]; auto.
        * exists z, z. pose proof (before_In _ _ _ B) as [X Y]. destruct (N1 x X), (N1 y Y). split; [auto|]. split; [auto|]. right. split; [auto|]. apply N2; auto.
        * destruct (I1 x X) as (w & W & F). exists w, z. split; [auto|]. split; [destruct (N1 y Y); auto|]. left. apply before_pre. rewrite P. auto.
  Qed.

  Lemma free_iff a : free a = true <-> a = NONE.
  Proof. apply eqb_eq. Qed.
  Lemma asg_owner k : forall l2 l1 a, asg_after l1 k = a -> a <> NONE -> asg_after (l1 ++ l2) k = a.
  Proof.
    induction l2 as [|z l2 IH]; intros l1 a E N; [rewrite app_nil_r; auto|].
    replace (l1 ++ z :: l2) with ((l1 ++ [z]) ++ l2) by (rewrite <- app_assoc; auto). apply IH; auto. rewrite asg_after_snoc, E.
    assert (F : free a = false) by (destruct (free a) eqn:F; auto; apply free_iff in F; contradiction). rewrite F, andb_false_r. auto.
  Qed.

  (** ** Isolated components *)
  Section Isolated.
    Variable a : pystr.
    Hypothesis Ja : In a l.
    Hypothesis ISO : forall x y, In x l -> In y l -> ml m a x = true -> ml m a y = false -> near x y = false /\ near y x = false.

    Lemma near_iso x y : In x l -> In y l -> near x y = true -> ml m a x = ml m a y.
    Proof.
      intros X Y N. destruct (ml m a x) eqn:Ex, (ml m a y) eqn:Ey; auto.
      - destruct (ISO x y X Y Ex Ey); congruence.
      - destruct (ISO y x Y X Ey Ex); congruence.
    Qed.
    Lemma points_iso k y : In k l -> In y (points k) -> In y l /\ ml m a k = ml m a y.
    Proof.
      intros K Y. split; [apply points_ok in Y; auto|]. destruct (noise k) eqn:NK.
      - unfold points in Y. rewrite NK in Y. destruct (dget k local); destruct Y as [<-|[]]; auto.
      - assert (Q : localP k y) by (apply local_iff; auto). destruct Q as [[_ ->]|(_ & _ & Q)]; auto. apply neighbors_In in Q as (Q1 & Q2 & _). apply near_iso; auto.
    Qed.
    Lemma ml_iso i y : In i l -> In y l -> ml m i y = true -> ml m a i = ml m a y.
    Proof.
      intros Ji Jy E. destruct (ml m a i) eqn:Ei, (ml m a y) eqn:Ey; auto.
      - rewrite (ml_trans m I a i y) in Ey; auto.
      - rewrite (ml_trans m I a y i) in Ei; auto. rewrite ml_sym; auto.
    Qed.
    Lemma reach_iso i k : In i l -> reach i k = true -> In k l /\ ml m a i = ml m a k.
    Proof.
      intros Ji R. unfold reach in R. apply orb_true_iff in R as [R|R]; [apply mem_In in R; apply points_iso; auto|].
      apply andb_true_iff in R as [R _]. apply mem_In, filter_In in R as [R1 R2]. split; auto. apply ml_iso; auto.
    Qed.
    Lemma core0_iso i y : In i l -> core0 i y = true -> ml m a i = ml m a y.
    Proof.
      intros Ji R. unfold core0 in R. apply orb_true_iff in R as [R|R].
      - apply mem_In, filter_In in R as [R1 R2]. apply ml_iso; auto.
      - apply andb_true_iff in R as [R _]. apply reach_iso in R; tauto.
    Qed.

    Hypothesis LE : forall x y, leb x y = negb (ltb y x).
    Lemma joinable_iso c k b : incl c l -> c <> [] -> In k l -> (forall y, In y c -> ml m a y = b) -> joinable c k = true -> ml m a k = b.
    Proof.
      intros Sc Nc K H J. unfold joinable in J. apply andb_true_iff in J as [J _]. destruct (points_ok k K) as (_ & P2 & P3 & _).
      rewrite <- LE in J. unfold mind in J.
      destruct (py_min_In ltb (map (fun e => dist (fst e) (snd e)) (list_prod c (points k)))) as (d & E & Q).
      { destruct c, (points k); try congruence; [destruct P3|discriminate]. }
      rewrite E in J. apply in_map_iff in Q as ([x y] & <- & Q). apply in_prod_iff in Q as [X Y]. cbn [fst snd] in J. rewrite <- (H x X).
      destruct (points_iso k y K Y) as [_ ->]. symmetry. apply near_iso; auto.
    Qed.
    Lemma absorbed_iso ks : forall c b, incl ks l -> incl c l -> c <> [] -> (forall y, In y c -> ml m a y = b) ->
      incl c (fst (absorbed ks c)) /\ forall y, In y (fst (absorbed ks c)) -> ml m a y = b.
    Proof.
      induction ks as [|k ks IH]; intros c b Sk Sc Nc H; cbn [absorbed]; [split; [apply incl_refl|auto]|].
      assert (K : In k l) by (apply Sk; simpl; auto). destruct (joinable c k) eqn:J; [|split; [apply incl_refl|auto]].
      pose proof (joinable_iso c k b Sc Nc K H J) as Eb. destruct (points_ok k K) as (_ & P2 & P3 & _).
      assert (SE : forall x, In x (setlist (c ++ points k)) <-> In x c \/ In x (points k)) by (intro x; rewrite (proj2 (SL _) x); apply in_app_iff).
      destruct (IH (setlist (c ++ points k)) b) as [A B].
      - intros z Z. apply Sk; simpl; auto.
      - intros z Z. apply SE in Z as [Z|Z]; auto.
      - intro Q. assert (Z : In k (setlist (c ++ points k))) by (apply SE; auto). rewrite Q in Z. destruct Z.
      - intros y Y. apply SE in Y as [Y|Y]; auto. destruct (points_iso k y K Y) as [_ <-]. auto.
      - split; auto. intros y Y. apply A, SE. auto.
    Qed.
    Lemma merged_iso cs : forall ks, incl ks l -> (forall i c, In (i, c) cs -> In i l /\ forall y, In y c <-> core0 i y = true) ->
      keys (fst (merged cs ks)) = keys cs /\
      forall i c', In (i, c') (fst (merged cs ks)) -> (forall y, core0 i y = true -> In y c') /\ forall y, In y c' -> ml m a y = ml m a i.
    Proof.
      induction cs as [|[i c] cs IH]; intros ks Sk H; cbn [merged fst keys map]; [split; [auto|intros i c' []]|].
      destruct (H i c (or_introl eq_refl)) as [Ji Ec].
      destruct (IH (snd (absorbed ks c))) as [A B].
      { destruct (absorbed_suffix ks c) as [b E]. intros z Z. apply Sk. rewrite E. apply in_or_app; auto. }
      { intros i' c' J. apply (H i' c'). simpl; auto. }
      split; [f_equal; exact A|]. intros i' c' [J|J]; [|apply B; auto]. injection J as <- <-.
      destruct (absorbed_iso ks c (ml m a i)) as [X Y]; auto.
      - intros y Q. apply (core0_In i); auto. apply Ec; auto.
      - intros ->. destruct (proj2 (Ec i)). apply core0_self; auto.
      - intros y Q. symmetry. apply core0_iso; auto. apply Ec; auto.
      - split; auto. intros y Q. apply X, Ec; auto.
    Qed.
    Lemma leader_iso b : In b l -> b <> a -> ml m a b = true -> exists i, In i l /\ ml m a i = true /\ leader i = true.
    Proof.
      intros Jb Nb Eb.
      assert (EX : exists i, In i l /\ ml m a i = true /\ i <> NONE).
      { destruct (eqb_spec a NONE) as [Q|Q]; [exists b; split; auto; split; auto; congruence|]. exists a. split; auto. split; auto. apply ml_refl; auto. }
      assert (FIRST : exists l1 i l2, l = l1 ++ i :: l2 /\ ml m a i = true /\ i <> NONE /\ forall z, In z l1 -> ml m a z = true -> z = NONE).
      { revert EX. clear. intro EX. induction l as [|z k IH]; [destruct EX as (i & [] & _)|].
        destruct (ml m a z) eqn:Ez; [destruct (eqb_spec z NONE) as [Q|Q]|].
        2:{ exists [], z, k. split; auto. split; auto. split; auto. intros w []. }
        all: destruct IH as (l1 & i & l2 & -> & A & B & C);
          [destruct EX as (i & [<-|J] & A & B); [congruence|eauto]|exists (z :: l1), i, l2; split; auto; split; auto; split; auto; intros w [<-|W]; auto; congruence]. }
      destruct FIRST as (l1 & i & l2 & E & Ei & Ni & F). destruct (split_pre _ _ _ E) as (_ & Ji & _). exists i. split; auto. split; auto.
      unfold leader. apply andb_true_iff. split.
      - apply eqb_eq. assert (A1 : asg_after l1 i = NONE).
        { assert (S1 : incl l1 l) by (intros z Z; rewrite E; apply in_or_app; auto). clear E. induction l1 as [|z l1 IH] using rev_ind; [reflexivity|].
          rewrite asg_after_snoc, IH; auto.
          - destruct (reach z i) eqn:R; auto. cbn [andb]. destruct (free NONE); auto. apply F; [apply in_or_app; simpl; auto|].
            apply reach_iso in R as [_ R]; [congruence|]. apply S1, in_or_app; simpl; auto.
          - intros w W. apply F, in_or_app; auto.
          - intros w W. apply S1, in_or_app; auto. }
        replace l with ((l1 ++ [i]) ++ l2) by (rewrite E, <- app_assoc; auto). apply asg_owner; auto. rewrite asg_after_snoc, A1.
        assert (Ri : reach i i = true) by (unfold reach; rewrite mem_true; auto; apply points_ok; auto). rewrite Ri. reflexivity.
      - apply existsb_exists. assert (Q : exists y, In y l /\ y <> i /\ ml m i y = true).
        { destruct (eqb_spec a i) as [<-|Q]; [exists b; auto|]. exists a. split; auto. split; auto. rewrite ml_sym; auto. }
        destruct Q as (y & Jy & Ny & Ey). exists y. split; auto. apply andb_true_iff. split; [apply negb_true_iff, eqb_neq; auto|].
        unfold core0. rewrite mem_true; auto. apply filter_In; auto.
    Qed.
  End Isolated.

  (** ** Owners *)
  Hypothesis NN : ~ In NONE l.
  Lemma asg_free done k : incl done l -> free (asg_after done k) = true <-> forall z, In z done -> reach z k = false.
  Proof.
    induction done as [|z done IH] using rev_ind; intro S.
    - split; [intros _ z []|reflexivity].
    - rewrite asg_after_snoc. assert (S' : incl done l) by (intros y Y; apply S, in_or_app; auto). specialize (IH S').
      destruct (reach z k) eqn:R; cbn [andb].
      + destruct (free (asg_after done k)) eqn:F.
        * split; [|intro H; rewrite H in R by (apply in_or_app; simpl; auto); discriminate]. intro Q. apply free_iff in Q. subst z. exfalso. apply NN, S, in_or_app; simpl; auto.
        * rewrite F. split; [discriminate|]. intro H. rewrite H in R by (apply in_or_app; simpl; auto). discriminate.
      + rewrite IH. split; intros H y Y; [apply in_app_or in Y as [Y|[<-|[]]]; auto|]. apply H, in_or_app; auto.
  Qed.

  Lemma reach_iff i k : In i l -> reach i k = true <-> DbscanSpec.reach l mustP cannotP enoughP hood singled i k /\ In k l.
  Proof.
    intro J. unfold reach, DbscanSpec.reach. rewrite orb_true_iff, andb_true_iff, !mem_In, filter_In, negb_true_iff, local_iff by auto.
    destruct (points_ok i J) as (_ & P2 & P3 & _). split.
    - intros [Q|[[Q1 Q2] Q3]].
      + split; auto. destruct (noise i) eqn:NI; auto. left. unfold points in Q. rewrite NI in Q. destruct (dget i local); destruct Q as [Q|[]]; auto.
      + split; auto. right; right. split; [apply mustE; auto|]. apply noise_false; auto.
    - intros [[->|[[_ Q]|[Q1 Q2]]] Jk]; auto. right. split; [split; auto; apply mustE; auto|]. apply noise_false; auto.
  Qed.

  Notation ownsP := (DbscanSpec.owns l mustP cannotP enoughP hood singled).
  Lemma owns_iff i y : In i l -> ownsP i y <-> reach i y && free (asg_after (pre i l) y) = true.
  Proof.
    intro J. destruct (in_split _ _ J) as (l1 & l2 & E). destruct (split_pre _ _ _ E) as (P & _ & _).
    assert (S1 : incl l1 l) by (intros z Z; rewrite E; apply in_or_app; auto).
    rewrite andb_true_iff, P, (asg_free l1 y S1), reach_iff by auto. unfold DbscanSpec.owns. split.
    - intros (A & B & C). split; auto. intros z Z. destruct (reach z y) eqn:R; auto. apply reach_iff in R as [R _]; auto. exfalso. apply (C z); auto. apply before_pre. rewrite P. auto.
    - intros [[A B] C]. split; auto. split; auto. intros z Z R. apply before_pre in Z as [_ Z]. rewrite P in Z. assert (Q : reach z y = true) by (apply reach_iff; auto).
      rewrite C in Q by auto. discriminate.
  Qed.

  Lemma core0_iff i y : In i l -> core0 i y = true <-> DbscanSpec.core l mustP cannotP enoughP hood singled i y.
  Proof.
    intro J. unfold core0, DbscanSpec.core. rewrite orb_true_iff, mem_In, filter_In, owns_iff by auto.
    split; (intros [[Q1 Q2]|Q]; [left; split; auto; apply mustE; auto|auto]).
  Qed.

  Lemma own_iff i : In i l -> eqb (asg_after l i) i = true <-> ownsP i i.
  Proof.
    intro J. rewrite owns_iff by auto. destruct (in_split _ _ J) as (l1 & l2 & E). destruct (split_pre _ _ _ E) as (P & _ & Ni). rewrite P.
    assert (Ri : reach i i = true) by (unfold reach; rewrite mem_true; auto; apply points_ok; auto). rewrite Ri. cbn [andb]. rewrite eqb_eq. split.
    - intro Q. destruct (free (asg_after l1 i)) eqn:F; auto. exfalso.
      assert (Q2 : asg_after l i = asg_after l1 i) by (rewrite E; apply asg_owner; auto; intro Z; rewrite Z in F; discriminate).
      rewrite Q in Q2.
      assert (IN : forall done, asg_after done i = NONE \/ In (asg_after done i) done).
      { induction done as [|z done IHd] using rev_ind; auto. rewrite asg_after_snoc. destruct (reach z i && free (asg_after done i)); [right; apply in_or_app; simpl; auto|].
        destruct IHd as [Z|Z]; auto. right. apply in_or_app; auto. }
      destruct (IN l1) as [Z|Z]; [rewrite Z in F; discriminate|]. rewrite <- Q2 in Z. contradiction.
    - intro F. replace l with ((l1 ++ [i]) ++ l2) by (rewrite E, <- app_assoc; auto). apply asg_owner; [|intros ->; contradiction].
      rewrite asg_after_snoc, Ri, F. auto.
  Qed.

  Lemma leader_iff i : In i l -> leader i = true <-> DbscanSpec.leads l mustP cannotP enoughP hood singled i.
  Proof.
    intro J. unfold leader, DbscanSpec.leads. rewrite andb_true_iff, own_iff, existsb_exists by auto. split; intros [A (y & B)]; split; auto.
    - destruct B as [B1 B2]. apply andb_true_iff in B2 as [B2 B3]. apply negb_true_iff, eqb_neq in B2. exists y. split; auto. apply core0_iff; auto.
    - destruct B as [B1 B2]. apply core0_iff in B2; auto. exists y. split; [apply (core0_In i); auto|]. rewrite B2, andb_true_r. apply negb_true_iff, eqb_neq; auto.
  Qed.

  (** ** Absorption in terms of the nearest points *)
  Hypothesis SW : strict_weak_order ltb.
  Hypothesis LE : forall x y, leb x y = negb (ltb y x).

  Lemma mind_near xs ys : xs <> [] -> ys <> [] -> negb (ltb eps (mind xs ys)) = true <-> exists a b, In a xs /\ In b ys /\ near a b = true.
  Proof.
    intros NX NY. unfold mind. set (ds := map (fun e => dist (fst e) (snd e)) (list_prod xs ys)).
    destruct (py_min_In ltb ds) as (k & E & K); [unfold ds; destruct xs, ys; try congruence; discriminate|]. rewrite E.
    rewrite <- LE. split.
    - intro Q. apply in_map_iff in K as ([a b] & <- & J). apply in_prod_iff in J as [A B]. exists a, b. auto.
    - intros (a & b & A & B & Q). unfold near in Q. rewrite LE in *. apply negb_true_iff in Q. apply negb_true_iff.
      assert (L := py_min_least ltb ds k SW E (dist a b)). destruct (ltb eps k) eqn:Z; auto.
      destruct SW as (_ & _ & W). destruct (W eps (dist a b) k Z) as [Q1|Q1]; [congruence|]. rewrite L in Q1; [discriminate|].
      apply in_map_iff. exists (a, b). split; auto. apply in_prod; auto.
  Qed.

  Notation joinableP := (DbscanSpec.joinable l nearP cannotP enoughP hood singled).
  Lemma joinable_iff (C : pystr -> Prop) c k : (forall x, C x <-> In x c) -> incl c l -> c <> [] -> In k l -> noise k = false -> joinable c k = true <-> joinableP C k.
  Proof.
    intros EC IC NC J NK. unfold joinable, DbscanSpec.joinable. destruct (points_ok k J) as (_ & P2 & P3 & _).
    rewrite andb_true_iff, mind_near by (auto; intro Q; rewrite Q in P3; destruct P3). rewrite negb_true_iff.
    assert (CL : clash c (points k) = false <-> ~ exists a b, C a /\ localP k b /\ cannotP a b).
    { rewrite <- not_true_iff_false, clash_spec. split; intros H (a & b & A & B & Q); apply H; exists a, b.
      - apply EC in A. apply local_iff in B as [_ B]; auto. split; auto. split; auto. apply cannotE; auto.
      - split; [apply EC; auto|]. split; [apply local_iff; auto|]. apply cannotE; auto. }
    rewrite CL. split; intros [(a & b & A & B & Q) R]; split; auto; exists a, b.
    - split; [apply EC; auto|]. split; [apply local_iff; auto|]. apply nearE; auto.
    - apply EC in A. apply local_iff in B as [_ B]; auto. split; auto. split; auto. apply nearE; auto.
  Qed.

  Lemma absorbs_ok ks : forall (C : pystr -> Prop) c, (forall x, C x <-> In x c) -> incl c l -> c <> [] -> (forall k, In k ks -> In k l /\ noise k = false) ->
    DbscanSpec.absorbs l nearP cannotP enoughP hood singled C ks (fun x => In x (fst (absorbed ks c))) (snd (absorbed ks c)).
  Proof.
    induction ks as [|k ks IH]; intros C c EC IC NC HK; cbn [absorbed].
    - constructor. auto.
    - destruct (HK k (or_introl eq_refl)) as [J NK]. pose proof (joinable_iff C c k EC IC NC J NK) as JI. destruct (joinable c k).
      + apply absorbs_join; [tauto|]. apply IH; [| | |intros k' K'; apply HK; simpl; auto].
        * intro x. rewrite (proj2 (SL (c ++ points k)) x), in_app_iff, EC, local_iff by auto. tauto.
        * intros x X. apply SL, in_app_or in X as [X|X]; auto. apply points_ok in X; auto.
        * intro Q. assert (Z : In k (setlist (c ++ points k))) by (apply SL, in_or_app; right; apply points_ok; auto). rewrite Q in Z. destruct Z.
      + cbn [fst snd]. constructor; auto. intro Q. apply JI in Q. discriminate.
  Qed.

  Lemma grow_ok cores : forall ks, (forall i c, In (i, c) cores -> In i l /\ forall y, In y c <-> core0 i y = true) ->
    (forall k, In k ks -> In k l /\ noise k = false) ->
    DbscanSpec.grow l nearP mustP cannotP enoughP hood singled (keys cores) ks
      (map (fun c x => In x c) (vals (fst (merged cores ks)))) (snd (merged cores ks)).
  Proof.
    induction cores as [|[i c] cores IH]; intros ks HC HK; cbn [merged fst snd keys vals map]; [constructor|].
    destruct (HC i c (or_introl eq_refl)) as [Ji Ec].
    apply grow_cons with (ks' := snd (absorbed ks c)).
    - apply absorbs_ok; auto.
      + intro x. rewrite Ec. symmetry. apply core0_iff; auto.
      + intros x X. apply (core0_In i); auto. apply Ec; auto.
      + intros ->. destruct (proj2 (Ec i)). apply core0_self; auto.
    - apply IH; [intros i' c' J; apply (HC i' c'); simpl; auto|]. intros k K. apply HK. destruct (absorbed_suffix ks c) as [b E]. rewrite E. apply in_or_app; auto.
  Qed.
End Run.

(** ** Numbering *)
Section Numbering.
  Variable D : Type.
  Variable leb : D -> D -> bool.
  Variable of_nat : nat -> D.
  Variable p : db_params D.
  Variable good : list pystr -> Prop.

  (** Every number is below [n] and names a part of a good cluster. *)
  Record numbered (d : dict pystr Z) (n : Z) : Prop := {
    nb_nodup : NoDup (keys d);
    nb_pos : (0 <= n)%Z;
    nb_below : forall x v, dget x d = Some v -> (0 <= v < n)%Z;
    nb_good : forall v, exists c, (c = [] \/ good c) /\ forall x, dget x d = Some v -> In x c }.

  Lemma dget_assign_all d pts n x : dget x (assign_all d pts n) = if mem x pts then Some n else dget x d.
  Proof. apply (dget_fold_dset (fun _ => n)). Qed.
  Lemma assign_numbered d n pts c : numbered d n -> good c -> incl pts c -> numbered (assign_all d pts n) (n + 1).
  Proof.
    intros [N0 N1 N2 N3] G S. constructor.
    - apply (NoDup_keys_fold_dset (fun _ => n)); auto.
    - lia.
    - intros x v. rewrite dget_assign_all. destruct (mem x pts); intro E; [injection E as <-; lia|]. apply N2 in E. lia.
    - intro v. destruct (Z.eq_dec v n) as [->|Q].
      + exists c. split; auto. intros x E. rewrite dget_assign_all in E. destruct (mem x pts) eqn:M0; [apply S, mem_In; auto|]. apply N2 in E. lia.
      + destruct (N3 v) as (c' & G' & H). exists c'. split; auto. intros x E. rewrite dget_assign_all in E. destruct (mem x pts); [congruence|auto].
  Qed.
  Lemma final_core_numbered cs : forall s, (forall c, In c cs -> good c) -> numbered (fst s) (snd s) -> numbered (fst (final_core cs s)) (snd (final_core cs s)).
  Proof.
    induction cs as [|c cs IH]; intros s G N; cbn [final_core]; auto. apply IH; [intros c' J; apply G; simpl; auto|]. cbn [fst snd].
    apply (assign_numbered _ _ _ c); auto; [apply G; simpl; auto|apply incl_refl].
  Qed.
  Lemma final_local_numbered cs : forall s, (forall c, In c cs -> good c) -> numbered (fst s) (snd s) ->
    numbered (fst (final_local D leb of_nat p cs s)) (snd (final_local D leb of_nat p cs s)).
  Proof.
    induction cs as [|c cs IH]; intros s G N; cbn [final_local]; auto. apply IH; [intros c' J; apply G; simpl; auto|].
    destruct (leb _ _); auto. cbn [fst snd]. apply (assign_numbered _ _ _ c); auto; [apply G; simpl; auto|]. intros x J. apply filter_In in J. tauto.
  Qed.
  Lemma numbered_start : numbered [] 0.
  Proof. constructor; [constructor|lia|discriminate|]. intro v. exists []. split; auto. discriminate. Qed.
End Numbering.

(** ** Ignored points *)
(** [-1; -2; ...], [n] of them starting at [k]. *)
Fixpoint countdown (k : Z) (n : nat) : list Z := match n with O => [] | S n' => k :: countdown (k - 1)%Z n' end.
Definition missing (l : list pystr) (d : dict pystr Z) : list pystr := filter (fun x => negb (mem x (keys d))) l.

Lemma final_ignored_run l d : NoDup l ->
  final_ignored l d = (d ++ combine (missing l d) (countdown (-1) (length (missing l d))), (-1 - Z.of_nat (length (missing l d)))%Z).
Proof.
  unfold final_ignored. generalize (-1)%Z as k.
  assert (G : forall k d1, NoDup l -> (forall x, In x l -> ~ In x (keys d1)) ->
    fold_left (fun s x => if mem x (keys (fst s)) then s else (dset x (snd s) (fst s), (snd s - 1)%Z)) l (d ++ d1, k)
    = (d ++ d1 ++ combine (missing l d) (countdown k (length (missing l d))), (k - Z.of_nat (length (missing l d)))%Z)).
  { unfold missing. induction l as [|x l IH]; intros k d1 N H.
    - cbn. rewrite app_nil_r. f_equal. lia.
    - inversion N as [|? ? N1 N2]; subst. cbn [fold_left fst snd filter].
      assert (MX : mem x (keys (d ++ d1)) = mem x (keys d)).
      { unfold keys. rewrite map_app. apply eq_true_iff_eq. rewrite !mem_In, in_app_iff. split; auto. intros [Q|Q]; auto. exfalso. apply (H x); simpl; auto. }
      rewrite MX. destruct (mem x (keys d)) eqn:E; cbn [negb].
      + apply IH; auto. intros y Y. apply H. simpl; auto.
      + assert (NX : ~ In x (keys (d ++ d1))) by (apply mem_nIn; congruence). rewrite (dset_out _ _ _ NX). rewrite <- app_assoc. rewrite IH; auto.
        * cbn [length countdown combine]. rewrite <- !app_assoc. cbn [app]. f_equal. lia.
        * intros y Y Q. unfold keys in Q. rewrite map_app in Q. apply in_app_or in Q as [Q|[Q|[]]]; [apply (H y); simpl; auto|]. cbn in Q. subst y. contradiction. }
  intros k N. pose proof (G k [] N (fun x _ Q => Q)) as E. rewrite app_nil_r in E. exact E.
Qed.
