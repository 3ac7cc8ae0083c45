(** * Threads that cluster with DBScan while one thread adds constraints (C157). *)

From Coq Require Import String List Bool Arith ZArith QArith Lia Permutation.
(*HEADER
From Coq Require Import String List Bool Arith ZArith QArith Permutation Lia.
From Verif Require Import Base Manager Spec ManagerThms ManagerInv ManagerQueries Sampling SamplingSpec ClusterSpec KMeansThreadSpec Dbscan DbscanSpec Threads ThreadSpec ThreadsThms Readers ReadersSpec
  ReadersThms ListingSpec Listing SampleThread PropKMeansThread DbscanThread DbscanThreadSpec DbscanThreadThms.
Import ListNotations.
Open Scope nat_scope.

Definition A := str "a". Definition B := str "b". Definition C := str "c". Definition E := str "e".

HEADER*)
From Verif Require Import Base Manager Spec Closure ManagerProofs ManagerInv ManagerQueries ManagerSem ManagerThms Sampling SamplingSpec SamplingProofs SamplingThms
  Rename ClusterSpec ClusterProofs KMeans KMeansSpec KMeansProofs KMeansThms Hierarchical Dbscan DbscanSpec DbscanThms
  Threads ThreadSpec ThreadsThms Readers ReadersSpec ReadersThms Listing ListingSpec ListingThms SampleThread SampleThreadThms KMeansThread KMeansThreadSpec KMeansThreadThms
  DbscanThread DbscanThreadSpec DbscanThreadProofs.
Import ListNotations.
Open Scope nat_scope.
Open Scope py_scope.

(** ** Alone *)
Lemma alone_map {A B} (f : A -> prog B) (g : A -> res B) l m : (forall x, alone (f x) m = (m, g x)) -> alone (pmap f l) m = (m, rmap g l).
Proof.
  intro E. induction l as [|x l IH]; cbn [pmap rmap]; [reflexivity|]. rewrite alone_bind, E. destruct (g x); [|reflexivity]. cbn [rbind]. rewrite alone_bind, IH. destruct (rmap g l); reflexivity.
Qed.
Lemma alone_conflict m xs ys : Inv m -> alone (p_conflict xs ys) m = (m, conflict m xs ys).
Proof.
  intro I. unfold p_conflict, conflict. rewrite alone_bind, (alone_map _ (fun j => rfilter (fun i => inferred_is m j i CANNOT_LINK) ys)).
  - destruct (rmap _ xs); reflexivity.
  - intro j. apply alone_filter. intros i _. apply alone_inferred_is; auto.
Qed.
Lemma alone_compatible m l : Inv m -> alone (p_compatible l) m = (m, rmap (fun j => c <-- rfilter (fun i => inferred_is m j i MUST_LINK) l ;;; Ok (j, c)) l).
Proof.
  intro I. apply alone_map. intro j. rewrite alone_bind, (alone_filter _ (fun i => inferred_is m j i MUST_LINK)) by (intros; apply alone_inferred_is; auto).
  destruct (rfilter _ l); reflexivity.
Qed.
Lemma alone_local_step {D} leb p m table l s x : Inv m -> alone (p_local_step D leb p table l s x) m = (m, local_step D leb p m table l s x).
Proof.
  intro I. unfold p_local_step, local_step. destruct s as [labels local]. cbn [fst snd]. destruct (dlookup x labels) as [lb|]; [|reflexivity]. cbn [pbind rbind].
  destruct (is_single lb); [reflexivity|]. destruct (rfilter _ l) as [possible|]; [|reflexivity]. cbn [rbind]. destruct (rfilter _ possible) as [ns|]; [|reflexivity]. cbn [pbind rbind].
  rewrite alone_bind, alone_conflict by auto. destruct (conflict m ns ns) as [b|]; [|reflexivity]. cbn [rbind alone]. unfold label_local. cbn [fst snd].
  destruct (_ <? _); [reflexivity|]. destruct b; reflexivity.
Qed.
Lemma alone_absorb {D} ltb setlist p m table : Inv m -> forall fuel c lc, alone (p_absorb D ltb setlist p table fuel c lc) m = (m, absorb D ltb setlist p m table fuel c lc).
Proof.
  intro I. induction fuel as [|fuel IH]; intros c lc; [reflexivity|]. cbn [p_absorb absorb]. destruct lc as [|e lc0] eqn:El; [reflexivity|]. rewrite <- El. clear El e lc0.
  destruct (rmap _ lc) as [ds|]; [|reflexivity]. cbn [pbind rbind]. destruct (py_min str_ltb (keys ds)) as [k|]; [|reflexivity]. cbn [pbind rbind].
  destruct (dlookup k ds) as [d|]; [|reflexivity]. cbn [pbind rbind]. destruct (ltb _ d); [reflexivity|]. destruct (dlookup k lc) as [pts|]; [|reflexivity]. cbn [pbind rbind].
  rewrite alone_bind, alone_conflict by auto. destruct (conflict m c pts) as [[]|]; try reflexivity. cbn [rbind]. apply IH.
Qed.
Lemma alone_merge {D} ltb setlist p m table : Inv m -> forall core lc, alone (p_merge_cannot_links D ltb setlist p table core lc) m = (m, merge_cannot_links D ltb setlist p m table core lc).
Proof.
  intro I. induction core as [|[k c] core IH]; intro lc; [reflexivity|]. cbn [p_merge_cannot_links merge_cannot_links]. rewrite alone_bind, alone_absorb by auto.
  destruct (absorb _ _ _ _ _ _ _ c lc) as [[c' lc']|]; [|reflexivity]. cbn [rbind fst snd]. rewrite alone_bind, IH. destruct (merge_cannot_links _ _ _ _ _ _ core lc') as [[? ?]|]; reflexivity.
Qed.

(** ** The other threads *)
Lemma silent_map {A B} (f : A -> prog B) l : (forall x, silent (f x)) -> silent (pmap f l).
Proof. intro F. induction l as [|x l IH]; cbn [pmap]; [exact I|]. apply silent_bind; auto. intro. apply silent_bind; auto. intro. exact I. Qed.
Lemma silent_conflict xs ys : silent (p_conflict xs ys).
Proof. apply silent_bind; [|intro; exact I]. apply silent_map. intro. apply silent_filter. intro. apply silent_inferred_is. Qed.
Lemma silent_absorb {D} ltb setlist p table fuel : forall c lc, silent (p_absorb D ltb setlist p table fuel c lc).
Proof.
  induction fuel as [|fuel IH]; intros c lc; [exact I|]. cbn [p_absorb]. destruct lc as [|e lc0]; [exact I|]. apply silent_bind; [exact I|]. intro ds. apply silent_bind; [exact I|]. intro k.
  apply silent_bind; [exact I|]. intro d. destruct (ltb _ d); [exact I|]. apply silent_bind; [exact I|]. intro pts. apply silent_bind; [apply silent_conflict|]. intros []; [exact I|apply IH].
Qed.
Lemma silent_merge {D} ltb setlist p table core : forall lc, silent (p_merge_cannot_links D ltb setlist p table core lc).
Proof.
  induction core as [|[k c] core IH]; intro lc; [exact I|]. cbn [p_merge_cannot_links]. apply silent_bind; [apply silent_absorb|]. intro r. apply silent_bind; [apply IH|]. intro. exact I.
Qed.
Lemma silent_dbscan {vec D} pairwise leb ltb of_nat setlist p vectors nb : silent (p_dbscan vec D pairwise leb ltb of_nat setlist p vectors nb).
Proof.
  unfold p_dbscan. apply silent_bind; [cbn; auto|]. intro l. destruct nb; [exact I|]. apply silent_bind; [cbn; auto|]. intro table. apply silent_bind.
  - apply silent_fold. intros s x. unfold p_local_step. apply silent_bind; [exact I|]. intro lb. destruct (is_single lb); [exact I|]. apply silent_bind; [exact I|]. intro ns.
    apply silent_bind; [apply silent_conflict|]. intro. exact I.
  - intro s. apply silent_bind; [apply silent_map; intro; apply silent_bind; [apply silent_filter; intro; apply silent_inferred_is|intro; exact I]|]. intro comp.
    apply silent_bind; [exact I|]. intro merged. apply silent_bind; [exact I|]. intro core. apply silent_bind; [apply silent_merge|]. intro. exact I.
Qed.

Lemma dbscans_watched {vec D} pairwise leb ltb of_nat setlist m cs (qs : list (dbscan_call vec D)) m' r rs : reachable m -> Forall only_adds_constraints cs ->
  interleaved m (p_left (p_wsession cs) :: map (fun q => p_right (p_dbscan vec D pairwise leb ltb of_nat setlist (fst q) (snd q) None)) qs) m' (r :: rs) ->
  (m' = run (map as_wcall cs) m /\ r = Ok (inl (snd (one_by_one (map as_wcall cs) m)))) /\
  Forall2 (fun q x => exists r0 hi, x = rbind r0 (fun d => Ok (inr d)) /\ watch (SampleThreadThms.here m cs) 0 (p_dbscan vec D pairwise leb ltb of_nat setlist (fst q) (snd q) None) r0 hi) qs rs.
Proof.
  intros R AC J. destruct (session_trail m cs R (adds cs AC) cs 0 eq_refl (Nat.le_0_l _)) as [e T].
  assert (T2 : trail (SampleThreadThms.here m cs) 0 (p_wsession cs) m e).
  { apply trail_and; [exact T|]. destruct (sd_session cs AC m) as [S1 _]. intros x [<-|Ix]; auto. }
  assert (PE : SampleThreadThms.here m cs e (fst (alone (p_wsession cs) m))) by (eapply trail_end; eauto).
  destruct (silent_watch (SampleThreadThms.here m cs) m (p_left (p_wsession cs)) _ m' r rs 0 e J) as [E W].
  { apply Forall_forall. intros p Ip. apply in_map_iff in Ip as (q & <- & _). apply silent_bind; [apply silent_dbscan|intro; exact I]. }
  { unfold p_left. eapply trail_bind; [exact T2|]. rewrite alone_wsession in *. cbn. auto. }
  unfold p_left in E. rewrite alone_bind, alone_wsession in E. cbn [alone] in E. injection E as <- <-. split; auto.
  clear J T T2 PE. revert rs W. induction qs as [|q qs IH]; intros rs W; inversion W as [|? ? ? ? [hi Hw] W']; subst; constructor; auto.
  unfold p_right in Hw. apply watch_bind in Hw as (x & n1 & H1 & H2). exists x, n1. split; auto. destruct x; [apply watch_done_inv in H2 as [-> _]|destruct H2 as [-> _]]; reflexivity.
Qed.

(*PROP C157: the clustering alone, action by action, leaves the manager as it is and ends with the result of the method. *)
Lemma C157_alone_proof : forall vec D pairwise leb ltb of_nat setlist p vectors nb s m, reachable m ->
  alone (p_dbscan vec D pairwise leb ltb of_nat setlist p vectors nb) m = (m, result (Dbscan.cluster vec D pairwise leb ltb of_nat setlist p m vectors nb) s).
Proof.
  intros vec D pairwise leb ltb of_nat setlist p vectors nb s m R. assert (I := reachable_inv _ R).
  unfold p_dbscan, result, Dbscan.cluster. rewrite alone_bind. cbn [p_ids pread alone]. unfold bind at 1, lift at 1. rewrite ask_managed.
  destruct nb; [reflexivity|]. rewrite alone_bind. cbn [pread alone]. unfold bind at 1, lift at 1. destruct (pairwise_table vec D pairwise m vectors) as [table|]; [|reflexivity].
  unfold bind at 1, modify at 1. rewrite alone_bind, (alone_fold _ (local_step D leb p m table (ids m))) by (intros; apply alone_local_step; auto).
  change (rfold (local_step D leb p m table (ids m)) (ids m) (dcomp (fun _ : pystr => UNLABELED) (ids m), [])) with (local_clusters D leb p m table (ids m)).
  unfold bind at 1, lift at 1. destruct (local_clusters D leb p m table (ids m)) as [[labels local]|]; [|reflexivity]. rewrite alone_bind, alone_compatible by auto.
  unfold bind at 1, lift at 1. unfold merge_must_links. destruct (rmap _ (ids m)) as [comp|]; [|reflexivity]. cbn [rbind]. unfold merge_compatible. cbn [fst snd].
  match goal with |- context [rfold ?f ?k ?s0] => destruct (rfold f k s0) as [merged|]; [|reflexivity] end. cbn [rbind pbind].
  unfold bind at 1, lift at 1. destruct (clean (ids m) (snd merged)) as [core|]; [|reflexivity]. cbn [pbind]. rewrite alone_bind, alone_merge by auto.
  unfold bind at 1, lift at 1. destruct (merge_cannot_links _ _ _ _ _ _ core local) as [[c1 l1]|]; [|reflexivity]. cbn [alone fst snd]. unfold number_clusters, bind at 1, lift at 1. cbn [fst snd].
  destruct (rename_clusters_by_order _) as [d|]; reflexivity.
Qed.
(*EX
Definition ex : mgr := run [CallAddConstraint B C CANNOT_LINK 1%Q] (init [A; B; C; E]).
Lemma ex_reachable : reachable ex. Proof. apply run_reachable. Qed.
Definition places : dict pystr Z := [(A, 0); (B, 1); (C, 50); (E, 51)]%Z.
Definition pars := mkDBParams Z 2%Z 2.
Example C157_alone_ex : alone (line_dbscan pars places None) ex = (ex, Ok [(A, 0); (B, 0); (C, 1); (E, 1)]%Z).
Proof. vm_compute. reflexivity. Qed.
EX*)

(*PROP C157: one thread adds constraints, any number of calls, and any number of other threads cluster the data with DBScan, with the documented arguments. However their reads and writes are
    interleaved, the additions end as when they are made alone, and no clustering fails: each gives one value to each of the data and to nothing else, with the regular clusters numbered by the
    first of their data in the order of the IDs, then the ignored data with -1, -2, and so on. What is missing: the constraints, see below. *)
Lemma C157_no_failure_partial_proof : forall vec D pairwise leb ltb of_nat setlist m cs (qs : list (dbscan_call vec D)) m' r rs,
    valid_setlist setlist -> reachable m -> Forall only_adds_constraints cs -> Forall (valid_dbscan_call pairwise leb of_nat m) qs ->
    interleaved m (p_left (p_wsession cs) :: map (fun q => p_right (p_dbscan vec D pairwise leb ltb of_nat setlist (fst q) (snd q) None)) qs) m' (r :: rs) ->
    m' = run (map as_wcall cs) m /\ r = Ok (inl (snd (one_by_one (map as_wcall cs) m))) /\
    Forall (fun x => exists d, x = Ok (inr d) /\ covers_exactly m d /\ NoDup (keys d) /\ regular_and_ignored m d) rs.
Proof.
  intros vec D pairwise leb ltb of_nat setlist m cs qs m' r rs SL R AC VA J.
  destruct (dbscans_watched pairwise leb ltb of_nat setlist m cs qs m' r rs R AC J) as ((E1 & E2) & W). split; auto. split; auto. clear J E1 E2.
  revert VA. induction W as [|q x qs rs (r0 & hi & -> & H1) W IH]; intro VA; constructor; inversion VA as [|? ? Q VA']; subst; auto.
  apply (dbscan_right m cs R AC) in H1 as (d & -> & CE & ND & RI & _); auto. exists d. auto.
Qed.
(*EX
Definition news : list wcall := [WAdd A C MUST_LINK 1%Q].
(** The constraint between [a] and [c] is added once the local clusters are known, where [a] is with [b]. *)
Definition turns : list nat := repeat 1 40 ++ repeat 0 (length (states (p_wsession news) ex)) ++ repeat 1 97.
Lemma ex_valid : valid_dbscan_call line_dist Z.leb Z.of_nat ex (pars, places).
Proof.
  split; [exists 2%Z, 2%Z; reflexivity|]. split; [intros rows i; unfold line_dist; rewrite Z.sub_diag; reflexivity|].
  split; [exists A; apply managed_ids; change (In A [A; B; C; E]); left; auto|]. exists places. split; auto. intros x Mx. apply managed_ids in Mx. exact Mx.
Qed.
Example C157_no_failure_ex : Forall only_adds_constraints news /\
  exists m', interleaved ex [p_left (p_wsession news); p_right (line_dbscan pars places None)] m' [Ok (inl [Ok (VBool true)]); Ok (inr [(A, 0); (B, 0); (C, 0); (E, -1)]%Z)].
Proof. split; [repeat constructor|]. eexists. apply (play_interleaved turns). vm_compute. reflexivity. Qed.
EX*)

(*PROP C157: when nothing new is inferred as MUST_LINK by the end of the additions, each clustering separates the data that were known as CANNOT_LINK when it started, and perhaps not those
    that were separated meanwhile. *)
Lemma C157_cannot_links_partial_proof : forall vec D pairwise leb ltb of_nat setlist m cs (qs : list (dbscan_call vec D)) m' r rs,
    valid_setlist setlist -> reachable m -> Forall only_adds_constraints cs -> Forall (valid_dbscan_call pairwise leb of_nat m) qs ->
    no_new_links m (run (map as_wcall cs) m) ->
    interleaved m (p_left (p_wsession cs) :: map (fun q => p_right (p_dbscan vec D pairwise leb ltb of_nat setlist (fst q) (snd q) None)) qs) m' (r :: rs) ->
    Forall (fun x => exists d, x = Ok (inr d) /\ respects_cannot_links m d) rs.
Proof.
  intros vec D pairwise leb ltb of_nat setlist m cs qs m' r rs SL R AC VA NL J.
  destruct (dbscans_watched pairwise leb ltb of_nat setlist m cs qs m' r rs R AC J) as (_ & W). clear J.
  assert (NL' : quiet m cs). { unfold quiet, ReadersThms.N. rewrite firstn_all2 by (rewrite map_length; auto). exact NL. }
  revert VA. induction W as [|q x qs rs (r0 & hi & -> & H1) W IH]; intro VA; constructor; inversion VA as [|? ? Q VA']; subst; auto.
  apply (dbscan_right m cs R AC) in H1 as (d & -> & _ & _ & _ & RC); auto. exists d. auto.
Qed.
(*EX
Definition apart : list wcall := [WAdd A B CANNOT_LINK 1%Q].
(** The clustering does not know yet that [a] and [b] must be apart. *)
Example C157_cannot_links_ex : inferred ex B C (Some CANNOT_LINK) /\ no_new_links ex (run (map as_wcall apart) ex) /\
  exists m', interleaved ex [p_left (p_wsession apart); p_right (line_dbscan pars places None)] m' [Ok (inl [Ok (VBool true)]); Ok (inr [(A, 0); (B, 0); (C, 1); (E, 1)]%Z)].
Proof.
  split; [vm_compute; reflexivity|]. split; [apply C154_cannot_links_partial; [apply ex_reachable|repeat constructor]|].
  eexists. apply (play_interleaved (repeat 1 40 ++ repeat 0 (length (states (p_wsession apart) ex)) ++ repeat 1 92)). vm_compute. reflexivity.
Qed.
EX*)

(*PROP C157: one MUST_LINK constraint added while DBScan runs, and two data with a CANNOT_LINK known from the start get the same cluster. *)
Lemma C157_cannot_refuted_proof : exists m cs (q : dbscan_call Z Z) m' r d,
    valid_setlist dedup /\ reachable m /\ Forall only_adds_constraints cs /\ valid_dbscan_call line_dist Z.leb Z.of_nat m q /\
    interleaved m [p_left (p_wsession cs); p_right (line_dbscan (fst q) (snd q) None)] m' [r; Ok (inr d)] /\
    ~ respects_cannot_links m d.
Proof.
  pose (a := str "a"). pose (b := str "b"). pose (c := str "c"). pose (e := str "e").
  exists (run [CallAddConstraint b c CANNOT_LINK 1%Q] (init [a; b; c; e])), [WAdd a c MUST_LINK 1%Q], (mkDBParams Z 2%Z 2, [(a, 0); (b, 1); (c, 50); (e, 51)]%Z).
  eexists. exists (Ok (inl [Ok (VBool true)])), [(a, 0); (b, 0); (c, 0); (e, -1)]%Z.
  split; [exact dedup_setlist|]. split; [apply run_reachable|]. split; [repeat constructor|]. split; [|split].
  - split; [exists 2%Z, 2%Z; reflexivity|]. split; [intros rows i; unfold line_dist; rewrite Z.sub_diag; reflexivity|].
    split; [exists a; apply managed_ids; change (In a [a; b; c; e]); left; auto|]. eexists. split; [reflexivity|]. intros x Mx. apply managed_ids in Mx. exact Mx.
  - apply (play_interleaved (repeat 1 40 ++ repeat 0 (length (states (p_wsession [WAdd a c MUST_LINK 1%Q]) (run [CallAddConstraint b c CANNOT_LINK 1%Q] (init [a; b; c; e])))) ++ repeat 1 97)).
    vm_compute. reflexivity.
  - intro R. apply (R b c).
    + apply managed_ids. change (In b [a; b; c; e]). cbn [In]. auto.
    + apply managed_ids. change (In c [a; b; c; e]). cbn [In]. auto.
    + vm_compute. reflexivity.
    + vm_compute. reflexivity.
Qed.
