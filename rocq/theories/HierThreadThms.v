(** * Threads that cluster with the hierarchical method while one thread adds constraints (C155). *)

From Coq Require Import String List Bool Arith ZArith QArith Lia Permutation.
(*HEADER
From Coq Require Import String List Bool Arith ZArith QArith Permutation Lia.
From Verif Require Import Base Manager Spec ManagerThms ManagerInv ManagerQueries Sampling SamplingSpec ClusterSpec Hierarchical HierSpec Threads ThreadSpec ThreadsThms Readers ReadersSpec ReadersThms ListingSpec
  Listing SampleThread HierThread KMeansThreadSpec HierThreadSpec HierThreadThms.
Import ListNotations.
Open Scope nat_scope.

Definition A := str "a". Definition B := str "b". Definition C := str "c". Definition E := str "e".

HEADER*)
From Verif Require Import Base Manager Spec Closure ManagerProofs ManagerInv ManagerQueries ManagerSem ManagerThms Sampling SamplingSpec SamplingProofs SamplingThms
  Rename ClusterSpec RenameThms ClusterProofs KMeans KMeansSpec KMeansProofs KMeansThms Hierarchical HierSpec HierProofs HierRun HierTree
  Threads ThreadSpec ThreadsThms Readers ReadersSpec ReadersThms Listing ListingSpec ListingThms SampleThread SampleThreadThms KMeansThread KMeansThreadThms HierThread HierThreadProofs HierThreadSpec.
Import ListNotations.
Open Scope nat_scope.

(** ** Alone *)
Lemma alone_exists {T} (f : T -> prog bool) (g : T -> res bool) l m : (forall x, alone (f x) m = (m, g x)) -> alone (p_exists f l) m = (m, rexists g l).
Proof.
  intro E. induction l as [|x l IH]; cbn [p_exists rexists]; [reflexivity|]. rewrite alone_bind, E. destruct (g x) as [[]|]; cbn [rbind]; auto.
Qed.
Lemma alone_components m : alone p_get_connected_components m = (m, ask get_connected_components m).
Proof.
  assert (G : forall l found m, alone (p_collect_components l found) m = (m, collect_components (ctrans m) l found)).
  { induction l as [|x l IH]; intros found k; cbn [p_collect_components collect_components]; [reflexivity|]. rewrite alone_bind. cbn [p_ml pread alone].
    unfold dlookup. destruct (dget x (ctrans k)) as [e|]; cbn [rbind]; [apply IH|reflexivity]. }
  unfold p_get_connected_components. rewrite alone_bind. cbn [p_trans_keys pread alone]. rewrite G. reflexivity.
Qed.
Section Alone.
  Context {vec D : Type} `{EqB D}.
  Variable pairwise : list vec -> nat -> nat -> D.
  Variable cdistance : vec -> vec -> D.
  Variable ltb : D -> D -> bool.
  Variable dsum : list D -> D.
  Variable ddiv : D -> nat -> D.
  Variable inf : D.
  Variable mean : list vec -> vec.
  Variable m : mgr.
  Hypothesis I : Inv m.

  Lemma alone_tree_distance linkage table ti tj : alone (p_tree_distance vec D cdistance ltb dsum ddiv inf linkage table ti tj) m = (m, tree_distance vec D cdistance ltb dsum ddiv inf m linkage table ti tj).
  Proof.
    unfold p_tree_distance, tree_distance. rewrite alone_bind, (alone_exists _ (fun p => inferred_is m (fst p) (snd p) CANNOT_LINK)) by (intro; apply alone_inferred_is; auto).
    destruct (rexists _ _) as [b|]; cbn [rbind]; [|reflexivity]. cbn [alone]. destruct b; reflexivity.
  Qed.
  Lemma alone_update linkage table f p : alone (p_update_distance vec D cdistance ltb dsum ddiv inf linkage table f p) m = (m, update_distance vec D cdistance ltb dsum ddiv inf m linkage table f p).
  Proof.
    unfold p_update_distance, update_distance, p_compute_distance, compute_distance. rewrite alone_bind.
    destruct (dlookup (fst p) (f_storage vec D f)) as [ti|]; cbn [pbind rbind]; [|reflexivity].
    destruct (dlookup (snd p) (f_storage vec D f)) as [tj|]; cbn [pbind rbind]; [|reflexivity].
    rewrite alone_tree_distance. destruct (tree_distance _ _ _ _ _ _ _ _ _ _ _ _); reflexivity.
  Qed.
  Lemma alone_merge_loop fuel linkage table vectors : forall it f,
    alone (p_merge_loop vec D cdistance ltb dsum ddiv inf mean fuel linkage table vectors it f) m = (m, merge_loop vec D cdistance ltb dsum ddiv inf mean fuel m linkage table vectors it f).
  Proof.
    induction fuel as [|fuel IH]; intros it f; cbn [p_merge_loop merge_loop]; destruct (Nat.leb _ 1); try reflexivity.
    destruct (two_closest vec D ltb inf f) as [[[c1 c2]|]|]; cbn [pbind rbind]; try reflexivity.
    destruct (add_by_merging vec D mean vectors it f [c1; c2]) as [[f1 t]|]; cbn [pbind rbind fst snd]; [|reflexivity].
    rewrite alone_bind, (alone_fold _ (update_distance vec D cdistance ltb dsum ddiv inf m linkage table)) by (intros; apply alone_update).
    destruct (rfold _ _ f1) as [g|]; [apply IH|reflexivity].
  Qed.
  Lemma alone_build_tree linkage vectors table :
    alone (p_build_tree vec D cdistance ltb dsum ddiv inf mean linkage vectors table) m = (m, build_tree vec D cdistance ltb dsum ddiv inf mean m linkage vectors table).
  Proof.
    unfold p_build_tree, build_tree. rewrite alone_bind, alone_components. destruct (ask get_connected_components m) as [l|]; cbn [rbind]; [|reflexivity].
    destruct (rfold (add_by_members vec D mean vectors 0) l _) as [f|]; cbn [pbind rbind]; [|reflexivity].
    rewrite alone_bind, (alone_fold _ (update_distance vec D cdistance ltb dsum ddiv inf m linkage table)) by (intros; apply alone_update).
    destruct (rfold _ _ f) as [g|]; cbn [rbind]; [|reflexivity]. rewrite alone_bind, alone_merge_loop.
    destruct (merge_loop _ _ _ _ _ _ _ _ _ _ _ _ _ _ g) as [[h it]|]; reflexivity.
  Qed.
End Alone.

(** ** The other threads *)
Lemma silent_exists {T} (f : T -> prog bool) l : (forall x, silent (f x)) -> silent (p_exists f l).
Proof. intro F. induction l as [|x l IH]; cbn [p_exists]; [exact I|]. apply silent_bind; auto. intros []; [exact I|auto]. Qed.
Section Silent.
  Context {vec D : Type} `{EqB D}.
  Variable pairwise : list vec -> nat -> nat -> D.
  Variable cdistance : vec -> vec -> D.
  Variable ltb : D -> D -> bool.
  Variable dsum : list D -> D.
  Variable ddiv : D -> nat -> D.
  Variable inf : D.
  Variable mean : list vec -> vec.
  Lemma silent_update linkage table f p : silent (p_update_distance vec D cdistance ltb dsum ddiv inf linkage table f p).
  Proof.
    apply silent_bind; [|intro; exact I]. apply silent_bind; [exact I|]. intro. apply silent_bind; [exact I|]. intro. apply silent_bind; [|intro; exact I].
    apply silent_exists. intro. apply silent_inferred_is.
  Qed.
  Lemma silent_merge_loop fuel linkage table vectors : forall it f, silent (p_merge_loop vec D cdistance ltb dsum ddiv inf mean fuel linkage table vectors it f).
  Proof.
    induction fuel as [|fuel IH]; intros it f; cbn [p_merge_loop]; destruct (Nat.leb _ 1); try exact I.
    apply silent_bind; [exact I|]. intros [[c1 c2]|]; [|exact I]. apply silent_bind; [exact I|]. intro. apply silent_bind; [|intro; apply IH]. apply silent_fold. intros. apply silent_update.
  Qed.
  Lemma silent_hierarchical linkage vectors nb : silent (p_hierarchical vec D pairwise cdistance ltb dsum ddiv inf mean linkage vectors nb).
  Proof.
    unfold p_hierarchical. apply silent_bind; [cbn; auto|]. intro l. destruct nb as [nb|]; [|exact I]. destruct (nb <? 2)%Z; [exact I|]. apply silent_bind; [cbn; auto|]. intro table.
    apply silent_bind; [|intro; exact I]. apply silent_bind; [apply silent_bind; [cbn; auto|intro; apply silent_collect]|]. intro. apply silent_bind; [exact I|]. intro.
    apply silent_bind; [apply silent_fold; intros; apply silent_update|]. intro. apply silent_bind; [apply silent_merge_loop|]. intro. exact I.
  Qed.
End Silent.

Lemma hier_right m0 cs : reachable m0 -> Forall only_adds_constraints cs -> forall {vec D : Type} `{EqB D} (pairwise : list vec -> nat -> nat -> D) cdistance ltb dsum ddiv inf mean linkage vectors nb lo r hi,
  make_hierarchical linkage = Ok linkage -> has_ids m0 -> covers (Some vectors) m0 -> (2 <= nb)%Z ->
  watch (spot m0 cs) lo (p_hierarchical vec D pairwise cdistance ltb dsum ddiv inf mean linkage vectors (Some nb)) r hi ->
  exists d, r = Ok d /\ canonical d /\ covers_exactly m0 d /\ respects m0 d.
Proof.
  intros R0 AC vec D EB pairwise cdistance ltb dsum ddiv inf mean linkage vectors nb lo r hi LK HI (v' & Ev & COV) NB W. injection Ev as <-.
  assert (I0 := reachable_inv _ R0). assert (NE := proj1 (has_ids_spec m0) HI).
  assert (CV : forall x, In x (ids m0) -> In x (keys vectors)) by (intros x X; apply COV, managed_ids; auto).
  unfold p_hierarchical in W. apply watch_bind in W as (u & n1 & W1 & W). apply watch_read in W1 as (_ & s & [_ K] & ->). rewrite K in W. destruct (Z.ltb_spec nb 2); [lia|].
  apply watch_bind in W as (u & n2 & W1 & W). apply watch_read in W1 as (_ & s' & [_ K'] & ->).
  assert (ST : pairwise_table vec D pairwise s' vectors = pairwise_table vec D pairwise m0 vectors) by (unfold pairwise_table, ask; rewrite !run_managed, K'; reflexivity).
  rewrite ST in W. destruct (pairwise_table_run pairwise m0 vectors I0 CV NE) as (table & ET & GT). rewrite ET in W.
  apply watch_bind in W as (u & n3 & W1 & W). apply (tree_right m0 cs R0 AC pairwise cdistance ltb dsum ddiv inf mean linkage vectors NE CV LK table GT) in W1 as (root & -> & RT).
  apply watch_done_inv in W as [-> _].
  destruct (explore_run (str "size") (Z.min nb (Z.of_nat (length (ids m0)))) (tree_size vec root) [root]) as (l & EX & SR); [discriminate| |cbn; lia|].
  { cbn [flat_map]. rewrite app_nil_r. apply RT. }
  rewrite EX. cbn [rbind]. apply (loose_split m0 I0) in SR as (IL & AL & ND & NC); auto.
  - destruct (loose_labels m0 I0 root l RT IL AL ND NC) as (NK & CE & RS). destruct (rename_run _ NK) as (d & Er & _ & Can & SP). rewrite Er.
    exists d. split; auto. split; auto. split; [eapply covers_transfer; eauto|eapply respects_transfer; eauto].
  - destruct (ids m0) as [|x [|y k]]; [congruence| |]; cbn [length]; lia.
  - intros E a b A B. destruct (ids m0) as [|x [|y k]]; [destruct A| |cbn [length] in E; lia]. destruct A as [<-|[]], B as [<-|[]]. auto.
Qed.

Lemma hierarchies_watched {vec D} `{EqB D} pairwise cdistance ltb dsum ddiv inf mean m cs (qs : list (hier_call vec)) m' r rs : reachable m -> Forall only_adds_constraints cs ->
  interleaved m (p_left (p_wsession cs) :: map (fun q => p_right (p_hierarchical vec D pairwise cdistance ltb dsum ddiv inf mean (fst (fst q)) (snd (fst q)) (Some (snd q)))) qs) m' (r :: rs) ->
  (m' = run (map as_wcall cs) m /\ r = Ok (inl (snd (one_by_one (map as_wcall cs) m)))) /\
  Forall2 (fun q x => exists r0 hi, x = rbind r0 (fun d => Ok (inr d)) /\
     watch (spot m cs) 0 (p_hierarchical vec D pairwise cdistance ltb dsum ddiv inf mean (fst (fst q)) (snd (fst q)) (Some (snd q))) r0 hi) qs rs.
Proof.
  intros R AC J. destruct (both_trail m cs R AC cs 0 eq_refl (Nat.le_0_l _)) as [e T].
  assert (T2 : trail (spot m cs) 0 (p_wsession cs) m e).
  { apply trail_and; [exact T|]. destruct (sd_session cs AC m) as [S1 _]. intros x [<-|Ix]; auto. }
  assert (PE : spot m cs e (fst (alone (p_wsession cs) m))) by (eapply trail_end; eauto).
  destruct (silent_watch (spot m cs) m (p_left (p_wsession cs)) _ m' r rs 0 e J) as [E W].
  { apply Forall_forall. intros p Ip. apply in_map_iff in Ip as (q & <- & _). apply silent_bind; [apply silent_hierarchical|intro; exact I]. }
  { unfold p_left. eapply trail_bind; [exact T2|]. rewrite alone_wsession in *. cbn. auto. }
  unfold p_left in E. rewrite alone_bind, alone_wsession in E. cbn [alone] in E. injection E as <- <-. split; auto.
  clear J T T2 PE. revert rs W. induction qs as [|q qs IH]; intros rs W; inversion W as [|? ? ? ? [hi Hw] W']; subst; constructor; auto.
  unfold p_right in Hw. apply watch_bind in Hw as (x & n1 & H1 & H2). exists x, n1. split; auto. destruct x; [apply watch_done_inv in H2 as [-> _]|destruct H2 as [-> _]]; reflexivity.
Qed.

(*PROP C155: the clustering alone, action by action, leaves the manager as it is and ends with the result of the method. *)
Lemma C155_alone_proof : forall vec D (EB : EqB D) pairwise cdistance ltb dsum ddiv inf mean linkage vectors nb s m, reachable m ->
  alone (p_hierarchical vec D pairwise cdistance ltb dsum ddiv inf mean linkage vectors nb) m =
  (m, result (Hierarchical.cluster vec D pairwise cdistance ltb dsum ddiv inf mean linkage m vectors nb) s).
Proof.
  intros vec D EB pairwise cdistance ltb dsum ddiv inf mean linkage vectors nb s m R. assert (I := reachable_inv _ R).
  unfold p_hierarchical, result, Hierarchical.cluster. rewrite alone_bind. cbn [p_ids pread alone]. unfold bind at 1, lift at 1. rewrite ask_managed.
  unfold bind at 1, modify at 1. destruct nb as [nb|]; [|reflexivity]. destruct (nb <? 2)%Z; [reflexivity|].
  rewrite alone_bind. cbn [pread alone]. unfold bind at 1, lift at 1. destruct (pairwise_table vec D pairwise m vectors) as [table|]; [|reflexivity].
  unfold bind at 1, modify at 1. rewrite alone_bind, alone_build_tree by auto. unfold bind at 1, lift at 1.
  destruct (build_tree _ _ _ _ _ _ _ _ _ _ _ _) as [root|]; [|reflexivity]. unfold bind at 1, modify at 1. unfold bind at 1, compute_predicted_clusters. cbn [alone].
  unfold bind at 1, gets at 1. cbn [h_root]. unfold bind at 1, lift at 1. destruct (explore _ _ _ _ _) as [l|]; cbn [rbind]; [|reflexivity].
  unfold bind at 1, gets at 1. cbn [h_ids]. unfold lift at 1. destruct (rename_clusters_by_order _); reflexivity.
Qed.
(*EX
Definition ex : mgr := run [CallAddConstraint A B MUST_LINK 1%Q; CallAddConstraint C E CANNOT_LINK 1%Q] (init [A; B; C; E]).
Lemma ex_reachable : reachable ex. Proof. apply run_reachable. Qed.
Definition places : dict pystr Z := [(A, 0); (B, 9); (C, 10); (E, 11)]%Z.
Example C155_alone_ex : alone (line_hier (str "single") places (Some 2%Z)) ex = (ex, Ok [(A, 0); (B, 0); (C, 0); (E, 1)]%Z).
Proof. vm_compute. reflexivity. Qed.
EX*)

(*PROP C155: one thread adds constraints, any number of calls, and any number of other threads cluster the data with the hierarchical method, with the documented arguments. However their reads and
    writes are interleaved, the additions end as when they are made alone, and no clustering fails: each gives a cluster to each of the data and to nothing else, with clusters numbered by the
    first of their data in the order of the IDs. *)
Lemma C155_no_failure_proof : forall vec D (EB : EqB D) pairwise cdistance ltb dsum ddiv inf mean m cs (qs : list (hier_call vec)) m' r rs,
    reachable m -> Forall only_adds_constraints cs -> Forall (valid_hier_call m) qs ->
    interleaved m (p_left (p_wsession cs) :: map (fun q => p_right (p_hierarchical vec D pairwise cdistance ltb dsum ddiv inf mean (fst (fst q)) (snd (fst q)) (Some (snd q)))) qs) m' (r :: rs) ->
    m' = run (map as_wcall cs) m /\ r = Ok (inl (snd (one_by_one (map as_wcall cs) m))) /\
    Forall (fun x => exists d, x = Ok (inr d) /\ canonical d /\ covers_exactly m d) rs.
Proof.
  intros vec D EB pairwise cdistance ltb dsum ddiv inf mean m cs qs m' r rs R AC VA J.
  destruct (hierarchies_watched pairwise cdistance ltb dsum ddiv inf mean m cs qs m' r rs R AC J) as ((E1 & E2) & W). split; auto. split; auto. clear J E1 E2.
  revert VA. induction W as [|q x qs rs (r0 & hi & -> & H1) W IH]; intro VA; constructor; inversion VA as [|? ? Q VA']; subst; auto.
  destruct q as [[lk v] nb]. cbn [fst snd] in H1. destruct Q as (LK & HI & CO & NB).
  apply (hier_right m cs R AC) in H1 as (d & -> & Can & CE & _); auto. exists d. auto.
Qed.
(*EX
Definition news : list wcall := [WAdd B E MUST_LINK 1%Q].
Definition all_of_them : nat := length (states (p_wsession news) ex).
Lemma ex_valid : valid_hier_call ex (str "single", places, 2%Z).
Proof.
  split; [reflexivity|]. split; [exists A; apply managed_ids; change (In A [A; B; C; E]); left; auto|]. split; [|lia].
  exists places. split; auto. intros x Mx. apply managed_ids in Mx. exact Mx.
Qed.
(** The constraint between [b] and [e] is added after the first of the components, that of [a] and [b], is listed: the data [a] and [b] end in two of the lists. *)
Example C155_no_failure_ex : Forall only_adds_constraints news /\
  exists m', interleaved ex [p_left (p_wsession news); p_right (line_hier (str "single") places (Some 2%Z))] m' [Ok (inl [Ok (VBool true)]); Ok (inr [(A, 0); (B, 0); (C, 1); (E, 0)]%Z)].
Proof. split; [repeat constructor|]. eexists. apply (play_interleaved (repeat 1 4 ++ repeat 0 all_of_them ++ repeat 1 33)). vm_compute. reflexivity. Qed.
EX*)

(*PROP C155: each clustering respects all the constraints that were known when the threads started, MUST_LINK and CANNOT_LINK, whatever is added meanwhile (unlike KMeans, C154), and perhaps not those
    that were added meanwhile. *)
Lemma C155_respects_proof : forall vec D (EB : EqB D) pairwise cdistance ltb dsum ddiv inf mean m cs (qs : list (hier_call vec)) m' r rs,
    reachable m -> Forall only_adds_constraints cs -> Forall (valid_hier_call m) qs ->
    interleaved m (p_left (p_wsession cs) :: map (fun q => p_right (p_hierarchical vec D pairwise cdistance ltb dsum ddiv inf mean (fst (fst q)) (snd (fst q)) (Some (snd q)))) qs) m' (r :: rs) ->
    Forall (fun x => exists d, x = Ok (inr d) /\ respects m d) rs.
Proof.
  intros vec D EB pairwise cdistance ltb dsum ddiv inf mean m cs qs m' r rs R AC VA J.
  destruct (hierarchies_watched pairwise cdistance ltb dsum ddiv inf mean m cs qs m' r rs R AC J) as (_ & W). clear J.
  revert VA. induction W as [|q x qs rs (r0 & hi & -> & H1) W IH]; intro VA; constructor; inversion VA as [|? ? Q VA']; subst; auto.
  destruct q as [[lk v] nb]. cbn [fst snd] in H1. destruct Q as (LK & HI & CO & NB).
  apply (hier_right m cs R AC) in H1 as (d & -> & _ & _ & RS); auto. exists d. auto.
Qed.
(*EX
(** The constraint between [b] and [e] is added while the distances are computed: the clustering separates [b] and [e], and respects what was known before. *)
Example C155_respects_ex : Forall (valid_hier_call ex) [(str "single", places, 2%Z)] /\
  exists m', interleaved ex [p_left (p_wsession news); p_right (line_hier (str "single") places (Some 2%Z))] m' [Ok (inl [Ok (VBool true)]); Ok (inr [(A, 0); (B, 0); (C, 0); (E, 1)]%Z)].
Proof. split; [constructor; [apply ex_valid|constructor]|]. eexists. apply (play_interleaved (repeat 1 20 ++ repeat 0 all_of_them ++ repeat 1 16)). vm_compute. reflexivity. Qed.
EX*)
