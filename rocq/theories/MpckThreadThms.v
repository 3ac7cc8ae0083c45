(** * Threads that cluster with MPCKMeans while one thread adds constraints (C159). *)

From Coq Require Import String List Bool Arith ZArith QArith Lia Permutation.
(*HEADER
From Coq Require Import String List Bool Arith ZArith QArith Permutation Lia.
From Verif Require Import Base Manager Spec ManagerThms ManagerInv ManagerQueries Sampling SamplingSpec ClusterSpec KMeansSpec SpectralSpec Mpckmeans MpckSpec MpckThms Threads ThreadSpec ThreadsThms
  Readers ReadersSpec ReadersThms ListingSpec Listing SampleThread MpckThread MpckThreadSpec MpckThreadThms.
Import ListNotations.
Open Scope nat_scope.

Definition A := str "a". Definition B := str "b". Definition C := str "c". Definition E := str "d".

HEADER*)
From Verif Require Import Base Manager Spec Closure ManagerProofs ManagerInv ManagerQueries ManagerSem ManagerThms Sampling SamplingSpec SamplingProofs SamplingThms
  Rename ClusterSpec RenameThms ClusterProofs KMeans KMeansSpec KMeansProofs KMeansThms Spectral SpectralSpec SpectralThms Mpckmeans MpckSpec MpckGraph MpckRun MpckThms
  Threads ThreadSpec ThreadsThms Readers ReadersSpec ReadersThms Listing ListingSpec ListingThms SampleThread SampleThreadThms KMeansThread KMeansThreadSpec KMeansThreadThms
  SpectralThreadThms MpckThread MpckThreadSpec MpckThreadProofs.
Import ListNotations.
Open Scope nat_scope.
Open Scope py_scope.

Section Meanwhile.
  Variable m0 : mgr.
  Variable cs : list wcall.
  Hypothesis R0 : reachable m0.
  Hypothesis AC : Forall only_adds_constraints cs.
  Notation N := (ReadersThms.N m0 cs).
  Notation here := (SampleThreadThms.here m0 cs).
  Notation l := (ids m0).
  Notation n := (length (ids m0)).
  Notation e := (N (length cs)).
  Notation at_ := (MpckGraph.at_ m0).
  Let I0 : Inv m0 := reachable_inv _ R0.
  Let In_ k : Inv (N k) := N_inv m0 cs R0 k.
  Let at_N k i : i < n -> In (at_ i) (ids (N k)).
  Proof. intro L. apply (N_in m0 cs R0 AC). apply MpckGraph.at_In. auto. Qed.

  Lemma filter_each {T} (f : T -> prog bool) (P : T -> bool -> Prop) k lo r hi :
    (forall y lo r hi, In y k -> watch here lo (f y) r hi -> exists b, r = Ok b /\ P y b) -> watch here lo (pfilter f k) r hi ->
    exists k', r = Ok k' /\ (forall y, In y k' -> In y k /\ P y true) /\ forall y, In y k -> In y k' \/ P y false.
  Proof.
    intro F. revert lo r hi. induction k as [|y k IH]; intros lo r hi W; cbn [pfilter] in W.
    - apply watch_done_inv in W as [-> _]. exists []. split; auto. split; intros ? [].
    - apply watch_bind in W as (x & n1 & W1 & W2). apply F in W1 as (b & -> & Pb); [|left; auto].
      apply watch_bind in W2 as (x & n2 & W2 & W3). apply IH in W2 as (k' & -> & I2 & I3); [|intros; eapply F; [right|]; eauto].
      apply watch_done_inv in W3 as [-> _]. exists (if b then y :: k' else k'). split; auto. split.
      + intros z J. destruct b; [destruct J as [<-|J]; [split; auto; left; auto|]|]; apply I2 in J as [J1 J2]; (split; [right; auto|auto]).
      + intros z [<-|J]; [destruct b; auto; left; left; auto|]. destruct (I3 z J); auto. left. destruct b; [right|]; auto.
  Qed.

  Lemma constrained_at k t i j : constrained (N k) l t i j <-> i < n /\ j < n /\ infer (N k) (at_ i) (at_ j) = Some t.
  Proof.
    unfold constrained. split.
    - intros (x & y & X & Y & H). apply at_nth in X as [Li ->]. apply at_nth in Y as [Lj ->]. split; auto. split; auto. apply inferred_spec in H; auto.
    - intros (Li & Lj & H). exists (at_ i), (at_ j). split; [apply at_nth; auto|]. split; [apply at_nth; auto|]. apply inferred_spec; auto.
  Qed.

  (** A list of constraints that is read bit by bit. *)
  Lemma index_right t lo r hi : watch here lo (p_index_pairs l t) r hi ->
    exists ps, r = Ok ps /\ (forall i j, In (i, j) ps -> exists k, constrained (N k) l t i j) /\ forall i j, i < n -> j < n -> In (i, j) ps \/ exists k, ~ constrained (N k) l t i j.
  Proof.
    intro W. unfold p_index_pairs in W. apply watch_bind in W as (x & n1 & W1 & W2).
    apply (filter_each _ (fun p b => exists k, b = opt_is (infer (N k) (snd (snd p)) (snd (fst p))) t)) in W1 as (ps & -> & H1 & H2).
    - apply watch_done_inv in W2 as [-> _]. eexists. split; [reflexivity|]. split.
      + intros i j J. apply in_map_iff in J as ([[a x] [b y]] & Q & J). cbn [fst snd] in Q. injection Q as -> ->. apply H1 in J as (J & k & K). cbn [fst snd] in K.
        apply in_prod_iff in J as [J1 J2]. apply enum_iff in J1, J2. apply at_nth in J1 as [L1 ->]. apply at_nth in J2 as [L2 ->]. exists k. apply constrained_at. split; auto. split; auto.
        rewrite infer_sym by auto. apply opt_is_spec. auto.
      + intros i j Li Lj. destruct (H2 ((i, at_ i), (j, at_ j))) as [J|[k K]].
        * apply in_prod_iff. split; apply enum_iff, at_nth; auto.
        * left. apply in_map_iff. exists ((i, at_ i), (j, at_ j)). auto.
        * right. exists k. cbn [fst snd] in K. rewrite constrained_at. intros (_ & _ & Q). rewrite infer_sym in Q by auto. apply opt_is_spec in Q. congruence.
    - intros [[a u] [b v]] lo' r' hi' J W. apply in_prod_iff in J as [J1 J2]. apply enum_iff, nth_error_In in J1. apply enum_iff, nth_error_In in J2. cbn [fst snd] in *.
      apply inferred_is_answer in W as [k ->]; auto. exists (opt_is (infer (N k) v u) t). split; auto. exists k. auto.
  Qed.

  Definition endR (i j : nat) : bool := ml e (at_ i) (at_ j).
  Definition endC (i j : nat) : bool := cl e (at_ i) (at_ j).
  Lemma upto k : exists k', k' <= length cs /\ N k = N k'.
  Proof. destruct (Nat.le_gt_cases k (length cs)) as [L|L]; [exists k; auto|]. exists (length cs). split; auto. apply N_end. lia. Qed.
  Lemma known_ml k i j : constrained (N k) l MUST_LINK i j -> i < n /\ j < n /\ endR i j = true.
  Proof. destruct (upto k) as (k' & L & ->). intro H. apply constrained_at in H as (Li & Lj & H). split; auto. split; auto. apply (ml_later m0 cs R0 AC k'); auto. apply ml_spec. auto. Qed.
  Lemma known_cl k i j : constrained (N k) l CANNOT_LINK i j -> i < n /\ j < n /\ endC i j = true.
  Proof.
    destruct (upto k) as (k' & L & ->). intro H. apply constrained_at in H as (Li & Lj & H). split; auto. split; auto. apply (cl_later m0 cs R0 AC k'); auto using MpckGraph.at_In. apply cl_spec. auto.
  Qed.
  Lemma first_N : N 0 = m0.
  Proof. reflexivity. Qed.
  Lemma first_ml k i j : constrained m0 l MUST_LINK i j -> constrained (N k) l MUST_LINK i j.
  Proof. rewrite <- first_N. intro H. apply constrained_at in H as (Li & Lj & H). apply constrained_at. split; auto. split; auto. apply ml_spec. apply (ml_later m0 cs R0 AC 0); [lia|]. apply ml_spec. auto. Qed.
  Lemma first_cl k i j : constrained m0 l CANNOT_LINK i j -> constrained (N k) l CANNOT_LINK i j.
  Proof.
    rewrite <- first_N. intro H. apply constrained_at in H as (Li & Lj & H). apply constrained_at. split; auto. split; auto. apply cl_spec. apply (cl_later m0 cs R0 AC 0); auto using MpckGraph.at_In; [lia|].
    apply cl_spec. auto.
  Qed.
  Lemma end_class i : i < n -> filter (endR i) (seq 0 n) = class e i.
  Proof. intro L. unfold class, endR, mli, MpckGraph.at_. rewrite (N_ids m0 cs R0 AC). reflexivity. Qed.

  Variable limit : nat.
  Variable order : list nat -> list nat.
  Hypothesis ORD : valid_order order.

  Lemma graphs_right lo r hi : watch here lo (p_constraint_graphs limit order l) r hi ->
    (r = Raise RecursionError /\ exists c, In c (comps e) /\ limit < length c) \/
    exists mg cg groups must cannot, r = Ok (mg, cg, groups) /\ graph_of n must mg /\ graph_of n cannot cg /\ knowledge m0 e l must cannot groups.
  Proof.
    intro W. unfold p_constraint_graphs in W. apply watch_bind in W as (x & n1 & W1 & W). apply index_right in W1 as (mls & -> & M1 & M2).
    apply watch_bind in W as (x & n2 & W1 & W). apply index_right in W1 as (cls & -> & C1 & C2). apply watch_done_inv in W as [-> _].
    assert (ML : forall i j, In (i, j) mls -> i < n /\ j < n /\ endR i j = true) by (intros i j J; apply M1 in J as [k J]; eapply known_ml; eauto).
    assert (CL : forall i j, In (i, j) cls -> i < n /\ j < n /\ endC i j = true) by (intros i j J; apply C1 in J as [k J]; eapply known_cl; eauto).
    destruct (preprocess_any order ORD limit n endR endC) with (mls := mls) (cls := cls) as [[Q1 (i & Li & Q2)]|(mg & cg & gs & must & cannot & Q1 & Gm & Gc & H1 & H2 & H3 & H4 & H5 & H6 & H7 & H8 & H9 & H10)]; auto.
    - intros i j Li Lj H. unfold endR in *. rewrite ml_sym; auto.
    - intros i j k Li Lj Lk. unfold endR. apply ml_trans; auto.
    - intros i j Li Lj H. unfold endC in *. rewrite cl_sym; auto.
    - intros i j a b Li Lj La Lb H1 H2 H3. unfold endR, endC in *. apply (cl_ml_r e (In_ _) (at_ a) (at_ j) (at_ b)); auto. apply (cl_ml_l e (In_ _) (at_ a) (at_ i) (at_ j)); auto. rewrite ml_sym; auto.
    - intros i j Li Lj H1 H2. eapply ml_cl; eauto.
    - intros i Li. destruct (M2 i i Li Li) as [J|[k K]]; auto. exfalso. apply K. apply constrained_at. split; auto. split; auto. apply ml_spec, ml_refl; auto.
    - left. split; auto. rewrite end_class in Q2 by auto. assert (E : length (ids e) = n) by (rewrite (N_ids m0 cs R0 AC); auto). exists (comp_of e (MpckGraph.at_ e i)).
      split; [apply comps_In; exists (MpckGraph.at_ e i); split; auto; apply MpckGraph.at_In; lia|]. rewrite <- class_comp; auto. lia.
    - right. exists mg, cg, gs, must, cannot. split; auto. split; auto. split; auto.
      assert (MS : forall i j, must i j -> constrained e l MUST_LINK i j). { intros i j H. apply H2 in H as (Li & Lj & H). apply constrained_at. split; auto. split; auto. apply ml_spec. auto. }
      assert (CS : forall i j, cannot i j -> constrained e l CANNOT_LINK i j). { intros i j H. apply H4 in H as (Li & Lj & H). apply constrained_at. split; auto. split; auto. apply cl_spec. auto. }
      split; auto.
      + intros i j H. apply H1. destruct (proj1 (constrained_at 0 _ i j) H) as (Li & Lj & _). destruct (M2 i j Li Lj) as [J|[k K]]; auto. exfalso. apply K. apply first_ml. auto.
      + intros i j H. apply H3. destruct (proj1 (constrained_at 0 _ i j) H) as (Li & Lj & _). destruct (C2 i j Li Lj) as [J|[k K]]; auto. exfalso. apply K. apply first_cl. auto.
      + intros i j X Y. apply H2 in X as (Li & Lj & X). apply H4 in Y as (_ & _ & Y). eapply ml_cl; eauto.
  Qed.

  (** ** The rest of the clustering *)
  Context {vec D : Type}.
  Variable o : ops D.
  Variable flatten : vec -> list D.
  Variable first : nat -> list D -> nat.
  Variable sample : nat -> nat -> list nat.
  Variable shuffle : nat -> list nat -> list nat.
  Hypothesis SHF : valid_shuffle shuffle.
  Hypothesis FST : valid_first first.
  Hypothesis SMP : valid_sample sample.
  Hypothesis ARG : exact_argmin o.
  Hypothesis SW : strict_weak_order (o_ltb D o).
  Variable p : mp_params D.
  Variable it : nat.
  Hypothesis MI : mp_max_iteration D p = S it.

  Lemma last_part (q : mpck_call vec) mg cg groups must cannot k :
    valid_mpck_call l q -> (forall v v', In v (vals (fst q)) -> In v' (vals (fst q)) -> length (flatten v) = length (flatten v')) -> (forall x, In x l -> ~ ends_with_nul x) ->
    k = Nat.min (Z.to_nat (snd q)) n -> graph_of n must mg -> graph_of n cannot cg -> knowledge m0 e l must cannot groups ->
    let x := fun i => nth i (map flatten (vals (fst q))) [] in
    match cluster_with vec D o flatten order first sample shuffle p l (fst q) k (mg, cg, groups) with
    | Ok d => exists C0 C L, first_centers o n (length (x 0)) x k first sample groups C0 /\
        iterates o n (length (x 0)) x k (mp_w D p) must cannot (fun t => shuffle t (seq 0 n)) 0 (S it) C0 (repeat (o_of_nat D o 1) (length (x 0))) C L /\
        canonical d /\ covers_exactly m0 d /\ (forall i j a b, nth_error l i = Some a -> nth_error l j = Some b -> dget a d = dget b d <-> L i = L j)
    | Raise e => (e = IndexError /\ k < length groups) \/ e = AssertionError \/ (e = ValueError /\ k < 10)
    end.
  Proof.
    destruct q as [vectors nb]. intros (KV & NE & NB) WX PL Ek Gm Gc K x. cbn [fst snd] in *.
    assert (ND : NoDup l) by (apply inv_nodup; auto). assert (NV : length (vals vectors) = n) by (rewrite <- KV; unfold keys, vals; rewrite !map_length; auto).
    set (X := map flatten (vals vectors)) in *. assert (LX : length X = n) by (unfold X; rewrite map_length; auto).
    assert (Ln : 0 < n) by (destruct l; [congruence|cbn; lia]). assert (LK : 0 < k <= n) by lia.
    assert (CV := kn_all _ _ _ _ _ _ K). assert (NC := kn_nodup _ _ _ _ _ _ K).
    assert (MB : forall i j, must i j -> j < n) by (intros i j H; apply (kn_must_sound _ _ _ _ _ _ K), constrained_at in H; tauto).
    assert (CB : forall i j, cannot i j -> j < n) by (intros i j H; apply (kn_cannot_sound _ _ _ _ _ _ K), constrained_at in H; tauto).
    assert (ARG' := exact_valid o ARG). unfold cluster_with. fold X.
    destruct (initialize_cluster_centers D o first sample X k groups) as [C0|ex] eqn:EC.
    2: { cbn [rbind]. destruct (init_cases o first sample X k n groups CV) as [[C' E']|[Lk E']]; try (rewrite ?LX; lia); auto; [congruence|]. left. split; [congruence|auto]. }
    cbn [rbind]. rewrite MI.
    assert (LC0 : length C0 = k) by (apply (init_length o first sample X k n groups CV C0); auto; lia).
    destruct (iterate_cases o order first sample shuffle ORD SHF ARG' X k (mp_w D p) mg cg n _ _ Gm MB Gc CB ltac:(lia) ltac:(lia) it 0 C0 (repeat (o_of_nat D o 1) (width D X)) None LC0)
      as [(C' & L & E' & LC' & LL & IL)|[E'|[Q E']]]; rewrite E'; cbn [rbind snd]; [|right; left; auto|right; right; auto].
    assert (WX' : forall r0, In r0 X -> length r0 = width D X).
    { intros r0 J. unfold width, row, X in *. apply in_map_iff in J as (v & <- & J). destruct (vals vectors) as [|v0 vs]; [destruct J|]. cbn [map nth]. apply WX; simpl; auto. }
    assert (WC0 : forall r0, In r0 C0 -> length r0 = width D X) by (apply (init_width o first sample X k n groups CV C0); auto; lia).
    assert (RAW : fold_left (fun d e => dset (fst e) (snd e) d) (combine (map np_str (keys vectors)) (map Z.of_nat L)) [] = combine l (map Z.of_nat L)).
    { replace (map np_str (keys vectors)) with l.
      - apply fold_dset_id. cbn [keys map app]. change (map fst (combine l (map Z.of_nat L))) with (keys (combine l (map Z.of_nat L))). rewrite combine_keys; auto. rewrite map_length, LL, LX. auto.
      - rewrite KV. rewrite <- (map_id l) at 1. apply map_ext_in. intros y J. symmetry. apply np_str_plain. auto. }
    rewrite RAW. assert (KR : keys (combine l (map Z.of_nat L)) = l) by (apply combine_keys; rewrite map_length, LL, LX; auto).
    destruct (rename_run (combine l (map Z.of_nat L))) as (d & ER & KD & CAN & SP); [rewrite KR; auto|]. rewrite ER. cbn [rbind].
    assert (KI : forall y, In y (keys d) <-> In y l) by (intro y; rewrite <- (proj1 SP y), KR; tauto).
    assert (FM : fold_left (fun d x => if mem x (keys d) then d else dset x (-1)%Z d) l d = d).
    { assert (S : incl l (keys d)) by (intros y J; apply KI; auto). clear - S. revert S. generalize l as u. induction u as [|y u IH]; intro S; cbn [fold_left]; auto.
      assert (M : mem y (keys d) = true) by (apply mem_In, S; left; auto). rewrite M. apply IH. intros z J. apply S. right. auto. }
    rewrite FM. exists C0, C', (fun i => nth i L 0).
    split. { pose proof (init_spec o first sample X k n groups CV NC C0 SW FST LX LK SMP EC) as H. rewrite LX in H. exact H. }
    split. { pose proof (iterate_spec o order first sample shuffle ORD SHF ARG' X k (mp_w D p) mg cg n _ _ Gm MB Gc CB SW ARG LX ltac:(lia) it 0 C0 _ None C' L LC0 WC0 E') as H. rewrite LX in H. exact H. }
    split; auto. split; [intro y; rewrite KI, managed_ids; tauto|].
    assert (LAB : forall i a, nth_error l i = Some a -> dget a (combine l (map Z.of_nat L)) = Some (Z.of_nat (nth i L 0))).
    { intros i a Ea. assert (Li : i < n) by (apply nth_error_Some; congruence). apply In_dget; [rewrite KR; auto|]. rewrite (combine_nths (str "") 0%Z) by (rewrite map_length, LL, LX; auto).
      apply in_map_iff. exists i. split; [|apply in_seq; lia]. rewrite (nth_error_nth _ _ (str "") Ea). f_equal. change 0%Z with (Z.of_nat 0). apply map_nth. }
    intros i j a b Ea Eb. rewrite <- (proj2 SP a b) by (rewrite KR; eapply nth_error_In; eauto). rewrite (LAB i a Ea), (LAB j b Eb). split; [intro Q; injection Q; lia|intros ->; auto].
  Qed.

  Lemma mpck_right (q : mpck_call vec) lo r hi :
    valid_mpck_call l q -> (forall v v', In v (vals (fst q)) -> In v' (vals (fst q)) -> length (flatten v) = length (flatten v')) -> (forall x, In x l -> ~ ends_with_nul x) ->
    watch here lo (p_mpckmeans vec D o flatten limit order first sample shuffle p (fst q) (Some (snd q))) r hi ->
    let x := fun i => nth i (map flatten (vals (fst q))) [] in let k := Nat.min (Z.to_nat (snd q)) n in
    (r = Raise RecursionError /\ exists c, In c (comps e) /\ limit < length c) \/
    exists must cannot groups, knowledge m0 e l must cannot groups /\
      match r with
      | Ok d => exists C0 C L, first_centers o n (length (x 0)) x k first sample groups C0 /\
          iterates o n (length (x 0)) x k (mp_w D p) must cannot (fun t => shuffle t (seq 0 n)) 0 (S it) C0 (repeat (o_of_nat D o 1) (length (x 0))) C L /\
          canonical d /\ covers_exactly m0 d /\ (forall i j a b, nth_error l i = Some a -> nth_error l j = Some b -> dget a d = dget b d <-> L i = L j)
      | Raise e => (e = IndexError /\ k < length groups) \/ e = AssertionError \/ (e = ValueError /\ k < 10)
      end.
  Proof.
    intros V WX PL W x k. unfold p_mpckmeans in W. apply watch_bind in W as (u & n1 & W1 & W). apply watch_read in W1 as (_ & s & [_ Ks] & ->). rewrite Ks in W.
    destruct (Z.ltb_spec (snd q) 2); [destruct V as (_ & _ & NB); lia|].
    apply watch_bind in W as (u & n2 & W1 & W). apply graphs_right in W1 as [[-> Q]|(mg & cg & gs & must & cannot & -> & Gm & Gc & K)]; [left; destruct W as [-> _]; auto|].
    apply watch_done_inv in W as [-> _]. right. exists must, cannot, gs. split; auto. exact (last_part q mg cg gs must cannot k V WX PL eq_refl Gm Gc K).
  Qed.
End Meanwhile.

(** ** The other threads *)
Lemma silent_index l t : silent (p_index_pairs l t).
Proof. unfold p_index_pairs. apply silent_bind; [|intro; exact I]. apply silent_filter. intro. apply silent_inferred_is. Qed.
Lemma silent_graphs limit order l : silent (p_constraint_graphs limit order l).
Proof. unfold p_constraint_graphs. apply silent_bind; [apply silent_index|]. intro. apply silent_bind; [apply silent_index|]. intro. exact I. Qed.
Lemma silent_mpckmeans {vec D} o flatten limit order first sample shuffle p vectors nb : silent (p_mpckmeans vec D o flatten limit order first sample shuffle p vectors nb).
Proof.
  unfold p_mpckmeans. apply silent_bind; [cbn; auto|]. intro l. destruct nb as [nb|]; [|exact I]. destruct (nb <? 2)%Z; [exact I|]. apply silent_bind; [apply silent_graphs|]. intro. exact I.
Qed.

(** Threads that only read, while one thread adds constraints. *)
Lemma readers_watched {Q T} (f : Q -> prog T) m cs (qs : list Q) m' r rs : reachable m -> Forall only_adds_constraints cs -> (forall q, silent (f q)) ->
  interleaved m (p_left (p_wsession cs) :: map (fun q => p_right (f q)) qs) m' (r :: rs) ->
  (m' = run (map as_wcall cs) m /\ r = Ok (inl (snd (one_by_one (map as_wcall cs) m)))) /\
  Forall2 (fun q x => exists r0 hi, x = rbind r0 (fun d => Ok (inr d)) /\ watch (SampleThreadThms.here m cs) 0 (f q) r0 hi) qs rs.
Proof.
  intros R AC SI J. destruct (session_trail m cs R (adds cs AC) cs 0 eq_refl (Nat.le_0_l _)) as [e T1].
  assert (T2 : trail (SampleThreadThms.here m cs) 0 (p_wsession cs) m e).
  { apply trail_and; [exact T1|]. destruct (sd_session cs AC m) as [S1 _]. intros x [<-|Ix]; auto. }
  assert (PE : SampleThreadThms.here m cs e (fst (alone (p_wsession cs) m))) by (eapply trail_end; eauto).
  destruct (silent_watch (SampleThreadThms.here m cs) m (p_left (p_wsession cs)) _ m' r rs 0 e J) as [E W].
  { apply Forall_forall. intros p Ip. apply in_map_iff in Ip as (q & <- & _). apply silent_bind; [apply SI|intro; exact I]. }
  { unfold p_left. eapply trail_bind; [exact T2|]. rewrite alone_wsession in *. cbn. auto. }
  unfold p_left in E. rewrite alone_bind, alone_wsession in E. cbn [alone] in E. injection E as <- <-. split; auto.
  clear J T1 T2 PE. revert rs W. induction qs as [|q qs IH]; intros rs W; inversion W as [|? ? ? ? [hi Hw] W']; subst; constructor; auto.
  unfold p_right in Hw. apply watch_bind in Hw as (x & n1 & H1 & H2). exists x, n1. split; auto. destruct x; [apply watch_done_inv in H2 as [-> _]|destruct H2 as [-> _]]; reflexivity.
Qed.

Lemma alone_index m t : Inv m -> alone (p_index_pairs (ids m) t) m = (m, index_pairs m (ids m) t).
Proof.
  intro I. unfold p_index_pairs, index_pairs. rewrite alone_bind. rewrite (alone_filter _ (fun e => inferred_is m (snd (snd e)) (snd (fst e)) t)); [|intros; apply alone_inferred_is; auto].
  destruct (rfilter _ _); reflexivity.
Qed.
Lemma alone_graphs limit order m : Inv m -> alone (p_constraint_graphs limit order (ids m)) m = (m, constraint_graphs limit order m (ids m)).
Proof.
  intro I. unfold p_constraint_graphs, constraint_graphs. rewrite alone_bind, alone_index by auto. destruct (index_pairs m (ids m) MUST_LINK); [|reflexivity]. rewrite alone_bind, alone_index by auto.
  destruct (index_pairs m (ids m) CANNOT_LINK); reflexivity.
Qed.

(*PROP C159: the clustering alone, action by action, leaves the manager as it is and ends with the result of the method. *)
Lemma C159_alone_proof : forall vec D o flatten limit order first sample shuffle p vectors nb s m, reachable m ->
  alone (p_mpckmeans vec D o flatten limit order first sample shuffle p vectors nb) m = (m, result (Mpckmeans.cluster vec D o flatten limit order first sample shuffle p m vectors nb) s).
Proof.
  intros vec D o flatten limit order first sample shuffle p vectors nb s m R. assert (I := reachable_inv _ R).
  unfold p_mpckmeans, result, Mpckmeans.cluster. rewrite alone_bind. cbn [p_ids pread alone]. unfold bind at 1, lift at 1. rewrite ask_managed.
  destruct nb as [nb|]; [|reflexivity]. destruct (nb <? 2)%Z; [reflexivity|]. rewrite alone_bind, alone_graphs by auto. cbv zeta. unfold bind at 1, lift at 1.
  destruct (constraint_graphs limit order m (ids m)) as [[[mg cg] gs]|]; [|reflexivity]. cbn [alone]. unfold cluster_with. unfold bind at 1, lift at 1.
  destruct (initialize_cluster_centers _ _ _ _ _ _ _) as [C0|]; [|reflexivity]. cbn [rbind]. unfold bind at 1, lift at 1.
  destruct (iterate _ _ _ _ _ _ _ _ _ _ _ _ _ _) as [[C1 [L|]]|]; [|reflexivity|reflexivity]. cbn [rbind snd]. unfold bind at 1, modify at 1. unfold bind at 1, lift at 1.
  destruct (rename_clusters_by_order _); reflexivity.
Qed.
(*EX
Definition ex : mgr := run [CallAddConstraint A C CANNOT_LINK 1%Q] (init [A; B; C; E]).
Lemma ex_reachable : reachable ex. Proof. apply run_reachable. Qed.
Definition vecs : dict pystr Z := [(A, 0); (B, 9); (C, 10); (E, 1)]%Z.
(** Rational numbers and points on a line, sets in the order of insertion, no shuffling, and the first indices drawn. *)
Definition on_a_line : prog (dict pystr Z) :=
  p_mpckmeans Z Q Qops (fun x => [inject_Z x]) 100 (fun l => l) (fun _ _ => 0) (fun _ k => seq 0 k) (fun _ l => l) (mkMPParams Q 10 (1#1)%Q) vecs (Some 2%Z).
Example C159_alone_ex : alone on_a_line ex = (ex, Ok [(A, 0); (B, 1); (C, 1); (E, 0)]%Z).
Proof. vm_compute. reflexivity. Qed.
EX*)

(*PROP C159: one thread adds constraints, any number of calls, and any number of other threads read the constraints for MPCKMeans and preprocess them. However their reads and writes are interleaved, the
    additions end as when they are made alone, and each preprocessing ends with graphs that make sense: they contain what was inferred when the threads started, only contain what is inferred at the
    end, the must-links are those within the neighborhoods, and what cannot be linked cannot be linked for the whole neighborhoods. "Inconsistent constraints" is never raised; only a component beyond
    the recursion limit, at the end, can make it fail. *)
Lemma C159_constraints_proof : forall limit order m cs count m' r rs l comps,
    valid_order order -> reachable m -> ask get_list_of_managed_data_IDs m = Ok l -> Forall only_adds_constraints cs -> ask get_connected_components m' = Ok comps ->
    interleaved m (p_left (p_wsession cs) :: repeat (p_right (p_constraint_graphs limit order l)) count) m' (r :: rs) ->
    m' = run (map as_wcall cs) m /\ r = Ok (inl (snd (one_by_one (map as_wcall cs) m))) /\
    Forall (fun x => (x = Raise RecursionError /\ exists c, In c comps /\ limit < length c) \/
                     exists mg cg groups must cannot, x = Ok (inr (mg, cg, groups)) /\ graph_has (length l) must mg /\ graph_has (length l) cannot cg /\ knowledge m m' l must cannot groups) rs.
Proof.
  intros limit order m cs count m' r rs l comps' ORD R El AC Ec J. rewrite ask_managed in El. injection El as <-.
  assert (RE : repeat (p_right (p_constraint_graphs limit order (ids m))) count = map (fun _ : unit => p_right (A := list (res Manager.value)) (p_constraint_graphs limit order (ids m))) (repeat tt count)) by (clear; induction count as [|? IH]; cbn [repeat map]; [reflexivity|rewrite IH; reflexivity]).
  rewrite RE in J. destruct (readers_watched (fun _ => p_constraint_graphs limit order (ids m)) m cs (repeat tt count) m' r rs R AC (fun _ => silent_graphs _ _ _) J) as ((E1 & E2) & W). split; auto. split; auto.
  assert (EN : m' = ReadersThms.N m cs (length cs)) by (rewrite E1; apply (N_all m cs)). rewrite EN in Ec |- *. rewrite ask_components in Ec by (apply N_inv; auto). injection Ec as <-. clear - W R AC ORD.
  induction W as [|q x qs rs (r0 & hi & -> & H1) W IH]; constructor; auto. apply (graphs_right m cs R AC limit order ORD) in H1 as [[-> Q]|(mg & cg & gs & must & cannot & -> & Gm & Gc & K)]; [left; auto|].
  right. exists mg, cg, gs, must, cannot. auto.
Qed.
(*EX
Definition news : list wcall := [WAdd A B MUST_LINK 1%Q; WAdd C E MUST_LINK 1%Q].
Definition all_of_them : nat := length (states (p_wsession news) ex).
(** The constraints are added while the must-links are read: the second is seen, not the first, and all the cannot-links that both imply are. The manager never was in such a state, but it makes sense. *)
Example C159_constraints_ex : Forall only_adds_constraints news /\
  exists m', interleaved ex (p_left (p_wsession news) :: repeat (p_right (p_constraint_graphs 100 (fun l => l) [A; B; C; E])) 1) m'
    [Ok (inl [Ok (VBool true); Ok (VBool true)]);
     Ok (inr ([(0, [0]); (1, [1]); (2, [2; 3]); (3, [2; 3])], [(0, [2; 3]); (1, [2; 3]); (2, [0; 1]); (3, [0; 1])], [[0]; [1]; [3; 2]]))].
Proof. split; [repeat constructor|]. eexists. apply (play_interleaved (repeat 1 30 ++ repeat 0 all_of_them ++ repeat 1 84)). vm_compute. reflexivity. Qed.
EX*)

(*PROP C159: one thread adds constraints and any number of other threads cluster the data with MPCKMeans, with vectors in the order of the manager. However their reads and writes are interleaved, each
    clustering that returns is a run of the algorithm for constraints that make sense, that contain what was inferred when the threads started and only contain what is inferred at the end: a canonical
    clustering of all the data, by the labels of the last iteration. It fails for the reasons of the method alone: a component beyond the recursion limit, a first centre that cannot be chosen, vectors
    that cannot be told apart, or an empty cluster when there are fewer than ten. *)
Lemma C159_clustering_proof : forall vec D o flatten limit order first sample shuffle model it w p m cs (qs : list (mpck_call vec)) m' r rs l comps,
    valid_order order -> valid_shuffle shuffle -> valid_first first -> valid_sample sample -> exact_argmin o -> strict_weak_order (o_ltb D o) -> make_mpckmeans D o model it w = Ok p ->
    reachable m -> ask get_list_of_managed_data_IDs m = Ok l -> (forall x, In x l -> ~ ends_with_nul x) -> Forall only_adds_constraints cs ->
    Forall (valid_mpck_call l) qs -> Forall (fun q => forall v v', In v (vals (fst q)) -> In v' (vals (fst q)) -> length (flatten v) = length (flatten v')) qs ->
    ask get_connected_components m' = Ok comps ->
    interleaved m (p_left (p_wsession cs) :: map (fun q => p_right (p_mpckmeans vec D o flatten limit order first sample shuffle p (fst q) (Some (snd q)))) qs) m' (r :: rs) ->
    m' = run (map as_wcall cs) m /\ r = Ok (inl (snd (one_by_one (map as_wcall cs) m))) /\
    Forall2 (fun q res =>
      let x := fun i => nth i (map flatten (vals (fst q))) [] in let n := length l in let k := Nat.min (Z.to_nat (snd q)) n in
      (res = Raise RecursionError /\ exists c, In c comps /\ limit < length c) \/
      exists must cannot groups, knowledge m m' l must cannot groups /\
        match res with
        | Ok (inl _) => False
        | Ok (inr d) => exists C0 C L, first_centers o n (length (x 0)) x k first sample groups C0 /\
            iterates o n (length (x 0)) x k w must cannot (fun t => shuffle t (seq 0 n)) 0 (Z.to_nat it) C0 (repeat (o_of_nat D o 1) (length (x 0))) C L /\
            canonical d /\ covers_exactly m d /\ (forall i j a b, nth_error l i = Some a -> nth_error l j = Some b -> dget a d = dget b d <-> L i = L j)
        | Raise e => (e = IndexError /\ k < length groups) \/ e = AssertionError \/ (e = ValueError /\ k < 10)
        end) qs rs.
Proof.
  intros vec D o flatten limit order first sample shuffle model it w p m cs qs m' r rs l comps' ORD SHF FST SMP ARG SW MK R El PL AC VQ WQ Ec J. rewrite ask_managed in El. injection El as <-.
  apply make_ok in MK as (it' & MI & <- & ET). rewrite ET.
  destruct (readers_watched (fun q => p_mpckmeans vec D o flatten limit order first sample shuffle p (fst q) (Some (snd q))) m cs qs m' r rs R AC (fun _ => silent_mpckmeans _ _ _ _ _ _ _ _ _ _) J) as ((E1 & E2) & W).
  split; auto. split; auto. assert (EN : m' = ReadersThms.N m cs (length cs)) by (rewrite E1; apply (N_all m cs)). rewrite EN in Ec |- *. rewrite ask_components in Ec by (apply N_inv; auto). injection Ec as <-.
  clear E1 E2 J EN. revert VQ WQ. induction W as [|q x qs rs (r0 & hi & -> & H1) W IH]; intros VQ WQ; constructor; inversion VQ as [|? ? Q VQ']; inversion WQ as [|? ? Q' WQ']; subst; auto.
  apply (mpck_right m cs R AC limit order ORD o flatten first sample shuffle SHF FST SMP ARG SW p it' MI) in H1 as [[-> H]|(must & cannot & gs & K & H)]; auto. right. exists must, cannot, gs. split; auto.
  destruct r0 as [d|e']; cbn [rbind]; exact H.
Qed.
(*EX
Lemma ex_valid : valid_mpck_call [A; B; C; E] (vecs, 2%Z).
Proof. split; [reflexivity|]. split; [discriminate|]. cbn. lia. Qed.
Lemma ex_plain : forall x, In x [A; B; C; E] -> ~ ends_with_nul x.
Proof. intros x J [y Y]. cbn [In] in J. destruct J as [<-|[<-|[<-|[<-|[]]]]]; destruct y as [|c [|c' y]]; discriminate. Qed.
(** At the same time, a clustering: neither what it returns without the new constraints, in [C159_alone_ex], nor what it returns with them. *)
Definition after : mgr := run (map as_wcall news) ex.
Example C159_clustering_ex : snd (alone on_a_line after) = Ok [(A, 0); (B, 0); (C, 1); (E, 1)]%Z /\
  interleaved ex [p_left (p_wsession news); p_right on_a_line] after [Ok (inl [Ok (VBool true); Ok (VBool true)]); Ok (inr [(A, 0); (B, 1); (C, 0); (E, 0)]%Z)].
Proof. split; [vm_compute; reflexivity|]. apply (play_interleaved (repeat 1 30 ++ repeat 0 all_of_them ++ repeat 1 85)). vm_compute. reflexivity. Qed.
(** It is a run of the algorithm. *)
Example C159_clustering_ex_run : exists must cannot groups C0 Ck L, knowledge ex after [A; B; C; E] must cannot groups /\
  iterates Qops 4 1 (fun i => nth i [[inject_Z 0]; [inject_Z 9]; [inject_Z 10]; [inject_Z 1]] []) 2 (1#1)%Q must cannot (fun _ => seq 0 4) 0 10 C0 [1%Q] Ck L /\ L 0 = L 2 /\ L 0 <> L 1.
Proof.
  destruct C159_clustering_ex as (_ & J). destruct C159_constraints_ex as (AC & _).
  destruct (C159_clustering Z Q Qops (fun x => [inject_Z x]) 100 (fun l => l) (fun _ _ => 0) (fun _ k => seq 0 k) (fun _ l => l) (str "MPC") 10%Z (1#1)%Q (mkMPParams Q 10 (1#1)%Q) ex news [(vecs, 2%Z)]
    after (Ok (inl [Ok (VBool true); Ok (VBool true)])) [Ok (inr [(A, 0); (B, 1); (C, 0); (E, 0)]%Z)] [A; B; C; E] [[A; B]; [C; E]]) as (_ & _ & F); auto.
  - intro. apply Permutation_refl.
  - intros t u. apply Permutation_refl.
  - intros n w L. exact L.
  - intros n k L. split; [apply seq_length|]. split; [apply seq_NoDup|]. intros i I. apply in_seq in I. lia.
  - exact Qargmin_exact.
  - exact Qlt_swo.
  - apply ex_reachable.
  - apply ex_plain.
  - constructor; [apply ex_valid|constructor].
  - inversion F as [|? ? ? ? H _]; subst. cbv zeta in H. destruct H as [[H _]|(must & cannot & groups & K & C0 & Ck & L & _ & IT & _ & _ & SAME)]; [discriminate|].
    exists must, cannot, groups, C0, Ck, L. split; auto. split; [exact IT|]. split; [apply (SAME 0 2 A C eq_refl eq_refl); reflexivity|]. rewrite <- (SAME 0 1 A B eq_refl eq_refl). discriminate.
Qed.
EX*)
