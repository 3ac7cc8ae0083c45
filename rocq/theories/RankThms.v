(** * One ranking of the pairs decides all the samples (C126). *)

From Coq Require Import String List Bool Arith ZArith QArith Permutation Sorted Lia.
(*HEADER
From Coq Require Import String List Bool Arith ZArith QArith.
From Verif Require Import Base Manager Spec ManagerInv ManagerQueries ManagerSem ManagerThms Sampling SamplingSpec RankSpec RankThms.
Import ListNotations.
Open Scope nat_scope.

(** Four data on a line; the distances are 4 for a-b, 9 for a-c, 10 for a-d, 5 for b-c, 6 for b-d, 1 for c-d. *)
Definition four : list pystr := [str "a"; str "b"; str "c"; str "d"].
Definition on_line : dict pystr Z := [(str "a", 0); (str "b", 4); (str "c", 9); (str "d", 10)]%Z.
Definition line_pw (X : list Z) (i j : nat) : Z := Z.abs (nth i X 0 - nth j X 0)%Z.
Definition nearest : options := mkOptions None (Some CLOSEST) true true.
Definition ask_for (o : options) (nb : Z) (m : mgr) :=
  result (sample Z Z line_pw Z.ltb (fun l k => firstn k l) o nb None (Some on_line)) (fresh_sampler Z Z, m).
(** a-b and b-c are known, and so is a-c. *)
Definition known : mgr := run [CallAddConstraint (str "a") (str "b") MUST_LINK 1%Q; CallAddConstraint (str "b") (str "c") CANNOT_LINK 1%Q] (init four).
HEADER*)
From Verif Require Import Base Manager Spec Closure ManagerProofs ManagerInv ManagerQueries ManagerSem ManagerThms
  Sampling SamplingSpec SamplingProofs SamplingThms RankSpec.
Import ListNotations.
Open Scope nat_scope.
Open Scope py_scope.

(** ** Sorting and selecting commute. *)
Section Sort.
  Variable A : Type.
  Variable lt : A -> A -> bool.
  Variable W : forall x y z, lt x z = true -> lt x y = true \/ lt y z = true.
  Variable Asym : forall x y, lt x y = true -> lt y x = false.
  Let desc (a b : A) : Prop := lt b a = false.

  Lemma ins_In x y s : In y (insert_before lt x s) <-> y = x \/ In y s.
  Proof. clear. induction s as [|z s IH]; simpl; [intuition|]. destruct (lt z x); simpl; [rewrite IH|]; intuition. Qed.

  Lemma ins_sorted x s : StronglySorted desc s -> StronglySorted desc (insert_before lt x s).
  Proof.
    induction 1 as [|y s S IH F]; simpl; [constructor; constructor|]. destruct (lt y x) eqn:L.
    - constructor; auto. rewrite Forall_forall in *. intros z Z. apply ins_In in Z as [->|Z]; [apply Asym; auto|auto].
    - constructor; [constructor; auto|]. rewrite Forall_forall in *. intros z [<-|Z]; auto.
      unfold desc. destruct (lt z x) eqn:E; auto. destruct (W z y x E) as [E'|E']; [|congruence]. rewrite (F z Z) in E'. auto.
  Qed.

  Lemma sort_sorted l : StronglySorted desc (sorted_by lt l).
  Proof. induction l; simpl; [constructor|apply ins_sorted; auto]. Qed.

  Lemma ins_first x s : (forall y, In y s -> lt y x = false) -> insert_before lt x s = x :: s.
  Proof. clear. intro H. destruct s as [|y s]; auto. simpl. rewrite (H y); simpl; auto. Qed.

  Lemma sort_filter p l : filter p (sorted_by lt l) = sorted_by lt (filter p l).
  Proof.
    assert (FI : forall x s, StronglySorted desc s -> filter p (insert_before lt x s) = if p x then insert_before lt x (filter p s) else filter p s).
    { intros x s. induction 1 as [|y s S IH F]; simpl; [destruct (p x); auto|]. destruct (lt y x) eqn:L.
      - simpl. rewrite IH. destruct (p y) eqn:Y, (p x) eqn:X; auto. simpl. rewrite L. auto.
      - cbn [filter]. destruct (p x) eqn:X; auto.
        change (if p y then y :: filter p s else filter p s) with (filter p (y :: s)). symmetry. apply ins_first.
        intros z Z. apply filter_In in Z as [Z _]. destruct Z as [<-|Z]; auto. rewrite Forall_forall in F.
        destruct (lt z x) eqn:E; auto. destruct (W z y x E) as [E'|E']; [|congruence]. rewrite (F z Z) in E'. auto. }
    induction l as [|x l IH]; [reflexivity|]. cbn [sorted_by fold_right]. fold (sorted_by lt l). rewrite FI by apply sort_sorted.
    cbn [filter]. rewrite IH. destruct (p x); reflexivity.
  Qed.
End Sort.

(** ** Lists. *)
Lemma those_filter {A} (P : A -> Prop) f l : (forall x, In x l -> (f x = true <-> P x)) -> those P l (filter f l).
Proof.
  induction l as [|x l IH]; intro H; simpl; [constructor|]. assert (Hx := H x (or_introl eq_refl)).
  destruct (f x) eqn:F; constructor; try (apply IH; intros; apply H; right; auto); intuition congruence.
Qed.

Lemma those_fun {A} (P : A -> Prop) l l1 : those P l l1 -> forall l2, those P l l2 -> l1 = l2.
Proof. induction 1; intros l2 T; inversion T; subst; try congruence; [f_equal|]; auto; tauto. Qed.

Lemma those_earlier {A} (P Q : A -> Prop) l lp : those P l lp -> forall lq n x, those Q l lq -> (forall y, Q y -> P y) -> Q x ->
  In x (firstn n lp) -> In x (firstn n lq).
Proof.
  induction 1 as [|y l lp Y T IH|y l lp Y T IH]; intros lq n x TQ S Qx I.
  - destruct n; simpl in I; tauto.
  - destruct n as [|n]; [simpl in I; tauto|]. simpl in I. inversion TQ as [|? ? lq' Qy TQ'|? ? ? Qy TQ']; subst.
    + simpl. destruct I as [->|I]; [left; auto|]. right. eapply IH; eauto.
    + destruct I as [->|I]; [tauto|]. assert (J : In x (firstn n lq)) by (eapply IH; eauto).
      clear - J. revert n J. induction lq as [|z lq IH]; intros [|n] J; simpl in *; try tauto. destruct J as [->|J]; [left; auto|right; auto].
  - inversion TQ as [|? ? lq' Qy TQ'|? ? ? Qy TQ']; subst; [destruct Y; auto|]. eapply IH; eauto.
Qed.

Lemma those_rest {A} (P Q : A -> Prop) l lp : those P l lp -> NoDup l -> forall n, (forall y, In y l -> (Q y <-> P y /\ ~ In y (firstn n lp))) ->
  those Q l (skipn n lp).
Proof.
  induction 1 as [|y l lp Y T IH|y l lp Y T IH]; intros ND n E.
  - rewrite skipn_nil. constructor.
  - inversion ND; subst. assert (Ey := E y (or_introl eq_refl)). destruct n as [|n]; simpl in *.
    + constructor; [tauto|]. apply (IH H2 0). intros z Z. apply E; auto.
    + constructor; [tauto|]. apply IH; auto. intros z Z. rewrite E by auto. split; intros [A1 A2]; split; auto. intros [W|J]; subst; auto.
  - inversion ND; subst. assert (Ey := E y (or_introl eq_refl)). constructor; [tauto|]. apply IH; auto. intros; apply E; right; auto.
Qed.

Lemma rfilter_and {A} (f g : A -> res bool) (k : A -> bool) l : (forall x, In x l -> f x = (b <-- g x ;;; Ok (b && k x))) ->
  rfilter f l = (r <-- rfilter g l ;;; Ok (filter k r)).
Proof.
  induction l as [|x l IH]; intro H; simpl; auto. rewrite (H x) by (left; auto). rewrite IH by (intros; apply H; right; auto).
  destruct (g x) as [b|]; simpl; auto. destruct (rfilter g l) as [r|]; simpl; auto. destruct b; simpl; auto.
Qed.

Section WithOracles.
  Variables vec D : Type.
  Variable pw : list vec -> nat -> nat -> D.
  Variable ltb : D -> D -> bool.
  Variable draw : list (pystr * pystr) -> nat -> list (pystr * pystr).
  Notation psample := (psample vec D pw ltb draw).

  Definition fresh_pair (o : options) (m : mgr) (p : pystr * pystr) : bool :=
    negb ((o_without_added o && is_some (addf m (fst p) (snd p))) || (o_without_inferred o && is_some (infer m (fst p) (snd p)))).

  Lemma keepr_split o m m0 cr p : Inv m -> Inv m0 -> ids m = ids m0 -> In p (list_prod (ids m) (ids m)) ->
    keepr vec D o m cr p = (b <-- keepr vec D (knowing_nothing o) m0 cr p ;;; Ok (b && fresh_pair o m p)).
  Proof.
    destruct p as [x y]. intros I I0 E Ip. assert (Ip0 := Ip). rewrite E in Ip0. apply in_prod_iff in Ip, Ip0. unfold keepr, fresh_pair.
    rewrite !keep_run by tauto. cbn [snd fst]. destruct (str_leb y x); [reflexivity|]. rewrite !skip_clusters_run. cbn [snd s_clustering].
    change (reads_clusters (knowing_nothing o)) with (reads_clusters o).
    destruct (reads_clusters o); [destruct cr as [c|]|]; cbn [rbind]; auto.
    - destruct (dlookup x c) as [z1|]; cbn [rbind]; auto. destruct (dlookup y c) as [z2|]; cbn [rbind]; auto.
      change (clash (knowing_nothing o) z1 z2) with (clash o z1 z2). cbn [knowing_nothing o_without_added o_without_inferred andb orb negb].
      rewrite andb_true_r. auto.
  Qed.

  Lemma keyed_filter (k : pystr * pystr -> bool) t l K : keyed D t l = Ok K -> keyed D t (filter k l) = Ok (filter (fun e => k (snd e)) K).
  Proof.
    clear. unfold keyed. revert K. induction l as [|p l IH]; simpl; intros K E; [injection E as <-; auto|].
    destruct (look D t p) as [d|] eqn:L; [|discriminate]. cbn [rbind] in E. destruct (rmap _ l) as [r|]; [|discriminate]. cbn [rbind] in E. injection E as <-.
    specialize (IH r eq_refl). cbn [filter snd]. destruct (k p); auto. simpl. rewrite L. cbn [rbind]. rewrite IH. auto.
  Qed.

  Lemma keyed_total m rows v l : Inv m -> rmap (fun x => dlookup x v) (ids m) = Ok rows -> (forall p, In p l -> In p (list_prod (ids m) (ids m))) ->
    exists K, keyed D (table vec D pw rows (ids m)) l = Ok K.
  Proof.
    intros I R S. apply rmap_total. intros p P. assert (Q := S p P). destruct p as [x y]. apply in_prod_iff in Q as [X Y].
    destruct (distance_exists pw m v rows (x, y) R X Y I) as (d & _ & L). rewrite L. simpl. eauto.
  Qed.

  Lemma map_filter_snd {B C} (k : C -> bool) (l : list (B * C)) : map snd (filter (fun e => k (snd e)) l) = filter k (map snd l).
  Proof. clear. induction l as [|[u v] l IH]; simpl; auto. destruct (k v); simpl; rewrite IH; auto. Qed.

  Lemma prefers_weak o : strict_weak_order ltb -> let lt := (fun p q : D * (pystr * pystr) => prefers D ltb o (fst p) (fst q)) in
    (forall x y z, lt x z = true -> lt x y = true \/ lt y z = true) /\ (forall x y, lt x y = true -> lt y x = false).
  Proof.
    intros (I & T & Wk) lt. unfold lt, prefers. split; intros [x ?] [y ?]; cbn [fst snd].
    - intros [z ?]. cbn [fst]. destruct (opt_is (o_distance o) CLOSEST); [apply Wk|]. intro E. destruct (Wk _ y _ E); auto.
    - destruct (opt_is (o_distance o) CLOSEST); intro E;
        [destruct (ltb y x) eqn:F; auto; assert (G := T _ _ _ E F)|destruct (ltb x y) eqn:F; auto; assert (G := T _ _ _ E F)]; rewrite I in G; auto.
  Qed.

  (** Distance-based sampling, as one computation. *)
  Definition ranking_of (o : options) (cr : option (dict pystr Z)) (vs : option (dict pystr vec)) (m0 : mgr) : res (list (pystr * pystr)) :=
    match o_clusters o, cr with
    | Some _, None => Raise ValueError
    | _, _ =>
      match vs with
      | None => Raise ValueError
      | Some v =>
        pairs <-- rfilter (keepr vec D o m0 cr) (list_prod (ids m0) (ids m0)) ;;;
        rows <-- rmap (fun x => dlookup x v) (ids m0) ;;;
        match rows with
        | [] => Raise ValueError
        | _ => k <-- keyed D (table vec D pw rows (ids m0)) pairs ;;;
               Ok (map snd (sorted_by (fun p q => prefers D ltb o (fst p) (fst q)) k))
        end
      end
    end.

  Lemma psample_ranking o nb cr vs m : by_distance o -> (0 < nb)%Z ->
    psample o nb cr vs m = (r <-- ranking_of o cr vs m ;;; Ok (firstn (Z.to_nat nb) r)).
  Proof.
    intros B P. unfold SamplingProofs.psample, ranking_of, select, prefers.
    rewrite (proj2 (Z.ltb_ge nb 0)) by lia. rewrite (proj2 (Z.eqb_neq nb 0)) by lia.
    destruct B as [-> | ->]; cbn [opt_is].
    - replace (eqb CLOSEST CLOSEST) with true by reflexivity.
      destruct (o_clusters o), cr, vs; auto; destruct (rfilter _ _); cbn [rbind]; auto; destruct (rmap _ _) as [[|]|]; cbn [rbind]; auto; destruct (keyed _ _ _); auto.
    - replace (eqb FARTHEST CLOSEST) with false by reflexivity. replace (eqb FARTHEST FARTHEST) with true by reflexivity.
      destruct (o_clusters o), cr, vs; auto; destruct (rfilter _ _); cbn [rbind]; auto; destruct (rmap _ _) as [[|]|]; cbn [rbind]; auto; destruct (keyed _ _ _); auto.
  Qed.

  Lemma ranking_split o cr vs m m0 : strict_weak_order ltb -> Inv m -> Inv m0 -> ids m = ids m0 ->
    ranking_of o cr vs m = (r <-- ranking_of (knowing_nothing o) cr vs m0 ;;; Ok (filter (fresh_pair o m) r)).
  Proof.
    intros W I I0 E. unfold ranking_of. cbn [knowing_nothing o_clusters o_distance].
    rewrite (rfilter_and _ (keepr vec D (knowing_nothing o) m0 cr) (fresh_pair o m)) by (intros; apply keepr_split; auto).
    rewrite <- E. fold (knowing_nothing o).
    assert (G : (match vs with
      | None => Raise ValueError
      | Some v =>
        pairs <-- (r <-- rfilter (keepr vec D (knowing_nothing o) m0 cr) (list_prod (ids m) (ids m)) ;;; Ok (filter (fresh_pair o m) r)) ;;;
        rows <-- rmap (fun x => dlookup x v) (ids m) ;;;
        match rows with
        | [] => Raise ValueError
        | _ => k <-- keyed D (table vec D pw rows (ids m)) pairs ;;;
               Ok (map snd (sorted_by (fun p q => prefers D ltb o (fst p) (fst q)) k))
        end
      end) = (r <-- (match vs with
      | None => Raise ValueError
      | Some v =>
        pairs <-- rfilter (keepr vec D (knowing_nothing o) m0 cr) (list_prod (ids m) (ids m)) ;;;
        rows <-- rmap (fun x => dlookup x v) (ids m) ;;;
        match rows with
        | [] => Raise ValueError
        | _ => k <-- keyed D (table vec D pw rows (ids m)) pairs ;;;
               Ok (map snd (sorted_by (fun p q => prefers D ltb (knowing_nothing o) (fst p) (fst q)) k))
        end
      end) ;;; Ok (filter (fresh_pair o m) r))).
    { destruct vs as [v|]; [|reflexivity]. destruct (rfilter _ _) as [pairs|] eqn:Rf; cbn [rbind]; [|reflexivity].
      destruct (rmap _ _) as [[|r0 rows]|] eqn:Rm; cbn [rbind]; try reflexivity.
      destruct (keyed_total m (r0 :: rows) v pairs I Rm) as [K EK].
      { intros p P. apply rfilter_Ok in Rf as [-> _]. apply filter_In in P. tauto. }
      rewrite EK, (keyed_filter (fresh_pair o m) _ _ _ EK). cbn [rbind]. f_equal. destruct (prefers_weak o W) as [W1 W2].
      rewrite <- (sort_filter _ _ W1 W2), map_filter_snd. reflexivity. }
    destruct (o_clusters o), cr; auto.
  Qed.

  Lemma ranking_all o cr vs m r : Inv m -> ranking_of o cr vs m = Ok r ->
    NoDup r /\ (forall p, In p r <-> eligible o m cr p) /\ length r <= length (ids m) * length (ids m).
  Proof.
    intros I E. unfold ranking_of in E.
    assert (G : exists pairs K, eligible_pairs vec D o m cr = Ok pairs /\ map snd K = pairs /\ r = map snd (sorted_by (fun p q => prefers D ltb o (fst p) (fst q)) K)).
    { destruct (o_clusters o), cr, vs as [v|]; try discriminate; unfold eligible_pairs; destruct (rfilter _ _) as [pairs|]; try discriminate; cbn [rbind] in E;
        destruct (rmap _ _) as [[|r0 rows]|]; try discriminate; cbn [rbind] in E; destruct (keyed _ _ _) as [K|] eqn:EK; try discriminate;
        cbn [rbind] in E; injection E as <-; exists pairs, K; repeat split; auto; eapply keyed_snd; eauto. }
    destruct G as (pairs & K & EP & EK & ->). assert (EP' := EP). apply eligible_pairs_spec in EP; auto. destruct EP as (ND & EL & _).
    assert (P : Permutation pairs (map snd (sorted_by (fun p q => prefers D ltb o (fst p) (fst q)) K))) by (rewrite <- EK; apply Permutation_map, sorted_perm).
    split; [eapply Permutation_NoDup; eauto|]. split.
    - intro p. rewrite <- EL. split; apply Permutation_in; auto using Permutation_sym.
    - rewrite <- (Permutation_length P). rewrite <- prod_length. apply rfilter_Ok in EP' as [-> _]. clear.
      induction (list_prod _ _); simpl; auto. destruct (keepr _ _ _ _ _ _) as [[|]|]; simpl; lia.
  Qed.
End WithOracles.

Lemma same_ids_keys m m' : same_ids m m' <-> ids m = ids m'.
Proof. unfold same_ids, ask. rewrite !run_managed. cbn [snd]. split; congruence. Qed.

Lemma fresh_eligible o m m0 cr p : Inv m -> Inv m0 -> ids m = ids m0 -> eligible (knowing_nothing o) m0 cr p ->
  (fresh_pair o m p = true <-> eligible o m cr p).
Proof.
  intros I I0 E L.
  assert (Ip : In p (list_prod (ids m) (ids m))).
  { rewrite E. eapply eligible_managed; eauto. }
  destruct p as [x y]. destruct L as (Mx & My & S & C1 & C2 & _). cbn [knowing_nothing o_clusters] in C1, C2.
  (* read through a clustering-free copy of the options *)
  set (o1 := mkOptions None (o_distance o) (o_without_added o) (o_without_inferred o)).
  assert (R : eligible o1 m cr (x, y) <-> eligible o m cr (x, y)).
  { unfold eligible, o1. cbn [o_clusters o_without_added o_without_inferred]. intuition congruence. }
  rewrite <- R. change (fresh_pair o m (x, y)) with (fresh_pair o1 m (x, y)).
  assert (K : keepr unit unit o1 m cr (x, y) = Ok (fresh_pair o1 m (x, y))).
  { unfold keepr, fresh_pair. apply in_prod_iff in Ip. rewrite keep_run by tauto. rewrite skip_clusters_run. cbn [snd fst].
    replace (str_leb y x) with false. { cbn. rewrite andb_true_l || idtac. reflexivity. }
    symmetry. destruct (str_leb y x) eqn:B; auto. exfalso. apply str_ltb_spec in S as [S N]. apply N, str_leb_antisym; auto. }
  rewrite <- (keepr_spec _ _ o1 m cr (x, y) _ I Ip K). tauto.
Qed.

(*PROP C126: the IDs, their vectors and the clusters give one ranking of the pairs; every sample, whatever is known, is the beginning of what
    is still eligible in that ranking. *)
Lemma C126_one_ranking_proof :
  forall vec D pairwise ltb draw o nb all clustering vectors s s0 m m0,
    strict_weak_order ltb -> by_distance o -> reachable m -> reachable m0 -> same_ids m m0 -> (0 < nb)%Z -> enough m all ->
    match result (sample vec D pairwise ltb draw (knowing_nothing o) all clustering vectors) (s0, m0) with
    | Raise e => result (sample vec D pairwise ltb draw o nb clustering vectors) (s, m) = Raise e
    | Ok ranking => exists l, those (eligible o m clustering) ranking l /\
        result (sample vec D pairwise ltb draw o nb clustering vectors) (s, m) = Ok (firstn (Z.to_nat nb) l)
    end.
Proof.
  intros vec D pw ltb draw o nb all cr vs s s0 m m0 W B R R0 S N [A1 A2]. apply reachable_inv in R, R0. apply same_ids_keys in S.
  rewrite !ask_sample by auto. rewrite (psample_ranking vec D pw ltb draw (knowing_nothing o) all cr vs m0 B A1).
  rewrite (psample_ranking vec D pw ltb draw o nb cr vs m B N).
  rewrite (ranking_split vec D pw ltb o cr vs m m0 W R R0 S).
  destruct (ranking_of vec D pw ltb (knowing_nothing o) cr vs m0) as [r|e] eqn:E; cbn [rbind]; auto.
  apply ranking_all in E; auto. destruct E as (_ & EL & L).
  rewrite firstn_all2.
  2:{ rewrite <- S in L. assert (Q := A2 (ids m)). unfold ask in Q. rewrite run_managed in Q. specialize (Q eq_refl). lia. }
  exists (filter (fresh_pair o m) r). split; auto. apply those_filter. intros p P. apply (fresh_eligible o m m0 cr p); auto. apply EL; auto.
Qed.

(*EX
(** Of the ranking c-d, a-b, b-c, b-d, a-c, a-d, three pairs are still eligible; two are asked for. *)
Example C126_one_ranking_ex :
  reachable known /\ reachable (init four) /\ same_ids known (init four) /\ enough known 16 /\
  ask_for (knowing_nothing nearest) 16 (init four) = Ok [(str "c", str "d"); (str "a", str "b"); (str "b", str "c"); (str "b", str "d"); (str "a", str "c"); (str "a", str "d")] /\
  ask_for nearest 2 known = Ok [(str "c", str "d"); (str "b", str "d")].
Proof.
  repeat split; try apply run_reachable; try apply (run_reachable _ []); try (vm_compute; reflexivity).
  intros l E. vm_compute in E. injection E as <-. vm_compute. discriminate.
Qed.
EX*)

Section Same.
  Variables vec D : Type.
  Variable pw : list vec -> nat -> nat -> D.
  Variable ltb : D -> D -> bool.
  Variable draw : list (pystr * pystr) -> nat -> list (pystr * pystr).
  Variables (o : options) (cr : option (dict pystr Z)) (vs : option (dict pystr vec)).
  Hypothesis W : strict_weak_order ltb.
  Hypothesis B : by_distance o.
  Notation smp nb s m := (result (sample vec D pw ltb draw o nb cr vs) (s, m)).

  (** A sample of [m] that succeeded, and what any manager with the same IDs then gives. *)
  Lemma common nb s m l : Inv m -> (0 < nb)%Z -> smp nb s m = Ok l ->
    exists ranking lm, NoDup ranking /\ those (eligible o m cr) ranking lm /\ l = firstn (Z.to_nat nb) lm /\
      forall m' nb' s', Inv m' -> ids m = ids m' -> (0 < nb')%Z ->
        exists lm', those (eligible o m' cr) ranking lm' /\ smp nb' s' m' = Ok (firstn (Z.to_nat nb') lm').
  Proof.
    intros I N E. rewrite ask_sample in E by auto. rewrite (psample_ranking vec D pw ltb draw o nb cr vs m B N) in E.
    rewrite (ranking_split vec D pw ltb o cr vs m m W I I eq_refl) in E.
    destruct (ranking_of vec D pw ltb (knowing_nothing o) cr vs m) as [r|e] eqn:K; [|discriminate]. cbn [rbind] in E. injection E as <-.
    destruct (ranking_all vec D pw ltb _ _ _ _ _ I K) as (ND & EL & _).
    exists r, (filter (fresh_pair o m) r). split; auto. split; [|split; auto].
    - apply those_filter. intros p P. apply (fresh_eligible o m m cr p); auto. apply EL; auto.
    - intros m' nb' s' I' S' N'. exists (filter (fresh_pair o m') r). split.
      + apply those_filter. intros p P. apply (fresh_eligible o m' m cr p); auto. apply EL; auto.
      + rewrite ask_sample by auto. rewrite (psample_ranking vec D pw ltb draw o nb' cr vs m' B N').
        rewrite (ranking_split vec D pw ltb o cr vs m' m W I' I (eq_sym S')), K. reflexivity.
  Qed.
End Same.

(*PROP C126: a smaller sample is the beginning of a larger one. *)
Lemma C126_smaller_sample_proof :
  forall vec D pairwise ltb draw o nb nb' clustering vectors s s' m l',
    strict_weak_order ltb -> by_distance o -> reachable m -> (0 <= nb <= nb')%Z ->
    result (sample vec D pairwise ltb draw o nb' clustering vectors) (s', m) = Ok l' ->
    result (sample vec D pairwise ltb draw o nb clustering vectors) (s, m) = Ok (firstn (Z.to_nat nb) l').
Proof.
  intros vec D pw ltb draw o nb nb' cr vs s s' m l' W B R N E. apply reachable_inv in R.
  destruct (Z.eq_dec nb 0) as [->|NZ]; [reflexivity|].
  destruct (common vec D pw ltb draw o cr vs W B nb' s' m l' R) as (r & lm & _ & T & -> & G); auto; [lia|].
  destruct (G m nb s R eq_refl) as (lm' & T' & E'); [lia|]. rewrite E', (those_fun _ _ _ T _ T').
  rewrite firstn_firstn, Nat.min_l by lia. auto.
Qed.

(*EX
Example C126_smaller_sample_ex : ask_for nearest 3 known = Ok [(str "c", str "d"); (str "b", str "d"); (str "a", str "d")] /\
  ask_for nearest 1 known = Ok [(str "c", str "d")].
Proof. vm_compute. auto. Qed.
EX*)

(*PROP C126: while more and more is known about the same IDs, a proposed pair is proposed again as long as it is eligible. *)
Lemma C126_proposed_again_proof :
  forall vec D pairwise ltb draw o nb clustering vectors s s' m m' l p,
    strict_weak_order ltb -> by_distance o -> reachable m -> reachable m' -> same_ids m m' ->
    (forall q, eligible o m' clustering q -> eligible o m clustering q) ->
    result (sample vec D pairwise ltb draw o nb clustering vectors) (s, m) = Ok l -> In p l -> eligible o m' clustering p ->
    exists l', result (sample vec D pairwise ltb draw o nb clustering vectors) (s', m') = Ok l' /\ In p l'.
Proof.
  intros vec D pw ltb draw o nb cr vs s s' m m' l p W B R R' S K E P L. apply reachable_inv in R, R'. apply same_ids_keys in S.
  assert (N : (0 < nb)%Z).
  { rewrite ask_sample in E by auto. apply psample_Ok in E as [[_ ->]|[N _]]; auto. destruct P. }
  destruct (common vec D pw ltb draw o cr vs W B nb s m l R N E) as (r & lm & _ & T & -> & G).
  destruct (G m' nb s' R' S N) as (lm' & T' & E'). eexists. split; [exact E'|]. exact (those_earlier _ _ r lm T lm' _ p T' K L P).
Qed.

(*EX
(** b-d is among the four pairs proposed at first, and still when a-b and b-c are known. *)
Example C126_proposed_again_ex : (forall q, eligible nearest known None q -> eligible nearest (init four) None q) /\
  ask_for nearest 4 (init four) = Ok [(str "c", str "d"); (str "a", str "b"); (str "b", str "c"); (str "b", str "d")] /\
  ask_for nearest 4 known = Ok [(str "c", str "d"); (str "b", str "d"); (str "a", str "d")].
Proof.
  split; [|vm_compute; auto]. intros [x y] (X & Y & L & _). cbn [eligible nearest o_clusters o_without_added o_without_inferred].
  assert (In4 : forall x, managed known x <-> In x four) by (intro; rewrite managed_ids; reflexivity).
  assert (In4' : forall x, managed (init four) x <-> In x four) by (intro; rewrite managed_ids; reflexivity).
  apply In4 in X, Y. repeat split; try (apply In4'; assumption); auto; try discriminate.
  - intros _ (t & v & T). revert T. simpl in X, Y. repeat destruct X as [<-|X]; try tauto; repeat destruct Y as [<-|Y]; try tauto; vm_compute; discriminate.
  - intros _. simpl in X, Y. repeat destruct X as [<-|X]; try tauto; repeat destruct Y as [<-|Y]; try tauto; try discriminate L; vm_compute; reflexivity.
Qed.
EX*)

(*PROP C126: sampling in portions proposes the pairs that one larger sample would, when each portion makes its own pairs known and no others. *)
Lemma C126_portions_proof :
  forall vec D pairwise ltb draw o nb nb' clustering vectors s s' m m' l,
    strict_weak_order ltb -> by_distance o -> reachable m -> reachable m' -> same_ids m m' -> (0 < nb)%Z -> (0 <= nb')%Z ->
    result (sample vec D pairwise ltb draw o nb clustering vectors) (s, m) = Ok l ->
    (forall q, eligible o m' clustering q <-> eligible o m clustering q /\ ~ In q l) ->
    exists l', result (sample vec D pairwise ltb draw o nb' clustering vectors) (s', m') = Ok l' /\
               result (sample vec D pairwise ltb draw o (nb + nb') clustering vectors) (s, m) = Ok (l ++ l').
Proof.
  intros vec D pw ltb draw o nb nb' cr vs s s' m m' l W B R R' S N N' E K. apply reachable_inv in R, R'. apply same_ids_keys in S.
  destruct (Z.eq_dec nb' 0) as [->|NZ'].
  { exists []. rewrite app_nil_r, Z.add_0_r. auto. }
  destruct (common vec D pw ltb draw o cr vs W B nb s m l R N E) as (r & lm & ND & T & El & G).
  destruct (G m' nb' s' R' S) as (lm' & T' & E'); [lia|]. exists (firstn (Z.to_nat nb') lm'). split; auto.
  destruct (G m (nb + nb')%Z s R eq_refl) as (lm2 & T2 & Em); [lia|]. rewrite Em, <- (those_fun _ _ _ T _ T2). f_equal.
  rewrite El in K. assert (T3 := those_rest _ (eligible o m' cr) r lm T ND (Z.to_nat nb) (fun y _ => K y)).
  rewrite (those_fun _ _ _ T' _ T3), El. rewrite Z2Nat.inj_add by lia.
  rewrite <- (firstn_skipn (Z.to_nat nb) lm) at 1. rewrite firstn_app. f_equal; [rewrite firstn_all2; auto; rewrite firstn_length; lia|].
  rewrite firstn_length. destruct (le_lt_dec (Z.to_nat nb) (length lm)) as [L|L].
  - rewrite Nat.min_l by auto. f_equal. lia.
  - rewrite skipn_all2 by lia. rewrite !firstn_nil. auto.
Qed.

(*EX
(** Two pairs are proposed and annotated, then two more; pairs that follow from the annotations are still asked. *)
Definition not_added : options := mkOptions None (Some CLOSEST) true false.
Definition annotated : mgr := run [CallAddConstraint (str "c") (str "d") MUST_LINK 1%Q; CallAddConstraint (str "a") (str "b") CANNOT_LINK 1%Q] (init four).
Example C126_portions_ex :
  ask_for not_added 2 (init four) = Ok [(str "c", str "d"); (str "a", str "b")] /\
  (forall q, eligible not_added annotated None q <-> eligible not_added (init four) None q /\ ~ In q [(str "c", str "d"); (str "a", str "b")]) /\
  ask_for not_added 2 annotated = Ok [(str "b", str "c"); (str "b", str "d")] /\
  ask_for not_added 4 (init four) = Ok [(str "c", str "d"); (str "a", str "b"); (str "b", str "c"); (str "b", str "d")].
Proof.
  split; [vm_compute; auto|]. split; [|vm_compute; auto].
  assert (In4 : forall x, managed annotated x <-> In x four) by (intro; rewrite managed_ids; reflexivity).
  assert (In4' : forall x, managed (init four) x <-> In x four) by (intro; rewrite managed_ids; reflexivity).
  assert (AD : forall m x y, (exists t, added m t x y) <-> match ask (get_added_constraint x y) m with Ok (Some _) => True | _ => False end).
  { intros m x y. split.
    - intros (t & v & T). rewrite T. exact I.
    - destruct (ask (get_added_constraint x y) m) as [[[t v]|]|] eqn:E; try tauto. intros _. exists t, v. exact E. }
  intros [x y]. cbn [eligible not_added o_clusters o_without_added o_without_inferred]. rewrite !AD, !In4, !In4'.
  split.
  - intros (X & Y & L & _ & _ & A & _). specialize (A eq_refl). split; [repeat split; auto; try discriminate|];
    simpl in X, Y; repeat destruct X as [<-|X]; try tauto; repeat destruct Y as [<-|Y]; try tauto; try discriminate L;
    vm_compute in A |- *; intuition congruence.
  - intros ((X & Y & L & _ & _ & A & _) & N). repeat split; auto; try discriminate. intros _. clear A.
    simpl in X, Y; repeat destruct X as [<-|X]; try tauto; repeat destruct Y as [<-|Y]; try tauto; try discriminate L;
    try (vm_compute; tauto); exfalso; apply N; simpl; tauto.
Qed.
EX*)
