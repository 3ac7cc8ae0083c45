(** * When exactly a sampling raises, and what it does with stale results. *)

From Coq Require Import String List Bool Arith ZArith Lia Permutation.
(*HEADER
From Coq Require Import String List Bool Arith ZArith Permutation Lia.
From Verif Require Import Base Manager Spec ManagerThms Sampling SamplingSpec StaleSpec StaleThms.
Import ListNotations.
Open Scope nat_scope.
HEADER*)
From Verif Require Import Base Manager Spec Closure ManagerProofs ManagerInv ManagerQueries ManagerThms
  Sampling SamplingSpec SamplingProofs SamplingThms StaleSpec.
Import ListNotations.
Open Scope nat_scope.
Open Scope py_scope.

Section Errors.
  Variables vec D : Type.
  Variable pw : list vec -> nat -> nat -> D.
  Variable ltb : D -> D -> bool.
  Variable draw : list (pystr * pystr) -> nat -> list (pystr * pystr).
  Variable o : options.
  Variable m : mgr.
  Hypothesis I : Inv m.

  Lemma accepted_reads : accepted o -> o_clusters o <> None -> reads_clusters o = true.
  Proof using.
    clear. unfold accepted, make_options, reads_clusters, opt_in, opt_is. destruct (o_clusters o) as [u|]; [|congruence].
    intros A _. simpl in A. destruct (eqb u SAME_CLUSTER) eqn:E1; auto. destruct (eqb u DIFFERENT_CLUSTERS) eqn:E2; auto. discriminate.
  Qed.

  Lemma keepr_pair cr x y : In x (ids m) -> In y (ids m) -> str_leb y x = false -> reads_clusters o = true -> forall c, cr = Some c ->
    keepr vec D o m cr (x, y) = (z1 <-- dlookup x c ;;; z2 <-- dlookup y c ;;;
       Ok (negb (clash o z1 z2) && negb ((o_without_added o && is_some (addf m x y)) || (o_without_inferred o && is_some (infer m x y))))).
  Proof.
    intros X Y L RC c ->. unfold keepr. rewrite keep_run by auto. cbn [snd]. rewrite L, skip_clusters_run. cbn [snd s_clustering]. rewrite RC.
    destruct (dlookup x c); cbn [rbind]; auto. destruct (dlookup y c); auto.
  Qed.

  Lemma rfilter_first_error {A} (f : A -> res bool) : forall l e, rfilter f l = Raise e -> exists x, In x l /\ f x = Raise e.
  Proof using.
    clear. induction l as [|x l IH]; simpl; intros e E; [discriminate|]. destruct (f x) as [b|e'] eqn:Ef; simpl in E.
    - destruct (rfilter f l) eqn:R; [discriminate|]. cbn [rbind] in E. injection E as ->. destruct (IH e eq_refl) as (y & Y & Fy). eauto.
    - injection E as ->. eauto.
  Qed.
  Lemma rmap_first_error {A B} (f : A -> res B) : forall l e, rmap f l = Raise e -> exists x, In x l /\ f x = Raise e.
  Proof using.
    clear. induction l as [|x l IH]; simpl; intros e E; [discriminate|]. destruct (f x) as [b|e'] eqn:Ef; simpl in E.
    - destruct (rmap f l) eqn:R; [discriminate|]. cbn [rbind] in E. injection E as ->. destruct (IH e eq_refl) as (y & Y & Fy). eauto.
    - injection E as ->. eauto.
  Qed.

  Lemma dlookup_error {V} x (d : dict pystr V) e : dlookup x d = Raise e <-> e = KeyError /\ ~ In x (keys d).
  Proof using.
    clear. unfold dlookup. destruct (dget x d) as [v|] eqn:E.
    - split; [discriminate|]. intros [_ N]. exfalso. apply N. apply dget_In in E. apply (in_map fst) in E. exact E.
    - apply dget_None in E. split; [intro X; injection X as <-; auto|intros [-> _]; auto].
  Qed.

  (** The double loop. *)
  Lemma pairs_cases cr : accepted o -> (o_clusters o <> None -> cr <> None) ->
    match rfilter (keepr vec D o m cr) (list_prod (ids m) (ids m)) with
    | Ok _ => ~ cluster_missing o m cr
    | Raise e => e = KeyError /\ cluster_missing o m cr
    end.
  Proof.
    intros A G. destruct (rfilter _ _) as [l|e] eqn:E.
    - intros (NC & c & x & y & -> & X & Y & NE & Miss). apply managed_ids in X. apply managed_ids in Y.
      apply rfilter_Ok in E as [_ T]. assert (RC := accepted_reads A NC).
      assert (Two : exists a b, In a (ids m) /\ In b (ids m) /\ str_leb b a = false /\ (a = x \/ b = x)).
      { destruct (str_leb y x) eqn:L1.
        - exists y, x. split; auto. split; auto. split; auto. destruct (str_leb x y) eqn:L2; auto. destruct (NE (str_leb_antisym _ _ L2 L1)).
        - exists x, y. auto. }
      destruct Two as (a & b & Ia & Ib & L & Hx). destruct (T (a, b)) as [r Er]; [apply in_prod; auto|].
      rewrite (keepr_pair (Some c) a b Ia Ib L RC c eq_refl) in Er.
      destruct Hx as [->| ->].
      + rewrite (proj2 (dlookup_error x c KeyError)) in Er by auto. discriminate.
      + rewrite (proj2 (dlookup_error x c KeyError)) in Er by auto. destruct (dlookup a c); discriminate.
    - apply rfilter_first_error in E as ([x y] & Ip & K). apply in_prod_iff in Ip as [X Y].
      assert (K0 := K). unfold keepr in K0. rewrite keep_run in K0 by auto. cbn [snd] in K0.
      destruct (str_leb y x) eqn:L; [discriminate|]. rewrite skip_clusters_run in K0. cbn [snd s_clustering] in K0.
      destruct (reads_clusters o) eqn:RC; [|discriminate]. clear K0.
      assert (NC : o_clusters o <> None) by (intro X0; unfold reads_clusters in RC; rewrite X0 in RC; discriminate).
      destruct cr as [c|]; [|exfalso; apply (G NC); auto].
      rewrite (keepr_pair (Some c) x y X Y L RC c eq_refl) in K.
      assert (NE : x <> y) by (intros ->; rewrite str_leb_refl in L; discriminate).
      destruct (dlookup x c) as [z|e1] eqn:E1; cbn [rbind] in K.
      + destruct (dlookup y c) as [z2|e2] eqn:E2; cbn [rbind] in K; [discriminate|]. injection K as ->. apply dlookup_error in E2 as [-> Miss].
        split; auto. split; auto. exists c, y, x. rewrite !managed_ids. auto.
      + injection K as ->. apply dlookup_error in E1 as [-> Miss]. split; auto. split; auto. exists c, x, y. rewrite !managed_ids. auto.
  Qed.

  Lemma rows_cases (v : dict pystr vec) : o_distance o <> None ->
    match rmap (fun x => dlookup x v) (ids m) with
    | Ok _ => ~ vector_missing o m (Some v)
    | Raise e => e = KeyError /\ vector_missing o m (Some v)
    end.
  Proof using.
    clear. intro ND. destruct (rmap _ _) as [rows|e] eqn:E.
    - intros (_ & v' & x & Ev & X & Miss). injection Ev as <-. apply managed_ids in X. apply rmap_Ok in E.
      assert (In (dlookup x v) (map Ok rows)) as J by (rewrite <- E; apply (in_map (fun x => dlookup x v)); auto).
      apply in_map_iff in J as (r & Er & _). rewrite (proj2 (dlookup_error x v KeyError)) in Er by auto. discriminate.
    - apply rmap_first_error in E as (x & X & Ex). apply dlookup_error in Ex as [-> Miss]. split; auto. split; auto.
      exists v, x. rewrite managed_ids. auto.
  Qed.

  (** Everything that can happen. *)
  Lemma psample_cases nb cr vs : accepted o ->
    match psample vec D pw ltb draw o nb cr vs m with
    | Ok _ => nb = 0%Z \/ ((0 < nb)%Z /\ given o cr vs /\ ~ cluster_missing o m cr /\ ~ vector_missing o m vs /\ (o_distance o <> None -> has_ids m))
    | Raise e =>
        (e = ValueError /\ ((nb < 0)%Z \/ ((0 < nb)%Z /\ ~ given o cr vs) \/
                            ((0 < nb)%Z /\ given o cr vs /\ o_distance o <> None /\ ~ has_ids m))) \/
        (e = KeyError /\ (0 < nb)%Z /\ given o cr vs /\ (cluster_missing o m cr \/ vector_missing o m vs))
    end.
  Proof.
    intro A. unfold psample. destruct (Z.ltb_spec nb 0) as [L|L]; [left; auto|]. destruct (Z.eqb_spec nb 0) as [->|N0]; [left; auto|].
    assert (P : (0 < nb)%Z) by lia.
    assert (Main : given o cr vs ->
      match (pairs <-- rfilter (keepr vec D o m cr) (list_prod (ids m) (ids m)) ;;;
             match o_distance o, vs with
             | Some _, Some v => rows <-- rmap (fun x => dlookup x v) (ids m) ;;; select vec D pw ltb draw o nb (Some rows) (ids m) pairs
             | _, _ => select vec D pw ltb draw o nb None (ids m) pairs
             end) with
      | Ok _ => nb = 0%Z \/ ((0 < nb)%Z /\ given o cr vs /\ ~ cluster_missing o m cr /\ ~ vector_missing o m vs /\ (o_distance o <> None -> has_ids m))
      | Raise e =>
        (e = ValueError /\ ((nb < 0)%Z \/ ((0 < nb)%Z /\ ~ given o cr vs) \/
                            ((0 < nb)%Z /\ given o cr vs /\ o_distance o <> None /\ ~ has_ids m))) \/
        (e = KeyError /\ (0 < nb)%Z /\ given o cr vs /\ (cluster_missing o m cr \/ vector_missing o m vs))
      end).
    { intro G. assert (PC := pairs_cases cr A (proj1 G)). destruct (rfilter _ _) as [pairs|e] eqn:F; cbn [rbind].
      2:{ right. tauto. }
      destruct (o_distance o) as [u|] eqn:U.
      - destruct vs as [v|]; [|exfalso; apply (proj2 G); congruence].
        assert (NDi : o_distance o <> None) by congruence. assert (RCs := rows_cases v NDi).
        destruct (rmap _ (ids m)) as [rows|e] eqn:Er; cbn [rbind].
        2:{ right. tauto. }
        destruct rows as [|r0 rows].
        + cbn [select]. left. split; auto. right. right. split; auto. split; auto. split; [congruence|].
          intros (x & X). apply managed_ids in X. apply rmap_length in Er. destruct (ids m); [destruct X|discriminate].
        + assert (Hi : has_ids m).
          { apply rmap_length in Er. destruct (ids m) as [|x l] eqn:Ei; [discriminate|]. exists x. apply managed_ids. rewrite Ei. left; auto. }
          assert (Ek : exists k, keyed D (table vec D pw (r0 :: rows) (ids m)) pairs = Ok k).
          { unfold keyed. apply rmap_total. intros [x y] Ip. apply (eligible_pairs_spec vec D o m cr pairs I) in F. destruct F as (_ & EL & _).
            apply EL in Ip. destruct Ip as (Mx & My & _). apply managed_ids in Mx. apply managed_ids in My.
            destruct (distance_exists pw m v (r0 :: rows) (x, y) Er Mx My I) as (d & _ & ->). cbn [rbind]. eauto. }
          destruct Ek as [k Ek].
          assert (S : exists l, select vec D pw ltb draw o nb (Some (r0 :: rows)) (ids m) pairs = Ok l).
          { unfold select. rewrite Ek. cbn [rbind]. destruct (opt_is (o_distance o) CLOSEST); eauto. destruct (opt_is (o_distance o) FARTHEST); eauto. }
          destruct S as [l ->]. right. tauto.
      - unfold select. assert (NV : ~ vector_missing o m vs) by (intros [X _]; congruence). right. split; auto. split; auto. split; auto. split; auto. congruence. }
    destruct (o_clusters o) as [u|] eqn:U, cr as [c|].
    all: try (destruct (o_distance o) as [w|] eqn:W, vs as [v|]; [apply Main| |apply Main|apply Main]).
    all: try (split; intros; congruence).
    all: left; split; auto; right; left; split; auto; intros [G1 G2]; try (apply G1; congruence); apply G2; congruence.
  Qed.
End Errors.

(*PROP C119: when a sampling raises.  KeyError: exactly when the clustering is needed and lacks a managed ID that has another one to be paired with, or the vectors are needed and lack a managed ID.  ValueError: exactly when the number is negative, a needed dictionary is not given, or distances are needed and nothing is managed.  No other exception. *)
Lemma C119_sampling_raises_proof :
  forall vec D pairwise ltb draw o nb clustering vectors s m, reachable m -> accepted o ->
    let r := result (sample vec D pairwise ltb draw o nb clustering vectors) (s, m) in
    (r = Raise KeyError <-> (0 < nb)%Z /\ given o clustering vectors /\ (cluster_missing o m clustering \/ vector_missing o m vectors)) /\
    (r = Raise ValueError <-> (nb < 0)%Z \/ ((0 < nb)%Z /\ (~ given o clustering vectors \/ (o_distance o <> None /\ ~ has_ids m)))) /\
    (forall e, r = Raise e -> e = KeyError \/ e = ValueError).
Proof.
  intros vec D pw ltb draw o nb cr vs s m R A r. subst r. apply reachable_inv in R. rewrite ask_sample by auto.
  assert (C := psample_cases vec D pw ltb draw o m R nb cr vs A).
  assert (NoM : ~ has_ids m -> ~ cluster_missing o m cr /\ ~ vector_missing o m vs).
  { intro N. split; intros (_ & H); apply N.
    - destruct H as (c & x & _ & _ & X & _). exists x; auto.
    - destruct H as (v & x & _ & X & _). exists x; auto. }
  assert (GD : given o cr vs \/ ~ given o cr vs).
  { unfold given. destruct (o_clusters o), cr, (o_distance o), vs;
      try (left; split; intros; congruence); right; intros [G1 G2]; try (apply G1; congruence); apply G2; congruence. }
  assert (HD : has_ids m \/ ~ has_ids m).
  { destruct (ids m) as [|x l] eqn:Ei; [right; intros (x & X); apply managed_ids in X; rewrite Ei in X; destruct X|].
    left. exists x. apply managed_ids. rewrite Ei. left; auto. }
  destruct (psample vec D pw ltb draw o nb cr vs m) as [l|e].
  - split; [|split].
    + split; [discriminate|]. intros (P & G & Miss). destruct C as [->|C]; [lia|tauto].
    + split; [discriminate|]. intros [L|(P & Miss)]; destruct C as [->|C]; try lia; tauto.
    + discriminate.
  - split; [|split].
    + split.
      * intro X. injection X as ->. destruct C as [[C _]|C]; [discriminate|tauto].
      * intros (P & G & Miss). destruct C as [[_ C]|[-> _]]; auto. exfalso. destruct C as [C|[C|C]]; [lia|tauto|tauto].
    + split.
      * intro X. injection X as ->. destruct C as [[_ C]|[C _]]; [tauto|discriminate].
      * intros H. destruct C as [[-> _]|(_ & P & G & C)]; auto. exfalso. destruct H as [H|(_ & H)]; [lia|tauto].
    + intros e' X. injection X as ->. tauto.
Qed.

Lemma rfilter_ext {A} (f g : A -> res bool) : forall l, (forall x, In x l -> f x = g x) -> rfilter f l = rfilter g l.
Proof. induction l as [|x l IH]; intro E; simpl; auto. rewrite (E x) by (left; auto). rewrite IH; auto. intros; apply E; right; auto. Qed.
Lemma rmap_ext {A B} (f g : A -> res B) : forall l, (forall x, In x l -> f x = g x) -> rmap f l = rmap g l.
Proof. induction l as [|x l IH]; intro E; simpl; auto. rewrite (E x) by (left; auto). rewrite IH; auto. intros; apply E; right; auto. Qed.

(*PROP C119: what the dictionaries say about data that are not managed (deleted since, or never added) is ignored, and so is a dictionary that no restriction needs. *)
Lemma C119_stale_ignored_proof :
  forall vec D pairwise ltb draw o nb clustering clustering' vectors vectors' s s' m, reachable m ->
    (o_clusters o <> None -> agree m clustering clustering') -> (o_distance o <> None -> agree m vectors vectors') ->
    result (sample vec D pairwise ltb draw o nb clustering vectors) (s, m) =
    result (sample vec D pairwise ltb draw o nb clustering' vectors') (s', m).
Proof.
  intros vec D pw ltb draw o nb cr cr' vs vs' s s' m R AC AV. apply reachable_inv in R. rewrite !ask_sample by auto.
  unfold SamplingProofs.psample. destruct (nb <? 0)%Z; auto. destruct (nb =? 0)%Z; auto.
  assert (K : rfilter (keepr vec D o m cr) (list_prod (ids m) (ids m)) = rfilter (keepr vec D o m cr') (list_prod (ids m) (ids m))).
  { apply rfilter_ext. intros [x y] Ip. apply in_prod_iff in Ip as [X Y]. unfold keepr. rewrite !keep_run by auto. cbn [snd].
    destruct (str_leb y x); auto. rewrite !skip_clusters_run. cbn [snd s_clustering]. destruct (reads_clusters o) eqn:RC; auto.
    assert (NC : o_clusters o <> None) by (intro X0; unfold reads_clusters in RC; rewrite X0 in RC; discriminate).
    specialize (AC NC). destruct cr as [c|], cr' as [c'|]; try destruct AC; auto. unfold dlookup.
    rewrite (AC x) by (apply managed_ids; auto). rewrite (AC y) by (apply managed_ids; auto). auto. }
  rewrite K. clear K. generalize (rfilter (keepr vec D o m cr') (list_prod (ids m) (ids m))) as F. intro F.
  assert (W : match o_distance o, vs with Some _, None => true | _, _ => false end = match o_distance o, vs' with Some _, None => true | _, _ => false end).
  { destruct (o_distance o) eqn:U; auto. specialize (AV ltac:(congruence)). destruct vs, vs'; auto; destruct AV. }
  assert (C : match o_clusters o, cr with Some _, None => true | _, _ => false end = match o_clusters o, cr' with Some _, None => true | _, _ => false end).
  { destruct (o_clusters o) eqn:U; auto. specialize (AC ltac:(congruence)). destruct cr, cr'; auto; destruct AC. }
  assert (V : forall pairs, match o_distance o, vs with
             | Some _, Some v => rows <-- rmap (fun x => dlookup x v) (ids m) ;;; select vec D pw ltb draw o nb (Some rows) (ids m) pairs
             | _, _ => select vec D pw ltb draw o nb None (ids m) pairs
             end = match o_distance o, vs' with
             | Some _, Some v => rows <-- rmap (fun x => dlookup x v) (ids m) ;;; select vec D pw ltb draw o nb (Some rows) (ids m) pairs
             | _, _ => select vec D pw ltb draw o nb None (ids m) pairs
             end).
  { intro pairs. destruct (o_distance o) eqn:U; auto. specialize (AV ltac:(congruence)). destruct vs as [v|], vs' as [v'|]; auto; try destruct AV.
    f_equal. apply rmap_ext. intros x X. unfold dlookup. rewrite (AV x) by (apply managed_ids; auto). auto. }
  destruct (o_clusters o), cr, cr'; try discriminate C; auto; destruct (o_distance o), vs, vs'; try discriminate W; auto;
    destruct F; cbn [rbind]; auto; apply V.
Qed.

(*EX
(** The session continues after a clustering: "c" is new, "z" was deleted. *)
Definition a := str "a". Definition b := str "b". Definition c := str "c". Definition z := str "z".
Definition now : mgr := run [CallAddDataID c; CallDeleteDataID z] (init [a; b; z]).
Definition alone : mgr := run [CallDeleteDataID a; CallDeleteDataID z] (init [a; b; z]).
Definition before_c : dict pystr Z := [(a, 0); (b, 1); (z, 1)]%Z.
Definition other : options := mkOptions (Some DIFFERENT_CLUSTERS) None false false.
Definition near : options := mkOptions None (Some CLOSEST) false false.
Definition ask_pairs (m : mgr) (o : options) := result (sample nat nat (fun rows i j => i + j) Nat.ltb (fun l k => firstn k l) o 9 (Some before_c) (Some [(a, 1); (b, 2)])) (fresh_sampler nat nat, m).
Example C119_ex :
  reachable now /\ accepted other /\ accepted near /\ given other (Some before_c) (Some [(a, 1)]) /\ cluster_missing other now (Some before_c) /\
  ask_pairs now other = Raise KeyError /\ ask_pairs now near = Raise KeyError /\
  agree (init [a; b]) (Some before_c) (Some [(b, 1); (a, 0)]%Z) /\ ask_pairs (init [a; b]) other = Ok [(a, b)] /\
  ask_pairs (init []) near = Raise ValueError /\ ask_pairs (init [c]) other = Ok [].
Proof.
  split; [apply run_reachable; constructor|]. split; [reflexivity|]. split; [reflexivity|]. split; [split; intros; discriminate|]. split.
  - split; [discriminate|]. exists before_c, c, a. split; [reflexivity|].
    split; [exists [a; b; c]; split; [reflexivity|simpl; tauto]|]. split; [exists [a; b; c]; split; [reflexivity|simpl; tauto]|].
    split; [discriminate|]. simpl. intros [X|[X|[X|[]]]]; discriminate.
  - split; [reflexivity|]. split; [reflexivity|]. split; [|repeat split; vm_compute; reflexivity].
    intros x (l & El & X). vm_compute in El. injection El as <-. simpl in X. destruct X as [<-|[<-|[]]]; reflexivity.
Qed.
EX*)
