(** * Termination and correctness of the annotation loop. *)

From Coq Require Import String List Bool Arith ZArith QArith Lia Permutation.
From Verif Require Import Base Manager Spec Closure ManagerProofs ManagerInv ManagerQueries ManagerSem ManagerThms JsonThms
  Sampling SamplingSpec SamplingProofs SamplingThms Loop.
Import ListNotations.
Open Scope nat_scope.
Open Scope py_scope.
Notation ids m := (keys (cdict m)).

(*HEADER
From Coq Require Import String List Bool Arith ZArith QArith Permutation.
From Verif Require Import Base Manager Spec ManagerThms Sampling SamplingSpec Loop LoopThms.
Import ListNotations.
Open Scope nat_scope.

HEADER*)

Lemma add_annotations_all l : forall m m', add_all l m = (m', Ok tt) -> add_annotations l m = (m', Ok []).
Proof.
  induction l as [|c l IH]; intros m m' E; unfold add_all in E; cbn [for_] in E; cbn [add_annotations].
  - unfold ret in *. congruence.
  - unfold bind at 1 in E. unfold bind at 1 in E.
    destruct (add_constraint (fst (fst c)) (snd (fst c)) (snd c) 1%Q m) as [m1 [u|e]]; [|discriminate].
    cbn in E. apply IH. exact E.
Qed.

(** The undecided pairs. *)
Definition undecided (m : mgr) (p : pystr * pystr) : bool :=
  str_ltb (fst p) (snd p) && match infer m (fst p) (snd p) with None => true | Some _ => false end.
Definition nb_undecided (m : mgr) : nat := length (filter (undecided m) (list_prod (ids m) (ids m))).

Lemma filter_length_le {A} (f g : A -> bool) l : (forall x, In x l -> f x = true -> g x = true) ->
  length (filter f l) <= length (filter g l).
Proof.
  induction l as [|x l IH]; simpl; intro H; auto.
  assert (IH' := IH (fun y I => H y (or_intror I))).
  destruct (f x) eqn:F.
  - rewrite (H x (or_introl eq_refl) F). simpl. lia.
  - destruct (g x); simpl; lia.
Qed.

Lemma filter_length_lt {A} (f g : A -> bool) l x : (forall x, In x l -> f x = true -> g x = true) ->
  In x l -> f x = false -> g x = true -> length (filter f l) < length (filter g l).
Proof.
  induction l as [|y l IH]; simpl; intros H I F G; [tauto|].
  assert (LE := filter_length_le f g l (fun y I => H y (or_intror I))).
  destruct I as [->|I].
  - rewrite F, G. simpl. lia.
  - assert (IH' := IH (fun y I => H y (or_intror I)) I F G).
    destruct (f y) eqn:Fy; [rewrite (H y (or_introl eq_refl) Fy); simpl; lia|].
    destruct (g y); simpl; lia.
Qed.

(** There are n(n-1)/2 ordered pairs. *)
Lemma ordered_pairs l : NoDup l ->
  2 * length (filter (fun p => str_ltb (fst p) (snd p)) (list_prod l l)) + length l <= length l * length l.
Proof.
  intro ND. assert (NDP := list_prod_NoDup l l ND ND).
  rewrite <- (prod_length l l).
  assert (T : forall L : list (pystr * pystr),
     length L = length (filter (fun p => str_ltb (fst p) (snd p)) L) + length (filter (fun p => eqb (fst p) (snd p)) L)
              + length (filter (fun p => str_ltb (snd p) (fst p)) L)).
  { induction L as [|[x y] L IH]; simpl; auto. rewrite !str_ltb_negb.
    destruct (eqb_spec x y) as [->|N].
    - rewrite str_leb_refl. simpl. lia.
    - destruct (str_leb y x) eqn:L1, (str_leb x y) eqn:L2; simpl; try lia.
      + destruct (N (str_leb_antisym _ _ L2 L1)).
      + destruct (str_leb_total x y); congruence. }
  rewrite (T (list_prod l l)).
  assert (A : length (filter (fun p => str_ltb (fst p) (snd p)) (list_prod l l)) <=
              length (filter (fun p => str_ltb (snd p) (fst p)) (list_prod l l))).
  { rewrite <- (map_length (fun p => (snd p, fst p))). apply NoDup_incl_length.
    - apply FinFun.Injective_map_NoDup.
      + intros [x y] [x' y'] E. simpl in E. congruence.
      + apply NoDup_filter_list; auto.
    - intros q I. apply in_map_iff in I. destruct I as ([x y] & <- & I). apply filter_In in I. destruct I as [I F].
      apply in_prod_iff in I. apply filter_In. split; auto. apply in_prod; tauto. }
  assert (B : length l <= length (filter (fun p => eqb (fst p) (snd p)) (list_prod l l))).
  { rewrite <- (map_length (fun x => (x, x)) l). apply NoDup_incl_length.
    - apply FinFun.Injective_map_NoDup; auto. intros x y E. congruence.
    - intros q I. apply in_map_iff in I. destruct I as (x & <- & I). apply filter_In. split; [apply in_prod; auto|apply eqb_refl]. }
  lia.
Qed.

Lemma nb_undecided_le m : Inv m -> 2 * nb_undecided m <= length (ids m) * (length (ids m) - 1).
Proof.
  intro I. assert (O := ordered_pairs (ids m) (inv_nodup _ I)).
  assert (L : nb_undecided m <= length (filter (fun p => str_ltb (fst p) (snd p)) (list_prod (ids m) (ids m)))).
  { apply filter_length_le. intros p _ H. apply andb_true_iff in H. tauto. }
  rewrite Nat.mul_sub_distr_l. lia.
Qed.

Lemma linked_mono (r r' : pystr -> pystr -> Prop) x y : (forall a b, r a b -> r' a b) -> linked r x y -> linked r' x y.
Proof. intros H L. induction L; [constructor|]. eapply linked_step; eauto. destruct H0; auto. Qed.

Section Round.
  Variables vec D : Type.
  Variable pairwise : list vec -> nat -> nat -> D.
  Variable ltb : D -> D -> bool.
  Variable draws : nat -> list (pystr * pystr) -> nat -> list (pystr * pystr).
  Variable truth : pystr -> nat.
  Variable o : options.
  Variable nb : Z.
  Variable vs : option (dict pystr vec).
  Hypothesis VD : forall i, valid_draw (draws i).
  Hypothesis OI : o_without_inferred o = true.
  Hypothesis NB : (1 <= nb)%Z.
  Notation loop := (annotation_loop vec D pairwise ltb draws truth o nb vs).

  Definition consistent m := satisfies (added_must m) (added_cannot m) truth.

  (** One iteration, for any sampler. *)
  Lemma round_any cl m s i : reachable m -> consistent m -> valid_arguments o m nb cl vs ->
    exists l s', sample vec D pairwise ltb (draws i) o nb cl vs (s, m) = ((s', m), Ok l) /\
      (o_clusters o = None -> ~ complete m -> l <> []) /\
      exists m', add_annotations (annotate truth l) m = (m', Ok []) /\
        reachable m' /\ consistent m' /\ ids m' = ids m /\
        (forall x y, linked (sml m) x y -> linked (sml m') x y) /\
        (forall x y, separated (sml m) (scl m) x y -> separated (sml m') (scl m') x y) /\
        (l <> [] -> nb_undecided m' < nb_undecided m).
  Proof.
    intros R C VA. assert (I := reachable_inv _ R).
    destruct (sample_psample vec D pairwise ltb (draws i) o nb cl vs s m I) as [s' E].
    destruct (C28_sampling_count_proof vec D pairwise ltb (draws i) o nb cl vs s m (VD i) R VA) as (l & El & _).
    assert (Er := El). unfold result in El. rewrite E in El. cbn [snd] in El. rewrite El in E.
    exists l, s'. split; auto.
    destruct (C27_sampled_pairs_eligible_proof vec D pairwise ltb (draws i) o nb cl vs s m l (VD i) R Er) as (ND & ELG).
    split.
    { intros OC NC X. subst l. apply NC. eapply C30_exhausted_iff_complete_proof; eauto. }
    assert (BA : forall t p q, batch_added (annotate truth l) t p q -> 
       (t = MUST_LINK /\ truth p = truth q) \/ (t = CANNOT_LINK /\ truth p <> truth q)).
    { intros t p q (a & b & J & U). unfold annotate in J. apply in_map_iff in J. destruct J as ([x y] & J & _).
      cbn [fst snd] in J. injection J; intros T <- <-. destruct (Nat.eqb_spec (truth x) (truth y)); subst t;
      destruct U as [[-> ->]|[-> ->]]; auto. }
    assert (MC : MUST_LINK <> CANNOT_LINK).
    { intro X. apply (f_equal (eqb CANNOT_LINK)) in X. discriminate. }
    destruct (add_all_succeeds (annotate truth l) m I) as [m' A].
    - intros a b t J. unfold annotate in J. apply in_map_iff in J. destruct J as ([x y] & J & K).
      cbn [fst snd] in J. injection J; intros T <- <-. apply ELG in K. destruct K as (Mx & My & _).
      apply managed_ids in Mx. apply managed_ids in My. split; auto. split; auto. unfold allowed.
      destruct (Nat.eqb _ _); auto.
    - exists truth. split; auto. split; intros p q B; apply BA in B; destruct B as [[X Y]|[X Y]]; auto; congruence.
    - exists m'. split; [apply add_annotations_all; auto|].
      destruct (add_all_ok _ _ _ I A) as (I' & K & AD & _).
      assert (R' := add_all_reachable _ _ _ R A).
      split; auto. split; [|split; auto].
      + destruct C as [C1 C2]. split; intros p q H; apply AD in H; destruct H as [H|H]; auto;
        apply BA in H; destruct H as [[X Y]|[X Y]]; auto; congruence.
      + assert (ML : forall x y, linked (sml m) x y -> linked (sml m') x y).
        { intros x y L. apply added_linked; auto. apply (linked_mono (added_must m)).
          - intros a b H. apply AD; auto.
          - apply added_linked; auto. }
        assert (MS : forall x y, separated (sml m) (scl m) x y -> separated (sml m') (scl m') x y).
        { intros x y S. apply added_separated; auto. apply added_separated in S; auto.
          destruct S as (u & v & L1 & L2 & S). exists u, v.
          assert (MM : forall a b, added_must m a b -> added_must m' a b) by (intros; apply AD; auto).
          split; [eapply linked_mono; eauto|]. split; [eapply linked_mono; eauto|].
          destruct S; [left|right]; apply AD; auto. }
        split; auto. split; auto. intro NE.
        destruct l as [|[x y] l']; [congruence|].
        assert (EL := ELG (x, y) (or_introl eq_refl)). destruct EL as (Mx & My & LT & _ & _ & _ & IN).
        assert (Ix := Mx). assert (Iy := My). apply managed_ids in Ix. apply managed_ids in Iy.
        specialize (IN OI). apply inferred_spec in IN; auto.
        unfold nb_undecided. rewrite K. apply filter_length_lt with (x := (x, y)).
        * intros [a b] Iab U. apply in_prod_iff in Iab. unfold undecided in *. cbn [fst snd] in *.
          apply andb_true_iff in U. destruct U as [U1 U2]. rewrite U1. cbn [andb].
          destruct (infer m' a b) eqn:F; [discriminate|].
          assert (NI : infer m a b = None).
          { apply infer_None; try tauto. apply infer_None in F; auto; try (rewrite K; tauto).
            destruct F as [F1 F2]. split; auto. }
          rewrite NI. auto.
        * apply in_prod; auto.
        * unfold undecided. cbn [fst snd]. rewrite LT. cbn [andb].
          destruct (infer m' x y) eqn:F; auto. exfalso.
          apply infer_None in F; auto; try (rewrite K; auto). destruct F as [F1 F2].
          assert (J : exists t, batch_added (annotate truth ((x, y) :: l')) t x y).
          { eexists. exists x, y. split; [left; reflexivity|left; auto]. }
          destruct J as [t J]. assert (T := BA _ _ _ J). destruct T as [[-> _]|[-> _]].
          -- apply F1. apply added_linked; auto. eapply linked_step; [constructor|]. left. apply AD; auto.
          -- apply F2. apply added_separated; auto. exists x, y. split; [constructor|]. split; [constructor|].
             left. apply AD; auto.
        * unfold undecided. cbn [fst snd]. rewrite LT, IN. auto.
  Qed.

  Hypothesis OC : o_clusters o = None.

  Lemma round m s i : reachable m -> consistent m -> valid_arguments o m nb None vs -> ~ complete m ->
    exists l s', sample vec D pairwise ltb (draws i) o nb None vs (s, m) = ((s', m), Ok l) /\
      exists m', add_annotations (annotate truth l) m = (m', Ok []) /\
        reachable m' /\ consistent m' /\ ids m' = ids m /\ nb_undecided m' < nb_undecided m.
  Proof.
    intros R C VA NC. destruct (round_any None m s i R C VA) as (l & s' & E & NE & m' & A & R' & C' & K & _ & _ & U).
    exists l, s'. split; auto. exists m'. auto 8.
  Qed.

  Lemma valid_arguments_ids m m' : ids m' = ids m -> valid_arguments o m nb None vs -> valid_arguments o m' nb None vs.
  Proof.
    intros K (V1 & V2 & V3). assert (MM : forall x, managed m' x <-> managed m x) by (intro; rewrite !managed_ids, K; tauto).
    split; auto. split; [congruence|]. intro X. destruct (V3 X) as ((d & Ed & Cd) & (x & Mx)). split.
    - exists d. split; auto. intros y My. apply Cd, MM; auto.
    - exists x. apply MM; auto.
  Qed.

  Lemma loop_runs fuel : forall m s i, reachable m -> consistent m -> valid_arguments o m nb None vs ->
    nb_undecided m < fuel ->
    exists s' m' k, loop fuel i (s, m) = ((s', m'), Ok (i + k, [])) /\ k <= nb_undecided m /\
      reachable m' /\ consistent m' /\ ids m' = ids m /\ complete m'.
  Proof.
    induction fuel as [|fuel IH]; intros m s i R C VA F; [lia|]. cbn [annotation_loop].
    assert (I := reachable_inv _ R).
    destruct (C14_completude_exact_proof m R) as (b & Eb & _).
    assert (Q : check_completude_of_constraints m = (m, Ok b)).
    { destruct (run_completude m I) as (b' & Eb' & _). unfold ask in Eb. rewrite Eb' in Eb. cbn [snd] in Eb.
      rewrite Eb'. f_equal. auto. }
    unfold bind at 1. unfold on_mgr at 1. cbn [fst snd]. rewrite Q.
    destruct b.
    - exists s, m, 0. split; [unfold ret; do 3 f_equal; lia|]. split; [lia|]. auto.
    - assert (NC : ~ complete m) by (unfold complete; congruence).
      destruct (round m s i R C VA NC) as (l & s1 & Es & m1 & Ea & R1 & C1 & K1 & U1).
      unfold bind at 1. rewrite Es. unfold bind at 1. unfold on_mgr at 1. cbn [fst snd]. rewrite Ea.
      destruct (IH m1 s1 (S i) R1 C1 (valid_arguments_ids _ _ K1 VA)) as (s2 & m2 & k & E2 & L2 & R2 & C2 & K2 & CP).
      { lia. }
      unfold bind at 1. rewrite E2. exists s2, m2, (S k). split; [unfold ret; cbn [fst snd app]; do 3 f_equal; lia|].
      split; [lia|]. rewrite K2, K1. auto.
  Qed.
End Round.

(*PROP C31: annotating sampled pairs by a fixed ground truth ends within n(n-1)/2 iterations, no annotation is ever refused, the constraints are then complete and the connected components are exactly the ground-truth clusters.  It may start from any manager whose constraints agree with the ground truth. *)
Lemma C31_annotation_loop_proof :
  forall vec D pairwise ltb draws truth o nb vectors s m l,
    (forall i, valid_draw (draws i)) -> o_clusters o = None -> o_without_inferred o = true -> (1 <= nb)%Z ->
    reachable m -> satisfies (added_must m) (added_cannot m) truth -> valid_arguments (vec := vec) o m nb None vectors ->
    ask get_list_of_managed_data_IDs m = Ok l ->
    exists s' m' rounds,
      annotation_loop vec D pairwise ltb draws truth o nb vectors (S (length l * (length l - 1) / 2)) 0 (s, m)
        = ((s', m'), Ok (rounds, [])) /\
      rounds <= length l * (length l - 1) / 2 /\
      complete m' /\
      ask get_list_of_managed_data_IDs m' = Ok l /\
      exists components, ask get_connected_components m' = Ok components /\
        forall a b, In a l -> In b l -> ((exists c, In c components /\ In a c /\ In b c) <-> truth a = truth b).
Proof.
  intros vec D pw ltb draws truth o nb vs s m l VD OC OI NB R C VA EL.
  assert (I := reachable_inv _ R). unfold ask in EL. rewrite run_managed in EL. cbn in EL. injection EL; intros; subst l. clear EL.
  assert (U := nb_undecided_le m I).
  assert (U' : nb_undecided m <= length (ids m) * (length (ids m) - 1) / 2) by (apply Nat.div_le_lower_bound; lia).
  destruct (loop_runs vec D pw ltb draws truth o nb vs VD OI NB OC (S (length (ids m) * (length (ids m) - 1) / 2)) m s 0 R C VA)
    as (s' & m' & k & E & L & R' & C' & K & CP); [lia|].
  exists s', m', k. split; auto. split; [lia|]. split; auto. split.
  { unfold ask. rewrite run_managed, K. auto. }
  assert (I' := reachable_inv _ R'). exists (comps m'). split.
  { unfold ask. rewrite run_components by auto. auto. }
  intros a b Ia Ib. rewrite <- K in Ia, Ib. rewrite comps_common by auto. split.
  - intro LK. eapply sat_linked; eauto.
  - intro T. destruct (C14_completude_exact_proof m' R') as (bb & Eb & KK).
    unfold complete in CP. rewrite CP in Eb. injection Eb; intros; subst bb.
    destruct (proj1 KK eq_refl a b) as [H|H]; try (apply managed_ids; auto);
      apply inferred_spec in H; auto.
    + apply infer_ML in H; auto.
    + apply infer_CL in H; auto. exfalso. eapply sat_separated; eauto.
Qed.

(*EX
Definition C31_draw (i : nat) (l : list (pystr * pystr)) (k : nat) := firstn k (if Nat.even i then l else rev l).
Example C31_ex : let ids := [str "a"; str "b"; str "c"; str "d"] in
  let truth x := if eqb x (str "a") then 1 else if eqb x (str "c") then 1 else 2 in
  let r := annotation_loop unit unit (fun _ _ _ => tt) (fun _ _ => false) C31_draw truth (mkOptions None None true true) 2 None
             7 0 (fresh_sampler unit unit, init ids) in
  snd r = Ok (2, []) /\ ask get_connected_components (snd (fst r)) = Ok [[str "a"; str "c"]; [str "b"; str "d"]].
Proof. vm_compute. split; reflexivity. Qed.
Example C31_ex_draws : forall i, valid_draw (C31_draw i).
Proof.
  intros i l k H. unfold C31_draw. set (l' := if Nat.even i then l else rev l).
  assert (P : Permutation l l') by (unfold l'; destruct (Nat.even i); [apply Permutation_refl|apply Permutation_rev]).
  split.
  - apply firstn_length_le. rewrite <- (Permutation_length P). exact H.
  - exists (skipn k l'). rewrite firstn_skipn. exact P.
Qed.
EX*)
