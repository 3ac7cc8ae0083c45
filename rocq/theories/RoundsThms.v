(** * How many iterations an annotation loop takes (C133) *)

From Coq Require Import String List Bool Arith ZArith QArith Lia Permutation.
(*HEADER
From Coq Require Import String List Bool Arith ZArith QArith Permutation.
From Verif Require Import Base Manager Spec ManagerInv ManagerThms JsonThms Sampling SamplingSpec Loop EffortSpec RoundsSpec RoundsThms.
Import ListNotations.
Open Scope nat_scope.

Definition a := str "a". Definition b := str "b". Definition c := str "c". Definition d := str "d". Definition e := str "e".
(** Two groups: a, c and b, d, e. *)
Definition truth (x : pystr) : nat := if eqb x a then 1 else if eqb x c then 1 else 2.
Definition loop_from (draw : list (pystr * pystr) -> nat -> list (pystr * pystr)) (nb : Z) (m : mgr) :=
  snd (annotation_loop unit unit (fun _ _ _ => tt) (fun _ _ => false) (fun _ => draw) truth (mkOptions None None true true) nb None 11 0
    (fresh_sampler unit unit, m)).
HEADER*)
From Verif Require Import Base Manager Spec Closure ManagerProofs ManagerInv ManagerQueries ManagerSem ManagerThms JsonThms
  Sampling SamplingSpec SamplingProofs SamplingThms Loop MinMaxThms EffortSpec EffortThms GuideThms LoopThms RoundsSpec.
Import ListNotations.
Open Scope nat_scope.
Open Scope py_scope.

Lemma annotations_all l : forall m m', add_annotations l m = (m', Ok []) -> add_all l m = (m', Ok tt).
Proof.
  induction l as [|c l IH]; intros m m' E; unfold add_all; cbn [for_]; cbn [add_annotations] in E.
  - unfold ret in *. congruence.
  - unfold bind at 1. unfold bind at 1.
    destruct (add_constraint (fst (fst c)) (snd (fst c)) (snd c) 1%Q m) as [m1 [u|e]].
    + cbn. apply IH. exact E.
    + destruct e; try discriminate. unfold bind in E. destruct (add_annotations l m1) as [m2 [r|e]]; discriminate.
Qed.

(** ** Numbers of components *)
Lemma nb_same_must m f : Inv m -> (forall x y, linked (sml m) x y -> f x = f y) -> nb_of_clusters (ids m) f <= length (comps m).
Proof.
  intros I H. apply nb_must; auto. intros x y A. apply H. apply added_linked; auto. econstructor; [constructor|]. left. exact A.
Qed.

Lemma nb_drop m f x y : Inv m -> (forall a b, linked (sml m) a b -> f a = f b) -> In x (ids m) -> In y (ids m) ->
  f x = f y -> ~ linked (sml m) x y -> S (nb_of_clusters (ids m) f) <= length (comps m).
Proof.
  intros I H Ix Iy E N. assert (Iny : In (comp_of m y) (comps m)) by (apply comps_In; eauto).
  destruct (in_split _ _ Iny) as (l1 & l2 & Sp).
  assert (Len : length (comps m) = S (length (l1 ++ l2))) by (rewrite Sp, !app_length; simpl; lia).
  rewrite Len. apply le_n_S. eapply Nat.le_trans; [apply (nb_le _ _ (map (fun c => f (hd [] c)) (l1 ++ l2)))|rewrite map_length; apply le_n].
  assert (G : forall z, In z (ids m) -> comp_of m z <> comp_of m y -> In (f z) (map (fun c => f (hd [] c)) (l1 ++ l2))).
  { intros z Iz Nz. apply in_map_iff. exists (comp_of m z). split.
    - symmetry. apply H. apply (rep_of_linked m z I Iz).
    - assert (C : In (comp_of m z) (comps m)) by (apply comps_In; eauto). rewrite Sp in C. apply in_app_iff in C. apply in_app_iff.
      destruct C as [C|[C|C]]; auto. congruence. }
  assert (Nxy : comp_of m x <> comp_of m y).
  { intro Q. apply N. apply comp_of_In; auto. rewrite Q. apply self_comp; auto. }
  intros z Iz. destruct (eqb_spec (comp_of m z) (comp_of m y)) as [Q|Q]; auto.
  replace (f z) with (f x); auto. rewrite E. apply H. apply comp_of_In; auto. rewrite <- Q. apply self_comp; auto.
Qed.

Lemma label_linked m x y : Inv m -> linked (sml m) x y -> comp_label m x = comp_label m y.
Proof. intros I L. eapply sat_linked; eauto. apply comp_label_satisfies; auto. Qed.

Lemma comps_le_linked m m' : Inv m -> Inv m' -> ids m' = ids m -> (forall x y, linked (sml m) x y -> linked (sml m') x y) ->
  length (comps m') <= length (comps m).
Proof.
  intros I I' K H. rewrite <- (nb_comp_label m') by auto. rewrite K. apply nb_same_must; auto. intros x y L. apply label_linked; auto.
Qed.

Lemma comps_lt_linked m m' x y : Inv m -> Inv m' -> ids m' = ids m -> (forall x y, linked (sml m) x y -> linked (sml m') x y) ->
  In x (ids m) -> In y (ids m) -> ~ linked (sml m) x y -> linked (sml m') x y -> S (length (comps m')) <= length (comps m).
Proof.
  intros I I' K H Ix Iy N L. rewrite <- (nb_comp_label m') by auto. rewrite K. apply (nb_drop m _ x y); auto.
  - intros a b Q. apply label_linked; auto.
  - apply label_linked; auto.
Qed.

Lemma nb_partition l f g : (forall x y, In x l -> In y l -> f x = f y -> g x = g y) -> nb_of_clusters l g <= nb_of_clusters l f.
Proof.
  intro H. unfold nb_of_clusters at 2.
  rewrite <- (map_length (fun n => match find (fun x => Nat.eqb (f x) n) l with Some x => g x | None => 0 end)). apply nb_le.
  intros x Ix. apply in_map_iff. exists (f x). split; [|apply nodup_In, in_map, Ix].
  destruct (find (fun z => Nat.eqb (f z) (f x)) l) as [z|] eqn:F.
  - apply find_some in F. destruct F as [Iz E]. apply Nat.eqb_eq in E. auto.
  - apply (find_none _ _ F) in Ix. rewrite Nat.eqb_refl in Ix. discriminate.
Qed.

Lemma complete_decides m x y : reachable m -> complete m -> In x (ids m) -> In y (ids m) ->
  linked (sml m) x y \/ separated (sml m) (scl m) x y.
Proof.
  intros R C Ix Iy. assert (I := reachable_inv _ R). destruct (C14_completude_exact_proof m R) as (b & Eb & K).
  unfold complete in C. assert (b = true) by congruence. destruct (proj1 K H x y) as [Q|Q]; try (apply managed_ids; auto);
    apply inferred_spec in Q; auto.
  - left. apply infer_ML in Q; auto.
  - right. apply infer_CL in Q; auto.
Qed.

Lemma complete_comps m truth : reachable m -> consistent truth m -> complete m -> length (comps m) = nb_of_clusters (ids m) truth.
Proof.
  intros R S C. assert (I := reachable_inv _ R). apply Nat.le_antisymm; [|apply nb_max; auto].
  rewrite <- nb_comp_label by auto. apply nb_partition. intros x y Ix Iy E. apply label_linked; auto.
  destruct (complete_decides m x y R C Ix Iy) as [L|L]; auto. exfalso. eapply sat_separated; eauto.
Qed.

(** ** One iteration *)
Record step (truth : pystr -> nat) (l : list (pystr * pystr)) (m m' : mgr) : Prop := mkStep {
  st_reach : reachable m;
  st_reach' : reachable m';
  st_cons : consistent truth m;
  st_cons' : consistent truth m';
  st_ids : ids m' = ids m;
  st_some : l <> [];
  st_unknown : forall x y, In (x, y) l -> In x (ids m) /\ In y (ids m) /\ x <> y /\ ~ linked (sml m) x y /\ ~ separated (sml m) (scl m) x y;
  st_added : forall t p q, added m' t p q <-> added m t p q \/ batch_added (annotate truth l) t p q }.

Lemma step_same truth l m m' x y : step truth l m m' -> In (x, y) l -> truth x = truth y -> added m' MUST_LINK x y.
Proof.
  intros S H E. apply (st_added _ _ _ _ S). right. exists x, y. split; [|left; auto]. unfold annotate. apply in_map_iff.
  exists (x, y). cbn [fst snd]. rewrite E, Nat.eqb_refl. auto.
Qed.

Lemma step_differ truth l m m' x y : step truth l m m' -> In (x, y) l -> truth x <> truth y -> added m' CANNOT_LINK x y.
Proof.
  intros S H E. apply (st_added _ _ _ _ S). right. exists x, y. split; [|left; auto]. unfold annotate. apply in_map_iff.
  exists (x, y). cbn [fst snd]. apply Nat.eqb_neq in E. rewrite E. auto.
Qed.

Lemma step_linked truth l m m' : step truth l m m' -> forall x y, linked (sml m) x y -> linked (sml m') x y.
Proof.
  intros S x y L. assert (I := reachable_inv _ (st_reach _ _ _ _ S)). assert (I' := reachable_inv _ (st_reach' _ _ _ _ S)).
  apply added_linked; auto. apply (LoopThms.linked_mono (added_must m)); [|apply added_linked; auto].
  intros a b H. apply (st_added _ _ _ _ S). auto.
Qed.

Lemma step_separated truth l m m' : step truth l m m' -> forall x y, separated (sml m) (scl m) x y -> separated (sml m') (scl m') x y.
Proof.
  intros S x y L. assert (I := reachable_inv _ (st_reach _ _ _ _ S)). assert (I' := reachable_inv _ (st_reach' _ _ _ _ S)).
  apply added_separated; auto. apply added_separated in L; auto. destruct L as (u & v & A & B & C). exists u, v.
  assert (M : forall a b, added_must m a b -> added_must m' a b) by (intros a b H; apply (st_added _ _ _ _ S); auto).
  split; [eapply LoopThms.linked_mono; eauto|]. split; [eapply LoopThms.linked_mono; eauto|].
  destruct C; [left|right]; apply (st_added _ _ _ _ S); auto.
Qed.

(** The number of iterations [k] is given by a relation that holds at the end and is kept
    by every iteration. *)
Section Count.
  Variables vec D : Type.
  Variable pairwise : list vec -> nat -> nat -> D.
  Variable ltb : D -> D -> bool.
  Variable draws : nat -> list (pystr * pystr) -> nat -> list (pystr * pystr).
  Variable truth : pystr -> nat.
  Variable o : options.
  Variable nb : Z.
  Variable vs : option (dict pystr vec).
  Hypothesis VD : forall i, valid_draw (draws i).
  Hypothesis OI : o_without_inferred o = true.
  Hypothesis NB : (1 <= nb)%Z.
  Hypothesis OC : o_clusters o = None.
  Notation loop := (annotation_loop vec D pairwise ltb draws truth o nb vs).

  Variable J : mgr -> Prop.
  Variable Good : nat -> mgr -> Prop.
  Hypothesis good_end : forall m, reachable m -> consistent truth m -> J m -> complete m -> Good 0 m.
  Hypothesis good_step : forall m m' l s s' i, step truth l m m' -> J m -> valid_arguments o m nb None vs ->
    sample vec D pairwise ltb (draws i) o nb None vs (s, m) = ((s', m), Ok l) -> length l <= Z.to_nat nb ->
    J m' /\ forall k, Good k m' -> Good (S k) m.

  Lemma one_step m s i : reachable m -> consistent truth m -> valid_arguments o m nb None vs -> ~ complete m ->
    exists l s' m', sample vec D pairwise ltb (draws i) o nb None vs (s, m) = ((s', m), Ok l) /\ length l <= Z.to_nat nb /\
      add_annotations (annotate truth l) m = (m', Ok []) /\ step truth l m m' /\ nb_undecided m' < nb_undecided m.
  Proof.
    intros R C VA NC. assert (I := reachable_inv _ R).
    destruct (round_any vec D pairwise ltb draws truth o nb vs VD OI NB None m s i R C VA) as (l & s' & E & NE & m' & A & R' & C' & K & _ & _ & U).
    exists l, s', m'. split; auto. assert (Er : result (sample vec D pairwise ltb (draws i) o nb None vs) (s, m) = Ok l) by (unfold result; rewrite E; auto).
    split.
    { rewrite ask_sample in Er by auto. apply psample_Ok in Er. destruct Er as [[_ ->]|(_ & P & _ & Sel)]; [simpl; lia|].
      apply selected_part in Sel; auto. lia. }
    split; auto. destruct (C27_sampled_pairs_eligible_proof vec D pairwise ltb (draws i) o nb None vs s m l (VD i) R Er) as (ND & ELG).
    assert (AD := add_all_ok _ _ _ I (annotations_all _ _ _ A)). destruct AD as (_ & _ & AD & _).
    split; [|apply U, NE; auto]. constructor; auto.
    intros x y H. apply ELG in H. destruct H as (Mx & My & LT & _ & _ & _ & IN).
    apply managed_ids in Mx. apply managed_ids in My. specialize (IN OI). apply inferred_spec in IN; auto. apply infer_None in IN; auto.
    split; auto. split; auto. split; auto. intros ->. destruct IN as [IN _]. apply IN. constructor.
  Qed.

  Lemma loop_count fuel : forall m s i, reachable m -> consistent truth m -> valid_arguments o m nb None vs -> J m ->
    nb_undecided m < fuel ->
    exists s' m' k, loop fuel i (s, m) = ((s', m'), Ok (i + k, [])) /\ Good k m.
  Proof.
    induction fuel as [|fuel IH]; intros m s i R C VA HJ F; [lia|]. cbn [annotation_loop].
    assert (I := reachable_inv _ R).
    destruct (C14_completude_exact_proof m R) as (b & Eb & _).
    assert (Q : check_completude_of_constraints m = (m, Ok b)).
    { destruct (run_completude m I) as (b' & Eb' & _). unfold ask in Eb. rewrite Eb' in Eb. cbn [snd] in Eb. rewrite Eb'. f_equal. auto. }
    unfold bind at 1. unfold on_mgr at 1. cbn [fst snd]. rewrite Q.
    destruct b.
    - exists s, m, 0. split; [unfold ret; do 3 f_equal; lia|]. apply good_end; auto.
    - assert (NC : ~ complete m) by (unfold complete; congruence).
      destruct (one_step m s i R C VA NC) as (l & s1 & m1 & Es & Ll & Ea & St & U1).
      unfold bind at 1. rewrite Es. unfold bind at 1. unfold on_mgr at 1. cbn [fst snd]. rewrite Ea.
      destruct (good_step m m1 l s s1 i St HJ VA Es Ll) as [J1 G1].
      destruct (IH m1 s1 (S i) (st_reach' _ _ _ _ St) (st_cons' _ _ _ _ St) (valid_arguments_ids vec truth o nb vs OC _ _ (st_ids _ _ _ _ St) VA) J1) as (s2 & m2 & k & E2 & G2).
      { lia. }
      unfold bind at 1. rewrite E2. exists s2, m2, (S k). split; [unfold ret; cbn [fst snd app]; do 3 f_equal; lia|]. auto.
  Qed.
End Count.

(** ** The measure *)
Definition unseen (truth : pystr -> nat) (m : mgr) (p : pystr * pystr) : bool := differ truth p && negb (is_inferred m CANNOT_LINK p).
Definition left_over (truth : pystr -> nat) (P : list (pystr * pystr)) (m : mgr) : nat :=
  (length (comps m) - nb_of_clusters (ids m) truth) + length (filter (unseen truth m) P).

Lemma differ_spec truth x y : differ truth (x, y) = true <-> truth x <> truth y.
Proof. unfold differ. cbn [fst snd]. rewrite negb_true_iff, Nat.eqb_neq. tauto. Qed.

Lemma known_spec m x y : Inv m -> In x (ids m) -> In y (ids m) -> is_inferred m CANNOT_LINK (x, y) = true <-> separated (sml m) (scl m) x y.
Proof. intros I Ix Iy. rewrite is_inferred_spec, inferred_spec, infer_CL by auto. tauto. Qed.

Lemma unseen_spec truth m x y : Inv m -> In x (ids m) -> In y (ids m) ->
  unseen truth m (x, y) = true <-> truth x <> truth y /\ ~ separated (sml m) (scl m) x y.
Proof.
  intros I Ix Iy. unfold unseen. rewrite andb_true_iff, negb_true_iff, differ_spec. rewrite <- (known_spec m x y) by auto.
  rewrite not_true_iff_false. tauto.
Qed.

Definition within_ids (P : list (pystr * pystr)) (m : mgr) : Prop := forall x y, In (x, y) P -> In x (ids m) /\ In y (ids m).

Lemma filter_none {A} (f : A -> bool) l : (forall x, In x l -> f x = false) -> filter f l = [].
Proof. induction l as [|x l IH]; intro H; auto. cbn [filter]. rewrite (H x) by (left; auto). apply IH. intros y Y. apply H. right; auto. Qed.

Lemma left_over_end truth P m : reachable m -> consistent truth m -> within_ids P m -> complete m -> left_over truth P m = 0.
Proof.
  intros R C W CP. assert (I := reachable_inv _ R). unfold left_over. rewrite (complete_comps m truth) by auto. rewrite Nat.sub_diag.
  rewrite filter_none; auto. intros [x y] H. apply W in H. destruct H as [Ix Iy]. apply not_true_iff_false. rewrite unseen_spec by auto.
  intros [N S]. destruct (complete_decides m x y R CP Ix Iy) as [L|L]; auto. apply N. eapply sat_linked; eauto.
Qed.

Lemma unseen_mono truth l m m' P : step truth l m m' -> within_ids P m ->
  forall p, In p P -> unseen truth m' p = true -> unseen truth m p = true.
Proof.
  intros S W [x y] H. destruct (W _ _ H) as [Ix Iy]. assert (I := reachable_inv _ (st_reach _ _ _ _ S)). assert (I' := reachable_inv _ (st_reach' _ _ _ _ S)).
  rewrite unseen_spec by (rewrite ?(st_ids _ _ _ _ S); auto). rewrite unseen_spec by auto. intros [N Q]. split; auto. intro Z. apply Q.
  eapply step_separated; eauto.
Qed.

Lemma left_over_step truth l m m' : step truth l m m' ->
  S (left_over truth (pairs (ids m')) m') <= left_over truth (pairs (ids m)) m.
Proof.
  intros S. rewrite (st_ids _ _ _ _ S). assert (I := reachable_inv _ (st_reach _ _ _ _ S)). assert (I' := reachable_inv _ (st_reach' _ _ _ _ S)).
  assert (W : within_ids (pairs (ids m)) m) by (intros x y; apply pairs_In).
  assert (K := st_ids _ _ _ _ S). unfold left_over. rewrite K. assert (Mo := unseen_mono _ _ _ _ _ S W).
  assert (A := comps_le_linked m m' I I' K (step_linked _ _ _ _ S)).
  assert (B := filter_length_le _ _ _ Mo).
  assert (C := nb_max m' truth I' (st_cons' _ _ _ _ S)). rewrite K in C.
  destruct l as [|[x y] l]; [destruct (st_some _ _ _ _ S eq_refl)|].
  destruct (st_unknown _ _ _ _ S x y (or_introl eq_refl)) as (Ix & Iy & Nxy & NL & NS).
  destruct (Nat.eq_dec (truth x) (truth y)) as [E|E].
  - assert (AL := step_same _ _ _ _ x y S (or_introl eq_refl) E).
    assert (L : linked (sml m') x y) by (apply added_linked; auto; econstructor; [constructor|]; left; exact AL).
    assert (A' := comps_lt_linked m m' x y I I' K (step_linked _ _ _ _ S) Ix Iy NL L). lia.
  - assert (AL := step_differ _ _ _ _ x y S (or_introl eq_refl) E).
    assert (L : separated (sml m') (scl m') x y).
    { apply added_separated; auto. exists x, y. split; [constructor|]. split; [constructor|]. left. exact AL. }
    assert (G : forall u v, In (u, v) (pairs (ids m)) -> (u = x /\ v = y) \/ (u = y /\ v = x) ->
       length (filter (unseen truth m') (pairs (ids m))) < length (filter (unseen truth m) (pairs (ids m)))).
    { intros u v P Q. destruct (W _ _ P) as [Iu Iv]. apply (filter_length_lt _ _ _ (u, v)); auto.
      - apply not_true_iff_false. rewrite unseen_spec by (rewrite ?K; auto). intros [_ Z]. apply Z. destruct Q as [[-> ->]|[-> ->]]; auto. apply separated_sym; auto.
      - apply unseen_spec; auto. destruct Q as [[-> ->]|[-> ->]]; split; auto. intro Z. apply NS. apply separated_sym; auto. }
    assert (B' : length (filter (unseen truth m') (pairs (ids m))) < length (filter (unseen truth m) (pairs (ids m)))).
    { destruct (pairs_total (ids m) x y Ix Iy Nxy) as [P|P]; eapply G; eauto. }
    lia.
Qed.

(** ** The number of added constraints *)
Definition listed2 (p : pystr * pystr) (l : list (pystr * pystr)) : bool := existsb (fun q => eqb (fst q) (fst p) && eqb (snd q) (snd p)) l.
Lemma listed2_In p l : listed2 p l = true <-> In p l.
Proof.
  unfold listed2. rewrite existsb_exists. split.
  - intros ([x y] & H & E). apply andb_true_iff in E. rewrite !eqb_eq in E. cbn [fst snd] in E. destruct p, E; simpl in *; subst; auto.
  - intro H. exists p. rewrite !eqb_refl. auto.
Qed.
Lemma NoDup_app' {A} (l l' : list A) : NoDup l -> NoDup l' -> (forall x, In x l -> In x l' -> False) -> NoDup (l ++ l').
Proof.
  induction 1 as [|x l N ND IH]; intros N' H; auto. cbn [app]. constructor.
  - rewrite in_app_iff. intros [Q|Q]; auto. apply (H x); auto. left; auto.
  - apply IH; auto. intros y Y. apply H. right; auto.
Qed.

Definition total (m : mgr) : nat := effort m MUST_LINK + effort m CANNOT_LINK.

Lemma total_step truth l m m' : step truth l m m' -> total m' <= total m + length l.
Proof.
  intros S. assert (K := st_ids _ _ _ _ S). unfold total. rewrite !effort_eq, K. set (P := pairs (ids m)).
  assert (ND : NoDup P) by (apply pairs_NoDup, inv_nodup, reachable_inv, (st_reach _ _ _ _ S)).
  set (tag := fun t (p : pystr * pystr) => (t : pystr, p)).
  set (F := fun m0 : mgr => map (tag MUST_LINK) (filter (is_added m0 MUST_LINK) P) ++ map (tag CANNOT_LINK) (filter (is_added m0 CANNOT_LINK) P)).
  assert (Len : forall m0, length (F m0) = length (filter (is_added m0 MUST_LINK) P) + length (filter (is_added m0 CANNOT_LINK) P))
    by (intro m0; unfold F; rewrite app_length, !map_length; auto).
  rewrite <- (Len m'), <- (Len m).
  set (norm := fun c : pystr * pystr * pystr => tag (snd c) (if listed2 (fst c) P then fst c else (snd (fst c), fst (fst c)))).
  rewrite <- (map_length (fun p => (fst p, snd p, if Nat.eqb (truth (fst p)) (truth (snd p)) then MUST_LINK else CANNOT_LINK)) l).
  fold (annotate truth l). rewrite <- (map_length norm (annotate truth l)), <- app_length.
  assert (MC := ML_neq_CL).
  assert (InF : forall m0 t p, In (t, p) (F m0) <-> (t = MUST_LINK \/ t = CANNOT_LINK) /\ In p P /\ is_added m0 t p = true).
  { intros m0 t p. unfold F. rewrite in_app_iff, !in_map_iff. split.
    - intros [(q & E & H)|(q & E & H)]; apply filter_In in H; injection E as <- <-; tauto.
    - intros ([->| ->] & H); [left|right]; exists p; (split; [auto|apply filter_In; auto]). }
  apply NoDup_incl_length.
  - unfold F. apply NoDup_app'.
    + apply FinFun.Injective_map_NoDup; [intros a b E; inversion E; auto|apply NoDup_filter; auto].
    + apply FinFun.Injective_map_NoDup; [intros a b E; inversion E; auto|apply NoDup_filter; auto].
    + intros [t p] A B. apply in_map_iff in A. apply in_map_iff in B. destruct A as (a & A & _), B as (b & B & _). unfold tag in *. congruence.
  - intros [t [x y]] H. apply InF in H. destruct H as (T & IP & A). apply in_app_iff. apply is_added_spec in A. apply (st_added _ _ _ _ S) in A.
    destruct A as [A|(a & b & J & U)].
    + left. apply InF. split; auto. split; auto. apply is_added_spec; auto.
    + right. apply in_map_iff. exists (a, b, t). split; auto. unfold norm, tag. cbn [fst snd]. f_equal.
      destruct U as [[-> ->]|[-> ->]].
      * assert (listed2 (a, b) P = true) as -> by (apply listed2_In; auto). auto.
      * destruct (listed2 (a, b) P) eqn:Q; auto. apply listed2_In in Q. exfalso. eapply (pairs_once (ids m)); eauto.
        apply inv_nodup, reachable_inv, (st_reach _ _ _ _ S).
Qed.

(** ** One annotation at a time *)
Lemma batch_one truth x y t p q : batch_added (annotate truth [(x, y)]) t p q <->
  t = (if Nat.eqb (truth x) (truth y) then MUST_LINK else CANNOT_LINK) /\ same_unordered x y p q.
Proof.
  unfold batch_added, annotate. cbn [map fst snd]. split.
  - intros (a & b & [E|[]] & U). injection E as <- <- <-. auto.
  - intros [-> U]. exists x, y. split; [left|]; auto.
Qed.

Lemma one_must truth x y m m' : step truth [(x, y)] m m' -> truth x = truth y ->
  S (length (comps m')) = length (comps m) /\ (forall p q, added m' CANNOT_LINK p q <-> added m CANNOT_LINK p q).
Proof.
  intros S E. assert (I := reachable_inv _ (st_reach _ _ _ _ S)). assert (I' := reachable_inv _ (st_reach' _ _ _ _ S)). assert (K := st_ids _ _ _ _ S).
  destruct (st_unknown _ _ _ _ S x y (or_introl eq_refl)) as (Ix & Iy & Nxy & NL & NS). assert (MC := ML_neq_CL).
  assert (AD : forall t p q, added m' t p q <-> added m t p q \/ (t = MUST_LINK /\ same_unordered x y p q)).
  { intros t p q. rewrite (st_added _ _ _ _ S), batch_one, E, Nat.eqb_refl. tauto. }
  split.
  - apply Nat.le_antisymm.
    + apply (comps_lt_linked m m' x y); auto; [apply (step_linked _ _ _ _ S)|]. apply added_linked; auto. econstructor; [constructor|].
      left. apply AD. right. split; auto. left; auto.
    + rewrite <- (nb_comp_label m) by auto. eapply Nat.le_trans; [apply (merge_nb _ _ (x, y))|]. apply le_n_S. rewrite <- K. apply nb_must; auto.
      intros p q A. apply AD in A. destruct A as [A|[_ [[-> ->]|[-> ->]]]].
      * apply merge_keeps. apply label_linked; auto. apply added_linked; auto. econstructor; [constructor|]. left; auto.
      * apply (merge_same (comp_label m) (x, y)).
      * symmetry. apply (merge_same (comp_label m) (x, y)).
  - intros p q. rewrite AD. intuition congruence.
Qed.

Lemma one_cannot truth x y m m' : step truth [(x, y)] m m' -> truth x <> truth y ->
  length (comps m') = length (comps m) /\ (forall p q, linked (sml m') p q <-> linked (sml m) p q) /\
  (forall u v, separated (sml m') (scl m') u v <-> separated (sml m) (scl m) u v \/
     (linked (sml m) x u /\ linked (sml m) y v) \/ (linked (sml m) y u /\ linked (sml m) x v)).
Proof.
  intros S E. assert (I := reachable_inv _ (st_reach _ _ _ _ S)). assert (I' := reachable_inv _ (st_reach' _ _ _ _ S)). assert (K := st_ids _ _ _ _ S).
  assert (MC := ML_neq_CL). apply Nat.eqb_neq in E as E'.
  assert (AD : forall t p q, added m' t p q <-> added m t p q \/ (t = CANNOT_LINK /\ same_unordered x y p q)).
  { intros t p q. rewrite (st_added _ _ _ _ S), batch_one, E'. tauto. }
  assert (L : forall p q, linked (sml m') p q <-> linked (sml m) p q).
  { intros p q. rewrite <- !added_linked by auto. split; apply LoopThms.linked_mono; intros a b H; [apply AD in H|apply AD; auto].
    destruct H as [H|[H _]]; auto. congruence. }
  split; [|split; auto].
  - apply Nat.le_antisymm; apply comps_le_linked; auto; intros p q; apply L.
  - intros u v. split.
    + intro H. apply added_separated in H; auto. destruct H as (a & b & A & B & C). apply added_linked in A; auto. apply added_linked in B; auto.
      apply L in A. apply L in B.
      assert (C' : added m CANNOT_LINK a b \/ (added m CANNOT_LINK b a \/ same_unordered x y a b)).
      { destruct C as [C|C]; apply AD in C; destruct C as [C|[_ C]]; auto. right. right. destruct C as [[-> ->]|[-> ->]]; [right|left]; auto. }
      destruct C' as [C'|[C'|[[-> ->]|[-> ->]]]].
      * left. apply added_separated; auto. exists a, b. rewrite !added_linked by auto. unfold added_cannot. tauto.
      * left. apply added_separated; auto. exists a, b. rewrite !added_linked by auto. unfold added_cannot. tauto.
      * right. left. split; apply linked_sym; auto.
      * right. right. split; apply linked_sym; auto.
    + intros [H|H]; [apply (step_separated _ _ _ _ S); auto|]. apply added_separated; auto.
      assert (C : added m' CANNOT_LINK x y) by (apply AD; right; split; auto; left; auto).
      destruct H as [[A B]|[A B]]; [exists x, y|exists y, x]; rewrite !added_linked, !L by auto;
        (split; [apply linked_sym; auto|split; [apply linked_sym; auto|]]); [left|right]; auto.
Qed.

(** A draw that takes the pairs with [p] first. *)
Definition prefer (p : pystr * pystr -> bool) (l : list (pystr * pystr)) (k : nat) : list (pystr * pystr) :=
  firstn k (filter p l ++ filter (fun q => negb (p q)) l).

Lemma prefer_perm (p : pystr * pystr -> bool) l : Permutation l (filter p l ++ filter (fun q => negb (p q)) l).
Proof.
  induction l as [|x l IH]; auto. cbn [filter]. destruct (p x); cbn [negb app].
  - constructor. exact IH.
  - apply Permutation_cons_app. exact IH.
Qed.

Lemma prefer_valid p : valid_draw (prefer p).
Proof.
  intros l k H. unfold prefer. assert (P := prefer_perm p l). split.
  - apply firstn_length_le. rewrite <- (Permutation_length P). exact H.
  - exists (skipn k (filter p l ++ filter (fun q => negb (p q)) l)). rewrite firstn_skipn. exact P.
Qed.

Lemma picked vec D pairwise ltb (p : pystr * pystr -> bool) truth o s s' m m' l : (forall u v, p (u, v) = p (v, u)) ->
  o_distance o = None -> o_clusters o = None -> step truth l m m' ->
  sample vec D pairwise ltb (prefer p) o 1 None None (s, m) = ((s', m), Ok l) ->
  exists x y, l = [(x, y)] /\ (p (x, y) = true \/ (p (x, y) = false /\
    forall u v, In u (ids m) -> In v (ids m) -> u <> v -> p (u, v) = true -> linked (sml m) u v \/ separated (sml m) (scl m) u v)).
Proof.
  intros Sym OD OC S E. assert (I := reachable_inv _ (st_reach _ _ _ _ S)).
  assert (Er : result (sample vec D pairwise ltb (prefer p) o 1 None None) (s, m) = Ok l) by (unfold result; rewrite E; auto).
  rewrite ask_sample in Er by auto. apply psample_Ok in Er. destruct Er as [[X _]|(_ & P & EP & Sel)]; [lia|].
  apply eligible_pairs_spec in EP; auto. destruct EP as (_ & EP & _).
  assert (NE := st_some _ _ _ _ S).
  assert (El : l = prefer p P (Nat.min 1 (length P))).
  { destruct Sel as [_ _|v rows k Z]; [reflexivity|]. rewrite OD in Z. destruct Z; discriminate. }
  clear Sel. destruct P as [|p0 P0]; [simpl in El; unfold prefer in El; simpl in El; congruence|].
  change (Nat.min 1 (length (p0 :: P0))) with 1 in El. set (P := p0 :: P0) in *.
  assert (UE : forall u v, In u (ids m) -> In v (ids m) -> u <> v -> ~ linked (sml m) u v -> ~ separated (sml m) (scl m) u v -> In (u, v) P \/ In (v, u) P).
  { assert (G : forall u v, In u (ids m) -> In v (ids m) -> str_ltb u v = true -> ~ linked (sml m) u v -> ~ separated (sml m) (scl m) u v -> In (u, v) P).
    { intros u v Iu Iv LT N1 N2. apply EP. split; [apply managed_ids; auto|]. split; [apply managed_ids; auto|]. split; auto.
      rewrite OC. split; [discriminate|]. split; [discriminate|]. split.
      - intros _ (t & A). assert (A' := A). apply addf_added in A'; auto. destruct A' as (_ & _ & A'). apply addf_infer in A'; auto; [|apply both_true; auto].
        assert (Z : infer m u v = None) by (apply infer_None; auto). congruence.
      - intros _. apply inferred_spec; auto. apply infer_None; auto. }
    intros u v Iu Iv N N1 N2. destruct (str_leb v u) eqn:L.
    - right. apply G; auto.
      + rewrite str_ltb_negb. destruct (str_leb u v) eqn:L'; auto. exfalso. apply N. apply str_leb_antisym; auto.
      + intro Q. apply N1. apply linked_sym; auto.
      + intro Q. apply N2. apply separated_sym; auto.
    - left. apply G; auto. rewrite str_ltb_negb, L. auto. }
  unfold prefer in El. destruct (filter p P) as [|[x y] f] eqn:F.
  - cbn [app] in El. destruct (filter (fun q => negb (p q)) P) as [|[x y] g] eqn:G; [simpl in El; congruence|].
    exists x, y. split; [exact El|]. right. assert (H : In (x, y) (filter (fun q => negb (p q)) P)) by (rewrite G; left; auto).
    apply filter_In in H. destruct H as [_ H]. apply negb_true_iff in H. split; auto.
    intros u v Iu Iv N Pu.
    assert (C : linked (sml m) u v \/ separated (sml m) (scl m) u v \/ (~ linked (sml m) u v /\ ~ separated (sml m) (scl m) u v)).
    { destruct (infer_cases m u v) as [Q|[Q|Q]].
      - left. apply infer_ML; auto.
      - right. left. apply infer_CL; auto.
      - right. right. apply infer_None; auto. }
    destruct C as [C|[C|[C1 C2]]]; auto. exfalso.
    assert (Z : In (u, v) (filter p P) \/ In (v, u) (filter p P)).
    { destruct (UE u v Iu Iv N C1 C2); [left|right]; apply filter_In; split; auto. rewrite Sym. auto. }
    rewrite F in Z. destruct Z as [[]|[]].
  - exists x, y. split; [exact El|]. left. assert (H : In (x, y) (filter p P)) by (rewrite F; left; auto). apply filter_In in H. tauto.
Qed.

(** ** From an empty manager *)
Lemma init_linked il x y : linked (sml (init il)) x y -> x = y.
Proof.
  intro L. apply added_linked in L; [|apply init_inv]. induction L as [|x y z L IH H]; auto. subst.
  destruct H as [H|H]; apply init_added in H; tauto || (destruct H as (_ & -> & _); auto).
Qed.

Lemma init_separated il x y : ~ separated (sml (init il)) (scl (init il)) x y.
Proof.
  intro S. apply added_separated in S; [|apply init_inv]. destruct S as (u & v & _ & _ & H). assert (MC := ML_neq_CL).
  destruct H as [H|H]; apply init_added in H; destruct H as (_ & _ & H); congruence.
Qed.

Lemma init_same il : NoDup il -> ids (init il) = il.
Proof. intro N. rewrite init_ids. apply dedup_id; auto. Qed.

Lemma init_comps il : NoDup il -> length (comps (init il)) = length il.
Proof.
  intro N. assert (I := init_inv il). rewrite <- nb_comp_label by auto. rewrite init_same by auto. apply nb_injective; auto.
  intros x y Ix Iy E. apply comp_label_eq in E; rewrite ?init_same by auto; auto. apply init_linked in E. auto.
Qed.

Lemma init_left_over truth il P : NoDup il -> within_ids P (init il) ->
  left_over truth P (init il) = (length il - nb_of_clusters il truth) + length (filter (differ truth) P).
Proof.
  intros N W. unfold left_over. rewrite init_comps, init_same by auto. f_equal. f_equal. apply filter_ext_in. intros [x y] H.
  destruct (W _ _ H) as [Ix Iy]. apply eq_true_iff_eq. rewrite unseen_spec by (auto using init_inv). rewrite differ_spec.
  split; [tauto|]. intro E. split; auto. apply init_separated.
Qed.

Lemma enough_fuel m : Inv m -> nb_undecided m < S (length (ids m) * (length (ids m) - 1) / 2).
Proof. intro I. assert (U := nb_undecided_le m I). apply Nat.lt_succ_r. apply Nat.div_le_lower_bound; lia. Qed.

(*PROP C133: a loop that annotates by a fixed ground truth takes at most one iteration for each two components that still have to be joined and one for each pair of data that do not belong together and are not yet known to be different. *)
Lemma C133_rounds_left_proof :
  forall vec D pairwise ltb draws truth o nb vectors s m l cs,
    (forall i, valid_draw (draws i)) -> o_clusters o = None -> o_without_inferred o = true -> (1 <= nb)%Z ->
    reachable m -> satisfies (added_must m) (added_cannot m) truth -> valid_arguments (vec := vec) o m nb None vectors ->
    ask get_list_of_managed_data_IDs m = Ok l -> ask get_connected_components m = Ok cs ->
    exists s' m' rounds,
      annotation_loop vec D pairwise ltb draws truth o nb vectors (S (length l * (length l - 1) / 2)) 0 (s, m)
        = ((s', m'), Ok (rounds, [])) /\
      rounds <= (length cs - nb_of_clusters l truth) + nb_unknown_different m l truth.
Proof.
  intros vec D pw ltb draws truth o nb vs s m l cs VD OC OI NB R C VA El Ec. assert (I := reachable_inv _ R).
  unfold ask in El, Ec. rewrite run_managed in El. rewrite run_components in Ec by auto. cbn [snd] in El, Ec. injection El as <-. injection Ec as <-.
  destruct (loop_count vec D pw ltb draws truth o nb vs VD OI NB OC (fun _ => True) (fun k m0 => k <= left_over truth (pairs (ids m0)) m0)) with
    (fuel := S (length (ids m) * (length (ids m) - 1) / 2)) (m := m) (s := s) (i := 0) as (s' & m' & k & E & G); auto.
  - intros. lia.
  - intros m0 m1 l0 s0 s1 i St _ _ _ _. split; auto. intros k H. assert (Z := left_over_step _ _ _ _ St). lia.
  - apply enough_fuel; auto.
  - exists s', m', k. split; auto.
Qed.

(*EX
(** Five data in two groups, two annotations made: at most 3 + 4 iterations are left. *)
Definition started : mgr := run [CallAddConstraint a b CANNOT_LINK 1%Q; CallAddConstraint c d CANNOT_LINK 1%Q] (init [a; b; c; d; e]).
Example C133_rounds_left_ex : reachable started /\ satisfies (added_must started) (added_cannot started) truth /\
  ask get_connected_components started = Ok [[a]; [b]; [c]; [d]; [e]] /\ nb_of_clusters [a; b; c; d; e] truth = 2 /\
  nb_unknown_different started [a; b; c; d; e] truth = 4 /\
  loop_from (prefer (differ truth)) 1 started = Ok (7, []) /\ loop_from (prefer (fun p => negb (differ truth p))) 1 started = Ok (3, []).
Proof.
  split; [apply run_reachable|]. split; [|repeat split; vm_compute; reflexivity].
  destruct (add_all_ok [(a, b, CANNOT_LINK); (c, d, CANNOT_LINK)] (init [a; b; c; d; e]) started (init_inv _)) as (_ & _ & A & _); [vm_compute; reflexivity|].
  split; intros x y H; apply A in H; (destruct H as [H|(u & v & H & U)]; [apply init_added in H; destruct H as (_ & -> & H); auto; discriminate H|]);
    destruct H as [H|[H|[]]]; injection H as <- <-; try discriminate; destruct U as [[-> ->]|[-> ->]]; discriminate.
Qed.
EX*)

(*PROP C133: from an empty manager, n data in k groups take at most n - k iterations and one for each pair of data of different groups; nb pairs at a time, nb times the iterations is at least n - k plus one for each two groups. *)
Lemma C133_range_proof :
  forall vec D pairwise ltb draws truth o nb vectors s ids,
    (forall i, valid_draw (draws i)) -> o_clusters o = None -> o_without_inferred o = true -> (1 <= nb)%Z -> NoDup ids ->
    valid_arguments (vec := vec) o (init ids) nb None vectors ->
    exists s' m' rounds,
      annotation_loop vec D pairwise ltb draws truth o nb vectors (S (length ids * (length ids - 1) / 2)) 0 (s, init ids)
        = ((s', m'), Ok (rounds, [])) /\
      rounds <= (length ids - nb_of_clusters ids truth) + nb_different ids truth /\
      2 * (length ids - nb_of_clusters ids truth) + nb_of_clusters ids truth * (nb_of_clusters ids truth - 1) <= 2 * (Z.to_nat nb * rounds).
Proof.
  intros vec D pw ltb draws truth o nb vs s il VD OC OI NB ND VA. assert (R := run_reachable il [] : reachable (init il)). assert (I := init_inv il).
  set (k0 := nb_of_clusters il truth).
  destruct (loop_count vec D pw ltb draws truth o nb vs VD OI NB OC (fun m0 => ids m0 = il)
    (fun k m0 => k <= left_over truth (pairs (ids m0)) m0 /\ 2 * (length il - k0) + k0 * (k0 - 1) <= 2 * (total m0 + Z.to_nat nb * k))) with
    (fuel := S (length il * (length il - 1) / 2)) (m := init il) (s := s) (i := 0) as (s' & m' & k & E & G1 & G2); auto.
  - intros m R0 C0 K CP. split; [lia|]. assert (I0 := reachable_inv _ R0).
    assert (Z := C100_complete_effort_proof m R0 CP (ids m) (comps m)). unfold ask in Z. rewrite run_managed, run_components in Z by auto.
    specialize (Z eq_refl eq_refl). rewrite (complete_comps m truth) in Z by auto. rewrite K in Z. fold k0 in Z. unfold total. lia.
  - intros m0 m1 l0 s0 s1 i St K _ _ Ll. split; [rewrite (st_ids _ _ _ _ St); auto|]. intros k [H1 H2].
    assert (Z := left_over_step _ _ _ _ St). assert (T := total_step _ _ _ _ St). split; [lia|]. rewrite Nat.mul_succ_r. lia.
  - apply init_consistent.
  - apply init_same; auto.
  - assert (F := enough_fuel _ I). rewrite init_same in F by auto. exact F.
  - exists s', m', k. split; auto. rewrite init_left_over in G1 by (auto; rewrite init_same by auto; intros x y H; rewrite init_same by auto; apply pairs_In; auto).
    rewrite init_same in G1 by auto. split; [exact G1|]. unfold total in G2. rewrite !init_effort in G2. fold k0. lia.
Qed.

(*EX
Example C133_range_ex : nb_different [a; b; c; d; e] truth = 6 /\ loop_from (fun l k => firstn k (rev l)) 2 (init [a; b; c; d; e]) = Ok (4, []) /\
  loop_from (prefer (differ truth)) 1 (init [a; b; c; d; e]) = Ok (9, []) /\
  loop_from (prefer (fun p => negb (differ truth p))) 1 (init [a; b; c; d; e]) = Ok (4, []).
Proof. repeat split; vm_compute; reflexivity. Qed.
EX*)

(** The draws do not depend on the iteration. *)
Section Exact.
  Variables vec D : Type.
  Variable pairwise : list vec -> nat -> nat -> D.
  Variable ltb : D -> D -> bool.
  Variable truth : pystr -> nat.
  Variable added_too : bool.
  Variable s : sampler vec D.
  Variable il : list pystr.
  Hypothesis ND : NoDup il.
  Variable p : pystr * pystr -> bool.
  Hypothesis Sym : forall u v, p (u, v) = p (v, u).
  Variable P : list (pystr * pystr).
  Hypothesis WP : forall x y, In (x, y) P -> In x il /\ In y il.
  Variable J : mgr -> Prop.
  Hypothesis J0 : J (init il).
  Hypothesis J1 : forall x y m m', step truth [(x, y)] m m' -> ids m = il -> J m ->
    p (x, y) = true \/ (p (x, y) = false /\
    forall u v, In u (ids m) -> In v (ids m) -> u <> v -> p (u, v) = true -> linked (sml m) u v \/ separated (sml m) (scl m) u v) ->
    J m' /\ S (left_over truth P m') = left_over truth P m.

  Lemma exact_rounds : exists s' m',
    annotation_loop vec D pairwise ltb (fun _ => prefer p) truth (mkOptions None None added_too true) 1 None (S (length il * (length il - 1) / 2)) 0 (s, init il)
      = ((s', m'), Ok ((length il - nb_of_clusters il truth) + length (filter (differ truth) P), [])).
  Proof.
    assert (R := run_reachable il [] : reachable (init il)). assert (I := init_inv il).
    destruct (loop_count vec D pairwise ltb (fun _ => prefer p) truth (mkOptions None None added_too true) 1 None (fun _ => prefer_valid p) eq_refl (Z.le_refl 1) eq_refl
      (fun m0 => ids m0 = il /\ J m0) (fun k m0 => k = left_over truth P m0)) with
      (fuel := S (length il * (length il - 1) / 2)) (m := init il) (s := s) (i := 0) as (s' & m' & k & E & G); auto.
    - intros m R0 C0 [K _] CP. symmetry. apply left_over_end; auto. intros x y H. rewrite K. auto.
    - intros m0 m1 l0 s0 s1 i St [K HJ] _ Es _.
      destruct (picked vec D pairwise ltb p truth (mkOptions None None added_too true) s0 s1 m0 m1 l0 Sym eq_refl eq_refl St Es) as (x & y & -> & Q).
      destruct (J1 x y m0 m1 St K HJ Q) as [J' L]. split; [split; auto; rewrite (st_ids _ _ _ _ St); auto|]. intros k ->. exact L.
    - apply init_consistent.
    - split; [lia|]. cbn. split; intro X; congruence.
    - split; auto. apply init_same; auto.
    - assert (F := enough_fuel _ I). rewrite init_same in F by auto. exact F.
    - rewrite init_left_over in G by (auto; intros x y H; rewrite init_same by auto; auto). subst k. exists s', m'. exact E.
  Qed.
End Exact.

Lemma differ_sym truth u v : differ truth (u, v) = differ truth (v, u).
Proof. unfold differ. cbn [fst snd]. rewrite Nat.eqb_sym. auto. Qed.

(*PROP C133: the upper bound is attained whatever the groups: when the draws favour data of different groups. *)
Lemma C133_most_attained_proof :
  forall vec D pairwise ltb truth without_added s ids, NoDup ids -> exists draw, valid_draw draw /\ exists s' m',
    annotation_loop vec D pairwise ltb (fun _ => draw) truth (mkOptions None None without_added true) 1 None (S (length ids * (length ids - 1) / 2)) 0 (s, init ids)
      = ((s', m'), Ok ((length ids - nb_of_clusters ids truth) + nb_different ids truth, [])).
Proof.
  intros vec D pw ltb truth wa s il ND. exists (prefer (differ truth)). split; [apply prefer_valid|].
  apply (exact_rounds vec D pw ltb truth wa s il ND (differ truth) (differ_sym truth) (pairs il) (pairs_In il)
    (fun m => (forall x y, linked (sml m) x y -> x = y) \/ (forall x y, In x il -> In y il -> truth x <> truth y -> separated (sml m) (scl m) x y))).
  - left. apply init_linked.
  - intros x y m m' St K HJ Q. assert (I := reachable_inv _ (st_reach _ _ _ _ St)). assert (I' := reachable_inv _ (st_reach' _ _ _ _ St)).
    assert (K' : ids m' = il) by (rewrite (st_ids _ _ _ _ St); auto).
    destruct (st_unknown _ _ _ _ St x y (or_introl eq_refl)) as (Ix & Iy & Nxy & NL & NS). rewrite K in Ix, Iy.
    destruct Q as [Q|[Q Q']].
    + apply differ_spec in Q. destruct HJ as [HJ|HJ]; [|exfalso; apply NS; auto].
      destruct (one_cannot _ _ _ _ _ St Q) as (C1 & C2 & C3). split; [left; intros u v L; apply C2 in L; auto|].
      unfold left_over. rewrite C1, K, K'. rewrite <- Nat.add_succ_r. f_equal. symmetry.
      assert (G : forall a b, In (a, b) (pairs il) -> same_unordered x y a b ->
        length (filter (unseen truth m) (pairs il)) = S (length (filter (unseen truth m') (pairs il)))).
      { intros a b Pab U. apply (count_one _ _ (a, b)); auto.
        - apply pairs_NoDup; auto.
        - apply not_true_iff_false. destruct (pairs_In _ _ _ Pab). rewrite unseen_spec by (rewrite ?K'; auto). intros [_ Z]. apply Z. apply C3. right.
          destruct U as [[-> ->]|[-> ->]]; [left|right]; split; constructor.
        - destruct (pairs_In _ _ _ Pab). apply unseen_spec; rewrite ?K; auto. destruct U as [[-> ->]|[-> ->]]; split; auto. intro Z. apply NS, separated_sym; auto.
        - intros [u v] Puv N. destruct (pairs_In _ _ _ Puv). apply eq_true_iff_eq. rewrite !unseen_spec by (rewrite ?K, ?K'; auto). rewrite C3.
          split; intros [A B]; split; auto; intro Z.
          destruct Z as [Z|Z]; auto. apply N. assert (Z' : same_unordered x y u v).
          { destruct Z as [[Z1 Z2]|[Z1 Z2]]; apply HJ in Z1; apply HJ in Z2; subst; [left|right]; auto. }
          destruct U as [[-> ->]|[-> ->]], Z' as [[-> ->]|[-> ->]]; auto; exfalso; eapply (pairs_once il); eauto. }
      destruct (pairs_total il x y Ix Iy Nxy) as [Pxy|Pxy]; apply (G _ _ Pxy); [left|right]; auto.
    + assert (T : truth x = truth y) by (destruct (Nat.eq_dec (truth x) (truth y)) as [T|T]; auto; apply differ_spec in T; congruence).
      destruct (one_must _ _ _ _ _ St T) as [C1 _].
      assert (HS : forall u v, In u il -> In v il -> truth u <> truth v -> separated (sml m) (scl m) u v).
      { intros u v Iu Iv N. assert (Nuv : u <> v) by (intros ->; auto). assert (Duv := proj2 (differ_spec truth u v) N).
        rewrite <- K in Iu, Iv. destruct (Q' u v Iu Iv Nuv Duv) as [L|L]; auto. exfalso. apply N. apply (sat_linked m truth u v I (st_cons _ _ _ _ St) L). }
      assert (HS' : forall u v, In u il -> In v il -> truth u <> truth v -> separated (sml m') (scl m') u v).
      { intros u v Iu Iv N. eapply step_separated; eauto. }
      split; [right; auto|]. unfold left_over. rewrite K, K'.
      assert (F : forall m0, Inv m0 -> ids m0 = il -> (forall u v, In u il -> In v il -> truth u <> truth v -> separated (sml m0) (scl m0) u v) -> filter (unseen truth m0) (pairs il) = []).
      { intros m0 I0 K0 H0. apply filter_none. intros [u v] Puv. destruct (pairs_In _ _ _ Puv). apply not_true_iff_false. rewrite unseen_spec by (rewrite ?K0; auto).
        intros [A B]. apply B. auto. }
      rewrite !F by auto. assert (B := nb_max m' truth I' (st_cons' _ _ _ _ St)). rewrite K' in B. simpl. lia.
Qed.

(*PROP C133: so is the lower bound, when they favour data of the same group. *)
Lemma C133_least_attained_proof :
  forall vec D pairwise ltb truth without_added s ids, NoDup ids -> exists draw, valid_draw draw /\ exists s' m' rounds,
    annotation_loop vec D pairwise ltb (fun _ => draw) truth (mkOptions None None without_added true) 1 None (S (length ids * (length ids - 1) / 2)) 0 (s, init ids)
      = ((s', m'), Ok (rounds, [])) /\
    2 * rounds = 2 * (length ids - nb_of_clusters ids truth) + nb_of_clusters ids truth * (nb_of_clusters ids truth - 1).
Proof.
  intros vec D pw ltb truth wa s il ND. set (same := fun q => negb (differ truth q)). exists (prefer same). split; [apply prefer_valid|].
  set (cs := centres truth il). assert (NC : NoDup cs) by (apply NoDup_filter; auto).
  assert (Ics : forall x, In x cs -> In x il) by (intros x H; apply filter_In in H; tauto).
  assert (WP : forall x y, In (x, y) (pairs cs) -> In x il /\ In y il) by (intros x y H; apply pairs_In in H; destruct H; auto).
  assert (DP : forall x y, In (x, y) (pairs cs) -> truth x <> truth y).
  { intros x y H T. assert (H' := pairs_In _ _ _ H). apply (pairs_neq _ _ _ NC) in H. apply H. eapply (centres_inj truth il); unfold cs in *; tauto. }
  destruct (exact_rounds vec D pw ltb truth wa s il ND same) with (P := pairs cs)
    (J := fun m => (forall x y, ~ separated (sml m) (scl m) x y) \/ (forall x y, In x il -> In y il -> truth x = truth y -> linked (sml m) x y)) as (s' & m' & E); auto.
  - intros u v. unfold same. rewrite differ_sym. auto.
  - left. apply init_separated.
  - intros x y m m' St K HJ Q. assert (I := reachable_inv _ (st_reach _ _ _ _ St)). assert (I' := reachable_inv _ (st_reach' _ _ _ _ St)).
    assert (K' : ids m' = il) by (rewrite (st_ids _ _ _ _ St); auto).
    destruct (st_unknown _ _ _ _ St x y (or_introl eq_refl)) as (Ix & Iy & Nxy & NL & NS). rewrite K in Ix, Iy.
    assert (SP : forall u v, same (u, v) = true <-> truth u = truth v).
    { intros u v. unfold same, differ. cbn [fst snd]. rewrite negb_involutive. apply Nat.eqb_eq. }
    destruct Q as [Q|[Q Q']].
    + apply SP in Q. destruct HJ as [HJ|HJ]; [|exfalso; apply NL; auto]. destruct (one_must _ _ _ _ _ St Q) as [C1 C2].
      assert (HJ' : forall u v, ~ separated (sml m') (scl m') u v).
      { intros u v Z. apply added_separated in Z; auto. destruct Z as (a & b & _ & _ & Z).
        assert (Z' : added m CANNOT_LINK a b \/ added m CANNOT_LINK b a) by (destruct Z as [Z|Z]; apply C2 in Z; auto).
        apply (HJ a b). apply added_separated; auto. exists a, b. split; [constructor|]. split; [constructor|]. exact Z'. }
      split; [left; auto|]. unfold left_over. rewrite K, K'.
      assert (F : filter (unseen truth m') (pairs cs) = filter (unseen truth m) (pairs cs)).
      { apply filter_ext_in. intros [u v] Puv. destruct (WP _ _ Puv). apply eq_true_iff_eq. rewrite !unseen_spec by (rewrite ?K, ?K'; auto).
        split; intros [A _]; split; auto. }
      rewrite F. assert (B := nb_max m' truth I' (st_cons' _ _ _ _ St)). rewrite K' in B. lia.
    + assert (T : truth x <> truth y) by (intro T; apply SP in T; congruence).
      destruct (one_cannot _ _ _ _ _ St T) as (C1 & C2 & C3).
      assert (HL : forall u v, In u il -> In v il -> truth u = truth v -> linked (sml m) u v).
      { intros u v Iu Iv E. destruct (eqb_spec u v) as [->|N]; [constructor|]. assert (Suv := proj2 (SP u v) E).
        rewrite <- K in Iu, Iv. destruct (Q' u v Iu Iv N Suv) as [L|L]; auto. exfalso. apply (sat_separated m truth u v I (st_cons _ _ _ _ St) L). exact E. }
      split; [right; intros u v Iu Iv Tuv; apply C2; auto|].
      assert (LT : forall u v, linked (sml m) u v -> truth u = truth v) by (intros u v L; apply (sat_linked m truth u v I (st_cons _ _ _ _ St) L)).
      unfold left_over. rewrite C1, K, K', <- Nat.add_succ_r. f_equal. symmetry.
      destruct (centre_spec truth il x Ix) as [Icx Ecx], (centre_spec truth il y Iy) as [Icy Ecy].
      assert (Ccx := centre_centres truth il x Ix). assert (Ccy := centre_centres truth il y Iy). fold cs in Ccx, Ccy.
      set (cx := centre truth il x) in *. set (cy := centre truth il y) in *.
      assert (Ncc : cx <> cy) by congruence.
      assert (G : forall a b, In (a, b) (pairs cs) -> same_unordered cx cy a b ->
        length (filter (unseen truth m) (pairs cs)) = S (length (filter (unseen truth m') (pairs cs)))).
      { intros a b Pab U. apply (count_one _ _ (a, b)); auto.
        - apply pairs_NoDup; auto.
        - apply not_true_iff_false. destruct (WP _ _ Pab). rewrite unseen_spec by (rewrite ?K'; auto). intros [_ Z]. apply Z. apply C3. right.
          destruct U as [[-> ->]|[-> ->]]; [left|right]; split; apply HL; auto.
        - destruct (WP _ _ Pab). apply unseen_spec; rewrite ?K; auto. split; [apply DP; auto|]. intro Z. apply NS.
          assert (Z' : separated (sml m) (scl m) cx cy) by (destruct U as [[-> ->]|[-> ->]]; auto; apply separated_sym; auto).
          eapply separated_linked_l; [|eapply separated_linked_r; [|exact Z']]; apply HL; auto.
        - intros [u v] Puv N. destruct (WP _ _ Puv). assert (Puv' := pairs_In _ _ _ Puv). destruct Puv' as [Cu Cv].
          apply eq_true_iff_eq. rewrite !unseen_spec by (rewrite ?K, ?K'; auto). rewrite C3.
          split; intros [A B]; split; auto; intro Z.
          destruct Z as [Z|Z]; auto. apply N.
          assert (Z' : same_unordered cx cy u v).
          { destruct Z as [[Z1 Z2]|[Z1 Z2]]; apply LT in Z1; apply LT in Z2; [left|right]; split; apply (centres_inj truth il); auto; congruence. }
          destruct U as [[-> ->]|[-> ->]], Z' as [[-> ->]|[-> ->]]; auto; exfalso; eapply (pairs_once cs); eauto. }
      destruct (pairs_total cs cx cy Ccx Ccy Ncc) as [Pxy|Pxy]; apply (G _ _ Pxy); [left|right]; auto.
  - exists s', m', ((length il - nb_of_clusters il truth) + length (filter (differ truth) (pairs cs))). split; [exact E|].
    rewrite EffortThms.filter_true by (intros [u v] H; apply differ_spec; auto). assert (L := pairs_length cs).
    assert (Lc : length cs = nb_of_clusters il truth) by (apply centres_length; auto). rewrite Lc in L. lia.
Qed.
