(** * Proofs about sessions with any annotator (see Annotator.v) *)

From Coq Require Import String List Bool Arith ZArith QArith Lia Permutation.
From Verif Require Import Base Manager Spec Closure ManagerProofs ManagerInv ManagerQueries ManagerSem ManagerThms JsonThms
  Sampling SamplingSpec SamplingProofs SamplingThms Loop LoopThms Annotator AnnotatorSpec.
Import ListNotations.
Open Scope nat_scope.
Open Scope py_scope.
Notation ids m := (keys (cdict m)).

(*HEADER
From Coq Require Import String List Bool Arith ZArith QArith Permutation.
From Verif Require Import Base Manager Spec ManagerThms Sampling SamplingSpec Loop LoopThms Annotator AnnotatorSpec AnnotatorThms.
Import ListNotations.
Open Scope nat_scope.

Definition a := str "a". Definition b := str "b". Definition c := str "c". Definition d := str "d".
HEADER*)

Lemma opposite_MUST : opposite MUST_LINK = CANNOT_LINK. Proof. reflexivity. Qed.
Lemma opposite_CANNOT : opposite CANNOT_LINK = MUST_LINK. Proof. reflexivity. Qed.
Lemma opposite_differs t : opposite t <> t.
Proof. unfold opposite. destruct (eqb_spec t MUST_LINK) as [->|N]; [|congruence]. intro X. apply (f_equal (eqb CANNOT_LINK)) in X. discriminate. Qed.

(** What later annotations keep. *)
Record grows (m m' : mgr) : Prop := {
  g_reach : reachable m';
  g_ids : ids m' = ids m;
  g_ml : forall x y, linked (sml m) x y -> linked (sml m') x y;
  g_cl : forall x y, separated (sml m) (scl m) x y -> separated (sml m') (scl m') x y }.
Lemma grows_refl m : reachable m -> grows m m.
Proof. constructor; auto. Qed.
Lemma grows_trans m1 m2 m3 : grows m1 m2 -> grows m2 m3 -> grows m1 m3.
Proof. intros [] []. constructor; auto. congruence. Qed.
Lemma grows_infer m m' p q t : reachable m -> grows m m' -> In p (ids m) -> In q (ids m) -> infer m p q = Some t -> infer m' p q = Some t.
Proof.
  intros R G Ip Iq E. assert (I := reachable_inv _ R). assert (I' := reachable_inv _ (g_reach _ _ G)). assert (K := g_ids _ _ G).
  destruct (infer_cases m p q) as [F|[F|F]]; rewrite F in E; injection E as <- || discriminate E.
  - apply infer_ML; auto; try (rewrite K; auto). apply (g_ml _ _ G). apply infer_ML; auto.
  - apply infer_CL; auto; try (rewrite K; auto). apply (g_cl _ _ G). apply infer_CL; auto.
Qed.

(** One annotation. *)
Lemma one_annotation m p q t : reachable m ->
  (exists m', add_constraint p q t 1%Q m = (m', Ok true) /\ grows m m' /\ In p (ids m) /\ In q (ids m) /\ allowed t /\ infer m' p q = Some t /\
     (forall u x y, added m' u x y <-> added m u x y \/ (u = t /\ same_unordered p q x y))) \/
  (add_constraint p q t 1%Q m = (m, Raise ValueError) /\ (In p (ids m) -> In q (ids m) -> allowed t -> infer m p q = Some (opposite t))).
Proof.
  intro R. assert (I := reachable_inv _ R). destruct (accepts m p q t) eqn:A.
  - left. destruct (run_add_constraint m p q t 1%Q I A) as (m' & Run & I' & K & _). exists m'. split; auto.
    assert (AL : add_all [(p, q, t)] m = (m', Ok tt)) by (unfold add_all; cbn [for_ fst snd]; unfold bind at 1; unfold bind at 1; rewrite Run; reflexivity).
    destruct (add_all_ok _ _ _ I AL) as (_ & _ & AD & V). destruct (V p q t (or_introl eq_refl)) as (Ip & Iq & T).
    assert (AD1 : forall u x y, added m' u x y <-> added m u x y \/ (u = t /\ same_unordered p q x y)).
    { intros u x y. rewrite AD. split; intros [H|H]; auto; right.
      - destruct H as (a & b & [J|[]] & S). injection J as <- <- <-. auto.
      - destruct H as [-> S]. exists p, q. split; [left|]; auto. }
    assert (R' := add_all_reachable _ _ _ R AL).
    assert (ML : forall x y, linked (sml m) x y -> linked (sml m') x y).
    { intros x y L. apply added_linked; auto. apply (linked_mono (added_must m)); [intros a b H; apply AD1; auto|apply added_linked; auto]. }
    split; [constructor; auto|].
    + intros x y S. apply added_separated; auto. apply added_separated in S; auto. destruct S as (u & v & L1 & L2 & S). exists u, v.
      assert (MM : forall a b, added_must m a b -> added_must m' a b) by (intros; apply AD1; auto).
      split; [eapply linked_mono; eauto|]. split; [eapply linked_mono; eauto|]. destruct S; [left|right]; apply AD1; auto.
    + split; auto. split; auto. split; auto. split; auto. destruct T as [-> | ->].
      * apply infer_ML; auto; try (rewrite K; auto). apply added_linked; auto. eapply linked_step; [constructor|]. left. apply AD1. right. split; auto. left; auto.
      * apply infer_CL; auto; try (rewrite K; auto). apply added_separated; auto. exists p, q. split; [constructor|]. split; [constructor|]. left. apply AD1. right. split; auto. left; auto.
  - right. rewrite run_add_constraint_raise by auto. split; auto. intros Ip Iq T. unfold accepts in A.
    assert (both m p q = true) as B by (apply both_true; auto). rewrite B in A. assert (mem t allowed_types = true) as TT by (apply allowed_spec; auto). rewrite TT in A. cbn [andb] in A.
    destruct (infer_cases m p q) as [F|[F|F]]; rewrite F in *; destruct T as [-> | ->]; try discriminate A; auto.
Qed.

(** What a log says about the manager before and after. *)
Record logged (m : mgr) (log : list (annotation * bool)) (m' : mgr) : Prop := {
  l_grows : grows m m';
  l_yes : forall p q t, In ((p, q, t), true) log -> In p (ids m) /\ In q (ids m) /\ allowed t /\ infer m' p q = Some t;
  l_no : forall p q t, In ((p, q, t), false) log -> In p (ids m) -> In q (ids m) -> allowed t -> infer m' p q = Some (opposite t);
  l_added : forall u x y, added m' u x y <-> added m u x y \/ exists p q, In ((p, q, u), true) log /\ same_unordered p q x y }.

Lemma logged_nil m : reachable m -> logged m [] m.
Proof. intro R. constructor; [apply grows_refl; auto|intros ? ? ? []|intros ? ? ? []|]. intros u x y. split; auto. intros [H|(p & q & [] & _)]; auto. Qed.
Lemma logged_app m1 m2 m3 l1 l2 : reachable m2 -> logged m1 l1 m2 -> logged m2 l2 m3 -> logged m1 (l1 ++ l2) m3.
Proof.
  intros R L1 L2. assert (K := g_ids _ _ (l_grows _ _ _ L1)). constructor.
  - eapply grows_trans; [apply (l_grows _ _ _ L1)|apply (l_grows _ _ _ L2)].
  - intros p q t J. apply in_app_or in J. destruct J as [J|J].
    + destruct (l_yes _ _ _ L1 p q t J) as (Ip & Iq & T & E). split; auto. split; auto. split; auto. apply (grows_infer m2 m3); auto; try (rewrite K; auto). apply (l_grows _ _ _ L2).
    + rewrite <- K. apply (l_yes _ _ _ L2 p q t J).
  - intros p q t J Ip Iq T. apply in_app_or in J. destruct J as [J|J].
    + assert (E := l_no _ _ _ L1 p q t J Ip Iq T). apply (grows_infer m2 m3); auto; try (rewrite K; auto). apply (l_grows _ _ _ L2).
    + apply (l_no _ _ _ L2 p q t J); auto; rewrite K; auto.
  - intros u x y. rewrite (l_added _ _ _ L2), (l_added _ _ _ L1). split.
    + intros [[H|(p & q & J & S)]|(p & q & J & S)]; auto; right; exists p, q; split; auto; apply in_or_app; auto.
    + intros [H|(p & q & J & S)]; auto. apply in_app_or in J. destruct J as [J|J]; [left; right|right]; exists p, q; auto.
Qed.

Lemma record_runs l : forall m, reachable m -> exists m' log, record_annotations l m = (m', Ok log) /\ logged m log m' /\ map fst log = l /\
  (forall c l', l = c :: l' -> In (fst (fst c)) (ids m) -> In (snd (fst c)) (ids m) -> allowed (snd c) -> infer m (fst (fst c)) (snd (fst c)) = None ->
     exists log', log = (c, true) :: log').
Proof.
  induction l as [|[[p q] t] l IH]; intros m R.
  - exists m, []. split; [reflexivity|]. split; [apply logged_nil; auto|]. split; auto. intros c l' E. discriminate E.
  - cbn [record_annotations fst snd]. destruct (one_annotation m p q t R) as [(m1 & E & G & Ip & Iq & T & F & AD)|[E NO]]; rewrite E.
    + assert (R1 := g_reach _ _ G). destruct (IH m1 R1) as (m2 & log & E2 & L2 & M2 & _). exists m2, (((p, q, t), true) :: log).
      split; [unfold bind, ret; rewrite E2; reflexivity|]. split; [|split; [cbn; congruence|]].
      * apply (logged_app m m1 m2 [((p, q, t), true)] log R1); auto. constructor; auto.
        -- intros p' q' t' [J|[]]. injection J as <- <- <-. auto.
        -- intros p' q' t' [J|[]]. discriminate J.
        -- intros u x y. rewrite AD. split; intros [H|H]; auto; right.
           ++ destruct H as [-> S]. exists p, q. split; [left|]; auto.
           ++ destruct H as (p' & q' & [J|[]] & S). injection J as <- <- <-. auto.
      * intros c l' X. injection X as <- <-. intros. exists log. auto.
    + destruct (IH m R) as (m2 & log & E2 & L2 & M2 & _). exists m2, (((p, q, t), false) :: log).
      split; [unfold bind, ret; rewrite E2; reflexivity|]. split; [|split; [cbn; congruence|]].
      * apply (logged_app m m m2 [((p, q, t), false)] log R); auto. constructor; auto using grows_refl.
        -- intros p' q' t' [J|[]]. discriminate J.
        -- intros p' q' t' [J|[]]. injection J as <- <- <-. auto.
        -- intros u x y. split; auto. intros [H|(p' & q' & [J|[]] & S)]; auto. discriminate J.
      * intros c l' X. injection X as <- <-. cbn [fst snd]. intros Ip Iq T N. rewrite (NO Ip Iq T) in N. discriminate N.
Qed.

Lemma undecided_grows m m' : reachable m -> grows m m' -> nb_undecided m' <= nb_undecided m.
Proof.
  intros R G. unfold nb_undecided. rewrite (g_ids _ _ G). apply filter_length_le. intros [p q] J U. apply in_prod_iff in J. unfold undecided in *. cbn [fst snd] in *.
  apply andb_true_iff in U. destruct U as [U1 U2]. rewrite U1. cbn [andb]. destruct (infer m p q) eqn:F; auto. rewrite (grows_infer m m' p q p0 R G) in U2 by tauto. discriminate U2.
Qed.
Lemma undecided_decreases m m' p q t : reachable m -> grows m m' -> In p (ids m) -> In q (ids m) -> str_ltb p q = true -> infer m p q = None -> infer m' p q = Some t ->
  nb_undecided m' < nb_undecided m.
Proof.
  intros R G Ip Iq LT N S. unfold nb_undecided. rewrite (g_ids _ _ G). apply filter_length_lt with (x := (p, q)).
  - intros [x y] J U. apply in_prod_iff in J. unfold undecided in *. cbn [fst snd] in *. apply andb_true_iff in U. destruct U as [U1 U2]. rewrite U1. cbn [andb].
    destruct (infer m x y) eqn:F; auto. rewrite (grows_infer m m' x y p0 R G) in U2 by tauto. discriminate U2.
  - apply in_prod; auto.
  - unfold undecided. cbn [fst snd]. rewrite LT, S. auto.
  - unfold undecided. cbn [fst snd]. rewrite LT, N. auto.
Qed.

Lemma filter_shorter {T} (f : T -> bool) l : length (filter f l) <= length l.
Proof. induction l as [|x l IH]; cbn; auto. destruct (f x); cbn; lia. Qed.

Section Session.
  Variables vec D : Type.
  Variable pairwise : list vec -> nat -> nat -> D.
  Variable ltb : D -> D -> bool.
  Variable draws : nat -> list (pystr * pystr) -> nat -> list (pystr * pystr).
  Variable annotator : nat -> list (pystr * pystr) -> list annotation.
  Variable o : options.
  Variable nb : Z.
  Variable vs : option (dict pystr vec).
  Hypothesis VD : forall i, valid_draw (draws i).
  Hypothesis OC : o_clusters o = None.
  Notation loop := (free_loop vec D pairwise ltb draws annotator o nb vs).

  Lemma loop_logged n : forall m s i, reachable m -> valid_arguments o m nb None vs ->
    exists s' m' k log, loop n i (s, m) = ((s', m'), Ok (i + k, log)) /\ k <= n /\ logged m log m' /\ (k < n -> complete m') /\
      (o_without_inferred o = true -> (1 <= nb)%Z -> answers_everything annotator ->
         nb_undecided m' + k <= nb_undecided m /\ refusals log + k <= length log /\ length log <= k * Z.to_nat nb /\
         forall p q t acc, In ((p, q, t), acc) log -> In p (ids m) /\ In q (ids m) /\ allowed t).
  Proof.
    induction n as [|n IH]; intros m s i R VA; cbn [free_loop].
    - exists s, m, 0, []. split; [unfold ret; do 3 f_equal; lia|]. split; auto. split; [apply logged_nil; auto|]. split; [lia|]. intros. cbn. repeat split; try lia; contradiction.
    - assert (I := reachable_inv _ R). destruct (C14_completude_exact_proof m R) as (bb & Eb & _).
      assert (Q : check_completude_of_constraints m = (m, Ok bb)).
      { destruct (run_completude m I) as (b' & Eb' & _). unfold ask in Eb. rewrite Eb' in Eb. cbn [snd] in Eb. rewrite Eb'. f_equal. auto. }
      unfold bind at 1. unfold on_mgr at 1. cbn [fst snd]. rewrite Q. destruct bb.
      + exists s, m, 0, []. split; [unfold ret; do 3 f_equal; lia|]. split; [lia|]. split; [apply logged_nil; auto|]. split; auto. intros. cbn. repeat split; try lia; contradiction.
      + assert (NC : ~ complete m) by (unfold complete; congruence).
        destruct (sample_psample vec D pairwise ltb (draws i) o nb None vs s m I) as [s1 E].
        destruct (C28_sampling_count_proof vec D pairwise ltb (draws i) o nb None vs s m (VD i) R VA) as (l & El & CNT).
        assert (Er := El). unfold result in El. rewrite E in El. cbn [snd] in El. rewrite El in E.
        unfold bind at 1. rewrite E. unfold bind at 1. unfold on_mgr at 1. cbn [fst snd].
        destruct (record_runs (annotator i l) m R) as (m1 & log & E1 & L1 & M1 & F1). rewrite E1.
        assert (R1 := g_reach _ _ (l_grows _ _ _ L1)). assert (K1 := g_ids _ _ (l_grows _ _ _ L1)).
        destruct (IH m1 s1 (S i) R1) as (s2 & m2 & k & log2 & E2 & LE & L2 & CP & CO).
        { apply (valid_arguments_ids vec (fun _ => 0) o nb vs OC m); auto. }
        unfold bind at 1. rewrite E2. exists s2, m2, (S k), (log ++ log2).
        split; [unfold ret; cbn [fst snd]; do 3 f_equal; lia|]. split; [lia|]. split; [eapply logged_app; eauto|]. split; [intro; apply CP; lia|].
        intros OI NB AE. destruct (CO OI NB AE) as (C1 & C2 & C3 & C4). destruct (AE i l) as [A1 A2].
        destruct (C27_sampled_pairs_eligible_proof vec D pairwise ltb (draws i) o nb None vs s m l (VD i) R Er) as (ND & ELG).
        destruct l as [|[x y] l'].
        { exfalso. apply NC. eapply (C30_exhausted_iff_complete_proof vec D pairwise ltb (draws i) o nb None vs s m); eauto. }
        assert (EL := ELG (x, y) (or_introl eq_refl)). destruct EL as (Mx & My & LT & _ & _ & _ & IN).
        assert (Ix := Mx). assert (Iy := My). apply managed_ids in Ix. apply managed_ids in Iy. specialize (IN OI). apply inferred_spec in IN; auto.
        destruct (annotator i ((x, y) :: l')) as [|[[x' y'] t] an] eqn:AN; [discriminate A1|]. cbn [map fst] in A1. injection A1 as -> -> A1.
        assert (T : allowed t) by (apply (A2 ((x, y), t)); left; auto).
        destruct (F1 _ _ eq_refl Ix Iy T IN) as [log' ->].
        assert (G : infer m1 x y = Some t) by (apply (l_yes _ _ _ L1); left; auto).
        assert (UD := undecided_decreases m m1 x y t R (l_grows _ _ _ L1) Ix Iy LT IN G).
        assert (LEN : length ((x, y, t, true) :: log') <= Z.to_nat nb).
        { assert (LL := f_equal (@length _) M1). rewrite map_length in LL. assert (LA := f_equal (@length _) A1). rewrite map_length in LA.
          apply (Nat.le_trans _ (length ((x, y) :: l'))); [unfold annotation in *; cbn in LL |- *; lia|].
          destruct (eligible_pairs_total vec D o m None I) as [all EA]; [congruence|]. destruct (eligible_pairs_spec vec D o m None all I EA) as (NDA & ELA & _).
          rewrite (CNT all NDA) by (intro; rewrite ELA; tauto). apply Nat.le_min_l. }
        split; [lia|]. split.
        * unfold refusals in *. rewrite filter_app, !app_length. cbn [filter snd negb length]. assert (FL := filter_shorter (fun e : annotation * bool => negb (snd e)) log'). lia.
        * split; [rewrite app_length, Nat.mul_succ_l; unfold annotation in *; lia|].
          intros p q u acc J. apply in_app_or in J. destruct J as [J|J]; [|rewrite <- K1; eapply C4; eauto].
          apply (in_map fst) in J. rewrite M1 in J. cbn [fst] in J. split; [|split; [|apply (A2 ((p, q), u)); auto]].
          all: assert (J' := in_map fst _ _ J); cbn [map fst] in J'; rewrite A1 in J'; destruct (ELG (p, q) J') as (Mp & Mq & _); apply managed_ids; auto.
  Qed.
End Session.

(*PROP C106: adding any annotations, as the loops do, never fails on a reachable manager; what is reported is exactly what was refused, in order. *)
Lemma C106_refused_reported_proof :
  forall l m, reachable m -> exists m' log,
    record_annotations l m = (m', Ok log) /\ map fst log = l /\ add_annotations l m = (m', Ok (map fst (filter (fun e => negb (snd e)) log))).
Proof.
  induction l as [|[[p q] t] l IH]; intros m R; [exists m, []; auto|].
  cbn [record_annotations add_annotations fst snd]. destruct (one_annotation m p q t R) as [(m1 & E & G & _)|[E NO]]; rewrite E.
  - destruct (IH m1 (g_reach _ _ G)) as (m' & log & E1 & M1 & E2). exists m', ((p, q, t, true) :: log). unfold bind. rewrite E1, E2. cbn. rewrite M1. auto.
  - destruct (IH m R) as (m' & log & E1 & M1 & E2). exists m', ((p, q, t, false) :: log). unfold bind. rewrite E1, E2. cbn. rewrite M1. auto.
Qed.

(*EX
Example C106_refused_ex :
  snd (add_annotations [(a, b, MUST_LINK); (b, c, MUST_LINK); (a, c, CANNOT_LINK); (a, d, str "?"); (c, d, CANNOT_LINK)] (init [a; b; c; d])) =
  Ok [(a, c, CANNOT_LINK); (a, d, str "?")].
Proof. vm_compute. reflexivity. Qed.
EX*)

(*PROP C106: whatever the annotator answers, a session only stops early when everything is decided; an annotation is accepted exactly when it is kept: at the end, the added constraints are the former ones and the accepted annotations; every accepted annotation is inferred as given, and the opposite of every well-formed refused one is inferred. *)
Lemma C106_any_annotator_proof :
  forall vec D pairwise ltb draws annotator o nb vectors s m patience,
    (forall i, valid_draw (draws i)) -> o_clusters o = None -> reachable m -> valid_arguments (vec := vec) o m nb None vectors ->
    exists s' m' rounds log,
      free_loop vec D pairwise ltb draws annotator o nb vectors patience 0 (s, m) = ((s', m'), Ok (rounds, log)) /\
      rounds <= patience /\ (rounds < patience -> complete m') /\ reachable m' /\
      ask get_list_of_managed_data_IDs m' = ask get_list_of_managed_data_IDs m /\
      (forall t p q, added m' t p q <-> added m t p q \/ exists a b, In ((a, b, t), true) log /\ same_unordered a b p q) /\
      (forall a b t, In ((a, b, t), true) log -> managed m a /\ managed m b /\ allowed t /\ inferred m' a b (Some t)) /\
      (forall a b t, In ((a, b, t), false) log -> managed m a -> managed m b -> allowed t -> inferred m' a b (Some (opposite t))).
Proof.
  intros vec D pw ltb draws an o nb vs s m n VD OC R VA.
  destruct (loop_logged vec D pw ltb draws an o nb vs VD OC n m s 0 R VA) as (s' & m' & k & log & E & LE & L & CP & _).
  exists s', m', k, log. assert (G := l_grows _ _ _ L). assert (R' := g_reach _ _ G). assert (I' := reachable_inv _ R'). assert (K := g_ids _ _ G).
  split; auto. split; auto. split; auto. split; auto. split; [unfold ask; rewrite !run_managed, K; auto|]. split; [apply (l_added _ _ _ L)|]. split.
  - intros p q t J. destruct (l_yes _ _ _ L p q t J) as (Ip & Iq & T & F). rewrite !managed_ids. split; auto. split; auto. split; auto. apply inferred_spec; auto; rewrite K; auto.
  - intros p q t J Mp Mq T. rewrite managed_ids in Mp, Mq. apply inferred_spec; auto; try (rewrite K; auto). apply (l_no _ _ _ L); auto.
Qed.

(*EX
(** The annotator links a and b, b and c, then separates a and c, which is refused; it also uses an unknown ID. *)
Definition careless (i : nat) (selection : list (pystr * pystr)) : list annotation :=
  [((a, b), MUST_LINK); ((b, c), MUST_LINK); ((c, a), CANNOT_LINK); ((a, str "z"), MUST_LINK); ((a, d), CANNOT_LINK)].
Definition line_loop an nb patience m := free_loop unit unit (fun _ _ _ => tt) (fun _ _ => false) (fun _ l k => firstn k l) an (mkOptions None None true true) nb None
  patience 0 (fresh_sampler unit unit, m).
Example C106_ex : let r := line_loop careless 2%Z 5 (init [a; b; c; d]) in
  snd r = Ok (1, [(((a, b), MUST_LINK), true); (((b, c), MUST_LINK), true); (((c, a), CANNOT_LINK), false); (((a, str "z"), MUST_LINK), false); (((a, d), CANNOT_LINK), true)]) /\
  ask get_connected_components (snd (fst r)) = Ok [[a; b; c]; [d]].
Proof. vm_compute. split; reflexivity. Qed.
EX*)

(*PROP C106: no annotation is refused exactly when all of them are about managed IDs, with one of the two types, and some labelling agrees with all of them and with the former constraints. *)
Lemma C106_no_refusal_iff_proof :
  forall vec D pairwise ltb draws annotator o nb vectors s m patience s' m' rounds log,
    (forall i, valid_draw (draws i)) -> o_clusters o = None -> reachable m -> valid_arguments (vec := vec) o m nb None vectors ->
    free_loop vec D pairwise ltb draws annotator o nb vectors patience 0 (s, m) = ((s', m'), Ok (rounds, log)) ->
    (refusals log = 0 <->
     (forall a b t accepted, In ((a, b, t), accepted) log -> managed m a /\ managed m b /\ allowed t) /\
     satisfiable (fun x y => added_must m x y \/ said log MUST_LINK x y) (fun x y => added_cannot m x y \/ said log CANNOT_LINK x y)).
Proof.
  intros vec D pw ltb draws an o nb vs s m n s' m' rounds log VD OC R VA E.
  destruct (loop_logged vec D pw ltb draws an o nb vs VD OC n m s 0 R VA) as (s1 & m1 & k & log1 & E1 & _ & L & _). rewrite E1 in E. injection E as -> -> _ ->.
  assert (G := l_grows _ _ _ L). assert (R' := g_reach _ _ G). assert (I' := reachable_inv _ R'). assert (K := g_ids _ _ G).
  assert (RF : refusals log = 0 <-> forall e, In e log -> snd e = true).
  { unfold refusals. split.
    - intros Z e J. destruct (snd e) eqn:S; auto. apply length_zero_iff_nil in Z. assert (F : In e []) by (rewrite <- Z; apply filter_In; rewrite S; auto). destruct F.
    - intro A. apply length_zero_iff_nil. clear -A. induction log as [|e l IH]; auto. cbn. rewrite (A e (or_introl eq_refl)). cbn. apply IH. intros x J. apply A. right; auto. }
  rewrite RF. split.
  - intro A. split.
    + intros p q t acc J. assert (X := A _ J). cbn in X. subst acc. destruct (l_yes _ _ _ L p q t J) as (Ip & Iq & T & _). rewrite !managed_ids. auto.
    + destruct (C03_always_satisfiable_proof m' R') as ([lab [S1 S2]] & _).
      assert (SAID : forall t x y, said log t x y -> added m' t x y).
      { intros t x y (p & q & acc & J & S). assert (X := A _ J). cbn in X. subst acc. apply (l_added _ _ _ L). right. exists p, q. auto. }
      exists lab. split; intros x y [H|H].
      * apply S1. apply (l_added _ _ _ L). auto.
      * apply S1. apply SAID; auto.
      * apply S2. apply (l_added _ _ _ L). auto.
      * apply S2. apply SAID; auto.
  - intros [W [lab [S1 S2]]] [[[p q] t] acc] J. cbn [snd]. destruct acc; auto. exfalso.
    destruct (W _ _ _ _ J) as (Mp & Mq & T). rewrite managed_ids in Mp, Mq. assert (F := l_no _ _ _ L p q t J Mp Mq T).
    assert (C : satisfies (added_must m') (added_cannot m') lab).
    { split; intros x y H; apply (l_added _ _ _ L) in H; [apply S1|apply S2]; (destruct H as [H|(u & v & H & U)]; [left; auto|right; exists u, v, true; auto]). }
    assert (SD : said log t p q) by (exists p, q, false; split; auto; left; auto).
    destruct T as [-> | ->].
    + rewrite opposite_MUST in F. apply infer_CL in F; auto; try (rewrite K; auto). apply (sat_separated m' lab p q I' C F). apply S1. auto.
    + rewrite opposite_CANNOT in F. apply infer_ML in F; auto; try (rewrite K; auto). apply (S2 p q); auto. apply (sat_linked m' lab p q I' C); auto.
Qed.

(*EX
Example C106_refusal_ex : option_map (fun r => refusals (snd r)) (match snd (line_loop careless 2%Z 5 (init [a; b; c; d])) with Ok r => Some r | _ => None end) = Some 2.
Proof. reflexivity. Qed.
EX*)

(*PROP C106: an annotator who gives one of the two answers for every selected pair, even at random, decides all the pairs within n(n-1)/2 iterations; the first answer of each iteration is accepted, so with one pair at a time none is refused; the components then agree with all accepted answers and with the opposite of all refused ones. *)
Lemma C106_answers_everything_proof :
  forall vec D pairwise ltb draws annotator o nb vectors s m l patience,
    (forall i, valid_draw (draws i)) -> o_clusters o = None -> o_without_inferred o = true -> (1 <= nb)%Z -> answers_everything annotator ->
    reachable m -> valid_arguments (vec := vec) o m nb None vectors -> ask get_list_of_managed_data_IDs m = Ok l ->
    length l * (length l - 1) / 2 < patience ->
    exists s' m' rounds log components,
      free_loop vec D pairwise ltb draws annotator o nb vectors patience 0 (s, m) = ((s', m'), Ok (rounds, log)) /\
      rounds <= length l * (length l - 1) / 2 /\ complete m' /\
      length log <= rounds * Z.to_nat nb /\ refusals log + rounds <= length log /\ (nb = 1%Z -> refusals log = 0) /\
      ask get_connected_components m' = Ok components /\
      forall a b t accepted, In ((a, b, t), accepted) log ->
        ((exists c, In c components /\ In a c /\ In b c) <-> (if accepted : bool then t else opposite t) = MUST_LINK).
Proof.
  intros vec D pw ltb draws an o nb vs s m l n VD OC OI NB AE R VA EL P.
  assert (I := reachable_inv _ R). unfold ask in EL. rewrite run_managed in EL. cbn in EL. injection EL as <-.
  destruct (loop_logged vec D pw ltb draws an o nb vs VD OC n m s 0 R VA) as (s' & m' & k & log & E & LE & L & CP & CO).
  destruct (CO OI NB AE) as (C1 & C2 & C3 & C4). assert (U := nb_undecided_le m I).
  assert (U' : nb_undecided m <= length (ids m) * (length (ids m) - 1) / 2) by (apply Nat.div_le_lower_bound; lia).
  assert (G := l_grows _ _ _ L). assert (R' := g_reach _ _ G). assert (I' := reachable_inv _ R'). assert (K := g_ids _ _ G).
  exists s', m', k, log, (comps m'). split; auto. split; [lia|]. split; [apply CP; lia|]. split; auto. split; auto.
  split; [intros ->; change (Z.to_nat 1) with 1 in C3; lia|]. split; [unfold ask; rewrite run_components; auto|].
  intros p q t acc J.
  assert (W : In p (ids m') /\ In q (ids m') /\ infer m' p q = Some (if acc then t else opposite t)).
  { rewrite K. destruct acc.
    - destruct (l_yes _ _ _ L p q t J) as (Ip & Iq & _ & F). auto.
    - destruct (C4 p q t false J) as (Ip & Iq & T). split; auto. split; auto. apply (l_no _ _ _ L); auto. }
  destruct W as (Ip & Iq & F). rewrite comps_common by auto. rewrite <- (infer_ML m' p q) by auto. rewrite F. split; [congruence|intros ->; auto].
Qed.

(*EX
(** One pair at a time: whatever is answered, nothing is refused. *)
Definition erratic (i : nat) (selection : list (pystr * pystr)) : list annotation :=
  map (fun p => (p, if eqb (snd p) d then CANNOT_LINK else if Nat.even i then MUST_LINK else CANNOT_LINK)) selection.
Example C106_erratic_answers : answers_everything erratic.
Proof.
  intros i l. unfold erratic. split; [rewrite map_map; cbn [fst]; apply map_id|]. intros x J. apply in_map_iff in J. destruct J as (p & <- & _). cbn [snd].
  unfold allowed. destruct (eqb (snd p) d); auto. destruct (Nat.even i); auto.
Qed.
Example C106_one_at_a_time_ex : let r := line_loop erratic 1%Z 7 (init [a; b; c; d]) in
  snd r = Ok (4, [(((a, b), MUST_LINK), true); (((a, c), CANNOT_LINK), true); (((a, d), CANNOT_LINK), true); (((c, d), CANNOT_LINK), true)]) /\
  ask get_connected_components (snd (fst r)) = Ok [[a; b]; [c]; [d]].
Proof. vm_compute. split; reflexivity. Qed.
(** All pairs at once: the contradictions are refused. *)
Example C106_all_at_once_ex : let r := line_loop (fun _ => map (fun p => (p, if eqb (fst p ++ snd p) (a ++ c) then CANNOT_LINK else MUST_LINK))) 6%Z 7 (init [a; b; c; d]) in
  snd r = Ok (1, [(((a, b), MUST_LINK), true); (((a, c), CANNOT_LINK), true); (((a, d), MUST_LINK), true); (((b, c), MUST_LINK), false); (((b, d), MUST_LINK), true); (((c, d), MUST_LINK), false)]) /\
  ask get_connected_components (snd (fst r)) = Ok [[a; b; d]; [c]].
Proof. vm_compute. split; reflexivity. Qed.
EX*)
