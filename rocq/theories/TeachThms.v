(** * What one answer teaches (C146). *)

From Coq Require Import String List Bool Arith ZArith QArith Lia.
(*HEADER
From Coq Require Import String List Bool Arith ZArith QArith Lia.
From Verif Require Import Base Manager Spec ManagerThms ManagerInv ManagerQueries WrongSpec TeachSpec TeachThms.
Import ListNotations.
Open Scope nat_scope.
HEADER*)
From Verif Require Import Base Manager Spec Closure ManagerProofs ManagerInv ManagerQueries ManagerThms EffortThms HierSpec WrongSpec WrongThms TeachSpec.
Import ListNotations.
Open Scope nat_scope.

(** ** Counting pairs *)
Definition either {T} (f g : T -> bool) (p : T * T) : bool := (f (fst p) && g (snd p)) || (g (fst p) && f (snd p)).

Lemma count_either {T} (f g : T -> bool) l : (forall x, In x l -> f x = true -> g x = true -> False) ->
  length (filter (either f g) (position_pairs l)) = length (filter f l) * length (filter g l).
Proof.
  induction l as [|x l IH]; intro D; auto. cbn [position_pairs]. rewrite filter_app, app_length, IH by (intros; eapply D; eauto; right; auto).
  assert (C : length (filter (either f g) (map (pair x) l)) = if f x then length (filter g l) else if g x then length (filter f l) else 0).
  { assert (Dx := D x (or_introl eq_refl)). clear IH D. induction l as [|y l IH]; [destruct (f x), (g x); auto|]. cbn [map filter]. unfold either at 1. cbn [fst snd].
    destruct (f x) eqn:Fx, (g x) eqn:Gx; [destruct (Dx eq_refl eq_refl)| | |]; cbn [andb orb]; rewrite ?orb_false_r;
      [destruct (g y)|destruct (f y)|]; cbn [length]; rewrite IH; auto. }
  rewrite C. cbn [filter]. assert (Dx := D x (or_introl eq_refl)). destruct (f x) eqn:Fx, (g x) eqn:Gx; [destruct (Dx eq_refl eq_refl)| | |]; cbn [length]; lia.
Qed.
Lemma count_or {T} (f g : T -> bool) l : (forall x, In x l -> f x = true -> g x = true -> False) ->
  length (filter (fun x => f x || g x) l) = length (filter f l) + length (filter g l).
Proof.
  induction l as [|x l IH]; intro D; auto. cbn [filter]. assert (Dx := D x (or_introl eq_refl)). assert (IH' := IH (fun y J => D y (or_intror J))).
  destruct (f x) eqn:Fx, (g x) eqn:Gx; [destruct (Dx eq_refl eq_refl)| | |]; cbn [orb length]; lia.
Qed.
Lemma count_split {T} (f g h : T -> bool) l : (forall x, In x l -> f x = g x || h x) -> (forall x, In x l -> g x = true -> h x = true -> False) ->
  length (filter f l) = length (filter g l) + length (filter h l).
Proof.
  intros E D. rewrite <- count_or by auto. f_equal. apply filter_ext_in. auto.
Qed.

(** ** The closure after one more constraint *)
Section Add.
  Variables (m : mgr) (a b t : pystr) (v : Q).
  Hypothesis R : reachable m.
  Hypothesis Ma : managed m a.
  Hypothesis Mb : managed m b.
  Hypothesis U : inferred m a b None.
  Hypothesis T : t = MUST_LINK \/ t = CANNOT_LINK.
  Definition after := fst (exec (CallAddConstraint a b t v) m).
  Notation m' := after.
  Notation L := (linked (added_must m)).
  Notation X := (separated (added_must m) (added_cannot m)).

  Lemma facts : Inv m /\ In a (ids m) /\ In b (ids m) /\ accepts m a b t = true /\ infer m a b = None.
  Proof.
    assert (I := reachable_inv _ R). assert (Ia := Ma). assert (Ib := Mb). apply managed_ids in Ia, Ib.
    assert (E : infer m a b = None) by (apply (proj1 (inferred_spec m a b None I Ia Ib)); auto).
    split; [auto|]. split; [auto|]. split; [auto|]. split; [|auto]. apply infer_None_accepts; auto.
  Qed.
  Lemma after_reachable : reachable m'.
  Proof. apply reach_call. exact R. Qed.
  Lemma after_ids : ids m' = ids m.
  Proof.
    destruct facts as (I & _ & _ & A & _). destruct (run_add_constraint m a b t v I A) as (m1 & Run & _ & K & _). unfold after. cbn [exec]. unfold bind. rewrite Run. exact K.
  Qed.
  Lemma not_linked : ~ L a b.
  Proof. destruct facts as (I & Ia & Ib & _ & E). apply infer_None in E; auto. rewrite added_linked; tauto. Qed.
  Lemma not_separated : ~ X a b.
  Proof. destruct facts as (I & Ia & Ib & _ & E). apply infer_None in E; auto. rewrite added_separated; tauto. Qed.
  Lemma consistent x : ~ X x x.
  Proof. destruct facts as (I & _). rewrite added_separated by auto. apply (rep_cons _ _ _ (inv_rep _ I)). Qed.
  Lemma excl x y : L x y -> X x y -> False.
  Proof. destruct facts as (I & _). rewrite added_linked, added_separated by auto. apply rep_excl; auto. Qed.

  (** Which relations hold after an answer. *)
  Lemma adds u p q : added m' u p q <-> added m u p q \/ (u = t /\ same_unordered a b p q).
  Proof. destruct facts as (I & _ & _ & A & _). apply add_added; auto. Qed.
  Lemma must_linked x y : t = MUST_LINK -> linked (added_must m') x y <-> L x y \/ (joined (added_must m) a b x /\ joined (added_must m) a b y).
  Proof.
    intro E. rewrite <- linked_plus. split; apply linked_mono; intros p q J; unfold added_must, plus in *; rewrite ?adds in *.
    - destruct J as [J|[_ [[-> ->]|[-> ->]]]]; auto.
    - destruct J as [J|[-> ->]]; auto. left. right. split; auto. left. auto.
  Qed.
  Lemma must_separated x y : t = MUST_LINK -> separated (added_must m') (added_cannot m') x y <-> separated (plus (added_must m) a b) (added_cannot m) x y.
  Proof.
    intro E. split; apply separated_mono; intros p q J; unfold added_must, added_cannot, plus in *; rewrite ?adds in *.
    - destruct J as [J|[_ [[-> ->]|[-> ->]]]]; auto.
    - destruct J as [J|[J _]]; auto. rewrite E in J. discriminate.
    - destruct J as [J|[-> ->]]; auto. left. right. split; auto. left. auto.
    - auto.
  Qed.
  Lemma cannot_linked x y : t = CANNOT_LINK -> linked (added_must m') x y <-> L x y.
  Proof.
    intro E. split; apply linked_mono; intros p q J; unfold added_must in *; rewrite ?adds in *; auto. destruct J as [J|[J _]]; auto. rewrite E in J. discriminate.
  Qed.
  Lemma cannot_separated x y : t = CANNOT_LINK -> separated (added_must m') (added_cannot m') x y <-> X x y \/ (L a x /\ L b y) \/ (L b x /\ L a y).
  Proof.
    intro E. rewrite <- separated_plus_cannot. split; apply separated_mono; intros p q J; unfold added_must, added_cannot, plus in *; rewrite ?adds in *; auto.
    - destruct J as [J|[J _]]; auto. rewrite E in J. discriminate.
    - destruct J as [J|[_ [[-> ->]|[-> ->]]]]; auto.
    - destruct J as [J|[-> ->]]; auto. left. right. split; auto. left. auto.
  Qed.
End Add.

Lemma after_managed m a b t v x : reachable m -> managed m a -> managed m b -> inferred m a b None -> t = MUST_LINK \/ t = CANNOT_LINK ->
  managed m x -> managed (fst (exec (CallAddConstraint a b t v) m)) x.
Proof. intros R Ma Mb U T Mx. apply managed_ids. apply managed_ids in Mx. unfold exec. rewrite <- (after_ids m a b t v R Ma Mb U T) in Mx. exact Mx. Qed.

(*PROP **C146.** Answer CANNOT_LINK about two data that nothing is known about yet, whatever the manager. Among the pairs that were not decided, the ones decided by this answer are
    exactly those that take one data known to be with the one and one data known to be with the other; and they become CANNOT_LINK, never MUST_LINK. *)
Lemma C146_which_cannot_proof :
  forall m a b v, reachable m -> managed m a -> managed m b -> inferred m a b None ->
  let m' := fst (exec (CallAddConstraint a b CANNOT_LINK v) m) in
  forall x y, managed m x -> managed m y -> inferred m x y None ->
    (inferred m' x y (Some CANNOT_LINK) <->
       (inferred m x a (Some MUST_LINK) /\ inferred m y b (Some MUST_LINK)) \/ (inferred m x b (Some MUST_LINK) /\ inferred m y a (Some MUST_LINK))) /\
    ~ inferred m' x y (Some MUST_LINK).
Proof.
  intros m a b v R Ma Mb U m' x y Mx My N. assert (T : CANNOT_LINK = MUST_LINK \/ CANNOT_LINK = CANNOT_LINK) by auto.
  assert (R' : reachable m') by (apply reach_call; auto). assert (Mx' : managed m' x) by (apply after_managed; auto). assert (My' : managed m' y) by (apply after_managed; auto).
  destruct (C01_inferred_is_closure_proof m' R' x y Mx' My') as (H1 & H2 & _). destruct (C01_inferred_is_closure_proof m R x y Mx My) as (_ & _ & H3 & _).
  apply H3 in N as [NL NX].
  rewrite (proj1 (C01_inferred_is_closure_proof m R x a Mx Ma)), (proj1 (C01_inferred_is_closure_proof m R x b Mx Mb)),
    (proj1 (C01_inferred_is_closure_proof m R y a My Ma)), (proj1 (C01_inferred_is_closure_proof m R y b My Mb)), H1, H2.
  unfold m'. fold (after m a b CANNOT_LINK v). rewrite cannot_linked, cannot_separated by auto. split; [|auto].
  split; [intros [K|[[K1 K2]|[K1 K2]]]; [destruct (NX K)| |]; apply linked_sym in K1, K2; auto|].
  intros [[K1 K2]|[K1 K2]]; apply linked_sym in K1, K2; auto.
Qed.
(*EX
(** Six data: a and b together, d and e together, c apart from d; nothing is known about a and d, nor about f. *)
Definition da := str "a". Definition db := str "b". Definition dc := str "c". Definition dd := str "d". Definition de := str "e". Definition df := str "f".
Definition all6 := [da; db; dc; dd; de; df].
Definition told : mgr := run [CallAddConstraint da db MUST_LINK 1%Q; CallAddConstraint dd de MUST_LINK 1%Q; CallAddConstraint dc dd CANNOT_LINK 1%Q] (init all6).
Lemma told_managed x : managed told x <-> In x all6.
Proof. rewrite managed_ids. reflexivity. Qed.
Lemma told_ok : reachable told /\ managed told da /\ managed told dd /\ inferred told da dd None.
Proof. split; [apply run_reachable|]. rewrite !told_managed. vm_compute. intuition. Qed.
Example C146_which_cannot_ex : let m' := fst (exec (CallAddConstraint da dd CANNOT_LINK 1%Q) told) in
  reachable told /\ managed told da /\ managed told dd /\ inferred told da dd None /\
  inferred told db de None /\ inferred m' db de (Some CANNOT_LINK) /\ inferred told da dc None /\ inferred m' da dc None.
Proof. intro m'. destruct told_ok as (A & B & C & D). repeat (split; [assumption|]). vm_compute. repeat split. Qed.
EX*)

(*PROP **C146.** Answer MUST_LINK instead. The same pairs become MUST_LINK; and the pairs that become CANNOT_LINK are exactly those that take one data known to be with the one and
    one data known to be apart from the other. *)
Lemma C146_which_must_proof :
  forall m a b v, reachable m -> managed m a -> managed m b -> inferred m a b None ->
  let m' := fst (exec (CallAddConstraint a b MUST_LINK v) m) in
  forall x y, managed m x -> managed m y -> inferred m x y None ->
    (inferred m' x y (Some MUST_LINK) <->
       (inferred m x a (Some MUST_LINK) /\ inferred m y b (Some MUST_LINK)) \/ (inferred m x b (Some MUST_LINK) /\ inferred m y a (Some MUST_LINK))) /\
    (inferred m' x y (Some CANNOT_LINK) <->
       (inferred m x a (Some MUST_LINK) /\ inferred m y b (Some CANNOT_LINK)) \/ (inferred m x b (Some MUST_LINK) /\ inferred m y a (Some CANNOT_LINK)) \/
       (inferred m y a (Some MUST_LINK) /\ inferred m x b (Some CANNOT_LINK)) \/ (inferred m y b (Some MUST_LINK) /\ inferred m x a (Some CANNOT_LINK))).
Proof.
  intros m a b v R Ma Mb U m' x y Mx My N. assert (T : MUST_LINK = MUST_LINK \/ MUST_LINK = CANNOT_LINK) by auto.
  assert (R' : reachable m') by (apply reach_call; auto). assert (Mx' : managed m' x) by (apply after_managed; auto). assert (My' : managed m' y) by (apply after_managed; auto).
  destruct (C01_inferred_is_closure_proof m' R' x y Mx' My') as (H1 & H2 & _). destruct (C01_inferred_is_closure_proof m R x y Mx My) as (_ & _ & H3 & _).
  apply H3 in N as [NL NX].
  destruct (C01_inferred_is_closure_proof m R x a Mx Ma) as (Xa & Xa' & _). destruct (C01_inferred_is_closure_proof m R x b Mx Mb) as (Xb & Xb' & _).
  destruct (C01_inferred_is_closure_proof m R y a My Ma) as (Ya & Ya' & _). destruct (C01_inferred_is_closure_proof m R y b My Mb) as (Yb & Yb' & _).
  rewrite H1, H2, Xa, Xb, Ya, Yb, Xa', Xb', Ya', Yb'. clear H1 H2 Xa Xb Ya Yb Xa' Xb' Ya' Yb' H3.
  unfold m'. fold (after m a b MUST_LINK v). rewrite must_linked, must_separated by auto.
  set (L := linked (added_must m)) in *. set (X := separated (added_must m) (added_cannot m)) in *.
  assert (LS : forall p q, L p q -> L q p) by (intros; apply linked_sym; auto). assert (LT : forall p q r, L p q -> L q r -> L p r) by (intros; eapply linked_trans; eauto).
  assert (XS : forall p q, X p q -> X q p) by (intros; apply separated_sym; auto). assert (XL : forall p q r, L p q -> X p r -> X q r) by (intros; eapply separated_linked_l; eauto).
  unfold joined. fold L. split.
  - split; [|intros [[A B]|[A B]]; right; auto]. intros [K|[[A|A] [B|B]]]; auto; destruct NL; eauto.
  - assert (D : (L x a \/ L x b) \/ ~ (L x a \/ L x b)).
    { destruct (known_cases m x a R Mx Ma) as [Q|Q]; [left; left; apply (proj1 (C01_inferred_is_closure_proof m R x a Mx Ma)); auto|].
      destruct (known_cases m x b R Mx Mb) as [Q'|Q']; [left; right; apply (proj1 (C01_inferred_is_closure_proof m R x b Mx Mb)); auto|]. right.
      intros [K|K].
      - apply (proj1 (C01_inferred_is_closure_proof m R x a Mx Ma)) in K. unfold inferred in *. rewrite K in Q. destruct Q; discriminate.
      - apply (proj1 (C01_inferred_is_closure_proof m R x b Mx Mb)) in K. unfold inferred in *. rewrite K in Q'. destruct Q'; discriminate. }
    assert (E : forall p q, L p q -> X p q -> False) by (intros; eapply (excl m a b MUST_LINK R Ma Mb U T); eauto).
    assert (CX : forall p, ~ separated (added_must m) (added_cannot m) p p) by (intro p; eapply (consistent m a b MUST_LINK R Ma Mb U T)).
    assert (NSab := not_separated m a b MUST_LINK R Ma Mb U T).
    destruct D as [D|D].
    + rewrite separated_plus_joined by first [exact D|exact CX|exact NSab]. fold X. split.
      * intros [K|K]; destruct D as [D|D]; [destruct NX; eauto|right; left; auto|left; auto|destruct NX; eauto].
      * intros [[A B]|[[A B]|[[A B]|[A B]]]]; auto; exfalso; destruct D as [D|D]; eauto.
    + rewrite separated_plus_other by first [exact D|exact CX|exact NSab]. fold X. unfold joined. fold L. split.
      * intros [K|[[A|A] [B|B]]]; [destruct (NX K)|destruct NX; eauto|auto 6|auto 6|destruct NX; eauto].
      * intros [[A B]|[[A B]|[[A B]|[A B]]]]; auto 6; destruct D; auto.
Qed.
(*EX
Example C146_which_must_ex : let m' := fst (exec (CallAddConstraint da dd MUST_LINK 1%Q) told) in
  inferred told db de None /\ inferred m' db de (Some MUST_LINK) /\ inferred told da dc None /\ inferred m' da dc (Some CANNOT_LINK) /\ inferred m' da df None.
Proof. vm_compute. repeat split. Qed.
EX*)

(** ** Counts *)
Definition undecided (m : mgr) (p : pystr * pystr) : bool := match ask (get_inferred_constraint (fst p) (snd p)) m with Ok None => true | _ => false end.
Lemma undecided_spec m x y : undecided m (x, y) = true <-> inferred m x y None.
Proof. unfold undecided, inferred. cbn. destruct (ask _ m) as [[u|]|e]; split; congruence. Qed.
Lemma known_as_spec m t a x : known_as m t a x = true <-> inferred m x a (Some t).
Proof.
  unfold known_as, inferred. destruct (ask _ m) as [[u|]|e]; try (split; discriminate). destruct (eqb_spec u t) as [->|N]; split; try congruence; auto.
Qed.
Lemma bool_iff (f g : bool) : (f = true <-> g = true) -> f = g.
Proof. destruct f, g; intros [A B]; auto. symmetry. auto. Qed.
Lemma list_of_ids m l x : ask get_list_of_managed_data_IDs m = Ok l -> In x l -> managed m x.
Proof. intros E J. unfold managed. exists l. auto. Qed.

Section Count.
  Variables (m : mgr) (a b : pystr) (v : Q).
  Hypothesis R : reachable m.
  Hypothesis Ma : managed m a.
  Hypothesis Mb : managed m b.
  Hypothesis U : inferred m a b None.
  Notation L := (linked (added_must m)).
  Notation X := (separated (added_must m) (added_cannot m)).

  Lemma inf_must x y : managed m x -> managed m y -> inferred m x y (Some MUST_LINK) <-> L x y.
  Proof. intros. apply C01_inferred_is_closure_proof; auto. Qed.
  Lemma inf_cannot x y : managed m x -> managed m y -> inferred m x y (Some CANNOT_LINK) <-> X x y.
  Proof. intros. apply C01_inferred_is_closure_proof; auto. Qed.
  Lemma inf_none x y : managed m x -> managed m y -> inferred m x y None <-> ~ L x y /\ ~ X x y.
  Proof. intros. apply C01_inferred_is_closure_proof; auto. Qed.

  (** The pairs one answer decides, [t] being the answer. *)
  Lemma only_more t x y : t = MUST_LINK \/ t = CANNOT_LINK -> managed m x -> managed m y ->
    inferred (fst (exec (CallAddConstraint a b t v) m)) x y None -> inferred m x y None.
  Proof.
    intros T Mx My. assert (R' := after_reachable m a b t v R). fold (after m a b t v).
    assert (Mx' : managed (after m a b t v) x) by (apply after_managed; auto). assert (My' : managed (after m a b t v) y) by (apply after_managed; auto).
    rewrite (proj1 (proj2 (proj2 (C01_inferred_is_closure_proof _ R' x y Mx' My')))), inf_none by auto.
    assert (Ad := adds m a b t v R Ma Mb U T). intros [NL NX]. split; intro K; [apply NL|apply NX]; revert K; [apply linked_mono|apply separated_mono]; intros p q J; left; apply Ad; auto.
  Qed.
  Lemma split_count t (h : pystr * pystr -> bool) l : ask get_list_of_managed_data_IDs m = Ok l -> t = MUST_LINK \/ t = CANNOT_LINK ->
    let m' := fst (exec (CallAddConstraint a b t v) m) in
    (forall x y, managed m x -> managed m y -> h (x, y) = true -> inferred m x y None) ->
    (forall x y, managed m x -> managed m y -> inferred m x y None -> (h (x, y) = true <-> inferred m' x y (Some MUST_LINK) \/ inferred m' x y (Some CANNOT_LINK))) ->
    nb_undecided m l = nb_undecided m' l + length (filter h (position_pairs l)).
  Proof.
    intros E T m' H0 H1. unfold nb_undecided. fold (undecided m) (undecided m'). apply count_split.
    - intros [x y] J. apply position_pairs_In in J as [Jx Jy]. apply (list_of_ids m l _ E) in Jx, Jy. apply bool_iff. rewrite orb_true_iff, !undecided_spec. split.
      + intro N. assert (R' := after_reachable m a b t v R). destruct (known_cases m' x y R') as [Q|[Q|Q]]; auto; [apply after_managed; auto..| |]; right; apply (H1 x y); auto.
      + intros [N|N]; [eapply only_more; eauto|auto].
    - intros [x y] J G K. apply position_pairs_In in J as [Jx Jy]. apply (list_of_ids m l _ E) in Jx, Jy. apply undecided_spec in G.
      apply H1 in K; auto. unfold inferred in *. rewrite G in K. destruct K; discriminate.
  Qed.

  Lemma apart_classes x : managed m x ->
    ~ (L x a /\ L x b) /\ ~ (L x a /\ X x a) /\ ~ (L x b /\ X x b) /\ ~ (L x a /\ X x b) /\ ~ (L x b /\ X x a).
  Proof.
    intros Mx. assert (T : MUST_LINK = MUST_LINK \/ MUST_LINK = CANNOT_LINK) by auto. assert (U' := U). apply inf_none in U' as [NL NX]; auto.
    assert (EX := excl m a b MUST_LINK R Ma Mb U T). repeat split; intros [P Q].
    - apply NL. eapply linked_trans; [apply linked_sym; exact P|exact Q].
    - eauto.
    - eauto.
    - apply NX. eapply separated_linked_l; eauto.
    - apply NX. apply separated_sym. eapply separated_linked_l; eauto.
  Qed.
End Count.

(*PROP **C146.** How many. Answering CANNOT_LINK about two data that nothing is known about decides exactly [n * k] pairs of data, where [n] data are known to be with the first
    and [k] with the second (each counting itself). *)
Lemma C146_cannot_proof :
  forall m a b v l, reachable m -> ask get_list_of_managed_data_IDs m = Ok l -> In a l -> In b l -> inferred m a b None ->
  nb_undecided m l = nb_undecided (fst (exec (CallAddConstraint a b CANNOT_LINK v) m)) l + nb_with m l a * nb_with m l b.
Proof.
  intros m a b v l R E Ja Jb U. assert (Ma := list_of_ids m l _ E Ja). assert (Mb := list_of_ids m l _ E Jb).
  unfold nb_with. rewrite <- count_either.
  - apply split_count; auto.
    + intros x y Mx My H. unfold either in H. cbn [fst snd] in H. rewrite orb_true_iff, !andb_true_iff, !known_as_spec, !inf_must in H by auto.
      apply (inf_none m R a b Ma Mb) in U as [NL NX]. apply inf_none; auto. split; intro K; (destruct H as [[P Q]|[P Q]]; [|apply linked_sym in K || apply separated_sym in K]).
      * apply NL. eapply linked_trans; [apply linked_sym; exact P|]. eapply linked_trans; eauto.
      * apply NL. eapply linked_trans; [apply linked_sym; exact Q|]. eapply linked_trans; eauto.
      * apply NX. eapply separated_linked_l; [exact P|]. eapply separated_linked_r; eauto.
      * apply NX. eapply separated_linked_l; [exact Q|]. eapply separated_linked_r; eauto.
    + intros x y Mx My N. destruct (C146_which_cannot_proof m a b v R Ma Mb U x y Mx My N) as [W1 W2].
      unfold either. cbn [fst snd]. rewrite orb_true_iff, !andb_true_iff, !known_as_spec. tauto.
  - intros x Jx. rewrite !known_as_spec, !inf_must by eauto using list_of_ids. intros P Q. destruct (apart_classes m a b R Ma Mb U x) as (D & _); eauto using list_of_ids.
Qed.
(*EX
Example C146_cannot_ex : ask get_list_of_managed_data_IDs told = Ok all6 /\ nb_undecided told all6 = 11 /\ nb_with told all6 da = 2 /\ nb_with told all6 dd = 2 /\
  nb_undecided (fst (exec (CallAddConstraint da dd CANNOT_LINK 1%Q) told)) all6 = 7.
Proof. vm_compute. repeat split. Qed.
EX*)

(*PROP **C146.** Answering MUST_LINK instead decides as many pairs, and moreover, for each data known to be with the one, each data known to be apart from the other only. *)
Lemma C146_must_proof :
  forall m a b v l, reachable m -> ask get_list_of_managed_data_IDs m = Ok l -> In a l -> In b l -> inferred m a b None ->
  nb_undecided m l = nb_undecided (fst (exec (CallAddConstraint a b MUST_LINK v) m)) l +
    (nb_with m l a * nb_with m l b + nb_with m l a * nb_only_against m l b a + nb_with m l b * nb_only_against m l a b).
Proof.
  intros m a b v l R E Ja Jb U. assert (Ma := list_of_ids m l _ E Ja). assert (Mb := list_of_ids m l _ E Jb).
  set (fA := known_as m MUST_LINK a). set (fB := known_as m MUST_LINK b).
  set (gB := fun x => known_as m CANNOT_LINK b x && negb (known_as m CANNOT_LINK a x)). set (gA := fun x => known_as m CANNOT_LINK a x && negb (known_as m CANNOT_LINK b x)).
  assert (SA : forall x, managed m x -> fA x = true <-> linked (added_must m) x a) by (intros; unfold fA; rewrite known_as_spec, inf_must; tauto).
  assert (SB : forall x, managed m x -> fB x = true <-> linked (added_must m) x b) by (intros; unfold fB; rewrite known_as_spec, inf_must; tauto).
  assert (TA : forall x, managed m x -> gA x = true <-> separated (added_must m) (added_cannot m) x a /\ ~ separated (added_must m) (added_cannot m) x b).
  { intros x Mx. unfold gA. rewrite andb_true_iff, negb_true_iff, <- not_true_iff_false, !known_as_spec, !inf_cannot by auto. tauto. }
  assert (TB : forall x, managed m x -> gB x = true <-> separated (added_must m) (added_cannot m) x b /\ ~ separated (added_must m) (added_cannot m) x a).
  { intros x Mx. unfold gB. rewrite andb_true_iff, negb_true_iff, <- not_true_iff_false, !known_as_spec, !inf_cannot by auto. tauto. }
  assert (CL : forall x, managed m x -> (fA x = true -> fB x = true -> False) /\ (fA x = true -> gA x = true -> False) /\ (fA x = true -> gB x = true -> False) /\
                (fB x = true -> gA x = true -> False) /\ (fB x = true -> gB x = true -> False) /\ (gA x = true -> gB x = true -> False)).
  { intros x Mx. rewrite SA, SB, TA, TB by auto. destruct (apart_classes m a b R Ma Mb U x Mx) as (D1 & D2 & D3 & D4 & D5). repeat split; tauto. }
  assert (CP : forall x, In x l -> managed m x) by (intros; eauto using list_of_ids).
  assert (N : length (filter (fun p => (either fA fB p || either fA gB p) || either fB gA p) (position_pairs l)) =
              nb_with m l a * nb_with m l b + nb_with m l a * nb_only_against m l b a + nb_with m l b * nb_only_against m l a b).
  { rewrite !count_or, !count_either; auto.
    - intros x J. apply (CL x); auto.
    - intros x J. apply (CL x); auto.
    - intros x J. apply (CL x); auto.
    - intros [x y] J. apply position_pairs_In in J as [Jx Jy]. destruct (CL x (CP x Jx)) as (X1 & X2 & X3 & X4 & X5 & X6). destruct (CL y (CP y Jy)) as (Y1 & Y2 & Y3 & Y4 & Y5 & Y6).
      unfold either. cbn [fst snd]. rewrite !orb_true_iff, !andb_true_iff. tauto.
    - intros [x y] J. apply position_pairs_In in J as [Jx Jy]. destruct (CL x (CP x Jx)) as (X1 & X2 & X3 & X4 & X5 & X6). destruct (CL y (CP y Jy)) as (Y1 & Y2 & Y3 & Y4 & Y5 & Y6).
      unfold either. cbn [fst snd]. rewrite !orb_true_iff, !andb_true_iff. tauto. }
  rewrite <- N. apply split_count; auto.
  - intros x y Mx My H. unfold either in H. cbn [fst snd] in H. rewrite !orb_true_iff, !andb_true_iff, !SA, !SB, !TA, !TB in H by auto.
    apply (inf_none m R a b Ma Mb) in U as U'. destruct U' as [NL NX]. apply inf_none; auto.
    destruct (apart_classes m a b R Ma Mb U x Mx) as (D1 & D2 & D3 & D4 & D5). destruct (apart_classes m a b R Ma Mb U y My) as (F1 & F2 & F3 & F4 & F5).
    assert (EX := excl m a b MUST_LINK R Ma Mb U (or_introl eq_refl)).
    set (L := linked (added_must m)) in *. set (X := separated (added_must m) (added_cannot m)) in *.
    assert (LS : forall p q, L p q -> L q p) by (intros; apply linked_sym; auto). assert (LT : forall p q r, L p q -> L q r -> L p r) by (intros; eapply linked_trans; eauto).
    assert (XS : forall p q, X p q -> X q p) by (intros; apply separated_sym; auto). assert (XL : forall p q r, L p q -> X p r -> X q r) by (intros; eapply separated_linked_l; eauto).
    split; intro K.
    + destruct H as [[[[P Q]|[P Q]]|[[P Q]|[P Q]]]|[[P Q]|[P Q]]].
      * assert (L y a) by eauto. tauto.
      * assert (L y b) by eauto. tauto.
      * assert (L y a) by eauto. tauto.
      * assert (L x a) by eauto. tauto.
      * assert (L y b) by eauto. tauto.
      * assert (L x b) by eauto. tauto.
    + destruct H as [[[[P Q]|[P Q]]|[[P Q]|[P Q]]]|[[P Q]|[P Q]]].
      * assert (X y a) by eauto. tauto.
      * assert (X y b) by eauto. tauto.
      * assert (X y a) by eauto. tauto.
      * assert (X x a) by eauto. tauto.
      * assert (X y b) by eauto. tauto.
      * assert (X x b) by eauto. tauto.
  - intros x y Mx My Nxy. destruct (C146_which_must_proof m a b v R Ma Mb U x y Mx My Nxy) as [W1 W2].
    assert (G : forall p q, managed m p -> managed m q -> inferred m p q None \/ inferred m q p None -> (fA p = true -> separated (added_must m) (added_cannot m) q b -> gB q = true) /\
                 (fB p = true -> separated (added_must m) (added_cannot m) q a -> gA q = true)).
    { intros p q Mp Mq Npq. assert (NX : ~ separated (added_must m) (added_cannot m) p q).
      { destruct Npq as [K|K]; apply inf_none in K as [_ K]; auto. intro K'. apply K. apply separated_sym. exact K'. }
      rewrite SA, SB, TA, TB by auto. split; intros P Q; split; auto; intro K; apply NX; eapply separated_linked_l; try (apply linked_sym; exact P); apply separated_sym; exact K. }
    destruct (G x y Mx My (or_introl Nxy)) as [G1 G2]. destruct (G y x My Mx (or_intror Nxy)) as [G3 G4].
    rewrite W1, W2. unfold either. cbn [fst snd]. rewrite !orb_true_iff, !andb_true_iff, !inf_must, !inf_cannot by auto.
    specialize (SA x Mx) as Ax. specialize (SA y My) as Ay. specialize (SB x Mx) as Bx. specialize (SB y My) as By.
    specialize (TA x Mx) as Cx. specialize (TA y My) as Cy. specialize (TB x Mx) as Dx. specialize (TB y My) as Dy. clear - Ax Ay Bx By Cx Cy Dx Dy G1 G2 G3 G4. tauto.
Qed.
(*EX
Example C146_must_ex : nb_undecided told all6 = 11 /\ nb_only_against told all6 dd da = 1 /\ nb_only_against told all6 da dd = 0 /\
  nb_undecided (fst (exec (CallAddConstraint da dd MUST_LINK 1%Q) told)) all6 = 5.
Proof. vm_compute. repeat split. Qed.
EX*)

(*PROP **C146.** So each answer about two data that nothing is known about decides at least one pair of data, and answering MUST_LINK never decides less than answering CANNOT_LINK. *)
Lemma C146_more_proof :
  forall m a b v w l, reachable m -> ask get_list_of_managed_data_IDs m = Ok l -> In a l -> In b l -> inferred m a b None ->
  nb_undecided (fst (exec (CallAddConstraint a b MUST_LINK v) m)) l <= nb_undecided (fst (exec (CallAddConstraint a b CANNOT_LINK w) m)) l < nb_undecided m l.
Proof.
  intros m a b v w l R E Ja Jb U. assert (C := C146_cannot_proof m a b w l R E Ja Jb U). assert (D := C146_must_proof m a b v l R E Ja Jb U).
  assert (P : forall x, In x l -> 0 < nb_with m l x).
  { intros x J. unfold nb_with. assert (K : In x (filter (known_as m MUST_LINK x) l)).
    { apply filter_In. split; auto. apply known_as_spec. apply inf_must; eauto using list_of_ids. apply linked_refl. }
    destruct (filter _ l); [destruct K|cbn; lia]. }
  assert (0 < nb_with m l a * nb_with m l b) by (apply Nat.mul_pos_pos; auto). lia.
Qed.
(*EX
Example C146_more_ex : reachable told /\ inferred told da dd None /\ In da all6 /\ In dd all6 /\
  nb_undecided (fst (exec (CallAddConstraint da dd MUST_LINK 1%Q) told)) all6 = 5 /\
  nb_undecided (fst (exec (CallAddConstraint da df MUST_LINK 1%Q) told)) all6 = nb_undecided (fst (exec (CallAddConstraint da df CANNOT_LINK 1%Q) told)) all6.
Proof. split; [apply run_reachable|]. vm_compute. intuition. Qed.
EX*)
