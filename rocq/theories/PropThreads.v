(** Generated from ThreadsThms.v by tools/gen_props.py: theorem statements,
    each closed by the lemma of the same name proved there. *)

From Coq Require Import String List Bool Arith ZArith QArith.
From Verif Require Import Base Manager Spec ManagerThms Threads ThreadSpec ThreadsThms.
Import ListNotations.
Open Scope nat_scope.

Definition A : pystr := str "a".
Definition B : pystr := str "b".
Definition C : pystr := str "c".
Definition D : pystr := str "d".
Definition E : pystr := str "e".
Definition F : pystr := str "f".
(** a and b must link, c and d cannot, e and f are alone. *)
Definition ex : mgr := run [CallAddConstraint A B MUST_LINK 1%Q; CallAddConstraint C D CANNOT_LINK 1%Q] (init [D; A; B; C; E; F]).
Lemma ex_reachable : reachable ex. Proof. apply run_reachable. Qed.
(** Four threads: c = e, an addition that raises as a and b must link, and the same question twice. *)
Definition calls : list tcall := [TAdd C E MUST_LINK 1%Q; TAdd B A CANNOT_LINK 1%Q; TGetInferred F F; TGetInferred F F].
(** The threads take turns. *)
Definition turns : list nat := [0; 1; 2; 3; 3; 2; 1; 0; 0; 1; 2; 3; 0; 1; 0; 0; 1; 0; 0; 0; 0; 0; 0; 0; 0; 0; 0; 0; 0; 0; 0].

(** C140: one call alone, action by action, ends with the manager and the result of the method. *)
Theorem C140_alone : forall c m, alone (p_exec c) m = exec (as_call c) m.
Proof. exact C140_alone_proof. Qed.
Print Assumptions C140_alone.

Example C140_alone_ex : snd (alone (p_exec (TAdd C E MUST_LINK 1%Q)) ex) = Ok (VBool true) /\ snd (alone (p_exec (TAdd D C MUST_LINK 1%Q)) ex) = Raise ValueError.
Proof. split; vm_compute; reflexivity. Qed.

(** C140, partial: any number of threads, each with one call (an addition of a constraint, a get of an added or of an inferred
    constraint), on a manager that a user can hold. When no data that one call can change is changed or asked about by another one,
    then however their reads and writes are interleaved, they return what the calls return one after the other and they leave the
    same manager. *)
Theorem C140_apart_partial : forall m cs m' rs,
    reachable m -> ForallOrdPairs (apart m) cs ->
    interleaved m (map p_exec cs) m' rs -> (m', rs) = one_by_one (map as_call cs) m.
Proof. exact C140_apart_partial_proof. Qed.
Print Assumptions C140_apart_partial.

Lemma calls_apart : ForallOrdPairs (apart ex) calls.
Proof.
  assert (N : forall x y t, ask (get_inferred_constraint x y) ex = Ok (Some t) -> In x [D; A; B; C; E; F]).
  { intros x y t H. destruct (mem x [D; A; B; C; E; F]) eqn:M; [apply mem_In; exact M|]. exfalso.
    unfold ask, get_inferred_constraint, bind, in_trans, gets, require, raise in H. change (keys (ctrans ex)) with [D; A; B; C; E; F] in H. rewrite M in H. discriminate. }
  assert (P1 : forall x, changes ex (TAdd C E MUST_LINK 1%Q) x -> In x [C; E; D]).
  { intros x [->|[->|(u & [H|H])]]; cbn; auto; destruct (N _ _ _ H) as [<-|[<-|[<-|[<-|[<-|[<-|[]]]]]]]; auto; vm_compute in H; discriminate. }
  assert (P2 : forall x, changes ex (TAdd B A CANNOT_LINK 1%Q) x -> In x [A; B]).
  { intros x [->|[->|(u & [H|H])]]; cbn; auto; destruct (N _ _ _ H) as [<-|[<-|[<-|[<-|[<-|[<-|[]]]]]]]; auto; vm_compute in H; discriminate. }
  assert (G1 : apart ex (TAdd C E MUST_LINK 1%Q) (TGetInferred F F)).
  { intro x. split; [|intros []]. intro H. split; [intros []|]. specialize (P1 x H). intros [K|K]; subst x; destruct P1 as [K|[K|[K|[]]]]; discriminate. }
  assert (G2 : apart ex (TAdd B A CANNOT_LINK 1%Q) (TGetInferred F F)).
  { intro x. split; [|intros []]. intro H. split; [intros []|]. specialize (P2 x H). intros [K|K]; subst x; destruct P2 as [K|[K|[]]]; discriminate. }
  assert (G3 : apart ex (TAdd C E MUST_LINK 1%Q) (TAdd B A CANNOT_LINK 1%Q)).
  { intro x. split.
    - intro H. specialize (P1 x H). split; [intro K; specialize (P2 x K)|intros [K|K]; subst x; destruct P1 as [K|[K|[K|[]]]]; discriminate].
      destruct P1 as [<-|[<-|[<-|[]]]]; destruct P2 as [K'|[K'|[]]]; discriminate.
    - intro H. specialize (P2 x H). intros [K|K]; subst x; destruct P2 as [K|[K|[]]]; discriminate. }
  assert (G4 : apart ex (TGetInferred F F) (TGetInferred F F)) by (intro x; split; intros []).
  repeat (constructor; auto).
Qed.
(** They can indeed be interleaved so, and the result is that of one after the other. *)
Example C140_apart_ex : exists m',
  interleaved ex (map p_exec calls) m' [Ok (VBool true); Raise ValueError; Ok (VInferred (Some MUST_LINK)); Ok (VInferred (Some MUST_LINK))] /\
  ask (get_inferred_constraint E D) m' = Ok (Some CANNOT_LINK) /\ ask (get_inferred_constraint E D) ex = Ok None.
Proof.
  destruct (play turns ex (map p_exec calls)) as [[m' rs]|] eqn:P; [|vm_compute in P; discriminate].
  assert (Q := play_interleaved _ _ _ _ _ P).
  assert (R : (m', rs) = one_by_one (map as_call calls) ex) by (apply (C140_apart_partial _ _ _ _ ex_reachable calls_apart Q)).
  assert (S1 : m' = fst (one_by_one (map as_call calls) ex)) by (rewrite <- R; reflexivity).
  assert (S2 : rs = snd (one_by_one (map as_call calls) ex)) by (rewrite <- R; reflexivity).
  exists m'. split; [clear P R; subst rs|subst m'; split; vm_compute; reflexivity].
  change [Ok (VBool true); Raise ValueError; Ok (VInferred (Some MUST_LINK)); Ok (VInferred (Some MUST_LINK))] with (snd (one_by_one (map as_call calls) ex)).
  exact Q.
Qed.

(** C140, partial: any number of threads, each with any number of calls, and parts of the data, one for each thread, without a common data
    and without an inferred constraint from one part to outside of it. When every thread asks about and adds constraints between data of its part
    only, then however their reads and writes are interleaved, they return what they return, and leave the manager they leave, when one
    thread runs after the other. *)
Theorem C140_parts_partial : forall m parts css m' rss,
    reachable m -> ForallOrdPairs disjoint parts -> Forall2 (fun part cs => closed_part m part /\ stays_in part cs) parts css ->
    interleaved m (map p_session css) m' rss ->
    m' = fst (in_order (map (map as_call) css) m) /\ rss = map Ok (snd (in_order (map (map as_call) css) m)).
Proof. exact C140_parts_partial_proof. Qed.
Print Assumptions C140_parts_partial.

(** Two threads: a, b, f and c, d, e. *)
Definition sessions : list (list tcall) :=
  [[TAdd F A CANNOT_LINK 1%Q; TAdd B F MUST_LINK 1%Q; TGetInferred B F]; [TAdd C E MUST_LINK 1%Q; TGetInferred E D]].
Example C140_parts_ex : Forall2 (fun part cs => closed_part ex part /\ stays_in part cs) [[A; B; F]; [C; D; E]] sessions /\
  ForallOrdPairs disjoint [[A; B; F]; [C; D; E]] /\
  snd (in_order (map (map as_call) sessions) ex) =
  [[Ok (VBool true); Raise ValueError; Ok (VInferred (Some CANNOT_LINK))]; [Ok (VBool true); Ok (VInferred (Some CANNOT_LINK))]].
Proof.
  assert (N : forall x y t, ask (get_inferred_constraint x y) ex = Ok (Some t) -> In x [D; A; B; C; E; F]).
  { intros x y t H. destruct (mem x [D; A; B; C; E; F]) eqn:M; [apply mem_In; exact M|]. exfalso.
    unfold ask, get_inferred_constraint, bind, in_trans, gets, require, raise in H. change (keys (ctrans ex)) with [D; A; B; C; E; F] in H. rewrite M in H. discriminate. }
  split; [|split; [|vm_compute; reflexivity]].
  - constructor; [|constructor; [|constructor]]; (split; [intros x y t Ix H; assert (J := N y x t H)|]).
    + destruct Ix as [<-|[<-|[<-|[]]]]; destruct J as [<-|[<-|[<-|[<-|[<-|[<-|[]]]]]]]; cbn; auto; vm_compute in H; discriminate.
    + intros c x [<-|[<-|[<-|[]]]] [->| ->]; cbn; auto.
    + destruct Ix as [<-|[<-|[<-|[]]]]; destruct J as [<-|[<-|[<-|[<-|[<-|[<-|[]]]]]]]; cbn; auto; vm_compute in H; discriminate.
    + intros c x [<-|[<-|[]]] [->| ->]; cbn; auto.
  - constructor; [constructor; [|constructor]|constructor; [constructor|constructor]].
    intros x [<-|[<-|[<-|[]]]] [H|[H|[H|[]]]]; discriminate.
Qed.

(** C140, refuted: two threads add a = b and b = c at the same time. Both calls return True and both constraints are in the
    manager, but get_inferred_constraint answers None for a and b, and for a and c. *)
Theorem C140_lost_refuted :
  exists ids a b c m',
    interleaved (init ids) (map p_exec [TAdd a b MUST_LINK 1%Q; TAdd b c MUST_LINK 1%Q]) m' [Ok (VBool true); Ok (VBool true)] /\
    ask (get_added_constraint a b) m' = Ok (Some (MUST_LINK, 1%Q)) /\
    ask (get_added_constraint b c) m' = Ok (Some (MUST_LINK, 1%Q)) /\
    ask (get_inferred_constraint a b) m' = Ok None /\
    ask (get_inferred_constraint a c) m' = Ok None.
Proof. exact C140_lost_refuted_proof. Qed.
Print Assumptions C140_lost_refuted.

(** C140, refuted: two threads add a = b and a <> b at the same time. Both calls return True; then the added constraint is
    CANNOT_LINK and the inferred one is MUST_LINK. *)
Theorem C140_conflict_refuted :
  exists ids a b m',
    interleaved (init ids) (map p_exec [TAdd a b MUST_LINK 1%Q; TAdd a b CANNOT_LINK 1%Q]) m' [Ok (VBool true); Ok (VBool true)] /\
    ask (get_added_constraint a b) m' = Ok (Some (CANNOT_LINK, 1%Q)) /\
    ask (get_inferred_constraint a b) m' = Ok (Some MUST_LINK).
Proof. exact C140_conflict_refuted_proof. Qed.
Print Assumptions C140_conflict_refuted.
