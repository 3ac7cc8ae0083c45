(** Generated from SaveThreadThms.v by tools/gen_props.py: theorem statements,
    each closed by the lemma of the same name proved there. *)

From Coq Require Import String List Bool Arith NArith ZArith QArith Lia.
From Verif Require Import Base Manager Spec ManagerThms ManagerInv ManagerQueries Json JsonSpec JsonThms Threads ThreadSpec ThreadsThms
  Readers ReadersSpec ReadersThms ListingSpec Listing SampleThread SaveThread SaveThreadSpec SaveThreadThms.
Import ListNotations.
Open Scope nat_scope.

Definition A := str "a". Definition B := str "b". Definition C := str "c".


(** C160: saving alone, action by action, leaves the manager as it is and writes the text of the method. *)
Theorem C160_alone : forall m, reachable m -> alone p_to_json m = (m, Ok (to_json_text m)).
Proof. exact C160_alone_proof. Qed.
Print Assumptions C160_alone.

Definition ex : mgr := run [CallAddConstraint A B MUST_LINK 1%Q; CallAddConstraint B C MUST_LINK 1%Q] (init [A; B; C]).
Lemma ex_reachable : reachable ex. Proof. apply run_reachable. Qed.
Example C160_alone_ex : alone p_to_json ex = (ex, Ok (dump 0 (document [A; B; C] [(A, A, MUST_LINK); (A, B, MUST_LINK); (B, B, MUST_LINK); (B, C, MUST_LINK); (C, C, MUST_LINK)]))).
Proof. vm_compute. reflexivity. Qed.

(** C160: one thread adds and deletes constraints, any number of calls, and any number of other threads save the manager. However their reads and writes are interleaved, the changes end as when they are
    made alone, no saving fails, and each text lists the data and, for the pairs of data in order, the constraints that were added between them after some number of the changes, which never goes back
    from one pair to the next. *)
Theorem C160_copies_partial : forall m cs count m' r rs l,
    reachable m -> Forall only_constraints cs -> ask get_list_of_managed_data_IDs m = Ok l ->
    interleaved m (p_left (p_wsession cs) :: repeat (p_right p_to_json) count) m' (r :: rs) ->
    m' = run (map as_wcall cs) m /\ r = Ok (inl (snd (one_by_one (map as_wcall cs) m))) /\
    Forall (fun x => exists saved, x = Ok (inr (dump 0 (document l saved))) /\ copied (map as_wcall cs) m 0 (pairs_of l) saved) rs.
Proof. exact C160_copies_partial_proof. Qed.
Print Assumptions C160_copies_partial.

(** The constraint between [a] and [b] is copied, then it is deleted and another constraint is added, then the rest is copied. *)
Definition news : list wcall := [WDelete A B; WAdd A C CANNOT_LINK 1%Q].
Definition all_of_them (cs : list wcall) (m : mgr) : nat := length (states (p_wsession cs) m).
Example C160_copies_ex : Forall only_constraints news /\ ask get_list_of_managed_data_IDs ex = Ok [A; B; C] /\
  exists m', interleaved ex [p_left (p_wsession news); p_right p_to_json] m'
    [Ok (inl [Ok (VBool true); Ok (VBool true)]);
     Ok (inr (dump 0 (document [A; B; C] [(A, A, MUST_LINK); (A, B, MUST_LINK); (A, C, CANNOT_LINK); (B, B, MUST_LINK); (B, C, MUST_LINK); (C, C, MUST_LINK)])))].
Proof. split; [repeat constructor|]. split; [reflexivity|]. eexists. apply (play_interleaved (repeat 1 5 ++ repeat 0 (all_of_them news ex) ++ repeat 1 6)). vm_compute. reflexivity. Qed.

(** C160: when the other thread only adds constraints, loading the file succeeds, unless an ID is not a text. The loaded manager has the same data in the same order; what was added when the threads
    started is there, and only what is added at the end is there, and the same is true for what is inferred. *)
Theorem C160_additions_partial : forall m cs count m' r rs,
    reachable m -> Forall only_adds_constraints cs -> (forall x, managed m x -> python_string x /\ ~ splits_a_character x) ->
    interleaved m (p_left (p_wsession cs) :: repeat (p_right p_to_json) count) m' (r :: rs) ->
    Forall (fun x => exists text loaded, x = Ok (inr text) /\ load_text text = Ok loaded /\ reachable loaded /\
      ask get_list_of_managed_data_IDs loaded = ask get_list_of_managed_data_IDs m /\
      (forall t a b, a <> b -> added m t a b -> added loaded t a b) /\ (forall t a b, a <> b -> added loaded t a b -> added m' t a b) /\
      (forall t a b, inferred m a b (Some t) -> inferred loaded a b (Some t)) /\ (forall t a b, inferred loaded a b (Some t) -> inferred m' a b (Some t))) rs.
Proof. exact C160_additions_partial_proof. Qed.
Print Assumptions C160_additions_partial.

(** Two constraints are added once the first row is copied: the second is in the file, the first is not. *)
Definition start : mgr := run [CallAddConstraint B (str "d") MUST_LINK 1%Q] (init [A; B; C; str "d"]).
Definition more : list wcall := [WAdd A B MUST_LINK 1%Q; WAdd B C MUST_LINK 1%Q].
Example C160_additions_ex : Forall only_adds_constraints more /\
  exists m' text loaded, interleaved start [p_left (p_wsession more); p_right p_to_json] m' [Ok (inl [Ok (VBool true); Ok (VBool true)]); Ok (inr text)] /\ load_text text = Ok loaded /\
    inferred start C (str "d") None /\ inferred loaded C (str "d") (Some MUST_LINK) /\ inferred loaded A C None /\ inferred m' A C (Some MUST_LINK).
Proof.
  split; [repeat constructor|]. eexists. eexists. eexists. split; [apply (play_interleaved (repeat 1 7 ++ repeat 0 (all_of_them more start) ++ repeat 1 9)); vm_compute; reflexivity|].
  split; [vm_compute; reflexivity|]. repeat split; vm_compute; reflexivity.
Qed.

(** C160: when all the constraints that were added at some moment can be respected together, loading the file succeeds, whatever is added and deleted. The loaded manager has the same data in the same
    order; a constraint that was there at all moments is there, and what is there was there at some moment. *)
Theorem C160_loads_partial : forall m cs count m' r rs,
    reachable m -> Forall only_constraints cs -> (forall x, managed m x -> python_string x /\ ~ splits_a_character x) ->
    (exists label, forall n, satisfies (added_must (run (map as_wcall (firstn n cs)) m)) (added_cannot (run (map as_wcall (firstn n cs)) m)) label) ->
    interleaved m (p_left (p_wsession cs) :: repeat (p_right p_to_json) count) m' (r :: rs) ->
    Forall (fun x => exists text loaded, x = Ok (inr text) /\ load_text text = Ok loaded /\ reachable loaded /\
      ask get_list_of_managed_data_IDs loaded = ask get_list_of_managed_data_IDs m /\
      (forall t a b, a <> b -> (forall n, added (run (map as_wcall (firstn n cs)) m) t a b) -> added loaded t a b) /\
      (forall t a b, a <> b -> added loaded t a b -> exists n, added (run (map as_wcall (firstn n cs)) m) t a b)) rs.
Proof. exact C160_loads_partial_proof. Qed.
Print Assumptions C160_loads_partial.

(** A constraint is deleted once it is copied, and then one is added: the file has both, and loads. *)
Definition swap : list wcall := [WDelete A B; WAdd B C MUST_LINK 1%Q].
Definition before : mgr := run [CallAddConstraint A B MUST_LINK 1%Q] (init [A; B; C]).
Example C160_loads_ex : Forall only_constraints swap /\
  (exists label, forall n, satisfies (added_must (run (map as_wcall (firstn n swap)) before)) (added_cannot (run (map as_wcall (firstn n swap)) before)) label) /\
  exists m' text loaded, interleaved before [p_left (p_wsession swap); p_right p_to_json] m' [Ok (inl [Ok (VBool true); Ok (VBool true)]); Ok (inr text)] /\ load_text text = Ok loaded /\
    inferred before A C None /\ inferred m' A C None /\ inferred loaded A C (Some MUST_LINK).
Proof.
  split; [repeat constructor|]. split.
  - exists (fun _ => 0). intro n. split; [reflexivity|]. intros a b H. exfalso. revert H.
    assert (R : run (map as_wcall (firstn n swap)) before = before \/ run (map as_wcall (firstn n swap)) before = run [CallDeleteConstraint A B] before \/
                run (map as_wcall (firstn n swap)) before = run (map as_wcall swap) before).
    { destruct n as [|[|n]]; [left; reflexivity|right; left; reflexivity|right; right]. cbn [firstn swap]. rewrite firstn_nil. reflexivity. }
    assert (K : forall m, reachable m -> (forall x y v, In x (ids m) -> In y (ids m) -> ask (get_added_constraint x y) m <> Ok (Some (CANNOT_LINK, v))) -> ~ added_cannot m a b).
    { intros m Q F [v H]. apply (F a b v); auto; unfold ask in H; rewrite run_added in H by (apply reachable_inv; auto); cbn [snd] in H; destruct (both m a b) eqn:Bo; try discriminate; apply both_true in Bo; tauto. }
    destruct R as [-> | [-> | ->]]; (apply K; [repeat apply reach_call; apply reach_init|]);
      (intros x y v Ix Iy; vm_compute in Ix, Iy; repeat destruct Ix as [<-|Ix]; repeat destruct Iy as [<-|Iy]; try contradiction; vm_compute; discriminate).
  - eexists. eexists. eexists. split; [apply (play_interleaved (repeat 1 5 ++ repeat 0 (all_of_them swap before) ++ repeat 1 6)); vm_compute; reflexivity|].
    split; [vm_compute; reflexivity|]. repeat split; vm_compute; reflexivity.
Qed.

(** C160: when the other thread makes at most one change, each text is the one saved before the change or the one saved after it. *)
Theorem C160_one_change_partial : forall m cs count m' r rs,
    reachable m -> Forall only_constraints cs -> length cs <= 1 ->
    interleaved m (p_left (p_wsession cs) :: repeat (p_right p_to_json) count) m' (r :: rs) ->
    Forall (fun x => x = Ok (inr (to_json_text m)) \/ x = Ok (inr (to_json_text m'))) rs.
Proof. exact C160_one_change_partial_proof. Qed.
Print Assumptions C160_one_change_partial.

Definition first_only : list wcall := [WDelete A B].
Example C160_one_change_ex : Forall only_constraints first_only /\ length first_only <= 1 /\ (exists m', interleaved ex [p_left (p_wsession first_only); p_right p_to_json; p_right p_to_json] m'
    [Ok (inl [Ok (VBool true)]); Ok (inr (to_json_text ex)); Ok (inr (to_json_text m'))] /\ to_json_text m' <> to_json_text ex).
Proof.
  split; [repeat constructor|]. split; [repeat constructor|]. exists (run (map as_wcall first_only) ex).
  split; [apply (play_interleaved (repeat 1 5 ++ repeat 2 4 ++ repeat 0 (all_of_them first_only ex) ++ repeat 1 6 ++ repeat 2 7)); vm_compute; reflexivity|vm_compute; discriminate].
Qed.

(** C160: with two additions, the file may not be the one of any moment: it is none of those saved between the changes. *)
Theorem C160_snapshot_refuted : ~ (forall m cs m' r x,
    reachable m -> Forall only_adds_constraints cs -> interleaved m [p_left (p_wsession cs); p_right p_to_json] m' [r; x] ->
    exists n, x = Ok (inr (to_json_text (run (map as_wcall (firstn n cs)) m)))).
Proof. exact C160_snapshot_refuted_proof. Qed.
Print Assumptions C160_snapshot_refuted.

(** C160: when constraints are also deleted, the file may contain constraints that contradict each other, although no manager ever did: it cannot be loaded. *)
Theorem C160_loads_refuted : exists m cs m' r text,
    reachable m /\ Forall only_constraints cs /\ Forall (fun v => exists w, v = Ok w) (snd (one_by_one (map as_wcall cs) m)) /\
    interleaved m [p_left (p_wsession cs); p_right p_to_json] m' [r; Ok (inr text)] /\ load_text text = Raise ValueError.
Proof. exact C160_loads_refuted_proof. Qed.
Print Assumptions C160_loads_refuted.
