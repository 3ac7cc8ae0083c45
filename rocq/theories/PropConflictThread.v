(** Generated from ConflictThreadThms.v by tools/gen_props.py: theorem statements,
    each closed by the lemma of the same name proved there. *)

From Coq Require Import String List Bool Arith ZArith QArith.
From Verif Require Import Base Manager Spec ManagerProofs ManagerThms ManagerInv ManagerQueries Threads ThreadSpec ThreadsThms Readers ReadersSpec ReadersThms Listing ListingSpec ListingThms
  SampleThread KMeansThreadSpec SaveThreadSpec ConflictThread ConflictThreadSpec ConflictThreadThms.
Import ListNotations.
Open Scope nat_scope.

Definition A := str "a". Definition B := str "b". Definition C := str "c".

(** C162: asking alone, action by action, is the method. *)
Theorem C162_alone : forall a b t m, alone (p_conflict a b t) m = get_list_of_involved_data_IDs_in_a_constraint_conflict a b t m.
Proof. exact C162_alone_proof. Qed.
Print Assumptions C162_alone.

Definition ex : mgr := run [CallAddConstraint A C CANNOT_LINK 1%Q] (init [A; B; C]).
Lemma ex_reachable : reachable ex. Proof. apply run_reachable. Qed.
Example C162_alone_ex : snd (alone (p_conflict A C MUST_LINK) ex) = Ok (Some [A; C]) /\ snd (alone (p_conflict A B MUST_LINK) ex) = Ok None /\
  snd (alone (p_conflict A C CANNOT_LINK) ex) = Ok None /\ snd (alone (p_conflict A (str "d") MUST_LINK) ex) = Raise ValueError.
Proof. repeat split; vm_compute; reflexivity. Qed.

(** C162: one thread adds constraints, any number of calls, and any number of other threads ask which data are involved in a conflict. However their reads and writes are interleaved, the additions end as
    when they are made alone, and each thread is told rightly whether there is a conflict after some number of the additions. The list has at least the data that are involved one addition before, and only
    data that are involved at the end. What is missing: the list may not be the one of any moment, see below. *)
Theorem C162_additions_partial : forall m cs qs m' r rs,
    reachable m -> Forall only_adds_constraints cs ->
    interleaved m (p_left (p_wsession cs) :: map (fun q => p_right (p_conflict (fst (fst q)) (snd (fst q)) (snd q))) qs) m' (r :: rs) ->
    m' = run (map as_wcall cs) m /\ r = Ok (inl (snd (one_by_one (map as_wcall cs) m))) /\
    Forall2 (fun q x => exists answer, x = match answer with Ok v => Ok (inr v) | Raise e => Raise e end /\ answered_meanwhile (map as_wcall cs) m q answer) qs rs.
Proof. exact C162_additions_partial_proof. Qed.
Print Assumptions C162_additions_partial.

Definition all_of_them (cs : list wcall) (m : mgr) : nat := length (states (p_wsession cs) m).
(** [b] and [c] are linked once the component of [a] is read; the conflict between [a] and [b] that follows is seen by the thread that asks later. *)
Definition news : list wcall := [WAdd B C MUST_LINK 1%Q].
Definition asked : list (pystr * pystr * pystr) := [(A, C, MUST_LINK); (A, B, MUST_LINK)].
Example C162_additions_ex : Forall only_adds_constraints news /\ valid_question ex A B MUST_LINK /\
  ~ in_conflict ex A B MUST_LINK /\ in_conflict (run (map as_wcall news) ex) A B MUST_LINK /\
  exists m', interleaved ex (p_left (p_wsession news) :: map (fun q => p_right (p_conflict (fst (fst q)) (snd (fst q)) (snd q))) asked) m'
    [Ok (inl [Ok (VBool true)]); Ok (inr (Some [A; B; C])); Ok (inr (Some [A; B; C]))].
Proof.
  split; [repeat constructor|]. split; [split; [apply managed_ids; vm_compute; auto|split; [apply managed_ids; vm_compute; auto|left; reflexivity]]|].
  split; [intros (s & H & _); vm_compute in H; discriminate|]. split; [exists CANNOT_LINK; split; [vm_compute; reflexivity|discriminate]|].
  exists (run (map as_wcall news) ex). apply (play_interleaved (repeat 1 12 ++ repeat 2 2 ++ repeat 0 (all_of_them news ex) ++ repeat 1 2 ++ repeat 2 12)). vm_compute. reflexivity.
Qed.

(** C162: when nothing new is inferred as MUST_LINK by the end of the additions, in particular when only CANNOT_LINK constraints are added, each answer is the one of the method after some number of
    the additions. *)
Theorem C162_moment_partial : forall m cs qs m' r rs,
    reachable m -> Forall only_adds_constraints cs -> no_new_links m (run (map as_wcall cs) m) ->
    interleaved m (p_left (p_wsession cs) :: map (fun q => p_right (p_conflict (fst (fst q)) (snd (fst q)) (snd q))) qs) m' (r :: rs) ->
    Forall2 (fun q x => exists n, x = match ask (get_list_of_involved_data_IDs_in_a_constraint_conflict (fst (fst q)) (snd (fst q)) (snd q)) (run (map as_wcall (firstn n cs)) m) with
                                      | Ok v => Ok (inr v) | Raise e => Raise e end) qs rs.
Proof. exact C162_moment_partial_proof. Qed.
Print Assumptions C162_moment_partial.

Definition apart : list wcall := [WAdd A B CANNOT_LINK 1%Q; WAdd B C CANNOT_LINK 1%Q].
Example C162_moment_ex : Forall only_adds_constraints apart /\ no_new_links ex (run (map as_wcall apart) ex) /\
  exists m', interleaved ex (p_left (p_wsession apart) :: map (fun q => p_right (p_conflict (fst (fst q)) (snd (fst q)) (snd q))) asked) m'
    [Ok (inl [Ok (VBool true); Ok (VBool true)]); Ok (inr (Some [A; C])); Ok (inr (Some [A; B]))].
Proof.
  split; [repeat constructor|]. split.
  - intros a b H. assert (I : Inv (run (map as_wcall apart) ex)) by (apply reachable_inv; do 2 apply reach_call; apply ex_reachable).
    assert (J : In a (ids (run (map as_wcall apart) ex)) /\ In b (ids (run (map as_wcall apart) ex))).
    { unfold inferred, ask in H. rewrite run_inferred in H by auto. cbn [snd] in H. destruct (both _ a b) eqn:Bo in H; [apply both_true; auto|discriminate]. }
    destruct J as [Ja Jb]. vm_compute in Ja, Jb. repeat destruct Ja as [<-|Ja]; repeat destruct Jb as [<-|Jb]; try contradiction; first [vm_compute; reflexivity|vm_compute in H; discriminate].
  - exists (run (map as_wcall apart) ex). apply (play_interleaved (repeat 1 12 ++ repeat 2 2 ++ repeat 0 (all_of_them apart ex) ++ repeat 1 2 ++ repeat 2 12)). vm_compute. reflexivity.
Qed.

(** C162, refuted: with one addition, the list may not be the one of any moment: it repeats the data that are linked meanwhile. *)
Theorem C162_moment_refuted : exists m cs a b t m' r l,
    reachable m /\ Forall only_adds_constraints cs /\ interleaved m [p_left (p_wsession cs); p_right (p_conflict a b t)] m' [r; Ok (inr (Some l))] /\ ~ NoDup l /\
    forall n, ask (get_list_of_involved_data_IDs_in_a_constraint_conflict a b t) (run (map as_wcall (firstn n cs)) m) <> Ok (Some l).
Proof. exact C162_moment_refuted_proof. Qed.
Print Assumptions C162_moment_refuted.

(** C162, refuted: when a constraint is deleted, a conflict may be reported although there is none at any moment: the inferred constraint is read twice, and it is gone the second time. *)
Theorem C162_deletions_refuted : exists m cs a b t m' r l,
    reachable m /\ Forall only_constraints cs /\ valid_question m a b t /\ interleaved m [p_left (p_wsession cs); p_right (p_conflict a b t)] m' [r; Ok (inr (Some l))] /\
    forall n, ~ in_conflict (run (map as_wcall (firstn n cs)) m) a b t.
Proof. exact C162_deletions_refuted_proof. Qed.
Print Assumptions C162_deletions_refuted.
