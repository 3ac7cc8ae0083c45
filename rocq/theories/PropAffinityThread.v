(** Generated from AffinityThreadThms.v by tools/gen_props.py: theorem statements,
    each closed by the lemma of the same name proved there. *)

From Coq Require Import String List Bool Arith ZArith QArith Permutation Lia.
From Verif Require Import Base Manager Spec ManagerThms ManagerInv ManagerQueries Sampling SamplingSpec ClusterSpec KMeansSpec Affinity AffinitySpec AffinityExample Threads ThreadSpec ThreadsThms Readers ReadersSpec
  ReadersThms ListingSpec Listing SampleThread AffinityThread AffinityThreadSpec AffinityThreadThms.
Import ListNotations.
Open Scope nat_scope.

Definition A := str "a". Definition B := str "b". Definition C := str "c". Definition E := str "e".


(** C156: the clustering alone, action by action, leaves the manager as it is and ends with the result of the method. *)
Theorem C156_alone : forall vec D (o : ops D) similarity p vectors nb s m, reachable m ->
  alone (p_affinity vec D o similarity p vectors nb) m = (m, result (Affinity.cluster vec D o similarity p m vectors nb) s).
Proof. exact C156_alone_proof. Qed.
Print Assumptions C156_alone.

Definition ex2 : mgr := run [CallAddConstraint A C MUST_LINK 1%Q] (init [A; B; C; E]).
Lemma ex2_reachable : reachable ex2. Proof. apply run_reachable. Qed.
Definition places : dict pystr Z := [(A, 0); (B, 1); (C, 3); (E, 112)]%Z.
Definition on_line : prog (dict pystr Z) := p_affinity Z num exact_ops line (params true) places None.
Example C156_alone_ex : alone on_line ex2 = (ex2, Ok [(A, 0); (B, 0); (C, 0); (E, 1)]%Z).
Proof. vm_compute. reflexivity. Qed.

(** C156: one thread adds constraints, any number of calls, and any number of other threads cluster the data with affinity propagation. However their reads and writes are interleaved, the additions
    end as when they are made alone, and no clustering fails: each gives a cluster to each of the data and to nothing else, with clusters numbered by the first of their data in the order of the IDs. *)
Theorem C156_no_failure : forall vec D (o : ops D) similarity m cs (qs : list (affinity_call vec)) m' r rs,
    valid_argmax o -> reachable m -> Forall only_adds_constraints cs -> Forall (valid_affinity_call m) qs ->
    interleaved m (p_left (p_wsession cs) :: map (fun q => p_right (p_affinity vec D o similarity (fst q) (snd q) None)) qs) m' (r :: rs) ->
    m' = run (map as_wcall cs) m /\ r = Ok (inl (snd (one_by_one (map as_wcall cs) m))) /\
    Forall (fun x => exists d, x = Ok (inr d) /\ canonical d /\ covers_exactly m d) rs.
Proof. exact C156_no_failure_proof. Qed.
Print Assumptions C156_no_failure.

Definition news : list wcall := [WAdd C E MUST_LINK 1%Q].
Definition all_of_them : nat := length (states (p_wsession news) ex2).
Lemma ex2_valid : valid_affinity_call ex2 (params true, places).
Proof.
  split; [exists A; apply managed_ids; change (In A [A; B; C; E]); left; auto|].
  exists places. split; auto. intros x Mx. apply managed_ids in Mx. exact Mx.
Qed.
Lemma exact_argmax : valid_argmax exact_ops.
Proof. intros l NE. destruct (ex_argmax _ _ _ exact_ops_exact l NE) as (x & Ex & _). apply nth_error_Some. rewrite Ex. discriminate. Qed.
(** The constraint between [c] and [e] is added after the first of the components, that of [a] and [c], is listed: these two are also listed with [e]. The result is neither that without the constraint
    nor that with it. *)
Example C156_no_failure_ex : Forall only_adds_constraints news /\
  snd (alone on_line ex2) = Ok [(A, 0); (B, 0); (C, 0); (E, 1)]%Z /\ snd (alone on_line (run (map as_wcall news) ex2)) = Ok [(A, 0); (B, 1); (C, 0); (E, 0)]%Z /\
  exists m', interleaved ex2 [p_left (p_wsession news); p_right on_line] m' [Ok (inl [Ok (VBool true)]); Ok (inr [(A, 0); (B, 0); (C, 0); (E, 0)]%Z)].
Proof.
  split; [repeat constructor|]. split; [vm_compute; reflexivity|]. split; [vm_compute; reflexivity|].
  eexists. apply (play_interleaved (repeat 1 4 ++ repeat 0 all_of_them ++ repeat 1 20)). vm_compute. reflexivity.
Qed.

(** C156: data that were known as MUST_LINK when the threads started end in the same cluster, whatever is added meanwhile: with the option [absolute_must_links], and similarities that are not all
    equal (the exception of C44). *)
Theorem C156_must_links : forall vec D (o : ops D) similarity m cs (qs : list (affinity_call vec)) m' r rs,
    valid_argmax o -> reachable m -> Forall only_adds_constraints cs -> Forall (valid_affinity_call m) qs ->
    interleaved m (p_left (p_wsession cs) :: map (fun q => p_right (p_affinity vec D o similarity (fst q) (snd q) None)) qs) m' (r :: rs) ->
    Forall2 (fun q x => links_count o similarity m q -> exists d, x = Ok (inr d) /\ respects_must_links m d) qs rs.
Proof. exact C156_must_links_proof. Qed.
Print Assumptions C156_must_links.

Lemma ex2_counts : links_count exact_ops line ex2 (params true, places).
Proof.
  split; [reflexivity|]. exists [A; B; C; E], [0; 1; 3; 112]%Z. split; [vm_compute; reflexivity|]. split; [reflexivity|]. left.
  intros [Q|[_ Q]]; [discriminate|]. specialize (Q 0 2 ltac:(cbn; lia) ltac:(cbn; lia) ltac:(lia)). vm_compute in Q. discriminate.
Qed.
(** The same interleaving: [a] and [c], which were linked before, are together. *)
Example C156_must_links_ex : Forall (valid_affinity_call ex2) [(params true, places)] /\ links_count exact_ops line ex2 (params true, places) /\
  ask (get_inferred_constraint A C) ex2 = Ok (Some MUST_LINK) /\
  exists m', interleaved ex2 [p_left (p_wsession news); p_right on_line] m' [Ok (inl [Ok (VBool true)]); Ok (inr [(A, 0); (B, 0); (C, 0); (E, 0)]%Z)].
Proof.
  split; [constructor; [apply ex2_valid|constructor]|]. split; [apply ex2_counts|]. split; [vm_compute; reflexivity|].
  eexists. apply (play_interleaved (repeat 1 4 ++ repeat 0 all_of_them ++ repeat 1 20)). vm_compute. reflexivity.
Qed.
