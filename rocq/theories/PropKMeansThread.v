(** Generated from KMeansThreadThms.v by tools/gen_props.py: theorem statements,
    each closed by the lemma of the same name proved there. *)

From Coq Require Import String List Bool Arith ZArith QArith Permutation Lia.
From Verif Require Import Base Manager Spec ManagerThms ManagerInv ManagerQueries Sampling SamplingSpec ClusterSpec KMeans KMeansSpec Threads ThreadSpec ThreadsThms Readers ReadersSpec ReadersThms ListingSpec
  SampleThread KMeansThread KMeansThreadSpec KMeansThreadThms.
Import ListNotations.
Open Scope nat_scope.

Definition A := str "a". Definition B := str "b". Definition C := str "c".


(** C154: the clustering alone, action by action, leaves the manager as it is and ends with the result of the method. *)
Theorem C154_alone : forall vec D (EB : EqB D) pairwise ltb dsum mean shuffle set_order p vectors nb s m, reachable m ->
  alone (p_kmeans vec D pairwise ltb dsum mean shuffle set_order p vectors nb) m = (m, result (KMeans.cluster vec D pairwise ltb dsum mean shuffle set_order p m vectors nb) s).
Proof. exact C154_alone_proof. Qed.
Print Assumptions C154_alone.

Definition ex : mgr := run [CallAddConstraint B C CANNOT_LINK 1%Q] (init [A; B; C]).
Lemma ex_reachable : reachable ex. Proof. apply run_reachable. Qed.
Definition places : dict pystr Z := [(A, 9); (B, 0); (C, 10)]%Z.
Definition one_round := mkKParams Z 1 1%Z.
Example C154_alone_ex : alone (line_kmeans one_round places (Some 2%Z)) ex = (ex, Ok [(A, 0); (B, 1); (C, 0)]%Z).
Proof. vm_compute. reflexivity. Qed.

(** C154: one thread adds constraints, any number of calls, and any number of other threads cluster the data with KMeans, with the documented arguments. However their reads and writes are
    interleaved, the additions end as when they are made alone, and no clustering fails: each gives a cluster to each of the data and to nothing else, with clusters numbered by the first of
    their data in the order of the IDs. What is missing: the constraints, see below. *)
Theorem C154_no_failure_partial : forall vec D (EB : EqB D) pairwise ltb dzero dsum mean shuffle set_order m cs (qs : list (clustering_call vec D)) m' r rs,
    valid_set_order set_order -> valid_shuffle shuffle -> reachable m -> Forall only_adds_constraints cs -> Forall (valid_kmeans_call ltb dzero m) qs ->
    interleaved m (p_left (p_wsession cs) :: map (fun q => p_right (p_kmeans vec D pairwise ltb dsum mean shuffle set_order (fst (fst q)) (snd (fst q)) (Some (snd q)))) qs) m' (r :: rs) ->
    m' = run (map as_wcall cs) m /\ r = Ok (inl (snd (one_by_one (map as_wcall cs) m))) /\
    Forall (fun x => exists d, x = Ok (inr d) /\ canonical d /\ covers_exactly m d) rs.
Proof. exact C154_no_failure_partial_proof. Qed.
Print Assumptions C154_no_failure_partial.

Definition news : list wcall := [WAdd A B MUST_LINK 1%Q].
(** The constraint between [a] and [b] is added after [a] is found to be compatible with the cluster of [c], and before the data linked to [a] are put with it: [b] is put with [c]. *)
Definition turns : list nat := repeat 1 36 ++ repeat 0 (length (states (p_wsession news) ex)) ++ repeat 1 12.
Lemma ex_valid : valid_kmeans_call Z.ltb 0%Z ex (one_round, places, 2%Z).
Proof.
  split; [exists (str "COP"), 1%Z, 1%Z; reflexivity|]. split; [exists A; apply managed_ids; change (In A [A; B; C]); left; auto|]. split; [|lia].
  exists places. split; auto. intros x Mx. apply managed_ids in Mx. exact Mx.
Qed.
Example C154_no_failure_ex : Forall only_adds_constraints news /\
  exists m', interleaved ex [p_left (p_wsession news); p_right (line_kmeans one_round places (Some 2%Z))] m' [Ok (inl [Ok (VBool true)]); Ok (inr [(A, 0); (B, 0); (C, 0)]%Z)].
Proof. split; [repeat constructor|]. eexists. apply (play_interleaved turns). vm_compute. reflexivity. Qed.

(** C154: additions of CANNOT_LINK constraints let nothing new be inferred as MUST_LINK. *)
Theorem C154_cannot_links_partial : forall m cs, reachable m -> Forall only_adds_cannot_links cs -> no_new_links m (run (map as_wcall cs) m).
Proof. exact C154_cannot_links_partial_proof. Qed.
Print Assumptions C154_cannot_links_partial.

Definition apart : list wcall := [WAdd A C CANNOT_LINK 1%Q; WAdd A B CANNOT_LINK 1%Q].
Example C154_cannot_links_ex : Forall only_adds_cannot_links apart /\ result (get_inferred_constraint A B) ex = Ok None /\
  result (get_inferred_constraint A B) (run (map as_wcall apart) ex) = Ok (Some CANNOT_LINK).
Proof. split; [repeat constructor|]. split; reflexivity. Qed.

(** C154: when nothing new is inferred as MUST_LINK by the end of the additions, each clustering respects all the constraints that were known when it started, and perhaps not those
    that were added meanwhile. *)
Theorem C154_respects_partial : forall vec D (EB : EqB D) pairwise ltb dzero dsum mean shuffle set_order m cs (qs : list (clustering_call vec D)) m' r rs,
    valid_set_order set_order -> valid_shuffle shuffle -> reachable m -> Forall only_adds_constraints cs -> Forall (valid_kmeans_call ltb dzero m) qs ->
    no_new_links m (run (map as_wcall cs) m) ->
    interleaved m (p_left (p_wsession cs) :: map (fun q => p_right (p_kmeans vec D pairwise ltb dsum mean shuffle set_order (fst (fst q)) (snd (fst q)) (Some (snd q)))) qs) m' (r :: rs) ->
    Forall (fun x => exists d, x = Ok (inr d) /\ respects m d) rs.
Proof. exact C154_respects_partial_proof. Qed.
Print Assumptions C154_respects_partial.

(** The clustering does not know yet that [a] and [c] must be apart. *)
Example C154_respects_ex : no_new_links ex (run (map as_wcall apart) ex) /\
  exists m', interleaved ex [p_left (p_wsession apart); p_right (line_kmeans one_round places (Some 2%Z))] m' [Ok (inl [Ok (VBool true); Ok (VBool true)]); Ok (inr [(A, 0); (B, 1); (C, 0)]%Z)].
Proof.
  split; [apply C154_cannot_links_partial; [apply ex_reachable|repeat constructor]|].
  eexists. apply (play_interleaved (repeat 1 36 ++ repeat 0 (length (states (p_wsession apart) ex)) ++ repeat 1 13)). vm_compute. reflexivity.
Qed.

(** C154: one MUST_LINK constraint added while KMeans runs, and two data with a CANNOT_LINK known from the start get the same cluster. *)
Theorem C154_cannot_refuted : exists m cs (q : clustering_call Z Z) m' r d,
    valid_set_order line_order /\ valid_shuffle (@rev pystr) /\ reachable m /\ Forall only_adds_constraints cs /\ valid_kmeans_call Z.ltb 0%Z m q /\
    interleaved m [p_left (p_wsession cs); p_right (line_kmeans (fst (fst q)) (snd (fst q)) (Some (snd q)))] m' [r; Ok (inr d)] /\
    ~ respects_cannot_links m d.
Proof. exact C154_cannot_refuted_proof. Qed.
Print Assumptions C154_cannot_refuted.

(** C154: one MUST_LINK constraint added while KMeans runs, and two data with a MUST_LINK known from the start get different clusters. *)
Theorem C154_must_refuted : exists m cs (q : clustering_call Z Z) m' r d,
    valid_set_order line_order /\ valid_shuffle (@rev pystr) /\ reachable m /\ Forall only_adds_constraints cs /\ valid_kmeans_call Z.ltb 0%Z m q /\
    interleaved m [p_left (p_wsession cs); p_right (line_kmeans (fst (fst q)) (snd (fst q)) (Some (snd q)))] m' [r; Ok (inr d)] /\
    ~ respects_must_links m d.
Proof. exact C154_must_refuted_proof. Qed.
Print Assumptions C154_must_refuted.
