(** Generated from DbscanThreadThms.v by tools/gen_props.py: theorem statements,
    each closed by the lemma of the same name proved there. *)

From Coq Require Import String List Bool Arith ZArith QArith Permutation Lia.
From Verif Require Import Base Manager Spec ManagerThms ManagerInv ManagerQueries Sampling SamplingSpec ClusterSpec KMeansThreadSpec Dbscan DbscanSpec Threads ThreadSpec ThreadsThms Readers ReadersSpec
  ReadersThms ListingSpec Listing SampleThread PropKMeansThread DbscanThread DbscanThreadSpec DbscanThreadThms.
Import ListNotations.
Open Scope nat_scope.

Definition A := str "a". Definition B := str "b". Definition C := str "c". Definition E := str "e".


(** C157: the clustering alone, action by action, leaves the manager as it is and ends with the result of the method. *)
Theorem C157_alone : forall vec D pairwise leb ltb of_nat setlist p vectors nb s m, reachable m ->
  alone (p_dbscan vec D pairwise leb ltb of_nat setlist p vectors nb) m = (m, result (Dbscan.cluster vec D pairwise leb ltb of_nat setlist p m vectors nb) s).
Proof. exact C157_alone_proof. Qed.
Print Assumptions C157_alone.

Definition ex : mgr := run [CallAddConstraint B C CANNOT_LINK 1%Q] (init [A; B; C; E]).
Lemma ex_reachable : reachable ex. Proof. apply run_reachable. Qed.
Definition places : dict pystr Z := [(A, 0); (B, 1); (C, 50); (E, 51)]%Z.
Definition pars := mkDBParams Z 2%Z 2.
Example C157_alone_ex : alone (line_dbscan pars places None) ex = (ex, Ok [(A, 0); (B, 0); (C, 1); (E, 1)]%Z).
Proof. vm_compute. reflexivity. Qed.

(** C157: one thread adds constraints, any number of calls, and any number of other threads cluster the data with DBScan, with the documented arguments. However their reads and writes are
    interleaved, the additions end as when they are made alone, and no clustering fails: each gives one value to each of the data and to nothing else, with the regular clusters numbered by the
    first of their data in the order of the IDs, then the ignored data with -1, -2, and so on. What is missing: the constraints, see below. *)
Theorem C157_no_failure_partial : forall vec D pairwise leb ltb of_nat setlist m cs (qs : list (dbscan_call vec D)) m' r rs,
    valid_setlist setlist -> reachable m -> Forall only_adds_constraints cs -> Forall (valid_dbscan_call pairwise leb of_nat m) qs ->
    interleaved m (p_left (p_wsession cs) :: map (fun q => p_right (p_dbscan vec D pairwise leb ltb of_nat setlist (fst q) (snd q) None)) qs) m' (r :: rs) ->
    m' = run (map as_wcall cs) m /\ r = Ok (inl (snd (one_by_one (map as_wcall cs) m))) /\
    Forall (fun x => exists d, x = Ok (inr d) /\ covers_exactly m d /\ NoDup (keys d) /\ regular_and_ignored m d) rs.
Proof. exact C157_no_failure_partial_proof. Qed.
Print Assumptions C157_no_failure_partial.

Definition news : list wcall := [WAdd A C MUST_LINK 1%Q].
(** The constraint between [a] and [c] is added once the local clusters are known, where [a] is with [b]. *)
Definition turns : list nat := repeat 1 40 ++ repeat 0 (length (states (p_wsession news) ex)) ++ repeat 1 97.
Lemma ex_valid : valid_dbscan_call line_dist Z.leb Z.of_nat ex (pars, places).
Proof.
  split; [exists 2%Z, 2%Z; reflexivity|]. split; [intros rows i; unfold line_dist; rewrite Z.sub_diag; reflexivity|].
  split; [exists A; apply managed_ids; change (In A [A; B; C; E]); left; auto|]. exists places. split; auto. intros x Mx. apply managed_ids in Mx. exact Mx.
Qed.
Example C157_no_failure_ex : Forall only_adds_constraints news /\
  exists m', interleaved ex [p_left (p_wsession news); p_right (line_dbscan pars places None)] m' [Ok (inl [Ok (VBool true)]); Ok (inr [(A, 0); (B, 0); (C, 0); (E, -1)]%Z)].
Proof. split; [repeat constructor|]. eexists. apply (play_interleaved turns). vm_compute. reflexivity. Qed.

(** C157: when nothing new is inferred as MUST_LINK by the end of the additions, each clustering separates the data that were known as CANNOT_LINK when it started, and perhaps not those
    that were separated meanwhile. *)
Theorem C157_cannot_links_partial : forall vec D pairwise leb ltb of_nat setlist m cs (qs : list (dbscan_call vec D)) m' r rs,
    valid_setlist setlist -> reachable m -> Forall only_adds_constraints cs -> Forall (valid_dbscan_call pairwise leb of_nat m) qs ->
    no_new_links m (run (map as_wcall cs) m) ->
    interleaved m (p_left (p_wsession cs) :: map (fun q => p_right (p_dbscan vec D pairwise leb ltb of_nat setlist (fst q) (snd q) None)) qs) m' (r :: rs) ->
    Forall (fun x => exists d, x = Ok (inr d) /\ respects_cannot_links m d) rs.
Proof. exact C157_cannot_links_partial_proof. Qed.
Print Assumptions C157_cannot_links_partial.

Definition apart : list wcall := [WAdd A B CANNOT_LINK 1%Q].
(** The clustering does not know yet that [a] and [b] must be apart. *)
Example C157_cannot_links_ex : inferred ex B C (Some CANNOT_LINK) /\ no_new_links ex (run (map as_wcall apart) ex) /\
  exists m', interleaved ex [p_left (p_wsession apart); p_right (line_dbscan pars places None)] m' [Ok (inl [Ok (VBool true)]); Ok (inr [(A, 0); (B, 0); (C, 1); (E, 1)]%Z)].
Proof.
  split; [vm_compute; reflexivity|]. split; [apply C154_cannot_links_partial; [apply ex_reachable|repeat constructor]|].
  eexists. apply (play_interleaved (repeat 1 40 ++ repeat 0 (length (states (p_wsession apart) ex)) ++ repeat 1 92)). vm_compute. reflexivity.
Qed.

(** C157: one MUST_LINK constraint added while DBScan runs, and two data with a CANNOT_LINK known from the start get the same cluster. *)
Theorem C157_cannot_refuted : exists m cs (q : dbscan_call Z Z) m' r d,
    valid_setlist dedup /\ reachable m /\ Forall only_adds_constraints cs /\ valid_dbscan_call line_dist Z.leb Z.of_nat m q /\
    interleaved m [p_left (p_wsession cs); p_right (line_dbscan (fst q) (snd q) None)] m' [r; Ok (inr d)] /\
    ~ respects_cannot_links m d.
Proof. exact C157_cannot_refuted_proof. Qed.
Print Assumptions C157_cannot_refuted.
