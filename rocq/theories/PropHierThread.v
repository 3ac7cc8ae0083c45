(** Generated from HierThreadThms.v by tools/gen_props.py: theorem statements,
    each closed by the lemma of the same name proved there. *)

From Coq Require Import String List Bool Arith ZArith QArith Permutation Lia.
From Verif Require Import Base Manager Spec ManagerThms ManagerInv ManagerQueries Sampling SamplingSpec ClusterSpec Hierarchical HierSpec Threads ThreadSpec ThreadsThms Readers ReadersSpec ReadersThms ListingSpec
  Listing SampleThread HierThread KMeansThreadSpec HierThreadSpec HierThreadThms.
Import ListNotations.
Open Scope nat_scope.

Definition A := str "a". Definition B := str "b". Definition C := str "c". Definition E := str "e".


(** C155: the clustering alone, action by action, leaves the manager as it is and ends with the result of the method. *)
Theorem C155_alone : forall vec D (EB : EqB D) pairwise cdistance ltb dsum ddiv inf mean linkage vectors nb s m, reachable m ->
  alone (p_hierarchical vec D pairwise cdistance ltb dsum ddiv inf mean linkage vectors nb) m =
  (m, result (Hierarchical.cluster vec D pairwise cdistance ltb dsum ddiv inf mean linkage m vectors nb) s).
Proof. exact C155_alone_proof. Qed.
Print Assumptions C155_alone.

Definition ex : mgr := run [CallAddConstraint A B MUST_LINK 1%Q; CallAddConstraint C E CANNOT_LINK 1%Q] (init [A; B; C; E]).
Lemma ex_reachable : reachable ex. Proof. apply run_reachable. Qed.
Definition places : dict pystr Z := [(A, 0); (B, 9); (C, 10); (E, 11)]%Z.
Example C155_alone_ex : alone (line_hier (str "single") places (Some 2%Z)) ex = (ex, Ok [(A, 0); (B, 0); (C, 0); (E, 1)]%Z).
Proof. vm_compute. reflexivity. Qed.

(** C155: one thread adds constraints, any number of calls, and any number of other threads cluster the data with the hierarchical method, with the documented arguments. However their reads and
    writes are interleaved, the additions end as when they are made alone, and no clustering fails: each gives a cluster to each of the data and to nothing else, with clusters numbered by the
    first of their data in the order of the IDs. *)
Theorem C155_no_failure : forall vec D (EB : EqB D) pairwise cdistance ltb dsum ddiv inf mean m cs (qs : list (hier_call vec)) m' r rs,
    reachable m -> Forall only_adds_constraints cs -> Forall (valid_hier_call m) qs ->
    interleaved m (p_left (p_wsession cs) :: map (fun q => p_right (p_hierarchical vec D pairwise cdistance ltb dsum ddiv inf mean (fst (fst q)) (snd (fst q)) (Some (snd q)))) qs) m' (r :: rs) ->
    m' = run (map as_wcall cs) m /\ r = Ok (inl (snd (one_by_one (map as_wcall cs) m))) /\
    Forall (fun x => exists d, x = Ok (inr d) /\ canonical d /\ covers_exactly m d) rs.
Proof. exact C155_no_failure_proof. Qed.
Print Assumptions C155_no_failure.

Definition news : list wcall := [WAdd B E MUST_LINK 1%Q].
Definition all_of_them : nat := length (states (p_wsession news) ex).
Lemma ex_valid : valid_hier_call ex (str "single", places, 2%Z).
Proof.
  split; [reflexivity|]. split; [exists A; apply managed_ids; change (In A [A; B; C; E]); left; auto|]. split; [|lia].
  exists places. split; auto. intros x Mx. apply managed_ids in Mx. exact Mx.
Qed.
(** The constraint between [b] and [e] is added after the first of the components, that of [a] and [b], is listed: the data [a] and [b] end in two of the lists. *)
Example C155_no_failure_ex : Forall only_adds_constraints news /\
  exists m', interleaved ex [p_left (p_wsession news); p_right (line_hier (str "single") places (Some 2%Z))] m' [Ok (inl [Ok (VBool true)]); Ok (inr [(A, 0); (B, 0); (C, 1); (E, 0)]%Z)].
Proof. split; [repeat constructor|]. eexists. apply (play_interleaved (repeat 1 4 ++ repeat 0 all_of_them ++ repeat 1 33)). vm_compute. reflexivity. Qed.

(** C155: each clustering respects all the constraints that were known when the threads started, MUST_LINK and CANNOT_LINK, whatever is added meanwhile (unlike KMeans, C154), and perhaps not those
    that were added meanwhile. *)
Theorem C155_respects : forall vec D (EB : EqB D) pairwise cdistance ltb dsum ddiv inf mean m cs (qs : list (hier_call vec)) m' r rs,
    reachable m -> Forall only_adds_constraints cs -> Forall (valid_hier_call m) qs ->
    interleaved m (p_left (p_wsession cs) :: map (fun q => p_right (p_hierarchical vec D pairwise cdistance ltb dsum ddiv inf mean (fst (fst q)) (snd (fst q)) (Some (snd q)))) qs) m' (r :: rs) ->
    Forall (fun x => exists d, x = Ok (inr d) /\ respects m d) rs.
Proof. exact C155_respects_proof. Qed.
Print Assumptions C155_respects.

(** The constraint between [b] and [e] is added while the distances are computed: the clustering separates [b] and [e], and respects what was known before. *)
Example C155_respects_ex : Forall (valid_hier_call ex) [(str "single", places, 2%Z)] /\
  exists m', interleaved ex [p_left (p_wsession news); p_right (line_hier (str "single") places (Some 2%Z))] m' [Ok (inl [Ok (VBool true)]); Ok (inr [(A, 0); (B, 0); (C, 0); (E, 1)]%Z)].
Proof. split; [constructor; [apply ex_valid|constructor]|]. eexists. apply (play_interleaved (repeat 1 20 ++ repeat 0 all_of_them ++ repeat 1 16)). vm_compute. reflexivity. Qed.
