(** Generated from MinMaxThreadThms.v by tools/gen_props.py: theorem statements,
    each closed by the lemma of the same name proved there. *)

From Coq Require Import String List Bool Arith ZArith QArith Permutation.
From Verif Require Import Base Manager Spec ManagerThms ManagerInv ManagerQueries MinMax Threads ThreadSpec ThreadsThms Readers ReadersSpec ReadersThms Listing ListingSpec ListingThms
  SampleThread KMeansThreadSpec PropKMeansThread MinMaxThread MinMaxThreadThms.
Import ListNotations.
Open Scope nat_scope.

Definition A := str "a". Definition B := str "b". Definition C := str "c".
Definition node_order (i : nat) (g : graph) : list node := g_nodes g.
Lemma node_order_valid : valid_orders node_order.
Proof. intros i g. apply Permutation_refl. Qed.

(** C161: asking alone, action by action, is the method. *)
Theorem C161_alone : forall order m, alone (p_min_and_max order) m = get_min_and_max_number_of_clusters order m.
Proof. exact C161_alone_proof. Qed.
Print Assumptions C161_alone.

(** A triangle of CANNOT_LINKs, one of its data in a pair of linked data. *)
Definition E := str "d".
Definition ex : mgr := run [CallAddConstraint A E MUST_LINK 1%Q; CallAddConstraint A B CANNOT_LINK 1%Q; CallAddConstraint B C CANNOT_LINK 1%Q] (init [A; B; C; E]).
Lemma ex_reachable : reachable ex. Proof. apply run_reachable. Qed.
Lemma ex_has_ids : has_ids ex. Proof. exists A. apply managed_ids. change (In A [A; B; C; E]). left. auto. Qed.
Example C161_alone_ex : snd (alone (p_min_and_max node_order) ex) = Ok (2, 3) /\
  snd (alone (p_min_and_max node_order) (run [CallAddConstraint E C CANNOT_LINK 1%Q] ex)) = Ok (3, 3).
Proof. split; vm_compute; reflexivity. Qed.

(** C161: one thread adds constraints, any number of calls, and any number of other threads ask for the numbers of clusters. However their reads and writes are interleaved, the additions end as when
    they are made alone, and each thread gets a least and a largest number: the least is at least 2, and not above the largest when this is at least 2; the largest is at least the number of
    components at the end, and at most the number of data. What is missing: the feasibility of these numbers, see below. *)
Theorem C161_range_partial : forall m cs orders m' r rs l n,
    reachable m -> has_ids m -> Forall only_adds_constraints cs -> Forall valid_orders orders ->
    interleaved m (p_left (p_wsession cs) :: map (fun order => p_right (p_min_and_max order)) orders) m' (r :: rs) ->
    ask get_list_of_managed_data_IDs m = Ok l -> nb_components m' n ->
    m' = run (map as_wcall cs) m /\ r = Ok (inl (snd (one_by_one (map as_wcall cs) m))) /\
    Forall (fun x => exists least most, x = Ok (inr (least, most)) /\ 2 <= least <= Nat.max 2 most /\ n <= most <= length l) rs.
Proof. exact C161_range_partial_proof. Qed.
Print Assumptions C161_range_partial.

Definition all_of_them (cs : list wcall) (m : mgr) : nat := length (states (p_wsession cs) m).
(** [a] and [c] are linked once [a], [b] and [c] are listed; the component of [d] is read later. *)
Definition news : list wcall := [WAdd A C MUST_LINK 1%Q].
Example C161_range_ex : Forall only_adds_constraints news /\
  exists m', interleaved ex [p_left (p_wsession news); p_right (p_min_and_max node_order)] m' [Ok (inl [Ok (VBool true)]); Ok (inr (2, 4))] /\ nb_components m' 2 /\ nb_components ex 3.
Proof.
  split; [repeat constructor|]. exists (run (map as_wcall news) ex). split; [apply (play_interleaved (repeat 1 4 ++ repeat 0 (all_of_them news ex) ++ repeat 1 5)); vm_compute; reflexivity|].
  split; eexists; (split; [vm_compute; reflexivity|reflexivity]).
Qed.

(** C161: when nothing new is inferred as MUST_LINK by the end of the additions, in particular when only CANNOT_LINK constraints are added, the largest number is the number of components, and
    every number in the range is feasible with the constraints known at the start. *)
Theorem C161_feasible_partial : forall m cs orders m' r rs n,
    reachable m -> has_ids m -> Forall only_adds_constraints cs -> Forall valid_orders orders -> no_new_links m (run (map as_wcall cs) m) -> nb_components m n ->
    interleaved m (p_left (p_wsession cs) :: map (fun order => p_right (p_min_and_max order)) orders) m' (r :: rs) ->
    Forall (fun x => exists least, x = Ok (inr (least, n)) /\ 2 <= least <= Nat.max 2 n /\ forall k, least <= k <= n -> feasible m k) rs.
Proof. exact C161_feasible_partial_proof. Qed.
Print Assumptions C161_feasible_partial.

(** One more CANNOT_LINK, added when the components are known. *)
Definition apart : list wcall := [WAdd C E CANNOT_LINK 1%Q].
Example C161_feasible_ex : Forall only_adds_constraints apart /\ no_new_links ex (run (map as_wcall apart) ex) /\ nb_components ex 3 /\
  exists m', interleaved ex [p_left (p_wsession apart); p_right (p_min_and_max node_order)] m' [Ok (inl [Ok (VBool true)]); Ok (inr (3, 3))].
Proof.
  split; [repeat constructor|]. split; [apply C154_cannot_links_partial; [apply ex_reachable|repeat constructor]|]. split; [eexists; split; [vm_compute; reflexivity|reflexivity]|].
  eexists. apply (play_interleaved (repeat 1 5 ++ repeat 0 (all_of_them apart ex) ++ repeat 1 6)). vm_compute. reflexivity.
Qed.

(** C161: in general the largest number is not feasible, neither with the constraints at the start nor with those at the end: with one MUST_LINK added meanwhile, a thread can count one component
    before and after it was merged. *)
Theorem C161_feasible_refuted : exists m cs order m' r least most,
    reachable m /\ has_ids m /\ Forall only_adds_constraints cs /\ valid_orders order /\
    interleaved m [p_left (p_wsession cs); p_right (p_min_and_max order)] m' [r; Ok (inr (least, most))] /\
    ~ feasible m most /\ ~ feasible m' most.
Proof. exact C161_feasible_refuted_proof. Qed.
Print Assumptions C161_feasible_refuted.
