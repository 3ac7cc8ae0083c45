(** Generated from MinMaxThms.v by tools/gen_props.py: theorem statements,
    each closed by the lemma of the same name proved there. *)

From Coq Require Import String List Bool Arith QArith Permutation.
From Verif Require Import Base Manager Spec MinMax ManagerThms MinMaxThms.
Import ListNotations.
Open Scope nat_scope.

Definition ids (m : mgr) (l : list pystr) : Prop := ask get_list_of_managed_data_IDs m = Ok l.

(** Running examples: a must-link b, b cannot-link c, c cannot-link d, d cannot-link a. *)
Definition a : pystr := str "a".
Definition b : pystr := str "b".
Definition c : pystr := str "c".
Definition d : pystr := str "d".
Definition ex : mgr :=
  run [CallAddConstraint a b MUST_LINK 1%Q; CallAddConstraint c b CANNOT_LINK 1%Q;
       CallAddConstraint c d CANNOT_LINK 1%Q; CallAddConstraint d a CANNOT_LINK 1%Q] (init [a; b; c; d; str "e"]).
Definition node_order (i : nat) (g : graph) : list node := g_nodes g.
Lemma node_order_valid : valid_orders node_order.
Proof. intros i g. apply Permutation_refl. Qed.


(** C15: the returned maximum is the largest feasible number of clusters. *)
Theorem C15_maximum_exact :
  forall order m, valid_orders order -> reachable m -> has_ids m ->
    exists lo hi, ask (get_min_and_max_number_of_clusters order) m = Ok (lo, hi) /\
      feasible m hi /\ (forall k, feasible m k -> k <= hi).
Proof. exact C15_maximum_exact_proof. Qed.
Print Assumptions C15_maximum_exact.

Example C15_ex : has_ids ex /\ ask (get_min_and_max_number_of_clusters node_order) ex = Ok (3, 4).
Proof. split; [exists a, [a; b; c; d; str "e"]; split; [reflexivity|left; reflexivity]|reflexivity]. Qed.

(** C16: with at least two components, 2 <= lo <= hi and every k in between is feasible. *)
Theorem C16_range_feasible :
  forall order m n, valid_orders order -> reachable m -> nb_components m n -> 2 <= n ->
    exists lo hi, ask (get_min_and_max_number_of_clusters order) m = Ok (lo, hi) /\
      2 <= lo <= hi /\ (forall k, lo <= k <= hi -> feasible m k).
Proof. exact C16_range_feasible_proof. Qed.
Print Assumptions C16_range_feasible.

Example C16_ex : nb_components ex 4 /\ feasible ex 3.
Proof.
  assert (N : nb_components ex 4) by (eexists; split; [vm_compute; reflexivity|reflexivity]).
  split; auto.
  destruct (C16_range_feasible node_order ex 4 node_order_valid) as (lo & hi & E & _ & F); auto.
  + apply run_reachable.
  + vm_compute in E. inversion E; subst. apply F. repeat constructor.
Qed.

(** C17: the returned minimum is NOT always a true minimum: for two unconstrained IDs it is 2 although one cluster respects all constraints. *)
Theorem C17_minimum_refuted :
  exists m, reachable m /\ has_ids m /\ nb_components m 2 /\
    (forall order, valid_orders order -> ask (get_min_and_max_number_of_clusters order) m = Ok (2, 2)) /\
    feasible m 1.
Proof. exact C17_minimum_refuted_proof. Qed.
Print Assumptions C17_minimum_refuted.

(** C17 (what does hold): when every pair is decided (at least two components), lo = hi and it is the only feasible number; and whenever some pair is inferred CANNOT_LINK, no clustering with fewer than two clusters is feasible, so lo = 2 is then a true minimum.  Missing: minimality of lo > 2 on incomplete constraints (greedy colouring is a heuristic). *)
Theorem C17_minimum_partial :
  forall order m n, valid_orders order -> reachable m -> nb_components m n -> 2 <= n ->
    exists lo hi, ask (get_min_and_max_number_of_clusters order) m = Ok (lo, hi) /\
      (complete m -> lo = hi /\ forall k, feasible m k -> k = lo) /\
      ((exists a b, managed m a /\ managed m b /\ inferred m a b (Some CANNOT_LINK)) ->
         forall k, feasible m k -> 2 <= k).
Proof. exact C17_minimum_partial_proof. Qed.
Print Assumptions C17_minimum_partial.

Example C17_ex : let m := run [CallAddConstraint a (str "e") CANNOT_LINK 1%Q; CallAddConstraint c (str "e") CANNOT_LINK 1%Q;
     CallAddConstraint d (str "e") CANNOT_LINK 1%Q] ex in
  complete m /\ ask (get_min_and_max_number_of_clusters node_order) m = Ok (4, 4).
Proof. split; reflexivity. Qed.

(** C18: the returned range CAN be empty: one managed ID gives (2, 1); without any ID the method fails. *)
Theorem C18_range_refuted :
  (exists m, reachable m /\ has_ids m /\
    forall order, valid_orders order -> ask (get_min_and_max_number_of_clusters order) m = Ok (2, 1)) /\
  (exists m, reachable m /\
    forall order, valid_orders order -> ask (get_min_and_max_number_of_clusters order) m = Raise ValueError).
Proof. exact C18_range_refuted_proof. Qed.
Print Assumptions C18_range_refuted.

(** C18 (exact): the method fails only without any ID, never changes the manager, and the range is non-empty exactly when there are at least two components. *)
Theorem C18_range_exact_partial :
  forall order m n, valid_orders order -> reachable m -> nb_components m n ->
    fst (get_min_and_max_number_of_clusters order m) = m /\
    (n = 0 <-> ~ has_ids m) /\
    (n = 0 -> ask (get_min_and_max_number_of_clusters order) m = Raise ValueError) /\
    (1 <= n -> exists lo, ask (get_min_and_max_number_of_clusters order) m = Ok (lo, n) /\ 2 <= lo /\ (lo <= n <-> 2 <= n)).
Proof. exact C18_range_exact_partial_proof. Qed.
Print Assumptions C18_range_exact_partial.

Example C18_ex : nb_components ex 4 /\ reachable ex.
Proof. split; [eexists; split; [vm_compute; reflexivity|reflexivity]|apply run_reachable]. Qed.
