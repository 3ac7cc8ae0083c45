(** Generated from ColoringThms.v by tools/gen_props.py: theorem statements,
    each closed by the lemma of the same name proved there. *)

From Coq Require Import String List Bool Arith ZArith QArith Permutation Lia.
From Verif Require Import Base Manager Spec Sampling MinMax ManagerThms MinMaxThms ColoringSpec ColoringThms.
Import ListNotations.
Open Scope nat_scope.

(** C90: when every set of components has one with at most k CANNOT_LINK to the others, the returned minimum is at most k+1 (and 2 in any case), provided the second colouring visits the nodes in a smallest-last order, as networkx does.  So with CANNOT_LINK constraints without cycle the minimum is 2, the true one as soon as there is a CANNOT_LINK. *)
Theorem C90_sparse_minimum :
  forall order m k, networkx_orders order -> reachable m -> has_ids m -> degenerate m k ->
    exists lo hi, ask (get_min_and_max_number_of_clusters order) m = Ok (lo, hi) /\ lo <= Nat.max 2 (1 + k).
Proof. exact C90_sparse_minimum_proof. Qed.
Print Assumptions C90_sparse_minimum.

(** Three data: b may join neither a nor c. *)
Definition path : mgr :=
  run [CallAddConstraint (nm 0) (nm 1) CANNOT_LINK 1%Q; CallAddConstraint (nm 1) (nm 2) CANNOT_LINK 1%Q] (init [nm 0; nm 1; nm 2]).
Lemma path_components : ask get_connected_components path = Ok [[nm 0]; [nm 1]; [nm 2]].
Proof. vm_compute. reflexivity. Qed.
Lemma path_between : forall i j, i < 3 -> j < 3 -> cl_between path [nm i] [nm j] -> i + 1 = j \/ j + 1 = i.
Proof.
  intros i j Li Lj (x & y & [<-|[]] & [<-|[]] & H). unfold inferred in H.
  destruct i as [|[|[|i]]]; [| | |exfalso; lia]; (destruct j as [|[|[|j]]]; [| | |exfalso; lia]); vm_compute in H; try discriminate; lia.
Qed.
Lemma path_degenerate : degenerate path 1.
Proof.
  intros comps S E C N. rewrite path_components in E. injection E as <-.
  assert (G : forall i, (i = 0 \/ i = 2) -> at_most path 1 [nm i] S).
  { intros i Hi l Nl Il Hl. apply (NoDup_incl_length Nl (l' := [[nm 1]])). intros c Hc.
    assert (B := Hl c Hc). destruct (C c (Il c Hc)) as [<-|[<-|[<-|[]]]]; [|left; reflexivity|];
      exfalso; apply path_between in B; lia. }
  destruct (in_dec (list_eq_dec (list_eq_dec N.eq_dec)) [nm 0] S) as [H0|H0].
  - exists [nm 0]. auto.
  - destruct (in_dec (list_eq_dec (list_eq_dec N.eq_dec)) [nm 2] S) as [H2|H2].
    + exists [nm 2]. auto.
    + destruct S as [|c S]; [congruence|]. exists c. split; [left; reflexivity|]. intros l Nl Il _.
      apply (NoDup_incl_length Nl (l' := [[nm 1]])). intros d Hd.
      destruct (C d (Il d Hd)) as [<-|[<-|[<-|[]]]]; [exfalso; auto|left; reflexivity|exfalso; auto].
Qed.
Example C90_sparse_ex : networkx_orders nx_orders /\ reachable path /\ has_ids path /\ degenerate path 1 /\
  ask (get_min_and_max_number_of_clusters nx_orders) path = Ok (2, 3).
Proof.
  split; [apply nx_orders_ok|]. split; [apply run_reachable|]. split; [|split; [apply path_degenerate|vm_compute; reflexivity]].
  exists (nm 0), (map nm (seq 0 3)). split; [vm_compute; reflexivity|left; auto].
Qed.

(** C90: whatever the colouring orders, the minimum is at most one more than the largest number of components that one component may not join. *)
Theorem C90_bounded_degree :
  forall order m k, valid_orders order -> reachable m -> has_ids m -> bounded_degree m k ->
    exists lo hi, ask (get_min_and_max_number_of_clusters order) m = Ok (lo, hi) /\ lo <= Nat.max 2 (1 + k).
Proof. exact C90_bounded_degree_proof. Qed.
Print Assumptions C90_bounded_degree.

(** The bound is reached: three data that may not be together. *)
Definition triangle : mgr :=
  run [CallAddConstraint (nm 0) (nm 1) CANNOT_LINK 1%Q; CallAddConstraint (nm 1) (nm 2) CANNOT_LINK 1%Q;
       CallAddConstraint (nm 0) (nm 2) CANNOT_LINK 1%Q] (init [nm 0; nm 1; nm 2; nm 3]).
Example C90_bounded_ex : bounded_degree triangle 2 /\ ask (get_min_and_max_number_of_clusters nx_orders) triangle = Ok (3, 4).
Proof.
  split; [|vm_compute; reflexivity]. intros comps c E C l Nl Il Hl.
  assert (Q : comps = [[nm 0]; [nm 1]; [nm 2]; [nm 3]]) by (vm_compute in E; injection E as <-; reflexivity). subst comps.
  assert (Z : ~ In c l /\ (c = [nm 3] \/ ~ In [nm 3] l)).
  { split.
    - intro J. destruct (Hl c J) as (x & y & X & Y & H). unfold inferred in H.
      destruct C as [<-|[<-|[<-|[<-|[]]]]]; destruct X as [<-|[]]; destruct Y as [<-|[]]; vm_compute in H; discriminate.
    - destruct C as [<-|[<-|[<-|[<-|[]]]]]; [| | |left; reflexivity]; right; intro J; destruct (Hl _ J) as (x & y & X & Y & H);
        unfold inferred in H; destruct X as [<-|[]]; destruct Y as [<-|[]]; vm_compute in H; discriminate. }
  destruct Z as [Z1 Z2]. destruct Z2 as [->|Z2].
  - destruct l as [|d l]; [repeat constructor|]. exfalso. destruct (Hl d (or_introl eq_refl)) as (x & y & X & Y & H). unfold inferred in H.
    destruct X as [<-|[]]. destruct (Il d (or_introl eq_refl)) as [<-|[<-|[<-|[<-|[]]]]]; destruct Y as [<-|[]]; vm_compute in H; discriminate.
  - destruct C as [<-|[<-|[<-|[<-|[]]]]].
    + apply (NoDup_incl_length Nl (l' := [[nm 1]; [nm 2]])). intros d Hd. destruct (Il d Hd) as [<-|[<-|[<-|[<-|[]]]]]; simpl; tauto.
    + apply (NoDup_incl_length Nl (l' := [[nm 0]; [nm 2]])). intros d Hd. destruct (Il d Hd) as [<-|[<-|[<-|[<-|[]]]]]; simpl; tauto.
    + apply (NoDup_incl_length Nl (l' := [[nm 0]; [nm 1]])). intros d Hd. destruct (Il d Hd) as [<-|[<-|[<-|[<-|[]]]]]; simpl; tauto.
    + destruct l as [|d l]; [repeat constructor|]. exfalso. destruct (Hl d (or_introl eq_refl)) as (x & y & X & Y & H). unfold inferred in H.
      destruct X as [<-|[]]. destruct (Il d (or_introl eq_refl)) as [<-|[<-|[<-|[<-|[]]]]]; destruct Y as [<-|[]]; vm_compute in H; discriminate.
Qed.

(** C90: constraints without cycle between the components (every set of components has one with at most one CANNOT_LINK to the others): the minimum returned is 2, it is feasible with at least two components, and no smaller number is once there is a CANNOT_LINK. *)
Theorem C90_forest_exact :
  forall order m n, networkx_orders order -> reachable m -> nb_components m n -> 2 <= n -> degenerate m 1 ->
    exists hi, ask (get_min_and_max_number_of_clusters order) m = Ok (2, hi) /\ feasible m 2 /\
      ((exists a b, managed m a /\ managed m b /\ inferred m a b (Some CANNOT_LINK)) -> forall k, feasible m k -> 2 <= k).
Proof. exact C90_forest_exact_proof. Qed.
Print Assumptions C90_forest_exact.

Example C90_forest_ex : nb_components path 3 /\ degenerate path 1 /\ inferred path (nm 0) (nm 1) (Some CANNOT_LINK) /\
  feasible path 2 /\ ~ feasible path 1.
Proof.
  assert (N : nb_components path 3) by (eexists; split; [apply path_components|reflexivity]).
  assert (C : inferred path (nm 0) (nm 1) (Some CANNOT_LINK)) by (vm_compute; reflexivity).
  destruct (C90_forest_exact nx_orders path 3 nx_orders_ok (run_reachable _ _) N ltac:(lia) path_degenerate) as (hi & E & F & G).
  repeat (split; [solve [auto using path_degenerate]|]). intro F1. apply G in F1; [lia|]. exists (nm 0), (nm 1). split; [|split; auto];
    exists (map nm (seq 0 3)); (split; [vm_compute; reflexivity|simpl; auto]).
Qed.

(** C90: the minimum is not exact in general, even when two clusters would do: 15 data with 16 CANNOT_LINK that split into two groups, for which the orders of networkx (largest first, smallest last) give 3. *)
Theorem C90_not_exact_with_cycles :
  exists order m, networkx_orders order /\ reachable m /\ has_ids m /\
    ask (get_min_and_max_number_of_clusters order) m = Ok (3, 15) /\ feasible m 2.
Proof. exact C90_not_exact_with_cycles_proof. Qed.
Print Assumptions C90_not_exact_with_cycles.
