(** * Sparse CANNOT_LINK constraints, and two colouring strategies of networkx *)

From Coq Require Import String List Bool Arith ZArith Permutation.
From Verif Require Import Base Manager Spec MinMax Sampling.
Import ListNotations.
Open Scope nat_scope.

(** Two components with an inferred CANNOT_LINK between their data. *)
Definition cl_between (m : mgr) (c c' : list pystr) : Prop :=
  exists a b, In a c /\ In b c' /\ inferred m a b (Some CANNOT_LINK).

(** [c] has at most [k] such components in [S]. *)
Definition at_most (m : mgr) (k : nat) (c : list pystr) (S : list (list pystr)) : Prop :=
  forall l, NoDup l -> incl l S -> (forall c', In c' l -> cl_between m c c') -> length l <= k.

(** Every component. *)
Definition bounded_degree (m : mgr) (k : nat) : Prop :=
  forall comps c, ask get_connected_components m = Ok comps -> In c comps -> at_most m k c comps.

(** In every set of components, one of them ([k]-degenerate graph; for [k = 1], a forest). *)
Definition degenerate (m : mgr) (k : nat) : Prop :=
  forall comps S, ask get_connected_components m = Ok comps -> incl S comps -> S <> [] -> exists c, In c S /\ at_most m k c S.

(** Number of neighbours in a set of nodes. *)
Definition degree_in (g : graph) (S : list node) (u : node) : nat := length (filter (adjacent g u) S).

(** networkx [strategy_largest_first]: [sorted(G, key=G.degree, reverse=True)]. *)
Definition largest_first (g : graph) : list node :=
  sorted_by (fun u v => degree_in g (g_nodes g) v <? degree_in g (g_nodes g) u) (g_nodes g).

(** networkx [strategy_smallest_last]: nodes are removed one by one, each time one of smallest
    degree among those that remain; they are coloured in the opposite order. *)
Definition smallest_last (g : graph) (order : list node) : Prop :=
  forall p u q, order = p ++ u :: q -> forall v, In v p -> degree_in g (p ++ [u]) u <= degree_in g (p ++ [u]) v.

(** The first call uses the first strategy, the second call the second one, the others any order. *)
Definition networkx_orders (order : nat -> graph -> list node) : Prop :=
  valid_orders order /\ (forall g, order 0 g = largest_first g) /\ (forall g, NoDup (g_nodes g) -> smallest_last g (order 1 g)).
