(** * The forests an agglomeration goes through, and what single linkage is. *)

From Coq Require Import String List Bool Arith ZArith Relations.
From Verif Require Import Base Manager Spec SamplingSpec ClusterSpec KMeansSpec Hierarchical HierSpec.
Import ListNotations.
Open Scope nat_scope.

Section Trace.
  Context {vec : Type}.
  Variable mean : list vec -> vec.
  Variable vectors : dict pystr vec.
  Notation tree := (tree vec).
  Variable mergeable : list tree -> tree -> tree -> Prop.
  Variable finished : list tree -> Prop.

  (** As [agglomerates], with the forests in the order of the run. *)
  Inductive run_trace : nat -> list tree -> tree -> list (list tree) -> Prop :=
  | tr_single : forall it t, run_trace it [t] t [[t]]
  | tr_merge : forall it l1 t1 l2 t2 l3 t root trace,
      mergeable (l1 ++ t1 :: l2 ++ t2 :: l3) t1 t2 ->
      node_over mean vectors it (l1 ++ t1 :: l2 ++ t2 :: l3) [t1; t2] t ->
      run_trace (S it) (l1 ++ l2 ++ l3 ++ [t]) root trace ->
      run_trace it (l1 ++ t1 :: l2 ++ t2 :: l3) root ((l1 ++ t1 :: l2 ++ t2 :: l3) :: trace)
  | tr_finished : forall it forest root,
      2 <= length forest -> finished forest -> node_over mean vectors it forest forest root ->
      run_trace it forest root [forest; [root]].
End Trace.

(** The last forest of the run with at least [k] clusters, or the first one when there is none. *)
Definition last_with {T} (k : Z) (first : list T) (trace : list (list T)) (forest : list T) : Prop :=
  In forest trace /\
  ((k <= Z.of_nat (length forest))%Z \/ forest = first) /\
  forall other, In other trace -> (k <= Z.of_nat (length other))%Z -> length forest <= length other.

(** Two data are joined by steps no longer than [h]; data that must be linked are at no distance. *)
Definition joined {vec D} (pairwise : list vec -> nat -> nat -> D) (ltb : D -> D -> bool) (m : mgr) (vectors : dict pystr vec) (h : D) :
    pystr -> pystr -> Prop :=
  clos_refl_trans pystr (fun a b => managed m a /\ managed m b /\
    (inferred m a b (Some MUST_LINK) \/ exists d, distance_is pairwise m vectors (a, b) d /\ ltb h d = false)).
