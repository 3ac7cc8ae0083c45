(** * Hierarchical clustering while another thread adds constraints: what the theorems are about. *)

From Coq Require Import List ZArith.
Import ListNotations.
From Verif Require Import Base Manager Spec SamplingSpec Hierarchical HierThread KMeansThreadSpec.

(** One call of the hierarchical clustering: the linkage, the vectors and the number of clusters; the documented arguments, for data that are managed. *)
Definition hier_call (vec : Type) : Type := pystr * dict pystr vec * Z.
Definition valid_hier_call {vec} (m : mgr) (q : hier_call vec) : Prop :=
  match q with (linkage, vectors, nb) =>
    make_hierarchical linkage = Ok linkage /\ has_ids m /\ covers (Some vectors) m /\ (2 <= nb)%Z
  end.

(** Numbers as vectors, for examples. *)
Definition line_hier := p_hierarchical Z Z (fun X i j => line_pw X X i j) (fun x y => Z.abs (x - y)%Z) Z.ltb line_sum (fun d n => (d / Z.of_nat n)%Z) 1000000%Z line_mean.
