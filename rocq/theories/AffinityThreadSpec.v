(** * Affinity propagation while another thread adds constraints: what the theorems are about. *)

From Coq Require Import List ZArith.
Import ListNotations.
From Verif Require Import Base Manager Spec SamplingSpec KMeansSpec Affinity AffinitySpec.

(** One call of the clustering: the parameters of the object and the vectors, for data that are managed. *)
Definition affinity_call (vec : Type) : Type := ap_params * dict pystr vec.
Definition valid_affinity_call {vec} (m : mgr) (q : affinity_call vec) : Prop := has_ids m /\ covers (Some (snd q)) m.

(** A call for which the lists of linked data count: the option [absolute_must_links], and similarities that are not all equal, or all equal and below the preference. *)
Definition links_count {vec D} (o : ops D) (similarity : list vec -> nat -> nat -> D) (m : mgr) (q : affinity_call vec) : Prop :=
  ap_absolute (fst q) = true /\
  exists l rows, ask get_list_of_managed_data_IDs m = Ok l /\ vectors_are (snd q) l rows /\
    (~ degenerate o (length l) (similarity rows) \/ o_ge D o (o_median D o (all_values (length l) (similarity rows))) (similarity rows 0 (length l - 1)) = false).
