(** * DBScan while another thread adds constraints: what the theorems are about. *)

From Coq Require Import List ZArith.
Import ListNotations.
From Verif Require Import Base Manager Spec ClusterSpec SamplingSpec Dbscan DbscanSpec DbscanThread.

(** One call of the clustering: the parameters of the object, made from documented arguments, and the vectors, for data that are managed.
    No datum is farther from itself than [eps]. *)
Definition dbscan_call (vec D : Type) : Type := db_params D * dict pystr vec.
Definition valid_dbscan_call {vec D} (pairwise : list vec -> nat -> nat -> D) (leb : D -> D -> bool) (of_nat : nat -> D) (m : mgr) (q : dbscan_call vec D) : Prop :=
  (exists eps min_samples, make_dbscan D leb of_nat eps min_samples = Ok (fst q)) /\
  (forall rows i, leb (pairwise rows i i) (db_eps D (fst q)) = true) /\
  has_ids m /\ covers (Some (snd q)) m.

(** A result of the method: the regular clusters, numbered by the first of their data in the order of the IDs, then the ignored data with -1, -2, ... in the order of
    the manager. *)
Definition regular_and_ignored (m : mgr) (d : dict pystr Z) : Prop :=
  exists l regular ignored, ask get_list_of_managed_data_IDs m = Ok l /\ d = regular ++ ignored /\ canonical regular /\
    vals ignored = negatives (length ignored) /\ forall x y, before (keys ignored) x y -> before l x y.

(** Numbers as vectors, for examples. *)
Definition line_dist (X : list Z) (i j : nat) : Z := Z.abs (nth i X 0 - nth j X 0)%Z.
Definition line_dbscan := p_dbscan Z Z line_dist Z.leb Z.ltb Z.of_nat dedup.
