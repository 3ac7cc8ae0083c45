(** * Clustering while another thread adds constraints: what the theorems are about. *)

From Coq Require Import List ZArith.
Import ListNotations.
From Verif Require Import Base Manager Spec SamplingSpec Readers KMeans KMeansThread.

(** The calls that add a constraint of type CANNOT_LINK. *)
Definition only_adds_cannot_links (c : wcall) : Prop := match c with WAdd _ _ t _ => t = CANNOT_LINK | _ => False end.

(** What is inferred as MUST_LINK in the second manager is so in the first. *)
Definition no_new_links (m m' : mgr) : Prop := forall a b, inferred m' a b (Some MUST_LINK) -> inferred m a b (Some MUST_LINK).

(** One call of KMeans: its parameters, the vectors and the number of clusters; the documented arguments, for data that are managed. *)
Definition clustering_call (vec D : Type) : Type := kparams D * dict pystr vec * Z.
Definition valid_kmeans_call {vec D} (ltb : D -> D -> bool) (dzero : D) (m : mgr) (q : clustering_call vec D) : Prop :=
  match q with (p, vectors, nb) =>
    (exists model max_iteration tolerance, make_kmeans D ltb dzero model max_iteration tolerance = Ok p) /\
    has_ids m /\ covers (Some vectors) m /\ (2 <= nb)%Z
  end.

(** Numbers as vectors, for examples: the distance, the mean, the sum, the last data as the first centres. *)
Definition line_pw (X Y : list Z) (i j : nat) : Z := Z.abs (nth i X 0 - nth j Y 0)%Z.
Definition line_mean (l : list Z) : Z := (fold_right Z.add 0 l / Z.of_nat (length l))%Z.
Definition line_sum (l : list Z) : Z := fold_right Z.add 0%Z l.
Definition line_order : list Z -> list Z := nodup Z.eq_dec.
Definition line_kmeans := p_kmeans Z Z line_pw Z.ltb line_sum line_mean (@rev pystr) line_order.
