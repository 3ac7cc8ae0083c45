(** * Spectral clustering while another thread adds constraints: what the theorems are about. *)

From Coq Require Import List ZArith.
Import ListNotations.
From Verif Require Import Base Manager Spec SamplingSpec SpectralSpec Readers ReadersSpec.

(** One call of the clustering: the vectors and the number of clusters, for data that are managed. *)
Definition spectral_call (vec : Type) : Type := dict pystr vec * Z.
Definition valid_spectral_call {vec} (m : mgr) (q : spectral_call vec) : Prop := has_ids m /\ covers (Some (fst q)) m /\ (2 <= snd q)%Z.

(** The managers on the way: after some of the additions. *)
Definition on_the_way (m : mgr) (cs : list wcall) (s : mgr) : Prop := exists n, s = run (map as_wcall (firstn n cs)) m.

(** 1 for what must be linked, 0 for what cannot be linked, the kernel elsewhere, at a position and at its mirror image. *)
Definition as_inferred {D} (s : mgr) (zero one : D) (kernel : nat -> nat -> D) (M : list (list D)) (i j : nat) (a b : pystr) : Prop :=
  (inferred s a b (Some MUST_LINK) -> entry M i j = Some one /\ entry M j i = Some one) /\
  (inferred s a b (Some CANNOT_LINK) -> entry M i j = Some zero /\ entry M j i = Some zero) /\
  (inferred s a b None -> entry M i j = Some (kernel i j) /\ entry M j i = Some (kernel j i)).

(** Each entry is right in a manager on the way; those for pairs that are known from the start are right. *)
Definition matrix_on_the_way {D} (m : mgr) (cs : list wcall) (ids : list pystr) (zero one : D) (kernel : nat -> nat -> D) (M : list (list D)) : Prop :=
  square (length ids) M /\
  (forall i j a b, nth_error ids i = Some a -> nth_error ids j = Some b -> exists s, on_the_way m cs s /\ as_inferred s zero one kernel M i j a b) /\
  (forall i j a b, nth_error ids i = Some a -> nth_error ids j = Some b ->
     (inferred m a b (Some MUST_LINK) -> entry M i j = Some one) /\ (inferred m a b (Some CANNOT_LINK) -> entry M i j = Some zero)) /\
  (forall i j a b, nth_error ids i = Some a -> nth_error ids j = Some b -> inferred (run (map as_wcall cs) m) a b None -> entry M i j = Some (kernel i j)).
