(** Generated from RenameThms.v by tools/gen_props.py: theorem statements,
    each closed by the lemma of the same name proved there. *)

From Coq Require Import String List Bool Arith ZArith Permutation.
From Verif Require Import Base Manager Spec Rename ClusterSpec RenameThms.
Import ListNotations.
Open Scope Z_scope.


(** C33: renaming never fails, keeps the IDs and the partition, sorts the IDs and numbers the clusters 0, 1, ... in order of first appearance. *)
Theorem C33_rename_canonical :
  forall d, NoDup (keys d) -> exists d', rename_clusters_by_order d = Ok d' /\
    canonical d' /\ same_partition d d' /\ Permutation (keys d) (keys d').
Proof. exact C33_rename_canonical_proof. Qed.
Print Assumptions C33_rename_canonical.

Definition C33_clusters : dict pystr Z := [(str "b", 7); (str "c", -1); (str "a", -1); (str "d", 7); (str "e", 3)].
Example C33_ex : rename_clusters_by_order C33_clusters =
  Ok [(str "a", 0); (str "b", 1); (str "c", 0); (str "d", 1); (str "e", 2)].
Proof. reflexivity. Qed.

(** C33: renaming is idempotent, and gives equal dictionaries exactly on equal partitions of the same IDs. *)
Theorem C33_rename_canonicity :
  forall d1 d2, NoDup (keys d1) -> NoDup (keys d2) ->
    (rename_clusters_by_order d1 = rename_clusters_by_order d2 <-> same_partition d1 d2) /\
    (forall d', rename_clusters_by_order d1 = Ok d' -> rename_clusters_by_order d' = Ok d') /\
    (rename_clusters_by_order d1 = Ok d1 <-> canonical d1).
Proof. exact C33_rename_canonicity_proof. Qed.
Print Assumptions C33_rename_canonicity.

Example C33_ex2 : same_partition C33_clusters [(str "a", 5); (str "e", 0); (str "c", 5); (str "d", 2); (str "b", 2)].
Proof.
  refine (proj1 (proj1 (C33_rename_canonicity _ [(str "a", 5); (str "e", 0); (str "c", 5); (str "d", 2); (str "b", 2)] _ _)) _);
    [| |reflexivity]; repeat (constructor; [simpl; intros H; repeat destruct H as [H|H]; discriminate || exact H|]); constructor.
Qed.
