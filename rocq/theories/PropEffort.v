(** Generated from EffortThms.v by tools/gen_props.py: theorem statements,
    each closed by the lemma of the same name proved there. *)

(** * Properties of the number of annotations (C100) *)

From Coq Require Import String List Bool Arith QArith Lia.
From Verif Require Import Base Manager Spec EffortSpec ManagerThms EffortThms.
Import ListNotations.
Open Scope nat_scope.

Definition a := str "a". Definition b := str "b". Definition c := str "c". Definition d := str "d".

(** C100: with n IDs in k components, at least n - k MUST_LINK constraints have been added. *)
Theorem C100_must_links_needed :
  forall m, reachable m -> forall l cs,
    ask get_list_of_managed_data_IDs m = Ok l -> ask get_connected_components m = Ok cs ->
    length l - length cs <= effort m MUST_LINK.
Proof. exact C100_must_links_needed_proof. Qed.
Print Assumptions C100_must_links_needed.

(** C100: two components are known to be different only if a CANNOT_LINK was added for this pair of components. *)
Theorem C100_cannot_links_needed :
  forall m, reachable m -> forall cs, ask get_connected_components m = Ok cs ->
    length (filter (known_different m) (pairs cs)) <= effort m CANNOT_LINK.
Proof. exact C100_cannot_links_needed_proof. Qed.
Print Assumptions C100_cannot_links_needed.

(** C100: so complete constraints on n IDs in k groups need (n - k) + k(k - 1)/2 annotations. *)
Theorem C100_complete_effort :
  forall m, reachable m -> complete m -> forall l cs,
    ask get_list_of_managed_data_IDs m = Ok l -> ask get_connected_components m = Ok cs ->
    2 * (length l - length cs) + length cs * (length cs - 1) <= 2 * (effort m MUST_LINK + effort m CANNOT_LINK).
Proof. exact C100_complete_effort_proof. Qed.
Print Assumptions C100_complete_effort.

(** Four IDs in two groups, three annotations. *)
Definition ex_annotations : list (pystr * pystr * pystr) := [(a, b, MUST_LINK); (b, c, CANNOT_LINK); (c, d, MUST_LINK)].
Definition ex_complete : mgr := run (annotations ex_annotations) (init [a; b; c; d]).
Example C100_ex : reachable ex_complete /\ complete ex_complete /\ ask get_connected_components ex_complete = Ok [[a; b]; [c; d]] /\
  effort ex_complete MUST_LINK = 2 /\ effort ex_complete CANNOT_LINK = 1.
Proof. split; [apply run_reachable|]. repeat split. Qed.

(** C100: if nothing was known about a pair when it was annotated, no annotation is refused, none is wasted, and exactly n - k of them are MUST_LINK. *)
Theorem C100_frugal :
  forall ids l, frugal l (init ids) -> forall il cs,
    ask get_list_of_managed_data_IDs (run (annotations l) (init ids)) = Ok il ->
    ask get_connected_components (run (annotations l) (init ids)) = Ok cs ->
    effort (run (annotations l) (init ids)) MUST_LINK = length il - length cs /\
    length l = effort (run (annotations l) (init ids)) MUST_LINK + effort (run (annotations l) (init ids)) CANNOT_LINK.
Proof. exact C100_frugal_proof. Qed.
Print Assumptions C100_frugal.

Example C100_frugal_ex : frugal ex_annotations (init [a; b; c; d]).
Proof. repeat split; (left; reflexivity) || (right; reflexivity). Qed.

(** C100: and for every ground truth there are that many annotations that are all accepted and decide everything. *)
Theorem C100_effort_attained :
  forall ids (truth : pystr -> nat), NoDup ids -> exists l m,
    2 * length l = 2 * (length ids - nb_of_clusters ids truth) + nb_of_clusters ids truth * (nb_of_clusters ids truth - 1) /\
    add_all l (init ids) = (m, Ok tt) /\ complete m /\
    forall x y, In x ids -> In y ids -> inferred m x y (Some MUST_LINK) <-> truth x = truth y.
Proof. exact C100_effort_attained_proof. Qed.
Print Assumptions C100_effort_attained.
