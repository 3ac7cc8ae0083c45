(** Generated from AffinityThms.v by tools/gen_props.py: theorem statements,
    each closed by the lemma of the same name proved there. *)

From Coq Require Import String List Bool Arith ZArith QArith Permutation Lia.
From Verif Require Import Base Manager Spec ManagerThms SamplingSpec ClusterSpec KMeansSpec KMeansThms SpectralSpec Affinity AffinitySpec AffinityExample AffinityThms.
Import ListNotations.
Open Scope nat_scope.
Open Scope py_scope.

(** C44 refuted: two IDs linked by MUST_LINK are separated, with absolute_must_links and exact arithmetic. *)
Theorem C44_affinity_must_links_refuted :
  ~ (forall vec D (o : ops D) similarity fin le p m (vectors : dict pystr vec) s d,
       exact o fin le -> reachable m -> ap_absolute p = true ->
       result (cluster vec D o similarity p m vectors None) s = Ok d -> respects_must_links m d).
Proof. exact C44_affinity_must_links_refuted_proof. Qed.
Print Assumptions C44_affinity_must_links_refuted.

(** C44, proved part: with absolute_must_links, IDs inferred MUST_LINK share a cluster unless the case of equal similarities gives every data its own cluster. *)
Theorem C44_affinity_must_links_partial :
  forall vec D (o : ops D) similarity p m (vectors : dict pystr vec) s d l rows,
    valid_argmax o -> reachable m -> ask get_list_of_managed_data_IDs m = Ok l -> vectors_are vectors l rows -> ap_absolute p = true ->
    ~ degenerate o (length l) (similarity rows) \/ o_ge D o (o_median D o (all_values (length l) (similarity rows))) (similarity rows 0 (length l - 1)) = false ->
    result (cluster vec D o similarity p m vectors None) s = Ok d -> respects_must_links m d.
Proof. exact C44_affinity_must_links_partial_proof. Qed.
Print Assumptions C44_affinity_must_links_partial.

(** [a] and [c] are linked and share a cluster; the similarities are not degenerate. *)
Example C44_ex : vectors_are vecs [A; B; C; E; F] [0; 1; 3; 112; 110]%Z /\ ~ degenerate exact_ops 5 (line [0; 1; 3; 112; 110]%Z) /\
  ask (get_inferred_constraint A C) ex = Ok (Some MUST_LINK) /\ affinity_Z (params true) ex vecs None = Ok [(A, 0); (B, 0); (C, 0); (E, 1); (F, 1)]%Z.
Proof.
  split; [reflexivity|]. split; [|split; vm_compute; reflexivity].
  intros [Q|[_ Q]]; [discriminate|]. specialize (Q 0 2 ltac:(lia) ltac:(lia) ltac:(lia)). vm_compute in Q. discriminate.
Qed.
(** Two linked IDs are separated: there is only one similarity. *)
Example C44_separated : affinity_Z (params true) (run [CallAddConstraint A B MUST_LINK 1%Q] (init [A; B])) vecs None = Ok [(A, 0); (B, 1)]%Z.
Proof. vm_compute; reflexivity. Qed.

(** C45 refuted: IDs linked by CANNOT_LINK share a cluster, with exact arithmetic. *)
Theorem C45_affinity_cannot_links_refuted :
  ~ (forall vec D (o : ops D) similarity fin le p m (vectors : dict pystr vec) s d,
       exact o fin le -> reachable m ->
       result (cluster vec D o similarity p m vectors None) s = Ok d -> respects_cannot_links m d).
Proof. exact C45_affinity_cannot_links_refuted_proof. Qed.
Print Assumptions C45_affinity_cannot_links_refuted.

Example C45_violated : ask (get_inferred_constraint A B) ex = Ok (Some CANNOT_LINK) /\
  affinity_Z (params true) ex vecs None = Ok [(A, 0); (B, 0); (C, 0); (E, 1); (F, 1)]%Z.
Proof. split; vm_compute; reflexivity. Qed.

(** C45: what is true instead: CANNOT_LINK constraints have no influence at all, for any arithmetic.  The result only depends on the IDs and on the components; in particular adding a CANNOT_LINK never changes it. *)
Theorem C45_cannot_links_ignored :
  forall vec D (o : ops D) similarity p (vectors : dict pystr vec) nb s,
    (forall m1 m2, reachable m1 -> reachable m2 ->
       ask get_list_of_managed_data_IDs m1 = ask get_list_of_managed_data_IDs m2 ->
       ask get_connected_components m1 = ask get_connected_components m2 ->
       cluster vec D o similarity p m1 vectors nb s = cluster vec D o similarity p m2 vectors nb s) /\
    (forall m m' a b v r, reachable m -> add_constraint a b CANNOT_LINK v m = (m', Ok r) ->
       cluster vec D o similarity p m' vectors nb s = cluster vec D o similarity p m vectors nb s).
Proof. exact C45_cannot_links_ignored_proof. Qed.
Print Assumptions C45_cannot_links_ignored.

Example C45_ignored_ex :
  affinity_Z (params true) (run [CallAddConstraint A C MUST_LINK 1%Q] (init [A; B; C; E; F])) vecs None = affinity_Z (params true) ex vecs None /\
  affinity_Z (params false) (run [CallAddConstraint A C MUST_LINK 1%Q] (init [A; B; C; E; F])) vecs None = affinity_Z (params false) ex vecs None.
Proof. split; vm_compute; reflexivity. Qed.

(** C69: a successful call gives every managed ID a cluster, numbered canonically, and stores the result. *)
Theorem C69_affinity_canonical :
  forall vec D (o : ops D) similarity p m (vectors : dict pystr vec) nb s s' d,
    valid_argmax o -> reachable m -> cluster vec D o similarity p m vectors nb s = (s', Ok d) ->
    canonical d /\ covers_exactly m d /\ s' = Some d.
Proof. exact C69_affinity_canonical_proof. Qed.
Print Assumptions C69_affinity_canonical.

(** C69: affinity propagation raises exactly when a number of clusters is given, when there is no ID or when a vector is missing; message passing never fails. *)
Theorem C69_affinity_errors :
  forall vec D (o : ops D) similarity p m (vectors : dict pystr vec) nb s e,
    valid_argmax o -> reachable m ->
    (result (cluster vec D o similarity p m vectors nb) s = Raise e <->
     (e = ValueError /\ (nb <> None \/ ~ has_ids m)) \/
     (e = KeyError /\ nb = None /\ exists x, managed m x /\ ~ In x (keys vectors))).
Proof. exact C69_affinity_errors_proof. Qed.
Print Assumptions C69_affinity_errors.

(** C69: the constructor accepts exactly positive numbers of iterations. *)
Theorem C69_affinity_constructor :
  forall max_iteration convergence_iteration absolute,
    (forall p, make_affinity max_iteration convergence_iteration absolute = Ok p <->
       (1 <= max_iteration)%Z /\ (1 <= convergence_iteration)%Z /\
       Z.of_nat (ap_max_iteration p) = max_iteration /\ Z.of_nat (ap_convergence_iteration p) = convergence_iteration /\ ap_absolute p = absolute) /\
    ((max_iteration < 1)%Z \/ (convergence_iteration < 1)%Z -> make_affinity max_iteration convergence_iteration absolute = Raise ValueError).
Proof. exact C69_affinity_constructor_proof. Qed.
Print Assumptions C69_affinity_constructor.

Example C69_ex : affinity_Z (params true) ex vecs None = Ok [(A, 0); (B, 0); (C, 0); (E, 1); (F, 1)]%Z /\
  affinity_Z (params true) ex vecs (Some 2%Z) = Raise ValueError /\ affinity_Z (params true) ex [(A, 0)]%Z None = Raise KeyError /\
  affinity_Z (params true) (init []) vecs None = Raise ValueError /\
  make_affinity 500 15 true = Ok (mkAPParams 500 15 true) /\ make_affinity 0 15 true = Raise ValueError /\ make_affinity 500 0 true = Raise ValueError.
Proof. repeat split; vm_compute; reflexivity. Qed.

(** C70: when the maximal number of iterations does not exceed the convergence window (for instance max_iteration=15), the run cannot converge: all the data end in one cluster, apart from the case of equal similarities. *)
Theorem C70_affinity_short_run :
  forall vec D (o : ops D) similarity p m (vectors : dict pystr vec) s l rows,
    valid_argmax o -> reachable m -> ask get_list_of_managed_data_IDs m = Ok l -> l <> [] -> vectors_are vectors l rows ->
    ap_max_iteration p <= ap_convergence_iteration p -> ~ degenerate o (length l) (similarity rows) ->
    exists d, result (cluster vec D o similarity p m vectors None) s = Ok d /\ forall x, managed m x -> dget x d = Some 0%Z.
Proof. exact C70_affinity_short_run_proof. Qed.
Print Assumptions C70_affinity_short_run.

(** With 15 iterations and a window of 15 everything is in one cluster; with 150 and 10 there are two clusters. *)
Example C70_ex : affinity_Z (mkAPParams 15 15 true) ex vecs None = Ok [(A, 0); (B, 0); (C, 0); (E, 0); (F, 0)]%Z /\
  affinity_Z (mkAPParams 150 10 true) ex vecs None = Ok [(A, 0); (B, 0); (C, 0); (E, 1); (F, 1)]%Z.
Proof. split; vm_compute; reflexivity. Qed.

(** C71: in exact arithmetic and with absolute_must_links, the clusters are those of affinity propagation (Frey and Dueck) run on the components, two components being as similar as their most similar members; without convergence there is one cluster. *)
Theorem C71_affinity_absolute :
  forall vec D (o : ops D) similarity fin le p m (vectors : dict pystr vec) s l rows cs,
    exact o fin le -> reachable m -> ask get_list_of_managed_data_IDs m = Ok l -> vectors_are vectors l rows -> ask get_connected_components m = Ok cs ->
    2 <= length cs -> 0 < ap_convergence_iteration p -> ap_absolute p = true -> ~ degenerate o (length l) (similarity rows) ->
    let noisy i j := o_noise D o i j (similarity rows i j) in
    (forall i j, i < length l -> j < length l -> fin (noisy i j)) ->
    exists groups s' labels d,
      Forall2 (fun c g => map (nth_error l) g = map Some c) cs groups /\
      group_similarities o le noisy groups s' /\
      ap_result o le (length cs) s' (ap_convergence_iteration p) (ap_max_iteration p) labels /\
      result (cluster vec D o similarity p m vectors None) s = Ok d /\
      forall u v cu cv a b, nth_error cs u = Some cu -> In a cu -> nth_error cs v = Some cv -> In b cv ->
        (dget a d = dget b d <-> match labels with Some labels => nth_error labels u = nth_error labels v | None => True end).
Proof. exact C71_affinity_absolute_proof. Qed.
Print Assumptions C71_affinity_absolute.

(** C71: in exact arithmetic and without absolute_must_links, the clusters are those of affinity propagation run on the data and one extra point per component. *)
Theorem C71_affinity_mixed :
  forall vec D (o : ops D) similarity fin le p m (vectors : dict pystr vec) s l rows cs,
    exact o fin le -> reachable m -> ask get_list_of_managed_data_IDs m = Ok l -> l <> [] -> vectors_are vectors l rows -> ask get_connected_components m = Ok cs ->
    0 < ap_convergence_iteration p -> ap_absolute p = false -> ~ degenerate o (length l) (similarity rows) ->
    let noisy i j := o_noise D o i j (similarity rows i j) in
    (forall i j, i < length l -> j < length l -> fin (similarity rows i j) /\ fin (noisy i j)) ->
    exists groups s' labels d,
      Forall2 (fun c g => map (nth_error l) g = map Some c) cs groups /\
      mixed_with_groups o le (length l) noisy groups (o_median D o (all_values (length l) (similarity rows))) s' /\
      ap_result o le (length l + length cs) s' (ap_convergence_iteration p) (ap_max_iteration p) labels /\
      result (cluster vec D o similarity p m vectors None) s = Ok d /\
      forall i j a b, nth_error l i = Some a -> nth_error l j = Some b ->
        (dget a d = dget b d <-> match labels with Some labels => nth_error labels i = nth_error labels j | None => True end).
Proof. exact C71_affinity_mixed_proof. Qed.
Print Assumptions C71_affinity_mixed.

(** Exact arithmetic exists; four components for five IDs; finite similarities; both modes converge. *)
Example C71_ex : exact exact_ops nfin nle /\ ask get_connected_components ex = Ok [[A; C]; [B]; [E]; [F]] /\
  vectors_are vecs [A; B; C; E; F] [0; 1; 3; 112; 110]%Z /\ ~ degenerate exact_ops 5 (line [0; 1; 3; 112; 110]%Z) /\
  (forall i j, nfin (o_noise num exact_ops i j (line [0; 1; 3; 112; 110]%Z i j))) /\
  affinity_Z (params true) ex vecs None = Ok [(A, 0); (B, 0); (C, 0); (E, 1); (F, 1)]%Z /\
  affinity_Z (params false) ex vecs None = Ok [(A, 0); (B, 1); (C, 0); (E, 2); (F, 3)]%Z.
Proof.
  split; [apply exact_ops_exact|]. split; [vm_compute; reflexivity|]. split; [reflexivity|]. split; [|split; [|split; vm_compute; reflexivity]].
  - intros [Q|[_ Q]]; [discriminate|]. specialize (Q 0 2 ltac:(lia) ltac:(lia) ltac:(lia)). vm_compute in Q. discriminate.
  - intros i j. discriminate.
Qed.

(** C72: an affinity propagation object can be reused: neither the result nor the stored dictionary depends on earlier calls. *)
Theorem C72_affinity_no_memory :
  forall vec D (o : ops D) similarity p m (vectors : dict pystr vec) nb s1 s2,
    result (cluster vec D o similarity p m vectors nb) s1 = result (cluster vec D o similarity p m vectors nb) s2 /\
    forall s1' s2' d1 d2, cluster vec D o similarity p m vectors nb s1 = (s1', Ok d1) ->
      cluster vec D o similarity p m vectors nb s2 = (s2', Ok d2) -> s1' = s2'.
Proof. exact C72_affinity_no_memory_proof. Qed.
Print Assumptions C72_affinity_no_memory.

Example C72_ex : forall s, result (cluster Z num exact_ops line (params true) ex vecs None) s = Ok [(A, 0); (B, 0); (C, 0); (E, 1); (F, 1)]%Z.
Proof. intro s. transitivity (affinity_Z (params true) ex vecs None); [apply C72_affinity_no_memory|vm_compute; reflexivity]. Qed.
