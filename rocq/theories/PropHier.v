(** Generated from HierThms.v by tools/gen_props.py: theorem statements,
    each closed by the lemma of the same name proved there. *)

From Coq Require Import String List Bool Arith ZArith QArith Permutation Lia.
From Verif Require Import Base Manager Spec ManagerThms SamplingSpec ClusterSpec KMeansSpec Hierarchical HierSpec HierThms.
Import ListNotations.
Open Scope nat_scope.

(** An instance for the examples: points on a line. *)
Definition pw (X : list Z) (i j : nat) : Z := Z.abs (nth i X 0 - nth j X 0)%Z.
Definition zmean (l : list Z) : Z := (fold_right Z.add 0 l / Z.of_nat (length l))%Z.
Definition zsum (l : list Z) : Z := fold_right Z.add 0%Z l.
Definition hier_Z := cluster Z Z pw (fun x y => Z.abs (x - y)%Z) Z.ltb zsum (fun d n => (d / Z.of_nat n)%Z) 1000000%Z zmean.
Definition ward := str "ward". Definition single := str "single". Definition complete_linkage := str "complete". Definition average := str "average".
Definition A := str "a". Definition B := str "b". Definition C := str "c". Definition E := str "d".
Definition ex : mgr := run [CallAddConstraint A C MUST_LINK 1%Q; CallAddConstraint A B CANNOT_LINK 1%Q] (init [A; B; C; E]).
Lemma ex_reachable : reachable ex.
Proof. apply run_reachable. Qed.
Definition vecs : dict pystr Z := [(A, 0); (B, 1); (C, 10); (E, 12)]%Z.


(** C37: whatever the vectors, distances and linkage, a clustering returned by hierarchical clustering respects every known constraint. *)
Theorem C37_hierarchical_respects :
  forall vec D (eqD : EqB D) pairwise cdistance ltb dsum ddiv inf mean name linkage m vectors nb s d,
    reachable m -> make_hierarchical name = Ok linkage ->
    result (cluster vec D pairwise cdistance ltb dsum ddiv inf mean linkage m vectors nb) s = Ok d ->
    respects m d.
Proof. exact C37_hierarchical_respects_proof. Qed.
Print Assumptions C37_hierarchical_respects.

(** "a" and "b" are nearest to each other, "c" is nearest to "d": the constraints decide. *)
Example C37_ex :
  inferred ex B C (Some CANNOT_LINK) /\
  result (hier_Z single ex vecs (Some 2%Z)) (fresh_hier Z) = Ok [(A, 0); (B, 1); (C, 0); (E, 0)]%Z.
Proof. split; vm_compute; reflexivity. Qed.

(** C37: cutting the tree again, by either criterion, also respects the constraints (CANNOT_LINKs for at least two clusters). *)
Theorem C37_hierarchical_cuts_respect :
  forall vec D (eqD : EqB D) pairwise cdistance ltb dsum ddiv inf mean name linkage m vectors nb s s' d k by_ d',
    reachable m -> make_hierarchical name = Ok linkage ->
    cluster vec D pairwise cdistance ltb dsum ddiv inf mean linkage m vectors nb s = (s', Ok d) ->
    result (compute_predicted_clusters vec k by_) s' = Ok d' ->
    respects_must_links m d' /\ ((2 <= k)%Z -> respects_cannot_links m d').
Proof. exact C37_hierarchical_cuts_respect_proof. Qed.
Print Assumptions C37_hierarchical_cuts_respect.

Example C37_cuts_ex :
  result (compute_predicted_clusters Z 3 (str "iteration")) (fst (hier_Z ward ex vecs (Some 2%Z) (fresh_hier Z))) = Ok [(A, 0); (B, 1); (C, 0); (E, 2)]%Z.
Proof. vm_compute; reflexivity. Qed.

(** C38: the tree kept by a call is a well-formed dendrogram; a CANNOT_LINK pair can only be found in its root, and then no two children of the root could be merged. *)
Theorem C38_dendrogram :
  forall vec D (eqD : EqB D) pairwise cdistance ltb dsum ddiv inf mean name linkage m vectors nb s s' d,
    reachable m -> make_hierarchical name = Ok linkage ->
    cluster vec D pairwise cdistance ltb dsum ddiv inf mean linkage m vectors nb s = (s', Ok d) ->
    exists root, h_root vec s' = Some root /\ dendrogram mean m vectors root /\
      forall a b, inferred m a b (Some CANNOT_LINK) ->
        2 <= length (t_children vec root) /\
        (strict_total_order ltb -> none_left pairwise cdistance ltb dsum ddiv inf linkage m vectors (t_children vec root)).
Proof. exact C38_dendrogram_proof. Qed.
Print Assumptions C38_dendrogram.

(** [ex] has a CANNOT_LINK: the root has two children. *)
Example C38_ex : option_map (fun t => (t_members Z t, map (t_members Z) (t_children Z t), map (t_iteration Z) (nodes t), map (t_id Z) (nodes t)))
    (h_root Z (fst (hier_Z average ex vecs (Some 2%Z) (fresh_hier Z)))) =
  Some ([B; A; C; E], [[B]; [A; C; E]], [2; 0; 1; 0; 0], [4; 1; 3; 0; 2]%Z).
Proof. vm_compute; reflexivity. Qed.

(** C39: after any history of calls, asking for more clusters refines the clustering, by either criterion. *)
Theorem C39_cuts_nested :
  forall vec D (eqD : EqB D) pairwise cdistance ltb dsum ddiv inf mean name linkage s k k' by_ d d',
    make_hierarchical name = Ok linkage ->
    history pairwise cdistance ltb dsum ddiv inf mean linkage s -> (k <= k')%Z ->
    result (compute_predicted_clusters vec k by_) s = Ok d ->
    result (compute_predicted_clusters vec k' by_) s = Ok d' ->
    refines d' d.
Proof. exact C39_cuts_nested_proof. Qed.
Print Assumptions C39_cuts_nested.

Example C39_ex : let s := fst (hier_Z single (init [A; B; C; E]) vecs (Some 2%Z) (fresh_hier Z)) in
  history pw (fun x y => Z.abs (x - y)%Z) Z.ltb zsum (fun d n => (d / Z.of_nat n)%Z) 1000000%Z zmean single s /\
  result (compute_predicted_clusters Z 2 (str "size")) s = Ok [(A, 0); (B, 0); (C, 1); (E, 1)]%Z /\
  result (compute_predicted_clusters Z 3 (str "size")) s = Ok [(A, 0); (B, 1); (C, 2); (E, 2)]%Z.
Proof. split; [apply history_cluster; [constructor|apply (run_reachable _ [])]|]. split; vm_compute; reflexivity. Qed.

(** C40 is wrong for [cluster], which cuts by size: it stops at a big component although smaller clusters could be split. *)
Theorem C40_requested_number_refuted :
  exists m vectors comps d, reachable m /\ ask get_connected_components m = Ok comps /\ length comps = 3 /\
    result (cluster Z Z (fun X i j => Z.abs (nth i X 0 - nth j X 0)%Z) (fun x y => Z.abs (x - y)%Z) Z.ltb (fold_right Z.add 0%Z)
              (fun d n => d / Z.of_nat n)%Z 1000000%Z (fun l => fold_right Z.add 0 l / Z.of_nat (length l))%Z (str "single")
              m vectors (Some 3%Z)) (fresh_hier Z) = Ok d /\
    nb_clusters_of d = 2%nat.
Proof. exact C40_requested_number_refuted_proof. Qed.
Print Assumptions C40_requested_number_refuted.

(** C40, what holds of [cluster]: the number requested is reached, or a biggest cluster is a single component. At most the number requested, or the number of children of the root. *)
Theorem C40_requested_number_partial :
  forall vec D (eqD : EqB D) pairwise cdistance ltb dsum ddiv inf mean name linkage m vectors nb s s' d,
    reachable m -> make_hierarchical name = Ok linkage ->
    cluster vec D pairwise cdistance ltb dsum ddiv inf mean linkage m vectors (Some nb) s = (s', Ok d) ->
    exists ids root l, ask get_list_of_managed_data_IDs m = Ok ids /\ h_root vec s' = Some root /\ groups_as l d /\
      (nb_clusters_of d <= Nat.max (Nat.min (Z.to_nat nb) (length ids)) (length (t_children vec root))) /\
      (Nat.min (Z.to_nat nb) (length ids) <= nb_clusters_of d \/
       exists t comps, In t l /\ (forall u, In u l -> length (t_members vec u) <= length (t_members vec t)) /\
         ask get_connected_components m = Ok comps /\ In (t_members vec t) comps).
Proof. exact C40_requested_number_partial_proof. Qed.
Print Assumptions C40_requested_number_partial.

(** Without constraints three clusters are reached; with [ex] the biggest cluster is the component of A and C. *)
Example C40_partial_ex : result (hier_Z ward (init [A; B; C; E]) vecs (Some 3%Z)) (fresh_hier Z) = Ok [(A, 0); (B, 1); (C, 2); (E, 2)]%Z /\
  result (hier_Z ward ex vecs (Some 3%Z)) (fresh_hier Z) = Ok [(A, 0); (B, 1); (C, 0); (E, 1)]%Z.
Proof. split; vm_compute; reflexivity. Qed.

(** C40 for cuts by iteration: the number requested is reached when there are that many components. *)
Theorem C40_requested_number_by_iteration :
  forall vec D (eqD : EqB D) pairwise cdistance ltb dsum ddiv inf mean name linkage m vectors nb s s' d k comps,
    reachable m -> make_hierarchical name = Ok linkage ->
    cluster vec D pairwise cdistance ltb dsum ddiv inf mean linkage m vectors nb s = (s', Ok d) ->
    ask get_connected_components m = Ok comps ->
    exists root d', h_root vec s' = Some root /\
      result (compute_predicted_clusters vec k (str "iteration")) s' = Ok d' /\
      Nat.min (Z.to_nat k) (length comps) <= nb_clusters_of d' <= Nat.max (Z.to_nat k) (Nat.max 1 (length (t_children vec root))).
Proof. exact C40_requested_number_by_iteration_proof. Qed.
Print Assumptions C40_requested_number_by_iteration.

(** The tree of the counterexample, cut by iteration. *)
Example C40_iteration_ex :
  let m := run [CallAddConstraint A B MUST_LINK 1%Q; CallAddConstraint B C MUST_LINK 1%Q] (init [A; B; C; E; str "e"]) in
  let s := fst (hier_Z single m [(A, 0); (B, 1); (C, 2); (E, 100); (str "e", 101)]%Z (Some 3%Z) (fresh_hier Z)) in
  result (compute_predicted_clusters Z 3 (str "iteration")) s = Ok [(A, 0); (B, 0); (C, 0); (E, 1); (str "e", 2)]%Z.
Proof. vm_compute; reflexivity. Qed.

(** C41 is wrong: a call refused because of its parameters replaces the list of IDs, and the next cut of the old tree answers about IDs it never clustered. *)
Theorem C41_failed_call_refuted :
  exists m1 m2 vectors s1 s2 d1 d2, reachable m1 /\ reachable m2 /\
    let run := cluster Z Z (fun X i j => Z.abs (nth i X 0 - nth j X 0)%Z) (fun x y => Z.abs (x - y)%Z) Z.ltb (fold_right Z.add 0%Z)
                 (fun d n => d / Z.of_nat n)%Z 1000000%Z (fun l => fold_right Z.add 0 l / Z.of_nat (length l))%Z (str "single") in
    run m1 vectors (Some 2%Z) (fresh_hier Z) = (s1, Ok d1) /\
    run m2 vectors (Some 1%Z) s1 = (s2, Raise ValueError) /\
    result (compute_predicted_clusters Z 2 (str "size")) s1 = Ok d1 /\
    result (compute_predicted_clusters Z 2 (str "size")) s2 = Ok d2 /\ d1 <> d2 /\ ~ covers_exactly m1 d2 /\ ~ covers_exactly m2 d2.
Proof. exact C41_failed_call_refuted_proof. Qed.
Print Assumptions C41_failed_call_refuted.

(** C41, what holds: a failed call keeps the tree and the last result; when its manager has the IDs of the kept list, cuts answer as before. *)
Theorem C41_failed_call_partial :
  forall vec D (eqD : EqB D) pairwise cdistance ltb dsum ddiv inf mean name linkage s m vectors nb s' e,
    make_hierarchical name = Ok linkage ->
    history pairwise cdistance ltb dsum ddiv inf mean linkage s -> reachable m ->
    cluster vec D pairwise cdistance ltb dsum ddiv inf mean linkage m vectors nb s = (s', Raise e) ->
    h_root vec s' = h_root vec s /\ h_predicted vec s' = h_predicted vec s /\
    forall l k by_, h_ids vec s = Some l -> (forall x, In x l <-> managed m x) ->
      result (compute_predicted_clusters vec k by_) s' = result (compute_predicted_clusters vec k by_) s.
Proof. exact C41_failed_call_partial_proof. Qed.
Print Assumptions C41_failed_call_partial.

Example C41_partial_ex : let s := fst (hier_Z single ex vecs (Some 2%Z) (fresh_hier Z)) in
  let s' := fst (hier_Z single ex vecs None s) in
  (snd (hier_Z single ex vecs None s), result (compute_predicted_clusters Z 2 (str "size")) s') = (Raise ValueError, Ok [(A, 0); (B, 1); (C, 0); (E, 0)]%Z).
Proof. vm_compute; reflexivity. Qed.

(** C61: on a non-empty manager whose IDs all have vectors, hierarchical clustering returns a canonical clustering of exactly the managed IDs. *)
Theorem C61_hierarchical_total :
  forall vec D (eqD : EqB D) pairwise cdistance ltb dsum ddiv inf mean name linkage m vectors nb s,
    reachable m -> make_hierarchical name = Ok linkage ->
    has_ids m -> covers (Some vectors) m -> (2 <= nb)%Z ->
    exists d, result (cluster vec D pairwise cdistance ltb dsum ddiv inf mean linkage m vectors (Some nb)) s = Ok d /\
      canonical d /\ covers_exactly m d.
Proof. exact C61_hierarchical_total_proof. Qed.
Print Assumptions C61_hierarchical_total.

Example C61_ex : make_hierarchical ward = Ok ward /\ has_ids ex /\ covers (Some vecs) ex.
Proof.
  split; [reflexivity|]. split; [exists A, [A; B; C; E]; split; [reflexivity|left; reflexivity]|].
  exists vecs. split; [reflexivity|]. intros x (l & El & J). injection El as <-. exact J.
Qed.

(** C61: hierarchical clustering raises exactly on a bad number of clusters, a manager without ID or a missing vector; never anything else. *)
Theorem C61_hierarchical_errors :
  forall vec D (eqD : EqB D) pairwise cdistance ltb dsum ddiv inf mean name linkage m vectors nb s e,
    reachable m -> make_hierarchical name = Ok linkage ->
    (result (cluster vec D pairwise cdistance ltb dsum ddiv inf mean linkage m vectors nb) s = Raise e <->
     (e = ValueError /\ (nb = None \/ (exists n, nb = Some n /\ (n < 2)%Z) \/ ~ has_ids m)) \/
     (e = KeyError /\ (exists n, nb = Some n /\ (2 <= n)%Z) /\ exists x, managed m x /\ ~ In x (keys vectors))).
Proof. exact C61_hierarchical_errors_proof. Qed.
Print Assumptions C61_hierarchical_errors.

Example C61_errors_ex : result (hier_Z ward ex [(A, 0); (B, 1)]%Z (Some 2%Z)) (fresh_hier Z) = Raise KeyError /\
  result (hier_Z ward (init []) vecs (Some 2%Z)) (fresh_hier Z) = Raise ValueError /\
  make_hierarchical (str "other") = Raise ValueError.
Proof. repeat split; vm_compute; reflexivity. Qed.

(** C62: the tree is built by a constrained agglomeration: from the components, always merging the closest pair of clusters that may be merged (the smallest pair when several are equally close, the first of these in the order of creation when several have the same size), until nothing can be merged.  This determines the tree. *)
Theorem C62_agglomerative :
  forall vec D (eqD : EqB D) pairwise cdistance ltb dsum ddiv inf mean name linkage m vectors nb s s' d,
    strict_total_order ltb -> reachable m -> make_hierarchical name = Ok linkage ->
    cluster vec D pairwise cdistance ltb dsum ddiv inf mean linkage m vectors nb s = (s', Ok d) ->
    exists root, h_root vec s' = Some root /\
      agglomerative pairwise cdistance ltb dsum ddiv inf mean linkage m vectors root /\
      forall root', agglomerative pairwise cdistance ltb dsum ddiv inf mean linkage m vectors root' -> root' = root.
Proof. exact C62_agglomerative_proof. Qed.
Print Assumptions C62_agglomerative.

Lemma ltb_total : strict_total_order Z.ltb.
Proof.
  split; [split; [|split]|]; intros; rewrite ?Z.ltb_lt, ?Z.ltb_ge in *; try lia; auto using Z.ltb_irrefl.
Qed.
(** Without constraints on points 0, 1, 10, 12: first 0 and 1, then 10 and 12, then everything, for each linkage. *)
Example C62_ex :
  map (fun k => option_map (fun t => map (t_members Z) (nodes t)) (h_root Z (fst (hier_Z k (init [A; B; C; E]) vecs (Some 2%Z) (fresh_hier Z)))))
      [single; average; complete_linkage] =
  repeat (Some [[A; B; C; E]; [A; B]; [A]; [B]; [C; E]; [C]; [E]]) 3.
Proof. vm_compute; reflexivity. Qed.
(** Points 0, 1, 2, 3: three pairs at the same distance; the first one is merged, then the only small pair left. *)
Example C62_ties_ex :
  option_map (fun t => map (t_members Z) (nodes t)) (h_root Z (fst (hier_Z single (init [A; B; C; E]) [(A, 0); (B, 1); (C, 2); (E, 3)]%Z (Some 2%Z) (fresh_hier Z)))) =
  Some [[A; B; C; E]; [A; B]; [A]; [B]; [C; E]; [C]; [E]].
Proof. vm_compute; reflexivity. Qed.

(** C63: with complete constraints the clusters are the connected components, whatever the number requested. *)
Theorem C63_hierarchical_complete_constraints :
  forall vec D (eqD : EqB D) pairwise cdistance ltb dsum ddiv inf mean name linkage m vectors nb s d a b,
    reachable m -> make_hierarchical name = Ok linkage ->
    complete m -> managed m a -> managed m b ->
    result (cluster vec D pairwise cdistance ltb dsum ddiv inf mean linkage m vectors nb) s = Ok d ->
    (dget a d = dget b d <-> linked (added_must m) a b).
Proof. exact C63_hierarchical_complete_constraints_proof. Qed.
Print Assumptions C63_hierarchical_complete_constraints.

Definition ex_complete : mgr := run [CallAddConstraint A E CANNOT_LINK 1%Q; CallAddConstraint B E CANNOT_LINK 1%Q] ex.
Example C63_ex : complete ex_complete /\
  result (hier_Z average ex_complete vecs (Some 2%Z)) (fresh_hier Z) = Ok [(A, 0); (B, 1); (C, 0); (E, 2)]%Z.
Proof. split; vm_compute; reflexivity. Qed.

(** C64: a hierarchical clustering object can be reused: result, and tree kept by a successful call, do not depend on earlier calls. *)
Theorem C64_hierarchical_no_memory :
  forall vec D (eqD : EqB D) pairwise cdistance ltb dsum ddiv inf mean linkage m vectors nb s1 s2,
    result (cluster vec D pairwise cdistance ltb dsum ddiv inf mean linkage m vectors nb) s1 =
    result (cluster vec D pairwise cdistance ltb dsum ddiv inf mean linkage m vectors nb) s2 /\
    forall s1' s2' d1 d2,
      cluster vec D pairwise cdistance ltb dsum ddiv inf mean linkage m vectors nb s1 = (s1', Ok d1) ->
      cluster vec D pairwise cdistance ltb dsum ddiv inf mean linkage m vectors nb s2 = (s2', Ok d2) -> s1' = s2'.
Proof. exact C64_hierarchical_no_memory_proof. Qed.
Print Assumptions C64_hierarchical_no_memory.

Example C64_ex : forall s, result (hier_Z single ex vecs (Some 2%Z)) s = Ok [(A, 0); (B, 1); (C, 0); (E, 0)]%Z.
Proof. intro s. transitivity (result (hier_Z single ex vecs (Some 2%Z)) (fresh_hier Z)); [apply C64_hierarchical_no_memory|vm_compute; reflexivity]. Qed.

(** C65: the number of clusters returned is feasible for the constraints, and is at most the number of connected components. *)
Theorem C65_hierarchical_number_of_clusters :
  forall vec D (eqD : EqB D) pairwise cdistance ltb dsum ddiv inf mean name linkage m vectors nb s d comps,
    reachable m -> make_hierarchical name = Ok linkage ->
    result (cluster vec D pairwise cdistance ltb dsum ddiv inf mean linkage m vectors nb) s = Ok d ->
    ask get_connected_components m = Ok comps ->
    feasible m (nb_clusters_of d) /\ nb_clusters_of d <= length comps.
Proof. exact C65_hierarchical_number_of_clusters_proof. Qed.
Print Assumptions C65_hierarchical_number_of_clusters.

Example C65_ex : nb_clusters_of [(A, 0); (B, 1); (C, 0); (E, 0)]%Z = 2 /\ ask get_connected_components ex = Ok [[A; C]; [B]; [E]].
Proof. split; vm_compute; reflexivity. Qed.

(** C66: the result of a call, and of later cuts, comes from splitting again and again the biggest (or latest) cluster of the tree, starting from the root; a cut changes nothing. *)
Theorem C66_cuts_split_biggest :
  forall vec D (eqD : EqB D) pairwise cdistance ltb dsum ddiv inf mean name linkage m vectors nb s s' d,
    reachable m -> make_hierarchical name = Ok linkage ->
    cluster vec D pairwise cdistance ltb dsum ddiv inf mean linkage m vectors (Some nb) s = (s', Ok d) ->
    h_predicted vec s' = Some d /\
    exists ids root l, ask get_list_of_managed_data_IDs m = Ok ids /\ h_root vec s' = Some root /\
      split_run (str "size") (Z.min nb (Z.of_nat (length ids))) [root] l /\ groups_as l d /\
      forall k by_, exists l' d', compute_predicted_clusters vec k by_ s' = (s', Ok d') /\
        split_run by_ k [root] l' /\ cut root l' /\ groups_as l' d' /\ canonical d' /\ covers_exactly m d'.
Proof. exact C66_cuts_split_biggest_proof. Qed.
Print Assumptions C66_cuts_split_biggest.

(** Groups of 4 and 2 points: the group of 4 is split first by size, the last merged one by iteration. *)
Example C66_ex :
  let m := init [A; B; C; E; str "e"; str "f"] in
  let s := fst (hier_Z single m [(A, 0); (B, 1); (C, 2); (E, 3); (str "e", 100); (str "f", 104)]%Z (Some 3%Z) (fresh_hier Z)) in
  (result (compute_predicted_clusters Z 3 (str "size")) s, result (compute_predicted_clusters Z 3 (str "iteration")) s) =
  (Ok [(A, 0); (B, 0); (C, 1); (E, 1); (str "e", 2); (str "f", 2)], Ok [(A, 0); (B, 0); (C, 0); (E, 0); (str "e", 1); (str "f", 2)])%Z.
Proof. vm_compute; reflexivity. Qed.
