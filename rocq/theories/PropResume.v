(** Generated from ResumeThms.v by tools/gen_props.py: theorem statements,
    each closed by the lemma of the same name proved there. *)

From Coq Require Import String List Bool Arith ZArith QArith Permutation Lia.
From Verif Require Import Base Manager Spec ManagerThms Json JsonSpec Sampling SamplingSpec MinMax ClusterSpec KMeans KMeansSpec
  Hierarchical HierSpec SameSpec Loop Usage ColoringSpec ResumeSpec ResumeThms.
From Verif Require ManagerInv ManagerQueries.
Import ListNotations.
Open Scope nat_scope.
Open Scope py_scope.

Definition A : pystr := str "a".
Definition B : pystr := str "b".
Definition C : pystr := str "c".
Definition E : pystr := str "d".
(** Two histories that end with the same constraints. *)
Definition ex1 : mgr := run [CallAddConstraint A C MUST_LINK 1%Q; CallAddConstraint A B MUST_LINK 1%Q; CallAddConstraint C E CANNOT_LINK 1%Q] (init [A; B; C; E]).
Definition ex2 : mgr := run [CallAddDataID C; CallAddConstraint E B MUST_LINK 1%Q; CallDeleteConstraint B E; CallAddConstraint B A MUST_LINK 1%Q;
  CallAddDataID E; CallAddConstraint C E CANNOT_LINK 1%Q; CallAddConstraint C A MUST_LINK 1%Q] (init [A; B]).

(** C96: managers with the same IDs and added constraints give the same answers and errors in every later history of calls, up to the order inside components and conflicts, and end with the same content; and only those do. *)
Theorem C96_indistinguishable :
  forall m1 m2, reachable m1 -> reachable m2 ->
    (same_content m1 m2 <-> forall l, Forall2 same_output (outputs l m1) (outputs l m2)) /\
    (same_content m1 m2 -> forall l, same_content (run l m1) (run l m2)).
Proof. exact C96_indistinguishable_proof. Qed.
Print Assumptions C96_indistinguishable.

Definition later : list call := [CallComponents; CallConflict B E MUST_LINK; CallDeleteConstraint A C; CallGetInferred C E; CallAddConstraint B E MUST_LINK 1%Q; CallCompletude;
  CallAddConstraint C B MUST_LINK 1%Q; CallDeleteDataID E; CallManagedIDs].
Lemma same_ex : same_content ex1 ex2.
Proof.
  assert (R1 : reachable ex1) by apply run_reachable. assert (R2 : reachable ex2) by apply run_reachable.
  split; [vm_compute; reflexivity|]. intros a b. unfold ask.
  rewrite (ManagerInv.run_added ex1 a b (ManagerQueries.reachable_inv ex1 R1)), (ManagerInv.run_added ex2 a b (ManagerQueries.reachable_inv ex2 R2)).
  change (ManagerInv.both ex2 a b) with (ManagerInv.both ex1 a b). destruct (ManagerInv.both ex1 a b); reflexivity.
Qed.
Example C96_ex : reachable ex1 /\ reachable ex2 /\ same_content ex1 ex2 /\ ex1 <> ex2 /\
  outputs later ex1 = [Ok (VComponents [[A; C; B]; [E]]); Ok (VConflict (Some [A; C; B; E])); Ok (VBool true); Ok (VInferred (Some CANNOT_LINK)); Ok (VBool true); Ok (VBool true);
    Raise ValueError; Ok (VBool true); Ok (VIds [A; B; C])] /\
  Forall2 same_output (outputs later ex1) (outputs later ex2) /\ outputs later ex1 <> outputs later ex2.
Proof.
  split; [apply run_reachable|]. split; [apply run_reachable|]. split; [exact same_ex|]. split; [vm_compute; discriminate|]. split; [vm_compute; reflexivity|].
  split; [|vm_compute; discriminate].
  apply C96_indistinguishable_proof; [apply run_reachable|apply run_reachable|exact same_ex].
Qed.

(** C96: a manager loaded from the file of another one cannot be told apart from it by any later calls, except by asking for the added constraint of an ID with itself (C22_round_trip_refuted shows why). *)
Theorem C96_reloaded :
  forall m l, reachable m -> (forall x, managed m x -> python_string x /\ ~ splits_a_character x) -> Forall not_self l ->
    exists m', load_text (to_json_text m) = Ok m' /\ reachable m' /\ same_between_IDs m' m /\
      Forall2 same_output (outputs l m') (outputs l m) /\ same_between_IDs (run l m') (run l m).
Proof. exact C96_reloaded_proof. Qed.
Print Assumptions C96_reloaded.

(** A deleted constraint of an ID with itself comes back; the history below does not notice. *)
Definition ex3 : mgr := fst (exec (CallDeleteConstraint B B) ex1).
Example C96_reloaded_ex : exists m', load_text (to_json_text ex3) = Ok m' /\ m' <> ex3 /\ Forall not_self later /\
  ask (get_added_constraint B B) m' <> ask (get_added_constraint B B) ex3 /\ outputs later m' = outputs later ex3.
Proof.
  destruct (load_text (to_json_text ex3)) as [m'|] eqn:Q; [|vm_compute in Q; discriminate].
  exists m'. split; auto. vm_compute in Q. injection Q as <-. split; [vm_compute; discriminate|].
  split; [repeat constructor|]. split; vm_compute; [discriminate|reflexivity].
Qed.

(** C96: with colouring strategies that do not look at the names of components, managers with the same IDs and inferred constraints give the same range of numbers of clusters. *)
Theorem C96_range :
  forall order m1 m2, valid_orders order -> ignores_names order -> reachable m1 -> reachable m2 -> same_knowledge m1 m2 ->
    ask (get_min_and_max_number_of_clusters order) m1 = ask (get_min_and_max_number_of_clusters order) m2.
Proof. exact C96_range_proof. Qed.
Print Assumptions C96_range.

(** C96: two strategies of networkx that do not look at the names: largest first, and random orders that depend only on the number of nodes. *)
Theorem C96_strategies :
  ignores_names (fun _ g => largest_first g) /\ (forall positions, ignores_names (fun i g => shuffled (positions i) g)).
Proof. exact C96_strategies_proof. Qed.
Print Assumptions C96_strategies.

(** C97: a session that goes on from its second or a later step with another manager, with the same IDs and the same added constraints between different IDs, does the same: the same number of iterations, the same last clustering, the same refused annotations or the same error, and managers with the same IDs and constraints at the end.  The clustering may use the inferred constraints in any way, the sampling may be any of the sampler, and the colouring strategies must not look at the names of components. *)
Theorem C97_resume :
  forall vec D sampling_distances ltb draws node_orders truth o nb_to_select (vectors : dict pystr vec) clustering fuel i last m1 m2,
    (forall i, valid_orders (node_orders i)) -> (forall i, ignores_names (node_orders i)) -> reads_knowledge clustering ->
    reachable m1 -> reachable m2 -> same_between_IDs m1 m2 ->
    let rest := iterations vec D sampling_distances ltb draws node_orders truth o nb_to_select vectors clustering fuel i last in
    result rest m1 = result rest m2 /\ same_between_IDs (fst (rest m1)) (fst (rest m2)).
Proof. exact C97_resume_proof. Qed.
Print Assumptions C97_resume.

(** C97: in particular a session can be saved and loaded again between two iterations. *)
Theorem C97_reloaded :
  forall vec D sampling_distances ltb draws node_orders truth o nb_to_select (vectors : dict pystr vec) clustering fuel i last m,
    (forall i, valid_orders (node_orders i)) -> (forall i, ignores_names (node_orders i)) -> reads_knowledge clustering ->
    reachable m -> (forall x, managed m x -> python_string x /\ ~ splits_a_character x) ->
    let rest := iterations vec D sampling_distances ltb draws node_orders truth o nb_to_select vectors clustering fuel i last in
    exists m', load_text (to_json_text m) = Ok m' /\ result rest m' = result rest m /\ same_between_IDs (fst (rest m')) (fst (rest m)).
Proof. exact C97_reloaded_proof. Qed.
Print Assumptions C97_reloaded.

(** C97: constrained KMeans reads only the IDs and the inferred constraints. *)
Theorem C97_kmeans_reads :
  forall vec D (eqD : EqB D) pairwise ltb dsum mean shuffles set_orders p (vectors : dict pystr vec),
    (forall i, valid_shuffle (shuffles i)) ->
    reads_knowledge (clustering_step vec D pairwise ltb dsum mean shuffles set_orders p vectors).
Proof. exact C97_kmeans_reads_proof. Qed.
Print Assumptions C97_kmeans_reads.

(** C97: and so does hierarchical clustering when sums do not depend on the order of the terms, distances are symmetric and totally ordered. *)
Theorem C97_hierarchical_reads :
  forall vec D (eqD : EqB D) pairwise cdistance ltb dsum ddiv inf mean linkage (vectors : dict pystr vec),
    HierSpec.strict_total_order ltb -> order_free dsum -> order_free mean -> (forall rows i j, pairwise rows i j = pairwise rows j i) ->
    reads_knowledge (hierarchical_step vec D pairwise cdistance ltb dsum ddiv inf mean linkage vectors).
Proof. exact C97_hierarchical_reads_proof. Qed.
Print Assumptions C97_hierarchical_reads.

Definition pw (X Y : list Z) (i j : nat) : Z := Z.abs (nth i X 0 - nth j Y 0)%Z.
Definition zmean (l : list Z) : Z := (fold_right Z.add 0 l / Z.of_nat (length l))%Z.
Definition zsum (l : list Z) : Z := fold_right Z.add 0%Z l.
Definition truth x := if eqb x E then 2 else if eqb x (str "e") then 2 else 1.
Definition vecs : dict pystr Z := [(A, 0); (B, 1); (C, 10); (E, 12); (str "e", 5)]%Z.
Definition kstep := clustering_step Z Z pw Z.ltb zsum zmean (fun _ l => l) (fun _ => nodup Z.eq_dec) (mkKParams Z 5 1%Z) vecs.
(** Insertion order: the components first, then the integers on the edges. *)
Lemma nodes_ignore_names : forall i : nat, ignores_names ((fun _ _ g => g_nodes g) i).
Proof.
  intros _ i n1 n2 edges _ _ _. cbn [g_nodes make_graph]. set (X := flat_map _ _).
  assert (H : forall n, filter is_index (dedup (map NId n ++ X)) = filter is_index (dedup X)).
  { induction n as [|h n IH]; [reflexivity|]. cbn [map app dedup filter is_index]. rewrite <- IH. generalize (dedup (map NId n ++ X)). intro L.
    induction L as [|[x|k] L IL]; [reflexivity| |]; cbn [filter].
    - destruct (negb _); cbn [filter is_index]; exact IL.
    - change (eqb (NId h) (NIdx k)) with false. cbn [negb filter is_index]. rewrite IL. reflexivity. }
  rewrite !H. reflexivity.
Qed.
Definition rest := iterations Z Z (fun X => pw X X) Z.ltb (fun _ l k => firstn k l) (fun _ _ g => g_nodes g) truth (mkOptions None None true true) 1%Z vecs kstep 10 3 [].
Definition ex5 : mgr := fst (exec (CallAddDataID (str "e")) ex3).
Example C97_ex : (forall i : nat, ignores_names ((fun _ _ g => g_nodes g) i)) /\ reads_knowledge kstep /\
  exists m', load_text (to_json_text ex5) = Ok m' /\ m' <> ex5 /\
    result rest m' = Ok (5, [(A, 0); (B, 0); (C, 0); (E, 1); (str "e", 1)]%Z, []) /\ result rest m' = result rest ex5.
Proof.
  split; [exact nodes_ignore_names|]. split; [apply C97_kmeans_reads_proof; intros i l; apply Permutation_refl|].
  destruct (load_text (to_json_text ex5)) as [m'|] eqn:Q; [|vm_compute in Q; discriminate].
  exists m'. split; auto. vm_compute in Q. injection Q as <-. split; [vm_compute; discriminate|]. split; vm_compute; reflexivity.
Qed.
