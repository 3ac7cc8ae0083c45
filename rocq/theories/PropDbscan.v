(** Generated from DbscanThms.v by tools/gen_props.py: theorem statements,
    each closed by the lemma of the same name proved there. *)

From Coq Require Import String List Bool Arith ZArith QArith Permutation Lia.
From Verif Require Import Base Manager Spec ManagerThms SamplingSpec ClusterSpec KMeansSpec Dbscan DbscanSpec DbscanThms.
Import ListNotations.
Open Scope nat_scope.
Open Scope py_scope.

(** An instance for the examples: points on a line, [set] removes repetitions. *)
Definition pw (X : list Z) (i j : nat) : Z := Z.abs (nth i X 0 - nth j X 0)%Z.
Definition dbscan_Z (p : db_params Z) := cluster Z Z pw Z.leb Z.ltb Z.of_nat dedup p.
Definition rev_set (l : list pystr) : list pystr := rev (dedup l).
Lemma dedup_valid : valid_setlist dedup.
Proof. exact dedup_setlist. Qed.
Lemma rev_valid : valid_setlist rev_set.
Proof. exact rev_dedup_setlist. Qed.
Lemma pw_refl eps : (0 <= eps)%Z -> forall rows i, Z.leb (pw rows i i) eps = true.
Proof. intros E rows i. apply Z.leb_le. unfold pw. lia. Qed.
Lemma leb_ltb : forall x y, Z.leb x y = negb (Z.ltb y x).
Proof. intros x y. rewrite Z.leb_antisym. reflexivity. Qed.
Lemma ltb_swo : strict_weak_order Z.ltb.
Proof. split; [|split]; intros; rewrite ?Z.ltb_lt, ?Z.ltb_ge in *; try lia; auto using Z.ltb_irrefl. Qed.
Definition A := str "a". Definition B := str "b". Definition C := str "c". Definition E := str "d". Definition F := str "e".
(** Parameters: eps 2, min_samples 2 *)
Definition pars := mkDBParams Z 2%Z 2.
Definition ex : mgr := run [CallAddConstraint A F MUST_LINK 1%Q; CallAddConstraint B C CANNOT_LINK 1%Q] (init [A; B; C; E; F]).
Lemma ex_reachable : reachable ex.
Proof. apply run_reachable. Qed.
Definition vecs : dict pystr Z := [(A, 0); (B, 10); (C, 11); (E, 30); (F, 50)]%Z.

(** C46: a result is about exactly the managed IDs; the regular clusters are numbered canonically from 0, the ignored points get -1, -2, ... in the order of the manager, and the counters of the object are right. *)
Theorem C46_dbscan_partition :
  forall vec D pairwise leb ltb of_nat setlist eps ms p m vectors nb s s' d,
    valid_setlist setlist -> make_dbscan D leb of_nat eps ms = Ok p -> (forall rows i, leb (pairwise rows i i) eps = true) -> reachable m ->
    cluster vec D pairwise leb ltb of_nat setlist p m vectors nb s = (s', Ok d) ->
    covers_exactly m d /\ NoDup (keys d) /\ db_predicted s' = Some d /\
    exists l regular ignored, ask get_list_of_managed_data_IDs m = Ok l /\
      d = regular ++ ignored /\ canonical regular /\
      vals ignored = negatives (length ignored) /\ (forall x y, before (keys ignored) x y -> before l x y) /\
      db_nb_regular s' = Z.of_nat (nb_clusters_of regular) /\ db_nb_noise s' = Z.of_nat (length ignored) /\
      db_nb_clusters s' = Z.of_nat (nb_clusters_of d).
Proof. exact C46_dbscan_partition_proof. Qed.
Print Assumptions C46_dbscan_partition.

(** A and F are linked; B and C are near but must be separated (each too small for a cluster of its own); E is alone. *)
Example C46_ex : dbscan_Z pars ex vecs None fresh_dbscan =
  (mkDbscan (Some [(A, 0); (F, 0); (B, -1); (C, -2); (E, -3)]%Z) 3 1 4, Ok [(A, 0); (F, 0); (B, -1); (C, -2); (E, -3)]%Z).
Proof. vm_compute; reflexivity. Qed.
Example C46_hypotheses : valid_setlist dedup /\ make_dbscan Z Z.leb Z.of_nat 2%Z 2%Z = Ok pars /\ (forall rows i, Z.leb (pw rows i i) 2%Z = true) /\ reachable ex.
Proof. split; [exact dedup_valid|]. split; [reflexivity|]. split; [apply pw_refl; lia|exact ex_reachable]. Qed.

(** C47 (cannot-links, proved): no cluster joins two IDs known as CANNOT_LINK. *)
Theorem C47_cannot_links :
  forall vec D pairwise leb ltb of_nat setlist eps ms p m vectors nb s d,
    valid_setlist setlist -> make_dbscan D leb of_nat eps ms = Ok p -> (forall rows i, leb (pairwise rows i i) eps = true) -> reachable m ->
    result (cluster vec D pairwise leb ltb of_nat setlist p m vectors nb) s = Ok d -> respects_cannot_links m d.
Proof. exact C47_cannot_links_proof. Qed.
Print Assumptions C47_cannot_links.

(** B and C are neighbours, apart in the result. *)
Example C47_cannot_ex : exists d, result (dbscan_Z pars ex vecs None) fresh_dbscan = Ok d /\ inferred ex B C (Some CANNOT_LINK) /\ pw [10; 11]%Z 0 1 = 1%Z /\
  dget B d = Some (-1)%Z /\ dget C d = Some (-2)%Z.
Proof. eexists. split; [vm_compute; reflexivity|]. split; [vm_compute; reflexivity|]. split; vm_compute; auto. Qed.

(** C47 (must-links, refuted): two IDs known as MUST_LINK can end in different clusters. *)
Theorem C47_must_links_refuted :
  exists (pairwise : list Z -> nat -> nat -> Z) p m vectors d,
    make_dbscan Z Z.leb Z.of_nat 2%Z 2%Z = Ok p /\ (forall rows i, Z.leb (pairwise rows i i) 2%Z = true) /\ reachable m /\
    result (cluster Z Z pairwise Z.leb Z.ltb Z.of_nat dedup p m vectors None) (fresh_dbscan) = Ok d /\
    ~ respects_must_links m d.
Proof. exact C47_must_links_refuted_proof. Qed.
Print Assumptions C47_must_links_refuted.

(** C47 (must-links, partial): a component of at least two IDs with no other ID within eps is exactly one cluster.  Missing: components with neighbours can be split. *)
Theorem C47_must_links_partial :
  forall vec D pairwise leb ltb of_nat setlist eps ms p m vectors nb s d a b,
    valid_setlist setlist -> make_dbscan D leb of_nat eps ms = Ok p -> (forall rows i, leb (pairwise rows i i) eps = true) -> (forall x y, leb x y = negb (ltb y x)) -> reachable m ->
    result (cluster vec D pairwise leb ltb of_nat setlist p m vectors nb) s = Ok d ->
    managed m a -> managed m b -> a <> b -> inferred m a b (Some MUST_LINK) ->
    (forall x y, managed m x -> managed m y -> inferred m a x (Some MUST_LINK) -> ~ inferred m a y (Some MUST_LINK) ->
       ~ within pairwise leb eps m vectors x y /\ ~ within pairwise leb eps m vectors y x) ->
    forall x, managed m x -> (dget a d = dget x d <-> inferred m a x (Some MUST_LINK)).
Proof. exact C47_must_links_partial_proof. Qed.
Print Assumptions C47_must_links_partial.

(** A and F, far from each other and from everything, are one cluster. *)
Example C47_must_ex : exists d, result (dbscan_Z pars ex vecs None) fresh_dbscan = Ok d /\ inferred ex A F (Some MUST_LINK) /\ A <> F /\
  map (fun x => (pw [0; 10; 11; 30; 50]%Z 0 x <=? 2, pw [0; 10; 11; 30; 50]%Z 4 x <=? 2)%Z) [1; 2; 3] = repeat (false, false) 3 /\ dget A d = dget F d.
Proof. eexists. split; [vm_compute; reflexivity|]. split; [vm_compute; reflexivity|]. split; [discriminate|]. split; vm_compute; reflexivity. Qed.

(** C73: DBScan accepts only positive parameters; a call raises exactly when a number of clusters is given, without ID, or when a vector is missing, and a failing call changes nothing. *)
Theorem C73_dbscan_errors :
  forall vec D pairwise leb ltb of_nat setlist eps ms,
    ((exists p, make_dbscan D leb of_nat eps ms = Ok p) <-> leb eps (of_nat 0) = false /\ (0 < ms)%Z) /\
    (make_dbscan D leb of_nat eps ms = Raise ValueError \/ exists p, make_dbscan D leb of_nat eps ms = Ok p) /\
    forall p m vectors nb s e,
      valid_setlist setlist -> make_dbscan D leb of_nat eps ms = Ok p -> (forall rows i, leb (pairwise rows i i) eps = true) -> reachable m ->
      (result (cluster vec D pairwise leb ltb of_nat setlist p m vectors nb) s = Raise e <->
       (e = ValueError /\ (nb <> None \/ ~ has_ids m)) \/
       (e = KeyError /\ nb = None /\ exists x, managed m x /\ ~ In x (keys vectors))) /\
      (result (cluster vec D pairwise leb ltb of_nat setlist p m vectors nb) s = Raise e ->
       cluster vec D pairwise leb ltb of_nat setlist p m vectors nb s = (s, Raise e)).
Proof. exact C73_dbscan_errors_proof. Qed.
Print Assumptions C73_dbscan_errors.

Example C73_ex : make_dbscan Z Z.leb Z.of_nat 0%Z 2%Z = Raise ValueError /\ make_dbscan Z Z.leb Z.of_nat 2%Z 0%Z = Raise ValueError /\
  result (dbscan_Z pars ex vecs (Some 2%Z)) fresh_dbscan = Raise ValueError /\
  result (dbscan_Z pars ex [(A, 0)]%Z None) fresh_dbscan = Raise KeyError /\
  result (dbscan_Z pars (init []) vecs None) fresh_dbscan = Raise ValueError.
Proof. repeat split; vm_compute; reflexivity. Qed.

(** C74 (memory): the answer does not depend on earlier calls on the same object. *)
Theorem C74_dbscan_no_memory :
  forall vec D pairwise leb ltb of_nat setlist p m vectors nb s1 s2,
    result (cluster vec D pairwise leb ltb of_nat setlist p m vectors nb) s1 = result (cluster vec D pairwise leb ltb of_nat setlist p m vectors nb) s2.
Proof. exact C74_dbscan_no_memory_proof. Qed.
Print Assumptions C74_dbscan_no_memory.

(** C74 (set order): when distances are ordered, neither the answer nor the final object depends on the order in which Python enumerates sets. *)
Theorem C74_dbscan_set_order :
  forall vec D pairwise leb ltb of_nat setlist1 setlist2 eps ms p m vectors nb s,
    valid_setlist setlist1 -> valid_setlist setlist2 -> make_dbscan D leb of_nat eps ms = Ok p -> (forall rows i, leb (pairwise rows i i) eps = true) ->
    strict_weak_order ltb -> (forall x y, leb x y = negb (ltb y x)) -> reachable m ->
    cluster vec D pairwise leb ltb of_nat setlist1 p m vectors nb s = cluster vec D pairwise leb ltb of_nat setlist2 p m vectors nb s.
Proof. exact C74_dbscan_set_order_proof. Qed.
Print Assumptions C74_dbscan_set_order.

Example C74_ex : forall s, dbscan_Z pars ex vecs None s = cluster Z Z pw Z.leb Z.ltb Z.of_nat rev_set pars ex vecs None s.
Proof.
  intro s. apply (C74_dbscan_set_order Z Z pw Z.leb Z.ltb Z.of_nat dedup rev_set 2%Z 2%Z); [exact dedup_valid|exact rev_valid|reflexivity|apply pw_refl; lia|exact ltb_swo|exact leb_ltb|exact ex_reachable].
Qed.

(** C75: what DBScan computes, step by step: neighbourhoods seen in order, singled out points, noise, must-link cores owned by the first who reaches them, absorption in the order of the names, remaining local clusters in the order of creation. *)
Theorem C75_dbscan_functional :
  forall vec D pairwise leb ltb of_nat setlist eps ms p m vectors nb s d l,
    valid_setlist setlist -> make_dbscan D leb of_nat eps ms = Ok p -> (forall rows i, leb (pairwise rows i i) eps = true) ->
    strict_weak_order ltb -> (forall x y, leb x y = negb (ltb y x)) -> reachable m -> ~ managed m (str "NONE") ->
    result (cluster vec D pairwise leb ltb of_nat setlist p m vectors nb) s = Ok d ->
    ask get_list_of_managed_data_IDs m = Ok l ->
    dbscan_result l (within pairwise leb eps m vectors)
      (fun a b => inferred m a b (Some MUST_LINK)) (fun a b => inferred m a b (Some CANNOT_LINK))
      (fun n => Z.to_nat ms <= n) (fun n => leb eps (of_nat n) = true) d.
Proof. exact C75_dbscan_functional_proof. Qed.
Print Assumptions C75_dbscan_functional.

(** min_samples 3: A and B see each other and C, in the middle; C comes first and takes both, but the noise point F leads too, and takes A, linked to it. E is ignored. *)
Definition ex2 : mgr := run [CallAddConstraint A F MUST_LINK 1%Q] (init [C; A; B; E; F]).
Example C75_ex : result (dbscan_Z (mkDBParams Z 2%Z 3) ex2 [(A, 0); (B, 2); (C, 1); (E, 40); (F, 41)]%Z None) fresh_dbscan = Ok [(A, 0); (B, 1); (C, 1); (F, 0); (E, -1)]%Z /\
  ~ managed ex2 (str "NONE") /\ reachable ex2 /\ make_dbscan Z Z.leb Z.of_nat 2%Z 3%Z = Ok (mkDBParams Z 2%Z 3).
Proof.
  split; [vm_compute; reflexivity|]. split; [|split; [apply run_reachable|reflexivity]]. intros (l & Q & J). vm_compute in Q. injection Q as <-.
  repeat (destruct J as [J|J]; [discriminate|]). destruct J.
Qed.
