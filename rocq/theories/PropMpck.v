(** Generated from MpckThms.v by tools/gen_props.py: theorem statements,
    each closed by the lemma of the same name proved there. *)

From Coq Require Import String List Bool Arith ZArith QArith Permutation Sorted Lia.
From Verif Require Import Base Manager Spec ManagerThms SamplingSpec ClusterSpec Mpckmeans MpckSpec MpckThms.
Import ListNotations.
Open Scope nat_scope.
Open Scope py_scope.

(** The examples use rational numbers ([Qops], in MpckThms.v), points on a line, enumerate
    sets in the order of insertion, do not shuffle, and draw the first indices. *)
Lemma Qops_order : strict_weak_order (o_ltb Q Qops).
Proof. exact Qlt_swo. Qed.
Lemma Qops_argmin : exact_argmin Qops.
Proof. exact Qargmin_exact. Qed.
Lemma id_order : valid_order (fun l => l).
Proof. intro. apply Permutation_refl. Qed.
Lemma id_shuffle : valid_shuffle (fun _ l => l).
Proof. intros t l. apply Permutation_refl. Qed.
Lemma zero_first : valid_first (fun (_ : nat) (_ : list Q) => 0%nat).
Proof. intros n w L. exact L. Qed.
Lemma seq_sample : valid_sample (fun _ k => seq 0 k).
Proof. intros n k L. split; [apply seq_length|]. split; [apply seq_NoDup|]. intros i J. apply in_seq in J. lia. Qed.
Definition A := str "a". Definition B := str "b". Definition C := str "c". Definition E := str "d".
Definition ex : mgr := run [CallAddConstraint A B MUST_LINK 1%Q] (init [A; B; C]).
Lemma ex_reachable : reachable ex.
Proof. apply run_reachable. Qed.
Definition vecs : dict pystr Z := [(A, 0); (B, 6); (C, 10)]%Z.

(** C48: on every reachable manager the graphs of MPCKMeans are exactly the inferred constraints and its neighborhoods are the connected components; "Inconsistent constraints" is never raised.  A component larger than the recursion limit raises RecursionError. *)
Theorem C48_mpckmeans_constraints :
  forall limit order m l comps,
    valid_order order -> reachable m -> ask get_list_of_managed_data_IDs m = Ok l -> ask get_connected_components m = Ok comps ->
    ((forall c, In c comps -> length c <= limit) ->
     exists mg cg cs, constraint_graphs limit order m l = Ok (mg, cg, cs) /\
       exact_graph m MUST_LINK l mg /\ exact_graph m CANNOT_LINK l cg /\ exact_neighborhoods m l cs) /\
    ((exists c, In c comps /\ limit < length c) -> constraint_graphs limit order m l = Raise RecursionError).
Proof. exact C48_mpckmeans_constraints_proof. Qed.
Print Assumptions C48_mpckmeans_constraints.

Example C48_ex :
  let m := run [CallAddConstraint A B MUST_LINK 1%Q; CallAddConstraint B C CANNOT_LINK 1%Q] (init [A; B; C; E]) in
  constraint_graphs 2 (fun l => l) m [A; B; C; E] =
    Ok ([(0, [0; 1]); (1, [0; 1]); (2, [2]); (3, [3])], [(0, [2]); (1, [2]); (2, [0; 1]); (3, [])], [[1; 0]; [2]; [3]]) /\
  constraint_graphs 1 (fun l => l) m [A; B; C; E] = Raise RecursionError.
Proof. vm_compute. split; reflexivity. Qed.

(** C49 (refuted): the labels depend on the order of the vectors only, never on their IDs: constraint [i, j] of the manager is applied to the [i]-th and [j]-th vectors, whoever they belong to. *)
Theorem C49_ids_ignored_refuted :
  forall vec D o flatten limit order first sample shuffle model it w p m (vectors1 vectors2 : dict pystr vec) nb s s1 d1,
    valid_order order -> valid_shuffle shuffle -> valid_sample sample -> valid_argmin o -> reachable m ->
    NoDup (keys vectors1) -> NoDup (keys vectors2) -> vals vectors1 = vals vectors2 ->
    make_mpckmeans D o model it w = Ok p ->
    cluster vec D o flatten limit order first sample shuffle p m vectors1 nb s = (s1, Ok d1) ->
    exists s2 d2, cluster vec D o flatten limit order first sample shuffle p m vectors2 nb s = (s2, Ok d2) /\
      mp_labels D s2 = mp_labels D s1 /\ mp_centers D s2 = mp_centers D s1.
Proof. exact C49_ids_ignored_refuted_proof. Qed.
Print Assumptions C49_ids_ignored_refuted.

(** C49 (refuted, wrong data): with the vectors in another order than the IDs of the manager, MPCKMeans joins data without constraint and separates a must-link. *)
Theorem C49_wrong_data_refuted :
  exists m p vectors1 vectors2 d1 d2 s1 s2,
    reachable m /\ make_mpckmeans Q Qops (str "MPC") 10 (1#1)%Q = Ok p /\
    Permutation vectors1 vectors2 /\ NoDup (keys vectors1) /\
    mpck_Q 100 p m vectors1 (Some 2%Z) (fresh_mpckmeans Q) = (s1, Ok d1) /\
    mpck_Q 100 p m vectors2 (Some 2%Z) (fresh_mpckmeans Q) = (s2, Ok d2) /\
    respects_must_links m d1 /\ ~ respects_must_links m d2 /\ ~ same_partition d1 d2.
Proof. exact C49_wrong_data_refuted_proof. Qed.
Print Assumptions C49_wrong_data_refuted.

Example C49_ex :
  result (mpck_Q 100 (mkMPParams Q 10 (1#1)%Q) ex [(A, 0); (B, 6); (C, 10)]%Z (Some 2%Z)) (fresh_mpckmeans Q) = Ok [(A, 0); (B, 0); (C, 1)]%Z /\
  result (mpck_Q 100 (mkMPParams Q 10 (1#1)%Q) ex [(A, 0); (C, 10); (B, 6)]%Z (Some 2%Z)) (fresh_mpckmeans Q) = Ok [(A, 0); (B, 1); (C, 0)]%Z.
Proof. split; vm_compute; reflexivity. Qed.

(** C78: what MPCKMeans computes: the first centres from the components, then iterations (farthest pair, greedy assignment by distance plus penalties in the drawn order, repair of empty clusters, means, metric) until the centres are stable or the iterations are used up; IDs are together exactly when their vectors have the same label. *)
Theorem C78_mpckmeans_functional :
  forall vec D o flatten limit order first sample shuffle model it w p m (vectors : dict pystr vec) nb s s' d l,
    valid_order order -> valid_shuffle shuffle -> valid_first first -> valid_sample sample -> exact_argmin o -> strict_weak_order (o_ltb D o) ->
    (forall v v', In v (vals vectors) -> In v' (vals vectors) -> length (flatten v) = length (flatten v')) ->
    reachable m -> NoDup (keys vectors) -> (forall x, In x (keys vectors) -> ~ ends_with_nul x) -> make_mpckmeans D o model it w = Ok p ->
    cluster vec D o flatten limit order first sample shuffle p m vectors nb s = (s', Ok d) ->
    ask get_list_of_managed_data_IDs m = Ok l ->
    let x := fun i => nth i (map flatten (vals vectors)) [] in
    let n := length l in
    let k := Nat.min (match nb with Some z => Z.to_nat z | None => 0 end) n in
    exists cs C0 C L,
      exact_neighborhoods m l cs /\
      first_centers o n (length (x 0)) x k first sample cs C0 /\
      iterates o n (length (x 0)) x k w (constrained m l MUST_LINK) (constrained m l CANNOT_LINK) (fun t => shuffle t (seq 0 n))
        0 (Z.to_nat it) C0 (repeat (o_of_nat D o 1) (length (x 0))) C L /\
      mp_centers D s' = Some C /\ mp_labels D s' = Some (map L (seq 0 n)) /\ mp_predicted D s' = Some d /\
      forall i j a b, nth_error (keys vectors) i = Some a -> nth_error (keys vectors) j = Some b -> dget a d = dget b d <-> L i = L j.
Proof. exact C78_mpckmeans_functional_proof. Qed.
Print Assumptions C78_mpckmeans_functional.

(** Two must-linked IDs and a third one, two clusters. *)
Example C78_ex : exists s',
  mpck_Q 100 (mkMPParams Q 10 (1#1)%Q) ex vecs (Some 2%Z) (fresh_mpckmeans Q) = (s', Ok [(A, 0); (B, 0); (C, 1)]%Z) /\
  mp_labels Q s' = Some [0; 0; 1] /\ mp_centers Q s' = Some [[3#1]; [10#1]]%Q.
Proof. eexists. split; [vm_compute; reflexivity|]. split; vm_compute; reflexivity. Qed.
(** Four components and two clusters: the first centres come from the traversal. *)
Example C78_ex_traversal : exists s',
  mpck_Q 100 (mkMPParams Q 10 (1#1)%Q) (init [A; B; C; E]) [(A, 0); (B, 1); (C, 10); (E, 12)]%Z (Some 2%Z) (fresh_mpckmeans Q)
  = (s', Ok [(A, 0); (B, 0); (C, 1); (E, 1)]%Z).
Proof. eexists. vm_compute. reflexivity. Qed.

(** C49 (partial): when the vectors are given in the order of the manager, the penalties are exactly those of the constraints inferred between the data who own the vectors.  Missing: any other order (refuted above). *)
Theorem C49_right_data_partial :
  forall vec D o flatten limit order first sample shuffle model it w p m (vectors : dict pystr vec) nb s s' d,
    valid_order order -> valid_shuffle shuffle -> valid_first first -> valid_sample sample -> exact_argmin o -> strict_weak_order (o_ltb D o) ->
    (forall v v', In v (vals vectors) -> In v' (vals vectors) -> length (flatten v) = length (flatten v')) ->
    reachable m -> NoDup (keys vectors) -> (forall x, In x (keys vectors) -> ~ ends_with_nul x) -> make_mpckmeans D o model it w = Ok p ->
    cluster vec D o flatten limit order first sample shuffle p m vectors nb s = (s', Ok d) ->
    ask get_list_of_managed_data_IDs m = Ok (keys vectors) ->
    let x := fun i => nth i (map flatten (vals vectors)) [] in
    let n := length vectors in
    let k := Nat.min (match nb with Some z => Z.to_nat z | None => 0 end) n in
    exists C0 C L,
      iterates o n (length (x 0)) x k w
        (fun i j => exists a b, nth_error (keys vectors) i = Some a /\ nth_error (keys vectors) j = Some b /\ inferred m a b (Some MUST_LINK))
        (fun i j => exists a b, nth_error (keys vectors) i = Some a /\ nth_error (keys vectors) j = Some b /\ inferred m a b (Some CANNOT_LINK))
        (fun t => shuffle t (seq 0 n))
        0 (Z.to_nat it) C0 (repeat (o_of_nat D o 1) (length (x 0))) C L /\
      forall i j a b, nth_error (keys vectors) i = Some a -> nth_error (keys vectors) j = Some b -> dget a d = dget b d <-> L i = L j.
Proof. exact C49_right_data_partial_proof. Qed.
Print Assumptions C49_right_data_partial.

Example C49_partial_ex : ask get_list_of_managed_data_IDs ex = Ok (keys vecs) /\ reachable ex.
Proof. split; [vm_compute; reflexivity|apply ex_reachable]. Qed.

(** C50 (refuted): with fewer than ten clusters, MPCKMeans raises ValueError whenever the assignment leaves a cluster empty: after the repair it counts the clusters with minlength 10. *)
Theorem C50_empty_clusters_refuted :
  forall D (o : ops D) X k A centers L,
    length L = length X -> k <= length X -> length centers = k -> (forall c, In c L -> c < k) ->
    (exists c, c < k /\ ~ In c L) -> k < 10 ->
    handle_empty_clusters D o X k A centers (map Some L) = Raise ValueError.
Proof. exact C50_empty_clusters_refuted_proof. Qed.
Print Assumptions C50_empty_clusters_refuted.

(** Two must-linked IDs, two clusters: both go to the same cluster, and the call fails. *)
Example C50_refuted_ex :
  handle_empty_clusters Q Qops [[0#1]; [1#1]]%Q 2 [1#1]%Q [[1#2]; [0#1]]%Q (map Some [1; 1]) = Raise ValueError /\
  result (mpck_Q 100 (mkMPParams Q 10 (1#1)%Q) (run [CallAddConstraint A B MUST_LINK 1%Q] (init [A; B])) [(A, 0); (B, 1)]%Z (Some 2%Z)) (fresh_mpckmeans Q)
  = Raise ValueError.
Proof. split; vm_compute; reflexivity. Qed.

(** C50 (partial): with at least ten clusters every empty cluster receives the movable point that is farthest from its centre, and no cluster is empty on return.  Missing: fewer than ten clusters (refuted above). *)
Theorem C50_empty_clusters_partial :
  forall D (o : ops D) X k A centers L,
    length L = length X -> 10 <= k <= length X -> length centers = k -> (forall c, In c L -> c < k) -> strict_weak_order (o_ltb D o) ->
    exists L' es, handle_empty_clusters D o X k A centers (map Some L) = Ok L' /\ length L' = length X /\
      (forall c, In c L' <-> c < k) /\
      StronglySorted lt es /\ (forall c, In c es <-> c < k /\ ~ In c L) /\
      fills o (length X) (fun i => nth i X []) A centers es (fun i => nth i L 0) (fun i => nth i L' 0).
Proof. exact C50_empty_clusters_partial_proof. Qed.
Print Assumptions C50_empty_clusters_partial.

(** Ten clusters, cluster 0 is empty: point 1 is farther from the centre of cluster 9 than point 0. *)
Example C50_partial_ex :
  handle_empty_clusters Q Qops (map (fun i => [inject_Z (Z.of_nat i)]) (seq 0 10)) 10 [1#1]%Q
    ([[1#2]]%Q ++ map (fun i => [inject_Z (Z.of_nat i)]) (seq 2 8) ++ [[0#1]]%Q) (map Some [9; 9; 1; 2; 3; 4; 5; 6; 7; 8])
  = Ok [9; 0; 1; 2; 3; 4; 5; 6; 7; 8].
Proof. vm_compute. reflexivity. Qed.

(** C50 (partial, whole call): when there are as many vectors as IDs, at least ten clusters, at most as many components as clusters, and no metric makes all points equal, the call returns. *)
Theorem C50_returns_partial :
  forall vec D o flatten limit order first sample shuffle model it w p m (vectors : dict pystr vec) nb s comps l,
    valid_order order -> valid_shuffle shuffle -> valid_sample sample -> valid_argmin o ->
    reachable m -> NoDup (keys vectors) -> make_mpckmeans D o model it w = Ok p ->
    ask get_list_of_managed_data_IDs m = Ok l -> ask get_connected_components m = Ok comps ->
    length vectors = length l -> (10 <= nb)%Z -> 10 <= length l -> length comps <= Z.to_nat nb -> (forall c, In c comps -> length c <= limit) ->
    (forall A, exists v v' i j, i < j /\ nth_error (vals vectors) i = Some v' /\ nth_error (vals vectors) j = Some v /\
       o_ltb D o (o_of_nat D o 0) (o_mahalanobis D o (flatten v) (flatten v') A) = true) ->
    exists d, result (cluster vec D o flatten limit order first sample shuffle p m vectors (Some nb)) s = Ok d.
Proof. exact C50_returns_partial_proof. Qed.
Print Assumptions C50_returns_partial.

(** The repair at work in a whole call: eleven IDs, the first two must-linked, eleven clusters. *)
Example C50_returns_ex : let names := map (fun c => [c]) (map N.of_nat (seq 97 11)) in
  let m := run [CallAddConstraint (str "a") (str "b") MUST_LINK 1%Q] (init names) in
  result (mpck_Q 100 (mkMPParams Q 1 (1#1)%Q) m (combine names (map Z.of_nat (seq 0 11))) (Some 11%Z)) (fresh_mpckmeans Q)
  = Ok (combine names (map Z.of_nat (seq 0 11))).
Proof. vm_compute. reflexivity. Qed.

(** C51 (refuted): MPCKMeans never returns when all vectors are equal (the distance of a vector to itself is not positive). *)
Theorem C51_identical_vectors_refuted :
  forall vec D o flatten limit order first sample shuffle model it w p m (vectors : dict pystr vec) nb s x,
    valid_order order -> valid_shuffle shuffle -> valid_sample sample -> valid_argmin o ->
    reachable m -> NoDup (keys vectors) -> make_mpckmeans D o model it w = Ok p ->
    (forall v, In v (vals vectors) -> flatten v = x) -> (forall A, o_ltb D o (o_of_nat D o 0) (o_mahalanobis D o x x A) = false) ->
    (forall d, result (cluster vec D o flatten limit order first sample shuffle p m vectors nb) s <> Ok d) /\
    (forall comps l z, ask get_connected_components m = Ok comps -> ask get_list_of_managed_data_IDs m = Ok l -> nb = Some z -> (2 <= z)%Z ->
       length vectors = length l -> l <> [] -> length comps <= Nat.min (Z.to_nat z) (length l) -> (forall c, In c comps -> length c <= limit) ->
       result (cluster vec D o flatten limit order first sample shuffle p m vectors nb) s = Raise AssertionError).
Proof. exact C51_identical_vectors_refuted_proof. Qed.
Print Assumptions C51_identical_vectors_refuted.

Example C51_ex : result (mpck_Q 100 (mkMPParams Q 10 (1#1)%Q) ex [(A, 5); (B, 5); (C, 5)]%Z (Some 2%Z)) (fresh_mpckmeans Q) = Raise AssertionError.
Proof. vm_compute. reflexivity. Qed.

(** C76: a call of MPCKMeans that returns had nb_clusters >= 2, at least two IDs, as many vectors as IDs, and no component beyond the recursion limit; a call that raises leaves the object unchanged and raises for one of the listed reasons. *)
Theorem C76_mpckmeans_errors :
  forall vec D o flatten limit order first sample shuffle model it w p m (vectors : dict pystr vec) nb s comps l,
    valid_order order -> valid_shuffle shuffle -> valid_sample sample -> valid_argmin o ->
    reachable m -> NoDup (keys vectors) -> make_mpckmeans D o model it w = Ok p ->
    ask get_list_of_managed_data_IDs m = Ok l -> ask get_connected_components m = Ok comps ->
    let call := cluster vec D o flatten limit order first sample shuffle p m vectors nb s in
    let n := length l in let N := length vectors in
    let small := forall c, In c comps -> length c <= limit in
    match call with
    | (s', Ok d) => (exists z, nb = Some z /\ (2 <= z)%Z) /\ 2 <= n /\ N = n /\ small
    | (s', Raise e) => s' = s /\
        ((match nb with None => True | Some z => (z < 2)%Z end /\ e = ValueError) \/
         exists z, nb = Some z /\ (2 <= z)%Z /\
           ((~ small /\ e = RecursionError) \/
            (small /\ ((N < n /\ e = IndexError) \/                                         (* a vector is missing *)
              (n = 0 /\ (e = IndexError \/ e = AssertionError \/ e = ValueError)) \/
              (Nat.min (Z.to_nat z) n < length comps /\ n <= N /\ e = IndexError) \/        (* no farther component *)
              (n < N /\ e = KeyError) \/                                                    (* a vector too many *)
              (n <= N /\ e = AssertionError) \/                                             (* all points equal *)
              (N = n /\ Nat.min (Z.to_nat z) n < 10 /\ e = ValueError)))))                  (* an empty cluster *)
    end.
Proof. exact C76_mpckmeans_errors_proof. Qed.
Print Assumptions C76_mpckmeans_errors.

Example C76_ex :
  let p := mkMPParams Q 10 (1#1)%Q in let s := fresh_mpckmeans Q in
  mpck_Q 100 p ex vecs None s = (s, Raise ValueError) /\ mpck_Q 100 p ex vecs (Some 1%Z) s = (s, Raise ValueError) /\
  mpck_Q 1 p ex vecs (Some 2%Z) s = (s, Raise RecursionError) /\
  mpck_Q 100 p ex [(A, 0); (B, 1)]%Z (Some 2%Z) s = (s, Raise IndexError) /\
  mpck_Q 100 p ex (vecs ++ [(E, 5%Z)]) (Some 2%Z) s = (s, Raise KeyError) /\
  mpck_Q 100 p (init [A; B; C]) [(A, 1); (B, 1); (C, 1)]%Z (Some 2%Z) s = (s, Raise IndexError).
Proof. vm_compute. repeat split. Qed.

(** C76 (constructor): the constructor accepts exactly the model "MPC", at least one iteration and a weight that is not negative. *)
Theorem C76_mpckmeans_constructor :
  forall D (o : ops D) model it w,
    (forall p, make_mpckmeans D o model it w = Ok p ->
       model = str "MPC" /\ (1 <= it)%Z /\ o_ltb D o w (o_of_nat D o 0) = false /\ mp_max_iteration D p = Z.to_nat it /\ mp_w D p = w) /\
    (model = str "MPC" -> (1 <= it)%Z -> o_ltb D o w (o_of_nat D o 0) = false -> exists p, make_mpckmeans D o model it w = Ok p) /\
    (forall e, make_mpckmeans D o model it w = Raise e -> e = ValueError).
Proof. exact C76_mpckmeans_constructor_proof. Qed.
Print Assumptions C76_mpckmeans_constructor.

Example C76_constructor_ex :
  make_mpckmeans Q Qops (str "MPC") 100 (1#1)%Q = Ok (mkMPParams Q 100 (1#1)%Q) /\ make_mpckmeans Q Qops (str "COP") 100 (1#1)%Q = Raise ValueError /\
  make_mpckmeans Q Qops (str "MPC") 0 (1#1)%Q = Raise ValueError /\ make_mpckmeans Q Qops (str "MPC") 1 (-1#1)%Q = Raise ValueError.
Proof. vm_compute. repeat split. Qed.

(** C77: with vectors for exactly the managed IDs, a result is about exactly the managed IDs, is numbered canonically and has exactly min(nb_clusters, number of IDs) clusters. *)
Theorem C77_mpckmeans_partition :
  forall vec D o flatten limit order first sample shuffle model it w p m (vectors : dict pystr vec) nb s s' d l,
    valid_order order -> valid_shuffle shuffle -> valid_sample sample -> valid_argmin o ->
    reachable m -> NoDup (keys vectors) -> (forall x, In x (keys vectors) -> ~ ends_with_nul x) -> make_mpckmeans D o model it w = Ok p ->
    ask get_list_of_managed_data_IDs m = Ok l -> (forall x, In x (keys vectors) <-> managed m x) ->
    cluster vec D o flatten limit order first sample shuffle p m vectors nb s = (s', Ok d) ->
    canonical d /\ covers_exactly m d /\ mp_predicted D s' = Some d /\
    exists z, nb = Some z /\ nb_clusters_of d = Nat.min (Z.to_nat z) (length l).
Proof. exact C77_mpckmeans_partition_proof. Qed.
Print Assumptions C77_mpckmeans_partition.

Example C77_ex : exists s', mpck_Q 100 (mkMPParams Q 10 (1#1)%Q) ex [(C, 10); (B, 6); (A, 0)]%Z (Some 2%Z) (fresh_mpckmeans Q) = (s', Ok [(A, 0); (B, 1); (C, 1)]%Z).
Proof. eexists. vm_compute. reflexivity. Qed.

(** C79: the result and the final object of a call of MPCKMeans do not depend on earlier calls. *)
Theorem C79_mpckmeans_no_memory :
  forall vec D o flatten limit order first sample shuffle p m (vectors : dict pystr vec) nb s1 s2,
    result (cluster vec D o flatten limit order first sample shuffle p m vectors nb) s1 = result (cluster vec D o flatten limit order first sample shuffle p m vectors nb) s2 /\
    forall s1' s2' d1 d2,
      cluster vec D o flatten limit order first sample shuffle p m vectors nb s1 = (s1', Ok d1) ->
      cluster vec D o flatten limit order first sample shuffle p m vectors nb s2 = (s2', Ok d2) -> s1' = s2'.
Proof. exact C79_mpckmeans_no_memory_proof. Qed.
Print Assumptions C79_mpckmeans_no_memory.

Example C79_ex : forall s, result (mpck_Q 100 (mkMPParams Q 10 (1#1)%Q) ex vecs (Some 2%Z)) s = Ok [(A, 0); (B, 0); (C, 1)]%Z.
Proof.
  intro s. unfold mpck_Q. rewrite (proj1 (C79_mpckmeans_no_memory Z Q Qops _ _ _ _ _ _ _ _ _ _ s (fresh_mpckmeans Q))).
  vm_compute. reflexivity.
Qed.

(** C80 (refuted): vectors of unknown data are accepted in place of missing ones: the result contains the unknown ID, and gives -1 to the managed ID without vector. *)
Theorem C80_foreign_vectors_refuted :
  exists m p vectors s' d x y,
    reachable m /\ make_mpckmeans Q Qops (str "MPC") 10 (1#1)%Q = Ok p /\ NoDup (keys vectors) /\
    mpck_Q 100 p m vectors (Some 2%Z) (fresh_mpckmeans Q) = (s', Ok d) /\
    ~ managed m x /\ In x (keys d) /\ managed m y /\ ~ In y (keys vectors) /\ dget y d = Some (-1)%Z.
Proof. exact C80_foreign_vectors_refuted_proof. Qed.
Print Assumptions C80_foreign_vectors_refuted.

(** C80 (partial): whatever the IDs of the vectors, a result has exactly the IDs of the vectors and of the manager; exactly the managed IDs without vector get -1, the others are numbered canonically.  Missing: rejecting the call (refuted above). *)
Theorem C80_foreign_vectors_partial :
  forall vec D o flatten limit order first sample shuffle model it w p m (vectors : dict pystr vec) nb s s' d,
    valid_order order -> valid_shuffle shuffle -> valid_sample sample -> valid_argmin o ->
    reachable m -> NoDup (keys vectors) -> (forall x, In x (keys vectors) -> ~ ends_with_nul x) -> make_mpckmeans D o model it w = Ok p ->
    cluster vec D o flatten limit order first sample shuffle p m vectors nb s = (s', Ok d) ->
    (forall x, In x (keys d) <-> In x (keys vectors) \/ managed m x) /\
    (forall x, In x (keys d) -> dget x d = Some (-1)%Z <-> ~ In x (keys vectors)) /\
    exists d0 absent, d = d0 ++ absent /\ canonical d0 /\ (forall x, In x (keys d0) <-> In x (keys vectors)).
Proof. exact C80_foreign_vectors_partial_proof. Qed.
Print Assumptions C80_foreign_vectors_partial.

Example C80_ex : result (mpck_Q 100 (mkMPParams Q 10 (1#1)%Q) (init [A; B]) [(A, 0); (C, 10)]%Z (Some 2%Z)) (fresh_mpckmeans Q) = Ok [(A, 0); (C, 1); (B, -1)]%Z.
Proof. vm_compute. reflexivity. Qed.

(** C102 (refuted): in every call of MPCKMeans that returns, each managed ID that ends with the character NUL gets the label -1 of a missing data, whatever its vector. *)
Theorem C102_nul_refuted :
  forall vec D o flatten limit order first sample shuffle model it w p m (vectors : dict pystr vec) nb s s' d,
    valid_order order -> valid_shuffle shuffle -> valid_sample sample -> valid_argmin o ->
    reachable m -> NoDup (keys vectors) -> make_mpckmeans D o model it w = Ok p ->
    cluster vec D o flatten limit order first sample shuffle p m vectors nb s = (s', Ok d) ->
    forall x, managed m x -> ends_with_nul x -> dget x d = Some (-1)%Z.
Proof. exact C102_nul_refuted_proof. Qed.
Print Assumptions C102_nul_refuted.

(** [B0] has a vector and is managed, but the result gives its label to [B]. *)
Definition B0 : pystr := B ++ [0%N].
Example C102_ex : result (mpck_Q 100 (mkMPParams Q 10 (1#1)%Q) (init [A; B0]) [(A, 0); (B0, 10)]%Z (Some 2%Z)) (fresh_mpckmeans Q) = Ok [(A, 0); (B, 1); (B0, -1)]%Z /\ ends_with_nul B0.
Proof. split; [vm_compute; reflexivity|exists B; reflexivity]. Qed.

(** C102 (partial): an ID with a vector gets a cluster if it does not end with NUL.  Missing: the other IDs (refuted above). *)
Theorem C102_plain_partial :
  forall vec D o flatten limit order first sample shuffle model it w p m (vectors : dict pystr vec) nb s s' d,
    valid_order order -> valid_shuffle shuffle -> valid_sample sample -> valid_argmin o ->
    reachable m -> NoDup (keys vectors) -> make_mpckmeans D o model it w = Ok p ->
    cluster vec D o flatten limit order first sample shuffle p m vectors nb s = (s', Ok d) ->
    forall x, In x (keys vectors) -> ~ ends_with_nul x -> exists c, dget x d = Some c /\ (0 <= c)%Z.
Proof. exact C102_plain_partial_proof. Qed.
Print Assumptions C102_plain_partial.
