(** Generated from PeriodThms.v by tools/gen_props.py: theorem statements,
    each closed by the lemma of the same name proved there. *)

From Coq Require Import String List Bool Arith ZArith QArith.
From Verif Require Import Base Manager Spec ManagerThms SamplingSpec ClusterSpec KMeans KMeansSpec LloydSpec LloydThms ConvergeSpec ConvergeThms PeriodThms.
Import ListNotations.
Open Scope nat_scope.

(** C129: if the runs with limits n and n + k on the number of rounds leave the same centroids, the results of all larger limits repeat with period k, whatever the constraints, the tolerance and the distances. *)
Theorem C129_period :
  forall vec D (eqD : EqB D) pairwise ltb dsum mean shuffle set_order tol m vectors nb s n k,
    let call i := cluster vec D pairwise ltb dsum mean shuffle set_order (mkKParams D i tol) m vectors nb in
    valid_set_order set_order -> 1 <= n -> 1 <= k ->
    (exists d, result (call n) s = Ok d) -> (exists d, result (call (n + k)) s = Ok d) ->
    k_centroids vec (fst (call n s)) = k_centroids vec (fst (call (n + k) s)) ->
    forall i, n + k <= i -> call (i + k) s = call i s.
Proof. exact C129_period_proof. Qed.
Print Assumptions C129_period.

(** Two CANNOT_LINK make the centroids of the first and the third round equal, and the second ones different. *)
Definition turning (i : nat) := cluster (list Q) Q (squared 1) less (fun l => Qred (sumQ l)) (mean_of 1) (fun l => l) (nodup Z.eq_dec) (mkKParams Q i (1 # 10000)%Q) apart apart_at (Some 2%Z).
Example C129_period_ex : valid_set_order (nodup Z.eq_dec) /\
  (exists d, result (turning 1) (fresh_kmeans (list Q)) = Ok d) /\ (exists d, result (turning (1 + 2)) (fresh_kmeans (list Q)) = Ok d) /\
  k_centroids _ (fst (turning 1 (fresh_kmeans (list Q)))) = k_centroids _ (fst (turning (1 + 2) (fresh_kmeans (list Q)))) /\
  result (turning 2) (fresh_kmeans (list Q)) <> result (turning 1) (fresh_kmeans (list Q)).
Proof.
  split; [intro l; split; [apply NoDup_nodup|intro; apply nodup_In]|]. split; [eexists; vm_compute; reflexivity|]. split; [eexists; vm_compute; reflexivity|].
  split; [vm_compute; reflexivity|vm_compute; discriminate].
Qed.

(** C129: in particular, as soon as one more round changes no centroid, more rounds change nothing at all. *)
Theorem C129_settled :
  forall vec D (eqD : EqB D) pairwise ltb dsum mean shuffle set_order tol m vectors nb s n,
    let call i := cluster vec D pairwise ltb dsum mean shuffle set_order (mkKParams D i tol) m vectors nb in
    valid_set_order set_order -> 1 <= n ->
    (exists d, result (call n) s = Ok d) -> (exists d, result (call (n + 1)) s = Ok d) ->
    k_centroids vec (fst (call n s)) = k_centroids vec (fst (call (n + 1) s)) ->
    forall i, n + 1 <= i -> call i s = call (n + 1) s.
Proof. exact C129_settled_proof. Qed.
Print Assumptions C129_settled.

(** Four data on a line, tolerance zero: the fourth round changes no centroid, the second one does. *)
Definition line : dict pystr (list Q) := [(str "a", [0]); (str "b", [1]); (str "c", [2]); (str "d", [10])]%Q.
Definition resting (i : nat) := cluster (list Q) Q (squared 1) less (fun l => Qred (sumQ l)) (mean_of 1) (fun l => l) (nodup Z.eq_dec) (mkKParams Q i 0%Q) (init (keys line)) line (Some 2%Z).
Example C129_settled_ex :
  (exists d, result (resting 3) (fresh_kmeans (list Q)) = Ok d) /\ (exists d, result (resting (3 + 1)) (fresh_kmeans (list Q)) = Ok d) /\
  k_centroids _ (fst (resting 3 (fresh_kmeans (list Q)))) = k_centroids _ (fst (resting (3 + 1) (fresh_kmeans (list Q)))) /\
  k_centroids _ (fst (resting 1 (fresh_kmeans (list Q)))) <> k_centroids _ (fst (resting 2 (fresh_kmeans (list Q)))).
Proof.
  split; [eexists; vm_compute; reflexivity|]. split; [eexists; vm_compute; reflexivity|]. split; [vm_compute; reflexivity|vm_compute; discriminate].
Qed.
