(** Generated from StopThms.v by tools/gen_props.py: theorem statements,
    each closed by the lemma of the same name proved there. *)

From Coq Require Import String List Bool Arith ZArith QArith Permutation Lia.
From Verif Require Import Base Manager Spec ManagerThms SamplingSpec ClusterSpec KMeans KMeansSpec LloydSpec LloydThms ConvergeSpec StopSpec StopThms.
Import ListNotations.
Open Scope nat_scope.

(** C134: a KMeans call makes some number of rounds, and when it stops before the last one allowed, the last data of each component is at most the tolerance farther from the mean of its cluster than from the mean of any other cluster that no CANNOT_LINK excludes. *)
Theorem C134_early_stop :
  forall vec D (eqD : EqB D) pairwise ltb dzero dsum mean shuffle set_order model it tol p m vectors nb s s' d add dist,
    valid_set_order set_order -> valid_shuffle shuffle -> lengths ltb add -> sums_up ltb dzero add dsum -> metric ltb dzero add dist ->
    computed_by dist pairwise -> reachable m ->
    make_kmeans D ltb dzero model it tol = Ok p ->
    cluster vec D pairwise ltb dsum mean shuffle set_order p m vectors (Some nb) s = (s', Ok d) ->
    exists ids first raw rounds, ask get_list_of_managed_data_IDs m = Ok ids /\
      initial_centroids ids vectors (Nat.min (Z.to_nat nb) (length ids)) first /\
      full_rounds pairwise ltb dsum mean tol m ids vectors rounds first None raw (k_centroids vec s') /\ same_partition raw d /\
      1 <= rounds <= Z.to_nat it /\
      (rounds < Z.to_nat it -> nearly_settled ltb mean tol m ids vectors add dist d).
Proof. exact C134_early_stop_proof. Qed.
Print Assumptions C134_early_stop.

(** Five data on a line, a CANNOT_LINK between the first and the third: the third round still changes the clusters,
    later ones do not, and the first data stays with the far one because the CANNOT_LINK excludes the near cluster. *)
Definition A := str "a". Definition B := str "b". Definition C := str "c". Definition E := str "d". Definition F := str "e".
Definition places : dict pystr (list Q) := [(A, [0]); (B, [1]); (C, [2]); (E, [3]); (F, [12])]%Q.
Definition apart : mgr := run [CallAddConstraint A C CANNOT_LINK 1%Q] (init [A; B; C; E; F]).
Definition call (it : Z) := match make_kmeans Q less 0%Q (str "COP") it (1 # 10000)%Q with
  | Ok p => result (cluster (list Q) Q line_pairwise less line_total (mean_of 1) (fun l => l) (nodup Z.eq_dec) p apart places (Some 2%Z)) (fresh_kmeans (list Q))
  | Raise e => Raise e
  end.
Example C134_ex : reachable apart /\ lengths less Qplus /\ sums_up less 0%Q Qplus line_total /\ metric less 0%Q Qplus line_dist /\
  computed_by line_dist line_pairwise /\ (call 2 = call 150 -> False) /\ call 5 = call 150 /\ call 150 = call 151.
Proof.
  split; [apply run_reachable|]. split; [apply line_lengths|]. split; [apply line_sums|]. split; [apply line_metric|]. split; [apply line_computed|].
  split; [intro Q; vm_compute in Q; discriminate|]. split; vm_compute; reflexivity.
Qed.

(** C134: the tolerance cannot be left out: with the default arguments a call can stop although a data is closer to the mean of another cluster. *)
Theorem C134_not_closer :
  exists (eqD : EqB Q) pairwise ltb dsum mean shuffle set_order p m vectors d add dist ids,
    valid_set_order set_order /\ valid_shuffle shuffle /\ lengths ltb add /\ sums_up ltb 0%Q add dsum /\ metric ltb 0%Q add dist /\
    computed_by dist pairwise /\ exact_mean 1 mean /\ m = init ids /\
    make_kmeans Q ltb 0%Q (str "COP") 150 (1 # 10000)%Q = Ok p /\
    result (cluster (list Q) Q pairwise ltb dsum mean shuffle set_order p m vectors (Some 2%Z)) (fresh_kmeans (list Q)) = Ok d /\
    ~ settled 1 ids vectors d.
Proof. exact C134_not_closer_proof. Qed.
Print Assumptions C134_not_closer.
