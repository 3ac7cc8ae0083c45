(** Generated from FairThms.v by tools/gen_props.py: theorem statements,
    each closed by the lemma of the same name proved there. *)

From Coq Require Import String List Bool Arith ZArith QArith Permutation Lia.
From Verif Require Import Base Manager Spec ManagerInv ManagerQueries ManagerThms Sampling SamplingSpec SamplingThms KMeans KMeansSpec FairSpec FairThms.
Import ListNotations.
Open Scope nat_scope.
Definition a : pystr := str "a".
Definition b : pystr := str "b".
Definition c : pystr := str "c".
Definition d : pystr := str "d".
(** a must-link b, b cannot-link c; (a, d), (b, d), (c, d) are eligible. *)
Definition ex : mgr :=
  run [CallAddConstraint a b MUST_LINK 1%Q; CallAddConstraint c b CANNOT_LINK 1%Q] (init [d; a; b; c]).
Definition any := mkOptions None None true true.
Definition vecs : dict pystr nat := [(a, 1); (b, 4); (c, 3); (d, 10)].
Definition drawn (pool : bool) (js : list nat) :=
  result (sample nat nat (fun _ _ _ => 0) Nat.ltb (random_sample pool js) any 2 None None) (fresh_sampler nat nat, ex).

(** C136: a sampler without distance restriction can answer every list of the requested number of eligible pairs, and each of them for exactly one run of the random generator. *)
Theorem C136_every_sample_once :
  forall vec D pairwise ltb pool o nb clustering vectors s m all, reachable m ->
    valid_arguments (vec := vec) o m nb clustering vectors -> o_distance o = None ->
    NoDup all -> (forall p, In p all <-> eligible o m clustering p) ->
    let k := Nat.min (Z.to_nat nb) (length all) in
    forall l, (NoDup l /\ length l = k /\ forall p, In p l -> eligible o m clustering p) <->
      exists! js, In js (sample_runs pool (length all) k) /\
        result (sample vec D pairwise ltb (random_sample pool js) o nb clustering vectors) (s, m) = Ok l.
Proof. exact C136_every_sample_once_proof. Qed.
Print Assumptions C136_every_sample_once.

Example C136_ex_runs : sample_runs true 3 2 = [[0; 0]; [0; 1]; [1; 0]; [1; 1]; [2; 0]; [2; 1]] /\
  sample_runs false 3 2 = [[0; 1]; [0; 2]; [1; 0]; [1; 2]; [2; 0]; [2; 1]].
Proof. split; reflexivity. Qed.
Example C136_ex_eligible : reachable ex /\ valid_arguments (vec := nat) any ex 2 None None /\ NoDup [(a, d); (b, d); (c, d)] /\
  (forall p, In p [(a, d); (b, d); (c, d)] <-> eligible any ex None p).
Proof.
  assert (R : reachable ex) by apply run_reachable. split; auto.
  split; [split; [easy|]; split; intro X; elim X; reflexivity|].
  destruct (eligible_pairs_spec nat nat any ex None [(a, d); (b, d); (c, d)]) as (N & E & _); auto.
  apply reachable_inv; auto.
Qed.
Example C136_ex_answers : map (drawn true) (sample_runs true 3 2) =
  [Ok [(a, d); (c, d)]; Ok [(a, d); (b, d)]; Ok [(b, d); (a, d)]; Ok [(b, d); (c, d)]; Ok [(c, d); (a, d)]; Ok [(c, d); (b, d)]].
Proof. reflexivity. Qed.

(** C136 (rate): every eligible pair is among the selected ones for the same share of the runs: number selected over number of eligible pairs. *)
Theorem C136_pair_rate :
  forall vec D pairwise ltb pool o nb clustering vectors s m all p, reachable m ->
    valid_arguments (vec := vec) o m nb clustering vectors -> o_distance o = None ->
    NoDup all -> (forall p, In p all <-> eligible o m clustering p) -> eligible o m clustering p ->
    let k := Nat.min (Z.to_nat nb) (length all) in
    let runs := sample_runs pool (length all) k in
    runs <> [] /\
    how_many (fun js => match result (sample vec D pairwise ltb (random_sample pool js) o nb clustering vectors) (s, m) with
                        | Ok l => mem p l | Raise _ => false end) runs * length all = k * length runs.
Proof. exact C136_pair_rate_proof. Qed.
Print Assumptions C136_pair_rate.

Example C136_ex_rate : how_many (fun js => match drawn true js with Ok l => mem (b, d) l | _ => false end) (sample_runs true 3 2) = 4 /\
  length (sample_runs true 3 2) = 6.
Proof. split; reflexivity. Qed.

(** C136 (shuffle): random.shuffle gives every order of a list of distinct values, each for exactly one run of the random generator. *)
Theorem C136_every_order_once :
  forall A (l : list A), NoDup l ->
    forall r, Permutation l r <-> exists! js, In js (shuffle_runs (length l)) /\ random_shuffle js l = r.
Proof. exact C136_every_order_once_proof. Qed.
Print Assumptions C136_every_order_once.

Example C136_ex_shuffle : map (fun js => random_shuffle js [a; b; c]) (shuffle_runs 3) =
  [[b; c; a]; [c; b; a]; [c; a; b]; [a; c; b]; [b; a; c]; [a; b; c]].
Proof. reflexivity. Qed.

(** C136 (centroids): with distinct vectors, the vector of every data ID is a first centroid of KMeans for the same share of the runs: number of clusters over number of data. *)
Theorem C136_centroid_rate :
  forall vec `{EqB vec} ids (vectors : dict pystr vec) nb x v,
    NoDup ids -> (forall y, In y ids -> In y (keys vectors)) ->
    (forall y z, In y ids -> In z ids -> dget y vectors = dget z vectors -> y = z) ->
    nb <= length ids -> In x ids -> dget x vectors = Some v ->
    let runs := shuffle_runs (length ids) in
    runs <> [] /\
    how_many (fun js => match initialize_centroids vec (random_shuffle js) ids vectors nb with
                        | Ok centroids => mem v (vals centroids) | Raise _ => false end) runs * length ids = nb * length runs.
Proof. exact C136_centroid_rate_proof. Qed.
Print Assumptions C136_centroid_rate.

Example C136_ex_centroids : how_many (fun js => match initialize_centroids nat (random_shuffle js) [a; b; c] vecs 2 with
  | Ok cs => mem 3 (vals cs) | _ => false end) (shuffle_runs 3) = 4 /\ length (shuffle_runs 3) = 6.
Proof. split; reflexivity. Qed.
