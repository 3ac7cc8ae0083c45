(** Generated from SamplingThms.v by tools/gen_props.py: theorem statements,
    each closed by the lemma of the same name proved there. *)

From Coq Require Import String List Bool Arith ZArith QArith Permutation.
From Verif Require Import Base Manager Spec ManagerThms Sampling SamplingSpec SamplingThms.
Import ListNotations.
Open Scope nat_scope.

(** Running example: a must-link b, b cannot-link c; the distance of positions i, j is |i - j|
    and the random draw takes the first pairs. *)
Definition a : pystr := str "a".
Definition b : pystr := str "b".
Definition c : pystr := str "c".
Definition d : pystr := str "d".
Definition ex : mgr :=
  run [CallAddConstraint a b MUST_LINK 1%Q; CallAddConstraint c b CANNOT_LINK 1%Q] (init [d; a; b; c]).
Lemma ex_reachable : reachable ex.
Proof. apply run_reachable. Qed.
Definition clusters : option (dict pystr Z) := Some [(a, 0%Z); (b, 0%Z); (c, 1%Z); (d, 0%Z)].
Definition vecs : option (dict pystr nat) := Some [(a, 1); (b, 4); (c, 3); (d, 10)].
Definition pw (rows : list nat) (i j : nat) : nat :=
  let x := nth i rows 0 in let y := nth j rows 0 in (x - y) + (y - x).
Definition first_ones (l : list (pystr * pystr)) (k : nat) := firstn k l.
Lemma first_ones_valid : valid_draw first_ones.
Proof.
  intros l k H. split; [apply firstn_length_le; auto|]. exists (skipn k l).
  unfold first_ones. rewrite firstn_skipn. apply Permutation_refl.
Qed.
Definition any := mkOptions None None true true.
Definition closest := mkOptions (Some DIFFERENT_CLUSTERS) (Some CLOSEST) true true.
Definition farthest := mkOptions None (Some FARTHEST) false false.
Definition smp (o : options) (nb : Z) := result (sample nat nat pw Nat.ltb first_ones o nb clusters vecs) (fresh_sampler nat nat, ex).


(** C27: every sampled pair is an ordered pair of managed IDs meeting the restrictions, and no pair comes twice. *)
Theorem C27_sampled_pairs_eligible :
  forall vec D pairwise ltb draw o nb clustering vectors s m l, valid_draw draw -> reachable m ->
    result (sample vec D pairwise ltb draw o nb clustering vectors) (s, m) = Ok l ->
    NoDup l /\ (forall p, In p l -> eligible o m clustering p).
Proof. exact C27_sampled_pairs_eligible_proof. Qed.
Print Assumptions C27_sampled_pairs_eligible.

Example C27_ex : smp any 2 = Ok [(a, d); (b, d)].
Proof. reflexivity. Qed.
Example C27_ex2 : smp (mkOptions (Some SAME_CLUSTER) None false false) 5 = Ok [(a, d); (a, b); (b, d)].
Proof. reflexivity. Qed.

(** C28: with the documented arguments sample succeeds and returns min(nb_to_select, number of eligible pairs) pairs. *)
Theorem C28_sampling_count :
  forall vec D pairwise ltb draw o nb clustering vectors s m, valid_draw draw -> reachable m ->
    valid_arguments (vec := vec) o m nb clustering vectors ->
    exists l, result (sample vec D pairwise ltb draw o nb clustering vectors) (s, m) = Ok l /\
      forall all, NoDup all -> (forall p, In p all <-> eligible o m clustering p) ->
        length l = Nat.min (Z.to_nat nb) (length all).
Proof. exact C28_sampling_count_proof. Qed.
Print Assumptions C28_sampling_count.

Example C28_ex : valid_arguments closest ex 7 clusters vecs /\ smp closest 7 = Ok [(c, d)].
Proof.
  split; [|reflexivity].
  assert (M : forall x, managed ex x -> In x [a; b; c; d]).
  { intros x (l & E & I). vm_compute in E. inversion E; subst l. simpl in *. tauto. }
  split; [easy|]. split.
  - intros _. exists [(a, 0%Z); (b, 0%Z); (c, 1%Z); (d, 0%Z)]. split; [reflexivity|]. exact M.
  - intros _. split.
    + exists [(a, 1); (b, 4); (c, 3); (d, 10)]. split; [reflexivity|]. exact M.
    + exists a, [d; a; b; c]. split; [reflexivity|]. right; left; reflexivity.
Qed.

(** C28 (errors): a negative number, or a restriction without its dictionary, is refused with ValueError; nothing else than ValueError or KeyError is ever raised. *)
Theorem C28_sampling_errors :
  forall vec D pairwise ltb draw o nb clustering vectors s m, reachable m ->
    let r := result (sample vec D pairwise ltb draw o nb clustering vectors) (s, m) in
    ((nb < 0)%Z -> r = Raise ValueError) /\
    (nb = 0%Z -> r = Ok []) /\
    ((0 < nb)%Z -> o_clusters o <> None -> clustering = None -> r = Raise ValueError) /\
    ((0 < nb)%Z -> o_distance o <> None -> vectors = None -> r = Raise ValueError) /\
    (forall e, r = Raise e -> e = ValueError \/ e = KeyError).
Proof. exact C28_sampling_errors_proof. Qed.
Print Assumptions C28_sampling_errors.

(** C29: with a distance restriction the pairs come sorted by distance, no pair left out is strictly better than a returned one, ties follow the enumeration order of the double loop, and every eligible pair has exactly one distance. *)
Theorem C29_distance_sampling_optimal :
  forall vec D pairwise ltb draw o nb clustering v s m l, strict_weak_order ltb -> reachable m ->
    o_distance o = Some CLOSEST \/ o_distance o = Some FARTHEST -> (0 < nb)%Z ->
    result (sample vec D pairwise ltb draw o nb clustering (Some v)) (s, m) = Ok l ->
    let dist := distance_is pairwise m v in
    (forall p, eligible o m clustering p -> exists d, dist p d /\ forall d', dist p d' -> d' = d) /\
    (forall p q dp dq, dist p dp -> dist q dq -> before l p q -> ~ taken_first ltb o dq dp) /\
    (forall p q dp dq, dist p dp -> dist q dq -> In p l -> eligible o m clustering q -> ~ In q l -> ~ taken_first ltb o dq dp) /\
    (forall p q dp dq, dist p dp -> dist q dq -> eligible o m clustering p -> In q l ->
       ~ taken_first ltb o dp dq -> ~ taken_first ltb o dq dp -> enumerated_before m p q -> before l p q).
Proof. exact C29_distance_sampling_optimal_proof. Qed.
Print Assumptions C29_distance_sampling_optimal.

Example C29_ex : smp closest 7 = Ok [(c, d)] /\ smp farthest 3 = Ok [(a, d); (c, d); (b, d)]
  /\ smp (mkOptions None (Some CLOSEST) false false) 4 = Ok [(b, c); (a, c); (a, b); (b, d)].
Proof. repeat split; reflexivity. Qed.
Example C29_ex_order : strict_weak_order Nat.ltb.
Proof.
  split; [|split].
  - exact Nat.ltb_irrefl.
  - intros x y z. rewrite !Nat.ltb_lt. apply Nat.lt_trans.
  - intros x y z. rewrite !Nat.ltb_lt. intro H. destruct (Nat.lt_ge_cases x y); auto.
    right. apply Nat.le_lt_trans with x; auto.
Qed.

(** C30: without cluster restriction, sampling at least one pair without inferred constraint returns [] exactly when the constraints are complete. *)
Theorem C30_exhausted_iff_complete :
  forall vec D pairwise ltb draw o nb clustering vectors s m, valid_draw draw -> reachable m ->
    valid_arguments (vec := vec) o m nb clustering vectors ->
    o_clusters o = None -> o_without_inferred o = true -> (1 <= nb)%Z ->
    (result (sample vec D pairwise ltb draw o nb clustering vectors) (s, m) = Ok [] <-> complete m).
Proof. exact C30_exhausted_iff_complete_proof. Qed.
Print Assumptions C30_exhausted_iff_complete.

Example C30_ex : ask check_completude_of_constraints ex = Ok false /\ smp any 1 = Ok [(a, d)]
  /\ let m := run [CallAddConstraint a d MUST_LINK 1%Q] ex in
     ask check_completude_of_constraints m = Ok true
     /\ result (sample nat nat pw Nat.ltb first_ones any 1 None None) (fresh_sampler nat nat, m) = Ok [].
Proof. repeat split; reflexivity. Qed.

(** C32: sample leaves the manager unchanged, and after any history of calls (even failed ones, on other managers) it answers like a fresh sampler. *)
Theorem C32_sampling_no_memory :
  forall vec D ltb o (history : list (sample_call vec D)) c, reachable (sc_manager c) ->
    snd (do_sample ltb o c (after_samples ltb o history)) = snd (do_sample ltb o c (fresh_sampler vec D)) /\
    snd (fst (do_sample ltb o c (after_samples ltb o history))) = sc_manager c.
Proof. exact C32_sampling_no_memory_proof. Qed.
Print Assumptions C32_sampling_no_memory.

Example C32_ex : let call nb cl v := mkSampleCall ex nb cl v pw first_ones in
  fst (fst (do_sample Nat.ltb closest (call 1%Z clusters vecs) (fresh_sampler nat nat))) <> fresh_sampler nat nat
  /\ snd (do_sample Nat.ltb closest (call 1%Z (Some [(a, 5%Z); (b, 7%Z); (c, 7%Z); (d, 6%Z)]) vecs)
            (after_samples Nat.ltb closest [call 1%Z clusters vecs; call (-1)%Z None None])) = Ok [(b, d)].
Proof. split; [discriminate|reflexivity]. Qed.
