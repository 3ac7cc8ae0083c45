(** Generated from RoundsThms.v by tools/gen_props.py: theorem statements,
    each closed by the lemma of the same name proved there. *)

From Coq Require Import String List Bool Arith ZArith QArith Permutation.
From Verif Require Import Base Manager Spec ManagerInv ManagerThms JsonThms Sampling SamplingSpec Loop EffortSpec RoundsSpec RoundsThms.
Import ListNotations.
Open Scope nat_scope.

Definition a := str "a". Definition b := str "b". Definition c := str "c". Definition d := str "d". Definition e := str "e".
(** Two groups: a, c and b, d, e. *)
Definition truth (x : pystr) : nat := if eqb x a then 1 else if eqb x c then 1 else 2.
Definition loop_from (draw : list (pystr * pystr) -> nat -> list (pystr * pystr)) (nb : Z) (m : mgr) :=
  snd (annotation_loop unit unit (fun _ _ _ => tt) (fun _ _ => false) (fun _ => draw) truth (mkOptions None None true true) nb None 11 0
    (fresh_sampler unit unit, m)).

(** C133: a loop that annotates by a fixed ground truth takes at most one iteration for each two components that still have to be joined and one for each pair of data that do not belong together and are not yet known to be different. *)
Theorem C133_rounds_left :
  forall vec D pairwise ltb draws truth o nb vectors s m l cs,
    (forall i, valid_draw (draws i)) -> o_clusters o = None -> o_without_inferred o = true -> (1 <= nb)%Z ->
    reachable m -> satisfies (added_must m) (added_cannot m) truth -> valid_arguments (vec := vec) o m nb None vectors ->
    ask get_list_of_managed_data_IDs m = Ok l -> ask get_connected_components m = Ok cs ->
    exists s' m' rounds,
      annotation_loop vec D pairwise ltb draws truth o nb vectors (S (length l * (length l - 1) / 2)) 0 (s, m)
        = ((s', m'), Ok (rounds, [])) /\
      rounds <= (length cs - nb_of_clusters l truth) + nb_unknown_different m l truth.
Proof. exact C133_rounds_left_proof. Qed.
Print Assumptions C133_rounds_left.

(** Five data in two groups, two annotations made: at most 3 + 4 iterations are left. *)
Definition started : mgr := run [CallAddConstraint a b CANNOT_LINK 1%Q; CallAddConstraint c d CANNOT_LINK 1%Q] (init [a; b; c; d; e]).
Example C133_rounds_left_ex : reachable started /\ satisfies (added_must started) (added_cannot started) truth /\
  ask get_connected_components started = Ok [[a]; [b]; [c]; [d]; [e]] /\ nb_of_clusters [a; b; c; d; e] truth = 2 /\
  nb_unknown_different started [a; b; c; d; e] truth = 4 /\
  loop_from (prefer (differ truth)) 1 started = Ok (7, []) /\ loop_from (prefer (fun p => negb (differ truth p))) 1 started = Ok (3, []).
Proof.
  split; [apply run_reachable|]. split; [|repeat split; vm_compute; reflexivity].
  destruct (add_all_ok [(a, b, CANNOT_LINK); (c, d, CANNOT_LINK)] (init [a; b; c; d; e]) started (init_inv _)) as (_ & _ & A & _); [vm_compute; reflexivity|].
  split; intros x y H; apply A in H; (destruct H as [H|(u & v & H & U)]; [apply init_added in H; destruct H as (_ & -> & H); auto; discriminate H|]);
    destruct H as [H|[H|[]]]; injection H as <- <-; try discriminate; destruct U as [[-> ->]|[-> ->]]; discriminate.
Qed.

(** C133: from an empty manager, n data in k groups take at most n - k iterations and one for each pair of data of different groups; nb pairs at a time, nb times the iterations is at least n - k plus one for each two groups. *)
Theorem C133_range :
  forall vec D pairwise ltb draws truth o nb vectors s ids,
    (forall i, valid_draw (draws i)) -> o_clusters o = None -> o_without_inferred o = true -> (1 <= nb)%Z -> NoDup ids ->
    valid_arguments (vec := vec) o (init ids) nb None vectors ->
    exists s' m' rounds,
      annotation_loop vec D pairwise ltb draws truth o nb vectors (S (length ids * (length ids - 1) / 2)) 0 (s, init ids)
        = ((s', m'), Ok (rounds, [])) /\
      rounds <= (length ids - nb_of_clusters ids truth) + nb_different ids truth /\
      2 * (length ids - nb_of_clusters ids truth) + nb_of_clusters ids truth * (nb_of_clusters ids truth - 1) <= 2 * (Z.to_nat nb * rounds).
Proof. exact C133_range_proof. Qed.
Print Assumptions C133_range.

Example C133_range_ex : nb_different [a; b; c; d; e] truth = 6 /\ loop_from (fun l k => firstn k (rev l)) 2 (init [a; b; c; d; e]) = Ok (4, []) /\
  loop_from (prefer (differ truth)) 1 (init [a; b; c; d; e]) = Ok (9, []) /\
  loop_from (prefer (fun p => negb (differ truth p))) 1 (init [a; b; c; d; e]) = Ok (4, []).
Proof. repeat split; vm_compute; reflexivity. Qed.

(** C133: the upper bound is attained whatever the groups: when the draws favour data of different groups. *)
Theorem C133_most_attained :
  forall vec D pairwise ltb truth without_added s ids, NoDup ids -> exists draw, valid_draw draw /\ exists s' m',
    annotation_loop vec D pairwise ltb (fun _ => draw) truth (mkOptions None None without_added true) 1 None (S (length ids * (length ids - 1) / 2)) 0 (s, init ids)
      = ((s', m'), Ok ((length ids - nb_of_clusters ids truth) + nb_different ids truth, [])).
Proof. exact C133_most_attained_proof. Qed.
Print Assumptions C133_most_attained.

(** C133: so is the lower bound, when they favour data of the same group. *)
Theorem C133_least_attained :
  forall vec D pairwise ltb truth without_added s ids, NoDup ids -> exists draw, valid_draw draw /\ exists s' m' rounds,
    annotation_loop vec D pairwise ltb (fun _ => draw) truth (mkOptions None None without_added true) 1 None (S (length ids * (length ids - 1) / 2)) 0 (s, init ids)
      = ((s', m'), Ok (rounds, [])) /\
    2 * rounds = 2 * (length ids - nb_of_clusters ids truth) + nb_of_clusters ids truth * (nb_of_clusters ids truth - 1).
Proof. exact C133_least_attained_proof. Qed.
Print Assumptions C133_least_attained.
