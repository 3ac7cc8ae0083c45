(** Generated from PartitionThms.v by tools/gen_props.py: theorem statements,
    each closed by the lemma of the same name proved there. *)

From Coq Require Import String List Bool Arith ZArith QArith Permutation.
From Verif Require Import Base Manager Spec ManagerThms Sampling SamplingSpec PartitionSpec PartitionThms.
Import ListNotations.
Open Scope nat_scope.

Definition a := str "a". Definition b := str "b". Definition c := str "c". Definition d := str "d".
Definition some_mgr : mgr := run [CallAddConstraint a c MUST_LINK 1%Q] (init [a; b; c; d]).
Definition groups : dict pystr Z := [(a, 0); (b, 0); (c, 1); (d, 2)]%Z.
Definition renamed : dict pystr Z := [(d, -5); (c, 7); (str "z", 7); (b, 2); (a, 2)]%Z.
Definition ask_pairs (r : option pystr) (g : dict pystr Z) := result (sample nat nat (fun rows i j => i + j) Nat.ltb (fun l k => firstn k (rev l))
  (mkOptions r None false true) 9 (Some g) None) (fresh_sampler nat nat, some_mgr).

(** C130: the numbers of the clusters do not matter to a sampler, only which data are together: the pairs, their order, and the errors are the same. *)
Theorem C130_numbers :
  forall vec D pairwise ltb draw o nb clustering clustering' vectors s s' m, reachable m -> same_groups m clustering clustering' ->
    result (sample vec D pairwise ltb draw o nb clustering vectors) (s, m) =
    result (sample vec D pairwise ltb draw o nb clustering' vectors) (s', m).
Proof. exact C130_numbers_proof. Qed.
Print Assumptions C130_numbers.

Example C130_numbers_ex : reachable some_mgr /\ same_groups some_mgr (Some groups) (Some renamed) /\
  ask_pairs (Some DIFFERENT_CLUSTERS) renamed = Ok [(c, d); (b, d); (b, c); (a, d)].
Proof.
  split; [apply run_reachable|]. split; [|vm_compute; reflexivity].
  assert (M : forall x, managed some_mgr x -> x = a \/ x = b \/ x = c \/ x = d).
  { intros x (l & E & X). vm_compute in E. injection E as <-. simpl in X. intuition. }
  split.
  - intros x X. apply M in X. destruct X as [->|[->|[->| ->]]]; vm_compute; tauto.
  - intros x y X Y. apply M in X, Y. destruct X as [->|[->|[->| ->]]], Y as [->|[->|[->| ->]]]; vm_compute; split; intro Q; auto; discriminate Q.
Qed.

(** C130: the two restrictions on clusters split the pairs: with a number of pairs that is not reached, what is sampled in the same cluster and what is sampled in different clusters is together exactly what is sampled without this restriction. *)
Theorem C130_split :
  forall vec D pairwise ltb draw o nb clustering vectors s1 s2 s3 m l ls ld, valid_draw draw -> reachable m ->
    result (sample vec D pairwise ltb draw (with_clusters None o) nb clustering vectors) (s1, m) = Ok l ->
    result (sample vec D pairwise ltb draw (with_clusters (Some SAME_CLUSTER) o) nb clustering vectors) (s2, m) = Ok ls ->
    result (sample vec D pairwise ltb draw (with_clusters (Some DIFFERENT_CLUSTERS) o) nb clustering vectors) (s3, m) = Ok ld ->
    (Z.of_nat (length l) < nb)%Z ->
    Permutation (ls ++ ld) l.
Proof. exact C130_split_proof. Qed.
Print Assumptions C130_split.

Example C130_split_ex : reachable some_mgr /\ ask_pairs None groups = Ok [(c, d); (b, d); (b, c); (a, d); (a, b)] /\
  ask_pairs (Some SAME_CLUSTER) groups = Ok [(a, b)] /\ ask_pairs (Some DIFFERENT_CLUSTERS) groups = Ok [(c, d); (b, d); (b, c); (a, d)].
Proof. split; [apply run_reachable|]. vm_compute. auto. Qed.
