(** Generated from BlockThms.v by tools/gen_props.py: theorem statements,
    each closed by the lemma of the same name proved there. *)

(** * Properties of spectral clustering on complete constraints (C114) *)

From Coq Require Import String List Bool Arith ZArith QArith Lia.
From Verif Require Import Base Manager Spec ManagerThms SamplingSpec ClusterSpec KMeansSpec KMeansThms Spectral SpectralSpec BlockSpec SpectralThms BlockThms.
Import ListNotations.
Open Scope nat_scope.

Definition A := str "a". Definition B := str "b". Definition C := str "c". Definition E := str "d".
Definition ex : mgr := run [CallAddConstraint A C MUST_LINK 1%Q; CallAddConstraint A B CANNOT_LINK 1%Q; CallAddConstraint B E MUST_LINK 1%Q] (init [A; B; C; E]).
(** A solver that separates blocks: the position of the first 1 of the row. *)
Fixpoint first_one (l : list Z) : Z := match l with [] => 0 | v :: l' => if Z.eqb v 1 then 0 else 1 + first_one l' end%Z.
Definition solve (n : nat) (M : list (list Z)) : res (list Z) := Ok (map first_one M).
Definition spectral_Z := cluster Z Z (fun X i j => Z.abs (nth i X 0 - nth j X 0))%Z 0%Z 1%Z solve.

(** C114: when every pair is known, the vectors and the kernel have no influence: any other vectors of the data give the same result. *)
Theorem C114_vectors_do_not_matter :
  forall vec1 vec2 D kernel1 kernel2 (zero one : D) solver m (v1 : dict pystr vec1) (v2 : dict pystr vec2) nb s1 s2,
    reachable m -> complete m -> covers (Some v1) m -> covers (Some v2) m ->
    result (cluster vec1 D kernel1 zero one solver m v1 nb) s1 = result (cluster vec2 D kernel2 zero one solver m v2 nb) s2.
Proof. exact C114_vectors_do_not_matter_proof. Qed.
Print Assumptions C114_vectors_do_not_matter.

Example C114_vectors_ex : complete ex /\
  result (spectral_Z ex [(A, 0); (B, 1); (C, 10); (E, 12)]%Z (Some 2%Z)) (fresh_spectral Z) = Ok [(A, 0); (B, 1); (C, 0); (E, 1)]%Z /\
  result (spectral_Z ex [(E, 5); (A, 5); (B, 5); (C, 7)]%Z (Some 2%Z)) (fresh_spectral Z) = Ok [(A, 0); (B, 1); (C, 0); (E, 1)]%Z.
Proof. repeat split; vm_compute; reflexivity. Qed.

(** C114: and a solver that separates blocks gives the ground truth when it is asked for as many clusters as there are components. *)
Theorem C114_ground_truth :
  forall vec D kernel (zero one : D) solver m (vectors : dict pystr vec) n s,
    reachable m -> complete m -> covers (Some vectors) m -> nb_components m n -> 2 <= n ->
    separates_blocks zero one solver ->
    exists d, result (cluster vec D kernel zero one solver m vectors (Some (Z.of_nat n))) s = Ok d /\
      forall a b, managed m a -> managed m b -> (dget a d = dget b d <-> linked (added_must m) a b).
Proof. exact C114_ground_truth_proof. Qed.
Print Assumptions C114_ground_truth.

(** The solver of the example separates blocks. *)
Example C114_solver_ex : separates_blocks 0%Z 1%Z solve.
Proof.
  intros p M block [L F] _ H. exists (map first_one M). split; [reflexivity|]. split; [rewrite map_length; auto|].
  (* the position of the first 1 of a row is the first member of its block *)
  assert (P : forall r k g, length r = k -> (forall j, j < k -> nth_error r j = Some (if g j : bool then 1 else 0)%Z) -> (exists j, j < k /\ g j = true) ->
    exists q, first_one r = Z.of_nat q /\ q < k /\ g q = true /\ forall j, j < q -> g j = false).
  { induction r as [|v r IH]; intros k g Lr Hr (j0 & J0 & G0); simpl in Lr; subst k; [lia|].
    assert (V := Hr 0 ltac:(lia)). cbn [nth_error] in V. injection V as V. destruct (g 0) eqn:Q0; subst v; cbn [first_one Z.eqb Pos.eqb length].
    - exists 0. repeat split; auto; lia.
    - destruct (IH (length r) (fun j => g (S j)) eq_refl) as (q & Eq & Lq & Gq & Mq).
      + intros j Hj. apply (Hr (S j)). lia.
      + destruct j0 as [|j0]; [congruence|]. exists j0. split; [lia|auto].
      + exists (S q). split; [rewrite Eq; lia|]. split; [lia|]. split; auto. intros [|j] Hj; auto. apply Mq. lia. }
  assert (Q : forall i, i < p -> exists q, nth_error (map first_one M) i = Some (Z.of_nat q) /\ q < p /\ block i = block q /\ forall j, j < q -> block i <> block j).
  { intros i Hi. destruct (nth_error M i) as [r|] eqn:Er; [|apply nth_error_None in Er; lia].
    destruct (P r p (fun j => Nat.eqb (block i) (block j))) as (q & E1 & Lq & Gq & Mq).
    - rewrite Forall_forall in F. apply F. eapply nth_error_In; eauto.
    - intros j Hj. assert (X := H i j Hi Hj). unfold entry in X. rewrite Er in X. auto.
    - exists i. split; auto. apply Nat.eqb_refl.
    - exists q. rewrite nth_error_map, Er. simpl. rewrite E1. split; auto. split; auto. split; [apply Nat.eqb_eq; auto|].
      intros j Hj. apply Nat.eqb_neq, Mq. auto. }
  intros i j Hi Hj. destruct (Q i Hi) as (q & Ei & Lq & Bi & Mi). destruct (Q j Hj) as (q' & Ej & Lq' & Bj & Mj). rewrite Ei, Ej. split.
  - intro X. injection X as X. apply Nat2Z.inj in X. congruence.
  - intro X. do 2 f_equal. destruct (Nat.lt_trichotomy q q') as [Y|[Y|Y]]; auto; exfalso.
    + apply (Mj q Y). congruence.
    + apply (Mi q' Y). congruence.
Qed.
