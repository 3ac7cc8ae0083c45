(** * Spectral clustering when every pair is known *)

From Coq Require Import String List Bool Arith ZArith QArith Lia Permutation.
From Verif Require Import Base Manager Spec Closure ManagerProofs ManagerInv ManagerSem ManagerQueries ManagerThms MinMaxThms
  Sampling SamplingSpec ClusterSpec KMeansSpec ClusterProofs Spectral SpectralSpec SpectralThms BlockSpec.
Import ListNotations.
Open Scope nat_scope.

(*HEADER
(** * Properties of spectral clustering on complete constraints (C114) *)

From Coq Require Import String List Bool Arith ZArith QArith Lia.
From Verif Require Import Base Manager Spec ManagerThms SamplingSpec ClusterSpec KMeansSpec KMeansThms Spectral SpectralSpec BlockSpec SpectralThms BlockThms.
Import ListNotations.
Open Scope nat_scope.

Definition A := str "a". Definition B := str "b". Definition C := str "c". Definition E := str "d".
Definition ex : mgr := run [CallAddConstraint A C MUST_LINK 1%Q; CallAddConstraint A B CANNOT_LINK 1%Q; CallAddConstraint B E MUST_LINK 1%Q] (init [A; B; C; E]).
(** A solver that separates blocks: the position of the first 1 of the row. *)
Fixpoint first_one (l : list Z) : Z := match l with [] => 0 | v :: l' => if Z.eqb v 1 then 0 else 1 + first_one l' end%Z.
Definition solve (n : nat) (M : list (list Z)) : res (list Z) := Ok (map first_one M).
Definition spectral_Z := cluster Z Z (fun X i j => Z.abs (nth i X 0 - nth j X 0))%Z 0%Z 1%Z solve.
HEADER*)

Lemma nth_error_ext' {A} (l1 : list A) : forall l2, length l1 = length l2 -> (forall i, i < length l1 -> nth_error l1 i = nth_error l2 i) -> l1 = l2.
Proof.
  induction l1 as [|x l1 IH]; intros [|y l2] L H; simpl in L; try discriminate; auto.
  assert (X := H 0 ltac:(simpl; lia)). cbn [nth_error] in X. injection X as ->. f_equal. apply IH; [lia|].
  intros i Hi. apply (H (S i)). simpl. lia.
Qed.

(** The matrix of complete constraints. *)
Lemma complete_matrix {D} m (zero one : D) k M : Inv m -> complete m -> affinity_matrix m (ids m) zero one k M ->
  forall i j, i < length (ids m) -> j < length (ids m) ->
    entry M i j = Some (if Nat.eqb (comp_label m (nth i (ids m) [])) (comp_label m (nth j (ids m) [])) then one else zero).
Proof.
  intros I C [_ AF] i j Hi Hj. assert (Ni := nth_error_nth' (ids m) [] Hi). assert (Nj := nth_error_nth' (ids m) [] Hj).
  set (a := nth i (ids m) []) in *. set (b := nth j (ids m) []) in *.
  assert (Ia : In a (ids m)) by (eapply nth_error_In; eauto). assert (Ib : In b (ids m)) by (eapply nth_error_In; eauto).
  destruct (AF i j a b Ni Nj) as (H1 & H2 & _).
  assert (Inf : forall t, infer m a b = t -> inferred m a b t).
  { intros t T. unfold inferred, ask. rewrite run_inferred by auto. assert (both m a b = true) as -> by (apply both_true; auto). cbn [snd]. congruence. }
  destruct (infer_cases m a b) as [E|[E|E]].
  - rewrite H1 by (apply Inf; auto). apply infer_ML in E; auto. apply comp_label_eq in E; auto. rewrite E, Nat.eqb_refl. auto.
  - rewrite H2 by (apply Inf; auto). apply infer_CL in E; auto. destruct (Nat.eqb_spec (comp_label m a) (comp_label m b)) as [Q|Q]; auto.
    exfalso. apply comp_label_eq in Q; auto. apply (rep_excl m a b); auto.
  - exfalso. unfold complete, ask in C. destruct (run_completude m I) as (ok & Run & H). rewrite Run in C. cbn [snd] in C. injection C as ->.
    exact (proj1 H eq_refl a b Ia Ib E).
Qed.

Lemma matrix_ext {D} n (M1 M2 : list (list D)) : square n M1 -> square n M2 ->
  (forall i j, i < n -> j < n -> entry M1 i j = entry M2 i j) -> M1 = M2.
Proof.
  intros [L1 F1] [L2 F2] H. apply nth_error_ext'; [congruence|]. intros i Hi. rewrite L1 in Hi.
  destruct (nth_error M1 i) as [r1|] eqn:E1; [|apply nth_error_None in E1; lia].
  destruct (nth_error M2 i) as [r2|] eqn:E2; [|apply nth_error_None in E2; lia]. f_equal.
  assert (K1 : length r1 = n) by (rewrite Forall_forall in F1; apply F1; eapply nth_error_In; eauto).
  assert (K2 : length r2 = n) by (rewrite Forall_forall in F2; apply F2; eapply nth_error_In; eauto).
  apply nth_error_ext'; [congruence|]. intros j Hj. assert (X := H i j Hi ltac:(lia)). unfold entry in X. rewrite E1, E2 in X. auto.
Qed.

(*PROP C114: when every pair is known, the vectors and the kernel have no influence: any other vectors of the data give the same result. *)
Lemma C114_vectors_do_not_matter_proof :
  forall vec1 vec2 D kernel1 kernel2 (zero one : D) solver m (v1 : dict pystr vec1) (v2 : dict pystr vec2) nb s1 s2,
    reachable m -> complete m -> covers (Some v1) m -> covers (Some v2) m ->
    result (cluster vec1 D kernel1 zero one solver m v1 nb) s1 = result (cluster vec2 D kernel2 zero one solver m v2 nb) s2.
Proof.
  intros vec1 vec2 D kernel1 kernel2 zero one solver m v1 v2 nb s1 s2 R C (w1 & E1 & C1) (w2 & E2 & C2).
  injection E1 as <-. injection E2 as <-. apply reachable_inv in R as I.
  assert (COV1 : forall x, In x (ids m) -> In x (keys v1)) by (intros x X; apply C1, managed_ids; auto).
  assert (COV2 : forall x, In x (ids m) -> In x (keys v2)) by (intros x X; apply C2, managed_ids; auto).
  destruct (spectral_fails kernel1 zero one solver m v1 nb s1 I) as [F1 G1].
  destruct (spectral_fails kernel2 zero one solver m v2 nb s2 I) as [F2 G2].
  destruct (spectral_cases m v1 nb I) as [B|(n & -> & N & Q)].
  - unfold result. rewrite F1, F2 by auto. reflexivity.
  - destruct Q as [E0|(NE & [(x & X & NX)|_])].
    + unfold result. rewrite (proj1 (G1 n eq_refl N) E0), (proj1 (G2 n eq_refl N) E0). reflexivity.
    + exfalso. auto.
    + destruct (spectral_run kernel1 zero one solver m v1 n s1 I NE COV1 N) as (r1 & M1 & _ & A1 & K1).
      destruct (spectral_run kernel2 zero one solver m v2 n s2 I NE COV2 N) as (r2 & M2 & _ & A2 & K2).
      assert (M1 = M2).
      { apply (matrix_ext (length (ids m))); [apply A1|apply A2|]. intros i j Hi Hj.
        rewrite (complete_matrix m zero one _ M1 I C A1 i j Hi Hj), (complete_matrix m zero one _ M2 I C A2 i j Hi Hj). reflexivity. }
      subst M2. unfold result. rewrite K1, K2. destruct (rbind _ _); reflexivity.
Qed.

(*EX
Example C114_vectors_ex : complete ex /\
  result (spectral_Z ex [(A, 0); (B, 1); (C, 10); (E, 12)]%Z (Some 2%Z)) (fresh_spectral Z) = Ok [(A, 0); (B, 1); (C, 0); (E, 1)]%Z /\
  result (spectral_Z ex [(E, 5); (A, 5); (B, 5); (C, 7)]%Z (Some 2%Z)) (fresh_spectral Z) = Ok [(A, 0); (B, 1); (C, 0); (E, 1)]%Z.
Proof. repeat split; vm_compute; reflexivity. Qed.
EX*)

(*PROP C114: and a solver that separates blocks gives the ground truth when it is asked for as many clusters as there are components. *)
Lemma C114_ground_truth_proof :
  forall vec D kernel (zero one : D) solver m (vectors : dict pystr vec) n s,
    reachable m -> complete m -> covers (Some vectors) m -> nb_components m n -> 2 <= n ->
    separates_blocks zero one solver ->
    exists d, result (cluster vec D kernel zero one solver m vectors (Some (Z.of_nat n))) s = Ok d /\
      forall a b, managed m a -> managed m b -> (dget a d = dget b d <-> linked (added_must m) a b).
Proof.
  intros vec D kernel zero one solver m vectors n s R C (w & Ew & Cw) Hn L2 S. injection Ew as <-. apply reachable_inv in R as I.
  apply nb_components_spec in Hn; auto.
  assert (COV : forall x, In x (ids m) -> In x (keys vectors)) by (intros x X; apply Cw, managed_ids; auto).
  assert (NE : ids m <> []) by (apply comps_nonempty; auto; lia).
  destruct (spectral_run kernel zero one solver m vectors (Z.of_nat n) s I NE COV) as (rows & M & _ & AF & E); [lia|].
  set (block := fun i => comp_label m (nth i (ids m) [])).
  assert (MB : map block (seq 0 (length (ids m))) = map (comp_label m) (ids m)).
  { unfold block. rewrite <- (map_map (fun i => nth i (ids m) []) (comp_label m)). f_equal.
    apply nth_error_ext'; [rewrite map_length, seq_length; auto|]. intros i Hi. rewrite map_length, seq_length in Hi.
    rewrite nth_error_map, nth_error_seq. destruct (Nat.ltb_spec i (length (ids m))); [|lia]. simpl. symmetry. apply nth_error_nth'. auto. }
  assert (Cnt : length (nodup Nat.eq_dec (map block (seq 0 (length (ids m))))) = n).
  { rewrite MB. fold (nb_of_clusters (ids m) (comp_label m)). rewrite nb_comp_label by auto. auto. }
  destruct (S (length (ids m)) M block) as (labels & Es & Ll & G); [apply AF|rewrite Cnt; auto|intros; apply (complete_matrix m zero one (kernel rows) M); auto|].
  rewrite Cnt in Es.
  assert (Ln : n <= length (ids m)).
  { rewrite <- Cnt, MB, <- (map_length (comp_label m) (ids m)). apply NoDup_incl_length; [apply NoDup_nodup|]. intros z Hz. apply nodup_In in Hz. auto. }
  rewrite Nat2Z.id, Nat.min_l in E by auto.
  destruct (labels_run m labels I) as (d0 & d & E0 & E1 & _ & _ & GB); [lia|].
  exists d. unfold result. rewrite E, Es. cbn [rbind]. rewrite E0. cbn [rbind]. rewrite E1. split; [reflexivity|].
  intros a b Ma Mb. apply managed_ids in Ma. apply managed_ids in Mb.
  destruct (In_nth_error _ _ Ma) as [i Hi]. destruct (In_nth_error _ _ Mb) as [j Hj].
  rewrite (GB i j a b Hi Hj), G by (apply nth_error_Some; congruence). unfold block.
  rewrite (nth_error_nth _ _ _ Hi), (nth_error_nth _ _ _ Hj), comp_label_eq, added_linked by auto. tauto.
Qed.

(*EX
(** The solver of the example separates blocks. *)
Example C114_solver_ex : separates_blocks 0%Z 1%Z solve.
Proof.
  intros p M block [L F] _ H. exists (map first_one M). split; [reflexivity|]. split; [rewrite map_length; auto|].
  (* the position of the first 1 of a row is the first member of its block *)
  assert (P : forall r k g, length r = k -> (forall j, j < k -> nth_error r j = Some (if g j : bool then 1 else 0)%Z) -> (exists j, j < k /\ g j = true) ->
    exists q, first_one r = Z.of_nat q /\ q < k /\ g q = true /\ forall j, j < q -> g j = false).
  { induction r as [|v r IH]; intros k g Lr Hr (j0 & J0 & G0); simpl in Lr; subst k; [lia|].
    assert (V := Hr 0 ltac:(lia)). cbn [nth_error] in V. injection V as V. destruct (g 0) eqn:Q0; subst v; cbn [first_one Z.eqb Pos.eqb length].
    - exists 0. repeat split; auto; lia.
    - destruct (IH (length r) (fun j => g (S j)) eq_refl) as (q & Eq & Lq & Gq & Mq).
      + intros j Hj. apply (Hr (S j)). lia.
      + destruct j0 as [|j0]; [congruence|]. exists j0. split; [lia|auto].
      + exists (S q). split; [rewrite Eq; lia|]. split; [lia|]. split; auto. intros [|j] Hj; auto. apply Mq. lia. }
  assert (Q : forall i, i < p -> exists q, nth_error (map first_one M) i = Some (Z.of_nat q) /\ q < p /\ block i = block q /\ forall j, j < q -> block i <> block j).
  { intros i Hi. destruct (nth_error M i) as [r|] eqn:Er; [|apply nth_error_None in Er; lia].
    destruct (P r p (fun j => Nat.eqb (block i) (block j))) as (q & E1 & Lq & Gq & Mq).
    - rewrite Forall_forall in F. apply F. eapply nth_error_In; eauto.
    - intros j Hj. assert (X := H i j Hi Hj). unfold entry in X. rewrite Er in X. auto.
    - exists i. split; auto. apply Nat.eqb_refl.
    - exists q. rewrite nth_error_map, Er. simpl. rewrite E1. split; auto. split; auto. split; [apply Nat.eqb_eq; auto|].
      intros j Hj. apply Nat.eqb_neq, Mq. auto. }
  intros i j Hi Hj. destruct (Q i Hi) as (q & Ei & Lq & Bi & Mi). destruct (Q j Hj) as (q' & Ej & Lq' & Bj & Mj). rewrite Ei, Ej. split.
  - intro X. injection X as X. apply Nat2Z.inj in X. congruence.
  - intro X. do 2 f_equal. destruct (Nat.lt_trichotomy q q') as [Y|[Y|Y]]; auto; exfalso.
    + apply (Mj q Y). congruence.
    + apply (Mi q' Y). congruence.
Qed.
EX*)
