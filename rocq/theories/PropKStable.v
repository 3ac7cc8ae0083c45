(** Generated from KStableThms.v by tools/gen_props.py: theorem statements,
    each closed by the lemma of the same name proved there. *)

From Coq Require Import String List Bool Arith ZArith QArith Permutation Lia.
From Verif Require Import Base Manager Spec ManagerThms ManagerInv ManagerQueries SamplingSpec ClusterSpec ClusterProofs KMeansSpec KMeans HierSpec KStableThms.
Import ListNotations.
Open Scope nat_scope.
Open Scope py_scope.

(** When the clusters after every round (found by calls with a smaller max_iteration) meet the constraints of a second manager of the same data that
    knows all that the first knows, the call with the second manager ends with the same clusters and attributes. *)
Theorem C143_every_round_partial :
  forall vec D (eqD : EqB D) pairwise ltb dzero dsum mean shuffle set_order model it tol p m m' vectors nb s d,
    valid_set_order set_order -> valid_shuffle shuffle -> strict_total_order ltb -> reachable m -> reachable m' ->
    ask get_list_of_managed_data_IDs m' = ask get_list_of_managed_data_IDs m ->
    (forall a b c, inferred m a b (Some c) -> inferred m' a b (Some c)) ->
    make_kmeans D ltb dzero model it tol = Ok p ->
    result (cluster vec D pairwise ltb dsum mean shuffle set_order p m vectors nb) s = Ok d ->
    (forall j q e, (1 <= j <= it)%Z -> make_kmeans D ltb dzero model j tol = Ok q ->
       result (cluster vec D pairwise ltb dsum mean shuffle set_order q m vectors nb) s = Ok e -> respects m' e) ->
    cluster vec D pairwise ltb dsum mean shuffle set_order p m' vectors nb s = cluster vec D pairwise ltb dsum mean shuffle set_order p m vectors nb s.
Proof. exact C143_every_round_partial_proof. Qed.
Print Assumptions C143_every_round_partial.

Definition gapk (X Y : list Z) (i j : nat) : Z := Z.abs (nth i X 0 - nth j Y 0)%Z.
Definition meank (l : list Z) : Z := (fold_right Z.add 0 l / Z.of_nat (length l))%Z.
Definition kline p := cluster Z Z gapk Z.ltb (fold_right Z.add 0%Z) meank (fun l => l) (nodup Z.eq_dec) p.
Definition A := str "a". Definition B := str "b". Definition C := str "c". Definition E := str "d". Definition F := str "e".
Definition none : mgr := init [A; B; C; E; F].
Definition some : mgr := run [CallAddConstraint C F MUST_LINK 1%Q; CallAddConstraint E C CANNOT_LINK 1%Q] none.
Definition points : dict pystr Z := [(A, 2880); (B, 2340); (C, 3420); (E, 120); (F, 3300)]%Z.
(** The clusters change from round to round, and meet the constraints of [some] after each. *)
Example C143_ex :
  valid_set_order (nodup Z.eq_dec) /\ valid_shuffle (fun l => l) /\ strict_total_order Z.ltb /\ reachable none /\ reachable some /\
  ask get_list_of_managed_data_IDs some = ask get_list_of_managed_data_IDs none /\
  make_kmeans Z Z.ltb 0%Z (str "COP") 3%Z 1%Z = Ok (mkKParams Z 3 1%Z) /\
  result (kline (mkKParams Z 1 1%Z) none points (Some 2%Z)) (fresh_kmeans Z) = Ok [(A, 0); (B, 1); (C, 0); (E, 1); (F, 0)]%Z /\
  result (kline (mkKParams Z 3 1%Z) none points (Some 2%Z)) (fresh_kmeans Z) = Ok [(A, 0); (B, 0); (C, 0); (E, 1); (F, 0)]%Z /\
  (forall a b c, inferred none a b (Some c) -> inferred some a b (Some c)) /\
  (forall j q e, (1 <= j <= 3)%Z -> make_kmeans Z Z.ltb 0%Z (str "COP") j 1%Z = Ok q ->
     result (kline q none points (Some 2%Z)) (fresh_kmeans Z) = Ok e -> respects some e).
Proof.
  assert (In5 : forall x, managed some x <-> In x [A; B; C; E; F]) by (intro x; rewrite managed_ids; reflexivity).
  split; [intro l; split; [apply NoDup_nodup|intro x; apply nodup_In]|]. split; [intro l; apply Permutation_refl|].
  split; [split; [split; [|split]|]; intros; rewrite ?Z.ltb_lt, ?Z.ltb_ge, ?Z.ltb_irrefl in *; try lia; auto|].
  split; [exact (run_reachable _ [])|]. split; [apply (run_reachable [A; B; C; E; F] [CallAddConstraint C F MUST_LINK 1%Q; CallAddConstraint E C CANNOT_LINK 1%Q])|].
  split; [vm_compute; reflexivity|]. split; [reflexivity|]. split; [vm_compute; reflexivity|]. split; [vm_compute; reflexivity|]. split.
  - intros a b c Q. assert (J : In a [A; B; C; E; F] /\ In b [A; B; C; E; F]).
    { destruct (inferred_inI none (reachable_inv _ (run_reachable [A; B; C; E; F] [])) a b _ Q). auto. }
    destruct J as [Ja Jb]. simpl in Ja, Jb. repeat destruct Ja as [<-|Ja]; try tauto; repeat destruct Jb as [<-|Jb]; try tauto;
      vm_compute in Q; try discriminate; injection Q as <-; vm_compute; reflexivity.
  - assert (GO : forall e, e = [(A, 0); (B, 1); (C, 0); (E, 1); (F, 0)]%Z \/ e = [(A, 0); (B, 0); (C, 0); (E, 1); (F, 0)]%Z -> respects some e).
    { intros e Ee. split; intros a b Ma Mb Q; apply In5 in Ma, Mb; simpl in Ma, Mb; repeat destruct Ma as [<-|Ma]; try tauto; repeat destruct Mb as [<-|Mb]; try tauto;
      vm_compute in Q; try discriminate; destruct Ee as [->| ->]; vm_compute; congruence. }
    intros j q e Lj MK R. apply GO. assert (J : j = 1%Z \/ j = 2%Z \/ j = 3%Z) by lia.
    destruct J as [->|[->| ->]]; injection MK as <-; vm_compute in R; injection R as <-; auto.
Qed.

(** It is not enough that the clusters found in the end meet a new constraint, of either type: one that they meet can change them, so a right answer can make a
    right result wrong. *)
Theorem C143_end_refuted :
  forall t, In t [MUST_LINK; CANNOT_LINK] ->
  exists pairwise dsum mean shuffle set_order p names a b m' vectors k d d',
    valid_set_order set_order /\ valid_shuffle shuffle /\ strict_total_order Z.ltb /\ make_kmeans Z Z.ltb 0%Z (str "COP") 20%Z 1%Z = Ok p /\
    result (add_constraint a b t 1%Q) (init names) = Ok true /\ m' = fst (add_constraint a b t 1%Q (init names)) /\
    result (cluster Z Z pairwise Z.ltb dsum mean shuffle set_order p (init names) vectors (Some k)) (fresh_kmeans Z) = Ok d /\
    respects m' d /\
    result (cluster Z Z pairwise Z.ltb dsum mean shuffle set_order p m' vectors (Some k)) (fresh_kmeans Z) = Ok d' /\
    ~ same_partition d d'.
Proof. exact C143_end_refuted_proof. Qed.
Print Assumptions C143_end_refuted.
