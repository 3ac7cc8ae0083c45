(** Generated from WrongThms.v by tools/gen_props.py: theorem statements,
    each closed by the lemma of the same name proved there. *)

From Coq Require Import String List Bool Arith ZArith QArith Permutation Lia.
From Verif Require Import Base Manager Spec ManagerThms ManagerInv ManagerQueries SamplingSpec ClusterSpec ClusterProofs KMeansSpec KMeans Hierarchical HierSpec WrongSpec WrongThms.
Import ListNotations.
Open Scope nat_scope.
Open Scope py_scope.

(** Two clusterings that respect the constraints only disagree about pairs that the constraints do not decide: so a result that respects right constraints
    is only wrong about undecided pairs. *)
Theorem C144_only_undecided :
  forall m d e a b, reachable m -> respects m d -> respects m e -> managed m a -> managed m b -> disagree d e a b -> inferred m a b None.
Proof. exact C144_only_undecided_proof. Qed.
Print Assumptions C144_only_undecided.

Definition A := str "a". Definition B := str "b". Definition C := str "c". Definition E := str "d".
Definition told : mgr := run [CallAddConstraint A B MUST_LINK 1%Q; CallAddConstraint B C CANNOT_LINK 1%Q] (init [A; B; C; E]).
Definition found : dict pystr Z := [(A, 0); (B, 0); (C, 1); (E, 0)]%Z.
Definition truth : dict pystr Z := [(A, 3); (B, 3); (C, 5); (E, 5)]%Z.
Example C144_ex : reachable told /\ covers_exactly told found /\ covers_exactly told truth /\ respects told found /\ respects told truth /\
  disagree found truth A E /\ disagree found truth C E /\ nb_wrong [A; B; C; E] found truth = 3 /\ nb_undecided told [A; B; C; E] = 3.
Proof.
  assert (In4 : forall x, managed told x <-> In x [A; B; C; E]) by (intro x; rewrite managed_ids; reflexivity).
  split; [apply run_reachable|]. split; [intro x; rewrite In4; reflexivity|]. split; [intro x; rewrite In4; reflexivity|].
  split; [|split]; [| |vm_compute; intuition discriminate];
  (split; intros a b Ma Mb Q; apply In4 in Ma, Mb; simpl in Ma, Mb; repeat destruct Ma as [<-|Ma]; try tauto; repeat destruct Mb as [<-|Mb]; try tauto;
    vm_compute in Q; try discriminate; vm_compute; congruence).
Qed.

(** And about each undecided pair every clustering is wrong for some truth that the constraints allow. *)
Theorem C144_each_undecided :
  forall m d a b, reachable m -> managed m a -> managed m b -> inferred m a b None ->
  exists e, covers_exactly m e /\ respects m e /\ disagree d e a b.
Proof. exact C144_each_undecided_proof. Qed.
Print Assumptions C144_each_undecided.

Example C144_each_ex : reachable told /\ managed told A /\ managed told E /\ inferred told A E None.
Proof.
  assert (In4 : forall x, managed told x <-> In x [A; B; C; E]) by (intro x; rewrite managed_ids; reflexivity).
  split; [apply run_reachable|]. split; [apply In4; simpl; auto|]. split; [apply In4; simpl; auto|]. vm_compute. reflexivity.
Qed.

(** So the number of pairs that a clustering that respects right constraints is wrong about is at most the number of undecided pairs. *)
Theorem C144_bound :
  forall m d e l, reachable m -> respects m d -> respects m e -> ask get_list_of_managed_data_IDs m = Ok l ->
  nb_wrong l d e <= nb_undecided m l.
Proof. exact C144_bound_proof. Qed.
Print Assumptions C144_bound.

(** The bound never grows when more is known, and is smaller as soon as one more pair is decided. *)
Theorem C144_more_known :
  forall m m' l, reachable m -> reachable m' -> ask get_list_of_managed_data_IDs m = Ok l -> ask get_list_of_managed_data_IDs m' = Ok l ->
  (forall a b t, inferred m a b (Some t) -> inferred m' a b (Some t)) ->
  nb_undecided m' l <= nb_undecided m l /\
  (forall a b, In (a, b) (position_pairs l) -> inferred m a b None -> ~ inferred m' a b None -> nb_undecided m' l < nb_undecided m l).
Proof. exact C144_more_known_proof. Qed.
Print Assumptions C144_more_known.

Example C144_more_ex : let m := init [A; B; C; E] in ask get_list_of_managed_data_IDs m = Ok [A; B; C; E] /\ ask get_list_of_managed_data_IDs told = Ok [A; B; C; E] /\
  nb_undecided m [A; B; C; E] = 6 /\ nb_undecided told [A; B; C; E] = 3 /\ In (A, C) (position_pairs [A; B; C; E]) /\ inferred m A C None /\ inferred told A C (Some CANNOT_LINK).
Proof. vm_compute. repeat split; auto. Qed.

(** KMeans, with right constraints. *)
Theorem C144_kmeans :
  forall vec D (eqD : EqB D) pairwise ltb dzero dsum mean shuffle set_order model it tol p m vectors nb s d e l,
    valid_set_order set_order -> valid_shuffle shuffle -> reachable m -> make_kmeans D ltb dzero model it tol = Ok p ->
    result (KMeans.cluster vec D pairwise ltb dsum mean shuffle set_order p m vectors nb) s = Ok d ->
    respects m e -> ask get_list_of_managed_data_IDs m = Ok l -> nb_wrong l d e <= nb_undecided m l.
Proof. exact C144_kmeans_proof. Qed.
Print Assumptions C144_kmeans.

Definition gapk (X Y : list Z) (i j : nat) : Z := Z.abs (nth i X 0 - nth j Y 0)%Z.
Definition meank (l : list Z) : Z := (fold_right Z.add 0 l / Z.of_nat (length l))%Z.
(** Wrong about three pairs, of the three that are undecided. *)
Example C144_kmeans_ex :
  valid_set_order (nodup Z.eq_dec) /\ valid_shuffle (fun l => l) /\ make_kmeans Z Z.ltb 0%Z (str "COP") 9%Z 1%Z = Ok (mkKParams Z 9 1%Z) /\
  result (KMeans.cluster Z Z gapk Z.ltb (fold_right Z.add 0%Z) meank (fun l => l) (nodup Z.eq_dec) (mkKParams Z 9 1%Z) told [(A, 0); (B, 4); (C, 20); (E, 3)]%Z (Some 2%Z))
    (fresh_kmeans Z) = Ok found /\ nb_wrong [A; B; C; E] found truth = 3.
Proof.
  split; [intro l; split; [apply NoDup_nodup|intro x; apply nodup_In]|]. split; [intro l; apply Permutation_refl|]. split; [reflexivity|]. split; vm_compute; reflexivity.
Qed.

(** Hierarchical clustering, with right constraints: the clusters of [cluster] and of later cuts in two or more. *)
Theorem C144_hierarchical :
  forall vec D (eqD : EqB D) pairwise cdistance ltb dsum ddiv inf mean name linkage m vectors nb s s' d k by_ d' e l,
    reachable m -> make_hierarchical name = Ok linkage ->
    Hierarchical.cluster vec D pairwise cdistance ltb dsum ddiv inf mean linkage m vectors nb s = (s', Ok d) ->
    respects m e -> ask get_list_of_managed_data_IDs m = Ok l ->
    nb_wrong l d e <= nb_undecided m l /\
    (result (compute_predicted_clusters vec k by_) s' = Ok d' -> (2 <= k)%Z -> nb_wrong l d' e <= nb_undecided m l).
Proof. exact C144_hierarchical_proof. Qed.
Print Assumptions C144_hierarchical.

Definition pw (X : list Z) (i j : nat) : Z := Z.abs (nth i X 0 - nth j X 0)%Z.
Definition hline := Hierarchical.cluster Z Z pw (fun x y => Z.abs (x - y)%Z) Z.ltb (fold_right Z.add 0%Z) (fun d n => (d / Z.of_nat n)%Z) 1000000%Z meank.
Example C144_hierarchical_ex :
  let r := hline (str "single") told [(A, 0); (B, 4); (C, 20); (E, 3)]%Z (Some 2%Z) (fresh_hier Z) in
  make_hierarchical (str "single") = Ok (str "single") /\ snd r = Ok found /\
  result (compute_predicted_clusters Z 3 (str "size")) (fst r) = Ok [(A, 0); (B, 0); (C, 1); (E, 2)]%Z /\
  nb_wrong [A; B; C; E] found truth = 3 /\ nb_wrong [A; B; C; E] [(A, 0); (B, 0); (C, 1); (E, 2)]%Z truth = 1.
Proof. vm_compute. repeat split; reflexivity. Qed.
