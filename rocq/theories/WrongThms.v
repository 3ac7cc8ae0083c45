(** * What a clustering that respects the constraints can be wrong about (C144). *)

From Coq Require Import String List Bool Arith ZArith QArith Lia Permutation.
(*HEADER
From Coq Require Import String List Bool Arith ZArith QArith Permutation Lia.
From Verif Require Import Base Manager Spec ManagerThms ManagerInv ManagerQueries SamplingSpec ClusterSpec ClusterProofs KMeansSpec KMeans Hierarchical HierSpec WrongSpec WrongThms.
Import ListNotations.
Open Scope nat_scope.
Open Scope py_scope.
HEADER*)
From Verif Require Import Base Manager Spec Closure ManagerProofs ManagerInv ManagerQueries ManagerThms
  Sampling SamplingSpec SamplingProofs Rename RenameThms ClusterSpec ClusterProofs KMeans KMeansSpec KMeansThms Hierarchical HierSpec HierThms WrongSpec.
Import ListNotations.
Open Scope nat_scope.
Open Scope py_scope.

Lemma known_cases m a b : reachable m -> managed m a -> managed m b ->
  inferred m a b (Some MUST_LINK) \/ inferred m a b (Some CANNOT_LINK) \/ inferred m a b None.
Proof.
  intros R A B. apply reachable_inv in R. apply managed_ids in A, B. rewrite !inferred_spec by auto.
  apply infer_cases.
Qed.

(*PROP Two clusterings that respect the constraints only disagree about pairs that the constraints do not decide: so a result that respects right constraints
    is only wrong about undecided pairs. *)
Lemma C144_only_undecided_proof :
  forall m d e a b, reachable m -> respects m d -> respects m e -> managed m a -> managed m b -> disagree d e a b -> inferred m a b None.
Proof.
  intros m d e a b R [D1 D2] [E1 E2] A B W. destruct (known_cases m a b R A B) as [Q|[Q|Q]]; auto; exfalso; apply W.
  - split; intros _; [apply E1|apply D1]; auto.
  - split; intro X; [destruct (D2 a b A B Q X)|destruct (E2 a b A B Q X)].
Qed.
(*EX
Definition A := str "a". Definition B := str "b". Definition C := str "c". Definition E := str "d".
Definition told : mgr := run [CallAddConstraint A B MUST_LINK 1%Q; CallAddConstraint B C CANNOT_LINK 1%Q] (init [A; B; C; E]).
Definition found : dict pystr Z := [(A, 0); (B, 0); (C, 1); (E, 0)]%Z.
Definition truth : dict pystr Z := [(A, 3); (B, 3); (C, 5); (E, 5)]%Z.
Example C144_ex : reachable told /\ covers_exactly told found /\ covers_exactly told truth /\ respects told found /\ respects told truth /\
  disagree found truth A E /\ disagree found truth C E /\ nb_wrong [A; B; C; E] found truth = 3 /\ nb_undecided told [A; B; C; E] = 3.
Proof.
  assert (In4 : forall x, managed told x <-> In x [A; B; C; E]) by (intro x; rewrite managed_ids; reflexivity).
  split; [apply run_reachable|]. split; [intro x; rewrite In4; reflexivity|]. split; [intro x; rewrite In4; reflexivity|].
  split; [|split]; [| |vm_compute; intuition discriminate];
  (split; intros a b Ma Mb Q; apply In4 in Ma, Mb; simpl in Ma, Mb; repeat destruct Ma as [<-|Ma]; try tauto; repeat destruct Mb as [<-|Mb]; try tauto;
    vm_compute in Q; try discriminate; vm_compute; congruence).
Qed.
EX*)

(*PROP And about each undecided pair every clustering is wrong for some truth that the constraints allow. *)
Lemma C144_each_undecided_proof :
  forall m d a b, reachable m -> managed m a -> managed m b -> inferred m a b None ->
  exists e, covers_exactly m e /\ respects m e /\ disagree d e a b.
Proof.
  intros m d a b R A B U.
  assert (MK : forall f, satisfies (added_must m) (added_cannot m) f ->
    let e := map (fun x => (x, Z.of_nat (f x))) (ids m) : dict pystr Z in covers_exactly m e /\ respects m e /\ (dget a e = dget b e <-> f a = f b)).
  { intros f S e. assert (Gt : forall x, managed m x -> dget x e = Some (Z.of_nat (f x))).
    { intros x X. apply managed_ids in X. unfold e. clear - X. induction (ids m) as [|y l IH]; [destruct X|]. cbn [map]. unfold dget. cbn.
      destruct (eqb_spec x y) as [->|N]; auto. destruct X as [X|X]; [congruence|]. apply IH; auto. }
    split; [|split].
    - intro x. rewrite managed_ids. unfold e, keys. rewrite map_map. cbn. rewrite map_id. tauto.
    - split; intros x y X Y Q; rewrite !Gt by auto; destruct (C02_inference_is_entailment_proof m R x y X Y) as (C1 & C2 & _).
      + f_equal. f_equal. apply (proj1 C1 Q f S).
      + intro E. apply (proj1 C2 Q f S). injection E. intro E'. apply Nat2Z.inj in E'. auto.
    - rewrite !Gt by auto. split; [intro E; injection E; intro E'; apply Nat2Z.inj in E'; auto|congruence]. }
  destruct (C02_inference_is_entailment_proof m R a b A B) as (_ & _ & C3). apply C3 in U as [(f & Sf & Ef) (g & Sg & Eg)].
  assert (DEC : dget a d = dget b d \/ dget a d <> dget b d).
  { destruct (dget a d) as [p|], (dget b d) as [q|]; try (right; congruence); auto. destruct (Z.eq_dec p q); [left|right]; congruence. }
  destruct DEC as [Q|Q].
  - destruct (MK g Sg) as (C & P & E). eexists. split; [exact C|]. split; [exact P|]. unfold disagree. rewrite E. tauto.
  - destruct (MK f Sf) as (C & P & E). eexists. split; [exact C|]. split; [exact P|]. unfold disagree. rewrite E. tauto.
Qed.
(*EX
Example C144_each_ex : reachable told /\ managed told A /\ managed told E /\ inferred told A E None.
Proof.
  assert (In4 : forall x, managed told x <-> In x [A; B; C; E]) by (intro x; rewrite managed_ids; reflexivity).
  split; [apply run_reachable|]. split; [apply In4; simpl; auto|]. split; [apply In4; simpl; auto|]. vm_compute. reflexivity.
Qed.
EX*)

Lemma filter_le {A} (f g : A -> bool) l : (forall x, In x l -> f x = true -> g x = true) -> length (filter f l) <= length (filter g l).
Proof.
  induction l as [|x l IH]; intro E; auto. cbn. assert (IH' : length (filter f l) <= length (filter g l)) by (apply IH; intros; apply E; [right|]; auto).
  destruct (f x) eqn:F; [rewrite (E x) by (auto; left; auto); cbn; lia|destruct (g x); cbn; lia].
Qed.
Lemma filter_lt {A} (f g : A -> bool) l x : (forall x, In x l -> f x = true -> g x = true) -> In x l -> f x = false -> g x = true -> length (filter f l) < length (filter g l).
Proof.
  induction l as [|y l IH]; intros E J F G; [destruct J|]. cbn. assert (IH' : length (filter f l) <= length (filter g l)) by (apply filter_le; intros; apply E; [right|]; auto).
  destruct J as [->|J]; [rewrite F, G; cbn; lia|]. assert (H : length (filter f l) < length (filter g l)) by (apply IH; auto; intros; apply E; [right|]; auto).
  destruct (f y) eqn:Fy; [rewrite (E y) by (auto; left; auto); cbn; lia|destruct (g y); cbn; lia].
Qed.
Lemma position_pairs_In {A} (l : list A) a b : In (a, b) (position_pairs l) -> In a l /\ In b l.
Proof.
  induction l as [|x l IH]; cbn; [tauto|]. intro J. apply in_app_or in J as [J|J].
  - apply in_map_iff in J as (y & E & J). injection E as -> ->. auto.
  - destruct (IH J). auto.
Qed.
Lemma together_in_spec d a b : together_in d (a, b) = true <-> dget a d = dget b d.
Proof.
  unfold together_in. cbn. destruct (dget a d) as [x|], (dget b d) as [y|]; try (split; congruence).
  rewrite Z.eqb_eq. split; congruence.
Qed.

(*PROP So the number of pairs that a clustering that respects right constraints is wrong about is at most the number of undecided pairs. *)
Lemma C144_bound_proof :
  forall m d e l, reachable m -> respects m d -> respects m e -> ask get_list_of_managed_data_IDs m = Ok l ->
  nb_wrong l d e <= nb_undecided m l.
Proof.
  intros m d e l R D E L. apply filter_le. intros [a b] J W. apply position_pairs_In in J as [Ja Jb]. cbn [fst snd].
  assert (U : inferred m a b None).
  { apply (C144_only_undecided_proof m d e); auto; [exists l; auto|exists l; auto|]. intro Q.
    assert (S : together_in d (a, b) = together_in e (a, b)) by (apply eq_true_iff_eq; rewrite !together_in_spec; auto). rewrite S in W. rewrite eqb_reflx in W. discriminate. }
  unfold inferred in U. rewrite U. auto.
Qed.

(*PROP The bound never grows when more is known, and is smaller as soon as one more pair is decided. *)
Lemma C144_more_known_proof :
  forall m m' l, reachable m -> reachable m' -> ask get_list_of_managed_data_IDs m = Ok l -> ask get_list_of_managed_data_IDs m' = Ok l ->
  (forall a b t, inferred m a b (Some t) -> inferred m' a b (Some t)) ->
  nb_undecided m' l <= nb_undecided m l /\
  (forall a b, In (a, b) (position_pairs l) -> inferred m a b None -> ~ inferred m' a b None -> nb_undecided m' l < nb_undecided m l).
Proof.
  intros m m' l R R' L L' MO.
  assert (H : forall x, In x (position_pairs l) -> match ask (get_inferred_constraint (fst x) (snd x)) m' with Ok None => true | _ => false end = true ->
    match ask (get_inferred_constraint (fst x) (snd x)) m with Ok None => true | _ => false end = true).
  { intros [a b] J Q. apply position_pairs_In in J as [Ja Jb]. cbn [fst snd] in *. unfold inferred in MO.
    destruct (known_cases m a b R) as [U|[U|U]]; [exists l; auto|exists l; auto| | |unfold inferred in U; rewrite U; auto].
    - apply MO in U. unfold inferred in U. rewrite U in Q. discriminate.
    - apply MO in U. unfold inferred in U. rewrite U in Q. discriminate. }
  split; [apply filter_le, H|]. intros a b J U N. apply (filter_lt _ _ _ (a, b) H J); cbn [fst snd].
  - destruct (ask (get_inferred_constraint a b) m') as [[t|]|] eqn:Q; auto. destruct N. exact Q.
  - unfold inferred in U. rewrite U. auto.
Qed.
(*EX
Example C144_more_ex : let m := init [A; B; C; E] in ask get_list_of_managed_data_IDs m = Ok [A; B; C; E] /\ ask get_list_of_managed_data_IDs told = Ok [A; B; C; E] /\
  nb_undecided m [A; B; C; E] = 6 /\ nb_undecided told [A; B; C; E] = 3 /\ In (A, C) (position_pairs [A; B; C; E]) /\ inferred m A C None /\ inferred told A C (Some CANNOT_LINK).
Proof. vm_compute. repeat split; auto. Qed.
EX*)

(*PROP KMeans, with right constraints. *)
Lemma C144_kmeans_proof :
  forall vec D (eqD : EqB D) pairwise ltb dzero dsum mean shuffle set_order model it tol p m vectors nb s d e l,
    valid_set_order set_order -> valid_shuffle shuffle -> reachable m -> make_kmeans D ltb dzero model it tol = Ok p ->
    result (KMeans.cluster vec D pairwise ltb dsum mean shuffle set_order p m vectors nb) s = Ok d ->
    respects m e -> ask get_list_of_managed_data_IDs m = Ok l -> nb_wrong l d e <= nb_undecided m l.
Proof.
  intros vec D eqD pairwise ltb dzero dsum mean shuffle set_order model it tol p m vectors nb s d e l SO SH R MK E RE L.
  apply C144_bound_proof; auto. eapply C34_kmeans_respects_constraints_proof; eauto.
Qed.
(*EX
Definition gapk (X Y : list Z) (i j : nat) : Z := Z.abs (nth i X 0 - nth j Y 0)%Z.
Definition meank (l : list Z) : Z := (fold_right Z.add 0 l / Z.of_nat (length l))%Z.
(** Wrong about three pairs, of the three that are undecided. *)
Example C144_kmeans_ex :
  valid_set_order (nodup Z.eq_dec) /\ valid_shuffle (fun l => l) /\ make_kmeans Z Z.ltb 0%Z (str "COP") 9%Z 1%Z = Ok (mkKParams Z 9 1%Z) /\
  result (KMeans.cluster Z Z gapk Z.ltb (fold_right Z.add 0%Z) meank (fun l => l) (nodup Z.eq_dec) (mkKParams Z 9 1%Z) told [(A, 0); (B, 4); (C, 20); (E, 3)]%Z (Some 2%Z))
    (fresh_kmeans Z) = Ok found /\ nb_wrong [A; B; C; E] found truth = 3.
Proof.
  split; [intro l; split; [apply NoDup_nodup|intro x; apply nodup_In]|]. split; [intro l; apply Permutation_refl|]. split; [reflexivity|]. split; vm_compute; reflexivity.
Qed.
EX*)

(*PROP Hierarchical clustering, with right constraints: the clusters of [cluster] and of later cuts in two or more. *)
Lemma C144_hierarchical_proof :
  forall vec D (eqD : EqB D) pairwise cdistance ltb dsum ddiv inf mean name linkage m vectors nb s s' d k by_ d' e l,
    reachable m -> make_hierarchical name = Ok linkage ->
    Hierarchical.cluster vec D pairwise cdistance ltb dsum ddiv inf mean linkage m vectors nb s = (s', Ok d) ->
    respects m e -> ask get_list_of_managed_data_IDs m = Ok l ->
    nb_wrong l d e <= nb_undecided m l /\
    (result (compute_predicted_clusters vec k by_) s' = Ok d' -> (2 <= k)%Z -> nb_wrong l d' e <= nb_undecided m l).
Proof.
  intros vec D eqD pairwise cdistance ltb dsum ddiv inf mean name linkage m vectors nb s s' d k by_ d' e l R MK E RE L. split.
  - apply C144_bound_proof; auto. eapply C37_hierarchical_respects_proof; eauto. unfold result. rewrite E. reflexivity.
  - intros E' K. apply C144_bound_proof; auto. destruct (C37_hierarchical_cuts_respect_proof vec D eqD pairwise cdistance ltb dsum ddiv inf mean name linkage m vectors nb s s' d k by_ d' R MK E E') as [M C]. split; auto.
Qed.
(*EX
Definition pw (X : list Z) (i j : nat) : Z := Z.abs (nth i X 0 - nth j X 0)%Z.
Definition hline := Hierarchical.cluster Z Z pw (fun x y => Z.abs (x - y)%Z) Z.ltb (fold_right Z.add 0%Z) (fun d n => (d / Z.of_nat n)%Z) 1000000%Z meank.
Example C144_hierarchical_ex :
  let r := hline (str "single") told [(A, 0); (B, 4); (C, 20); (E, 3)]%Z (Some 2%Z) (fresh_hier Z) in
  make_hierarchical (str "single") = Ok (str "single") /\ snd r = Ok found /\
  result (compute_predicted_clusters Z 3 (str "size")) (fst r) = Ok [(A, 0); (B, 0); (C, 1); (E, 2)]%Z /\
  nb_wrong [A; B; C; E] found truth = 3 /\ nb_wrong [A; B; C; E] [(A, 0); (B, 0); (C, 1); (E, 2)]%Z truth = 1.
Proof. vm_compute. repeat split; reflexivity. Qed.
EX*)
