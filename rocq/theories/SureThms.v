(** * When the clusters are sure (C149). *)

From Coq Require Import String List Bool Arith ZArith QArith Lia.
(*HEADER
From Coq Require Import String List Bool Arith ZArith QArith Lia.
From Verif Require Import Base Manager Spec ManagerThms ManagerInv ManagerQueries ClusterSpec EffortSpec WrongSpec SureSpec SureThms.
Import ListNotations.
Open Scope nat_scope.
HEADER*)
From Verif Require Import Base Manager Spec Closure ManagerProofs ManagerInv ManagerQueries ManagerSem ManagerThms MinMaxThms EffortSpec EffortThms ClusterSpec HierSpec WrongSpec WrongThms TeachSpec TeachThms KnowThms SureSpec.
Import ListNotations.
Open Scope nat_scope.

Lemma same_classes {A X Y} (dx : forall x y : X, {x = y} + {x <> y}) (dy : forall x y : Y, {x = y} + {x <> y}) (f : A -> X) (g : A -> Y) l :
  (forall x y, In x l -> In y l -> f x = f y <-> g x = g y) -> length (nodup dx (map f l)) = length (nodup dy (map g l)).
Proof.
  induction l as [|x l IH]; intro H; auto. cbn [map nodup].
  assert (E : In (f x) (map f l) <-> In (g x) (map g l)).
  { rewrite !in_map_iff. split; intros (y & E & J); exists y; (split; [|auto]); apply (H y x); auto; [right; auto|left; auto|right; auto|left; auto]. }
  assert (IH' := IH (fun a b Ja Jb => H a b (or_intror Ja) (or_intror Jb))).
  destruct (in_dec dx (f x) (map f l)) as [J|J], (in_dec dy (g x) (map g l)) as [K|K]; try tauto. cbn. auto.
Qed.

Lemma decided_or_not m : reachable m -> (forall a b, managed m a -> managed m b -> inferred m a b (Some MUST_LINK) \/ inferred m a b (Some CANNOT_LINK)) \/
  exists a b, managed m a /\ managed m b /\ inferred m a b None.
Proof.
  intro R. assert (G : forall s, incl s (list_prod (ids m) (ids m)) -> (forall a b, In (a, b) s -> inferred m a b (Some MUST_LINK) \/ inferred m a b (Some CANNOT_LINK)) \/
     exists a b, managed m a /\ managed m b /\ inferred m a b None).
  { induction s as [|[a b] s IH]; intro I; [left; intros ? ? []|]. destruct IH as [IH|IH]; auto; [intros p J; apply I; right; auto|].
    assert (J := I (a, b) (or_introl eq_refl)). apply in_prod_iff in J as [Ja Jb]. apply managed_ids in Ja, Jb.
    destruct (known_cases m a b R Ja Jb) as [Q|[Q|Q]]; [left|left|right; eauto]; intros p q [J|J]; auto; injection J as <- <-; auto. }
  destruct (G _ (incl_refl _)) as [H|H]; auto. left. intros a b Ma Mb. apply H. apply in_prod_iff. split; apply managed_ids; auto.
Qed.
Lemma decided_complete m : reachable m -> (forall a b, managed m a -> managed m b -> inferred m a b (Some MUST_LINK) \/ inferred m a b (Some CANNOT_LINK)) <-> complete m.
Proof.
  intro R. destruct (C14_completude_exact_proof m R) as (r & E & H). unfold complete. rewrite E. rewrite <- H. split; intro K; congruence.
Qed.

(*PROP **C149.** Some clusters respect the constraints. They are sure - no true clusters that the constraints allow are different - exactly when the constraints are complete. *)
Lemma C149_sure_proof :
  forall m d, reachable m -> respects m d -> (sure m d <-> complete m).
Proof.
  intros m d R [D1 D2]. rewrite <- decided_complete by auto. split.
  - intro S. destruct (decided_or_not m R) as [H|(a & b & Ma & Mb & U)]; auto. exfalso.
    destruct (C144_each_undecided_proof m d a b R Ma Mb U) as (e & CO & RE & W). apply W. apply S; auto.
  - intros H e _ [E1 E2] a b Ma Mb. destruct (H a b Ma Mb) as [Q|Q].
    + split; intros _; auto.
    + assert (N1 := D2 a b Ma Mb Q). assert (N2 := E2 a b Ma Mb Q). tauto.
Qed.
(*EX
Open Scope string_scope.
Definition a149 : pystr := str "a".  Definition b149 : pystr := str "b".  Definition c149 : pystr := str "c".
Close Scope string_scope.
Definition three := [a149; b149; c149].
Definition two_clusters : dict pystr Z := [(a149, 0%Z); (b149, 0%Z); (c149, 1%Z)].
Definition known149 := run [CallAddConstraint a149 b149 MUST_LINK 1%Q; CallAddConstraint b149 c149 CANNOT_LINK 1%Q] (init three).
Definition known_less := run [CallAddConstraint a149 b149 MUST_LINK 1%Q] (init three).
Lemma three_only m : ids m = three -> forall x, managed m x -> x = a149 \/ x = b149 \/ x = c149.
Proof. intros E x M. apply managed_ids in M. rewrite E in M. destruct M as [M|[M|[M|[]]]]; auto. Qed.
Lemma respects149 : respects known149 two_clusters /\ respects known_less two_clusters.
Proof.
  assert (K1 : forall x, managed known149 x -> x = a149 \/ x = b149 \/ x = c149) by (apply three_only; vm_compute; auto).
  assert (K2 : forall x, managed known_less x -> x = a149 \/ x = b149 \/ x = c149) by (apply three_only; vm_compute; auto).
  split; split; intros a b Ma Mb; (apply K1 in Ma, Mb || apply K2 in Ma, Mb); destruct Ma as [-> |[-> | ->]], Mb as [-> |[-> | ->]]; vm_compute; congruence.
Qed.
Example C149_sure_ex : reachable known149 /\ respects known149 two_clusters /\ sure known149 two_clusters /\ ~ sure known_less two_clusters.
Proof.
  assert (R : reachable known149) by apply run_reachable. assert (R' : reachable known_less) by apply run_reachable. destruct respects149 as [D D'].
  repeat split; auto; try apply D.
  - apply (proj2 (C149_sure_proof _ _ R D) eq_refl e H H0 a b H1 H2).
  - apply (proj2 (C149_sure_proof _ _ R D) eq_refl e H H0 a b H1 H2).
  - intro S. apply (C149_sure_proof _ _ R' D') in S. vm_compute in S. discriminate.
Qed.
EX*)

(*PROP So being sure of [c] clusters of [n] data takes at least [(n - c) + c * (c - 1) / 2] constraints. *)
Lemma C149_needed_proof :
  forall m d l, reachable m -> respects m d -> sure m d -> ask get_list_of_managed_data_IDs m = Ok l ->
  let n := length l in let c := nb_clusters_among l d in 2 * (n - c) + c * (c - 1) <= 2 * (effort m MUST_LINK + effort m CANNOT_LINK).
Proof.
  intros m d l R D S E n c. apply (C149_sure_proof m d R D) in S as C. assert (I := reachable_inv _ R).
  assert (El : l = ids m) by (unfold ask in E; rewrite run_managed in E; cbn in E; congruence).
  assert (Ec : ask get_connected_components m = Ok (comps m)) by (unfold ask; rewrite run_components; auto).
  assert (N : c = length (comps m)).
  { rewrite <- nb_comp_label by auto. unfold c, nb_clusters_among, nb_of_clusters. rewrite El. apply same_classes. intros x y Jx Jy. rewrite comp_label_eq by auto. rewrite <- infer_ML, <- inferred_spec by auto.
    apply managed_ids in Jx, Jy. destruct D as [D1 D2]. split; [|apply D1; auto]. intro Q. destruct (proj2 (decided_complete m R) C x y Jx Jy) as [K|K]; auto. exfalso. exact (D2 x y Jx Jy K Q). }
  unfold n. rewrite N. apply C100_complete_effort_proof; auto.
Qed.
(*EX
Example C149_needed_ex : nb_clusters_among three two_clusters = 2 /\ 2 * (3 - 2) + 2 * (2 - 1) = 2 * (effort known149 MUST_LINK + effort known149 CANNOT_LINK).
Proof. vm_compute. auto. Qed.
EX*)

(*PROP With fewer, some true clusters that the constraints allow are different, whatever the [c] clusters and the constraints. *)
Lemma C149_not_sure_proof :
  forall m d l, reachable m -> respects m d -> ask get_list_of_managed_data_IDs m = Ok l ->
  let n := length l in let c := nb_clusters_among l d in 2 * (effort m MUST_LINK + effort m CANNOT_LINK) < 2 * (n - c) + c * (c - 1) ->
  exists e a b, covers_exactly m e /\ respects m e /\ managed m a /\ managed m b /\ disagree d e a b.
Proof.
  intros m d l R D E n c L. destruct (decided_or_not m R) as [H|(a & b & Ma & Mb & U)].
  - exfalso. apply decided_complete in H; auto. apply (C149_sure_proof m d R D) in H. assert (K := C149_needed_proof m d l R D H E). cbv zeta in K. fold n c in K. lia.
  - destruct (C144_each_undecided_proof m d a b R Ma Mb U) as (e & CO & RE & W). exists e, a, b. auto.
Qed.
(*EX
Example C149_not_sure_ex : reachable known_less /\ respects known_less two_clusters /\ ask get_list_of_managed_data_IDs known_less = Ok three /\
  2 * (effort known_less MUST_LINK + effort known_less CANNOT_LINK) < 2 * (length three - nb_clusters_among three two_clusters) + nb_clusters_among three two_clusters * (nb_clusters_among three two_clusters - 1).
Proof. split; [apply run_reachable|]. split; [apply respects149|]. vm_compute. split; auto. Qed.
EX*)

Definition code (o : option Z) : nat := match o with None => 0 | Some z => S (Z.to_nat (if Z.leb 0 z then 2 * z else - (2 * z) - 1)) end.
Lemma code_inj o o' : code o = code o' -> o = o'.
Proof.
  destruct o as [x|], o' as [y|]; unfold code; auto; try discriminate. intro E. apply eq_add_S in E.
  f_equal. destruct (Z.leb_spec 0 x), (Z.leb_spec 0 y); lia.
Qed.

(*PROP And for every clusters that many answers are enough, if they are right. *)
Lemma C149_enough_proof :
  forall l d, NoDup l -> let n := length l in let c := nb_clusters_among l d in
  exists answers m, 2 * length answers = 2 * (n - c) + c * (c - 1) /\ add_all answers (init l) = (m, Ok tt) /\ respects m d /\ sure m d.
Proof.
  intros l d N n c. destruct (C100_effort_attained_proof l (fun x => code (dget x d)) N) as (cs & m & L & A & C & H). exists cs, m.
  assert (Ec : nb_of_clusters l (fun x => code (dget x d)) = c).
  { unfold c, nb_clusters_among, nb_of_clusters. apply same_classes. intros x y _ _. split; [apply code_inj|congruence]. }
  rewrite Ec in L. split; auto. split; auto.
  assert (R : reachable m).
  { revert A. assert (R0 := reach_init l). revert R0. generalize (init l). clear. induction cs as [|[[a b] t] cs IH]; intros m0 R0; unfold add_all; simpl; unfold bind, ret; [intro E; inversion E; subst; auto|].
    assert (R' := run_reachable_from [CallAddConstraint a b t 1%Q] m0 R0). cbn [run fold_left exec] in R'. unfold bind in R'.
    destruct (add_constraint a b t 1%Q m0) as [m2 [v|e]]; [|discriminate]. apply IH. exact R'. }
  assert (K : ids m = l).
  { destruct (add_all_ok _ _ _ (init_inv l) A) as (_ & K & _). rewrite K. apply (eq_trans (init_ids l)). apply dedup_id; auto. }
  assert (D : respects m d).
  { split; intros a b Ma Mb Q; apply managed_ids in Ma, Mb; rewrite K in Ma, Mb.
    - apply code_inj. apply H; auto.
    - intro E. assert (Q' : inferred m a b (Some MUST_LINK)) by (apply H; auto; congruence). unfold inferred in *. rewrite Q in Q'. discriminate. }
  split; auto. apply C149_sure_proof; auto.
Qed.
(*EX
Example C149_enough_ex : NoDup three /\ add_all [((a149, b149), MUST_LINK); ((b149, c149), CANNOT_LINK)] (init three) = (known149, Ok tt).
Proof. split; [|vm_compute; auto]. repeat constructor; cbn; intuition discriminate. Qed.
EX*)
