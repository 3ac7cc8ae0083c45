(** Generated from RankThms.v by tools/gen_props.py: theorem statements,
    each closed by the lemma of the same name proved there. *)

From Coq Require Import String List Bool Arith ZArith QArith.
From Verif Require Import Base Manager Spec ManagerInv ManagerQueries ManagerSem ManagerThms Sampling SamplingSpec RankSpec RankThms.
Import ListNotations.
Open Scope nat_scope.

(** Four data on a line; the distances are 4 for a-b, 9 for a-c, 10 for a-d, 5 for b-c, 6 for b-d, 1 for c-d. *)
Definition four : list pystr := [str "a"; str "b"; str "c"; str "d"].
Definition on_line : dict pystr Z := [(str "a", 0); (str "b", 4); (str "c", 9); (str "d", 10)]%Z.
Definition line_pw (X : list Z) (i j : nat) : Z := Z.abs (nth i X 0 - nth j X 0)%Z.
Definition nearest : options := mkOptions None (Some CLOSEST) true true.
Definition ask_for (o : options) (nb : Z) (m : mgr) :=
  result (sample Z Z line_pw Z.ltb (fun l k => firstn k l) o nb None (Some on_line)) (fresh_sampler Z Z, m).
(** a-b and b-c are known, and so is a-c. *)
Definition known : mgr := run [CallAddConstraint (str "a") (str "b") MUST_LINK 1%Q; CallAddConstraint (str "b") (str "c") CANNOT_LINK 1%Q] (init four).

(** C126: the IDs, their vectors and the clusters give one ranking of the pairs; every sample, whatever is known, is the beginning of what
    is still eligible in that ranking. *)
Theorem C126_one_ranking :
  forall vec D pairwise ltb draw o nb all clustering vectors s s0 m m0,
    strict_weak_order ltb -> by_distance o -> reachable m -> reachable m0 -> same_ids m m0 -> (0 < nb)%Z -> enough m all ->
    match result (sample vec D pairwise ltb draw (knowing_nothing o) all clustering vectors) (s0, m0) with
    | Raise e => result (sample vec D pairwise ltb draw o nb clustering vectors) (s, m) = Raise e
    | Ok ranking => exists l, those (eligible o m clustering) ranking l /\
        result (sample vec D pairwise ltb draw o nb clustering vectors) (s, m) = Ok (firstn (Z.to_nat nb) l)
    end.
Proof. exact C126_one_ranking_proof. Qed.
Print Assumptions C126_one_ranking.

(** Of the ranking c-d, a-b, b-c, b-d, a-c, a-d, three pairs are still eligible; two are asked for. *)
Example C126_one_ranking_ex :
  reachable known /\ reachable (init four) /\ same_ids known (init four) /\ enough known 16 /\
  ask_for (knowing_nothing nearest) 16 (init four) = Ok [(str "c", str "d"); (str "a", str "b"); (str "b", str "c"); (str "b", str "d"); (str "a", str "c"); (str "a", str "d")] /\
  ask_for nearest 2 known = Ok [(str "c", str "d"); (str "b", str "d")].
Proof.
  repeat split; try apply run_reachable; try apply (run_reachable _ []); try (vm_compute; reflexivity).
  intros l E. vm_compute in E. injection E as <-. vm_compute. discriminate.
Qed.

(** C126: a smaller sample is the beginning of a larger one. *)
Theorem C126_smaller_sample :
  forall vec D pairwise ltb draw o nb nb' clustering vectors s s' m l',
    strict_weak_order ltb -> by_distance o -> reachable m -> (0 <= nb <= nb')%Z ->
    result (sample vec D pairwise ltb draw o nb' clustering vectors) (s', m) = Ok l' ->
    result (sample vec D pairwise ltb draw o nb clustering vectors) (s, m) = Ok (firstn (Z.to_nat nb) l').
Proof. exact C126_smaller_sample_proof. Qed.
Print Assumptions C126_smaller_sample.

Example C126_smaller_sample_ex : ask_for nearest 3 known = Ok [(str "c", str "d"); (str "b", str "d"); (str "a", str "d")] /\
  ask_for nearest 1 known = Ok [(str "c", str "d")].
Proof. vm_compute. auto. Qed.

(** C126: while more and more is known about the same IDs, a proposed pair is proposed again as long as it is eligible. *)
Theorem C126_proposed_again :
  forall vec D pairwise ltb draw o nb clustering vectors s s' m m' l p,
    strict_weak_order ltb -> by_distance o -> reachable m -> reachable m' -> same_ids m m' ->
    (forall q, eligible o m' clustering q -> eligible o m clustering q) ->
    result (sample vec D pairwise ltb draw o nb clustering vectors) (s, m) = Ok l -> In p l -> eligible o m' clustering p ->
    exists l', result (sample vec D pairwise ltb draw o nb clustering vectors) (s', m') = Ok l' /\ In p l'.
Proof. exact C126_proposed_again_proof. Qed.
Print Assumptions C126_proposed_again.

(** b-d is among the four pairs proposed at first, and still when a-b and b-c are known. *)
Example C126_proposed_again_ex : (forall q, eligible nearest known None q -> eligible nearest (init four) None q) /\
  ask_for nearest 4 (init four) = Ok [(str "c", str "d"); (str "a", str "b"); (str "b", str "c"); (str "b", str "d")] /\
  ask_for nearest 4 known = Ok [(str "c", str "d"); (str "b", str "d"); (str "a", str "d")].
Proof.
  split; [|vm_compute; auto]. intros [x y] (X & Y & L & _). cbn [eligible nearest o_clusters o_without_added o_without_inferred].
  assert (In4 : forall x, managed known x <-> In x four) by (intro; rewrite managed_ids; reflexivity).
  assert (In4' : forall x, managed (init four) x <-> In x four) by (intro; rewrite managed_ids; reflexivity).
  apply In4 in X, Y. repeat split; try (apply In4'; assumption); auto; try discriminate.
  - intros _ (t & v & T). revert T. simpl in X, Y. repeat destruct X as [<-|X]; try tauto; repeat destruct Y as [<-|Y]; try tauto; vm_compute; discriminate.
  - intros _. simpl in X, Y. repeat destruct X as [<-|X]; try tauto; repeat destruct Y as [<-|Y]; try tauto; try discriminate L; vm_compute; reflexivity.
Qed.

(** C126: sampling in portions proposes the pairs that one larger sample would, when each portion makes its own pairs known and no others. *)
Theorem C126_portions :
  forall vec D pairwise ltb draw o nb nb' clustering vectors s s' m m' l,
    strict_weak_order ltb -> by_distance o -> reachable m -> reachable m' -> same_ids m m' -> (0 < nb)%Z -> (0 <= nb')%Z ->
    result (sample vec D pairwise ltb draw o nb clustering vectors) (s, m) = Ok l ->
    (forall q, eligible o m' clustering q <-> eligible o m clustering q /\ ~ In q l) ->
    exists l', result (sample vec D pairwise ltb draw o nb' clustering vectors) (s', m') = Ok l' /\
               result (sample vec D pairwise ltb draw o (nb + nb') clustering vectors) (s, m) = Ok (l ++ l').
Proof. exact C126_portions_proof. Qed.
Print Assumptions C126_portions.

(** Two pairs are proposed and annotated, then two more; pairs that follow from the annotations are still asked. *)
Definition not_added : options := mkOptions None (Some CLOSEST) true false.
Definition annotated : mgr := run [CallAddConstraint (str "c") (str "d") MUST_LINK 1%Q; CallAddConstraint (str "a") (str "b") CANNOT_LINK 1%Q] (init four).
Example C126_portions_ex :
  ask_for not_added 2 (init four) = Ok [(str "c", str "d"); (str "a", str "b")] /\
  (forall q, eligible not_added annotated None q <-> eligible not_added (init four) None q /\ ~ In q [(str "c", str "d"); (str "a", str "b")]) /\
  ask_for not_added 2 annotated = Ok [(str "b", str "c"); (str "b", str "d")] /\
  ask_for not_added 4 (init four) = Ok [(str "c", str "d"); (str "a", str "b"); (str "b", str "c"); (str "b", str "d")].
Proof.
  split; [vm_compute; auto|]. split; [|vm_compute; auto].
  assert (In4 : forall x, managed annotated x <-> In x four) by (intro; rewrite managed_ids; reflexivity).
  assert (In4' : forall x, managed (init four) x <-> In x four) by (intro; rewrite managed_ids; reflexivity).
  assert (AD : forall m x y, (exists t, added m t x y) <-> match ask (get_added_constraint x y) m with Ok (Some _) => True | _ => False end).
  { intros m x y. split.
    - intros (t & v & T). rewrite T. exact I.
    - destruct (ask (get_added_constraint x y) m) as [[[t v]|]|] eqn:E; try tauto. intros _. exists t, v. exact E. }
  intros [x y]. cbn [eligible not_added o_clusters o_without_added o_without_inferred]. rewrite !AD, !In4, !In4'.
  split.
  - intros (X & Y & L & _ & _ & A & _). specialize (A eq_refl). split; [repeat split; auto; try discriminate|];
    simpl in X, Y; repeat destruct X as [<-|X]; try tauto; repeat destruct Y as [<-|Y]; try tauto; try discriminate L;
    vm_compute in A |- *; intuition congruence.
  - intros ((X & Y & L & _ & _ & A & _) & N). repeat split; auto; try discriminate. intros _. clear A.
    simpl in X, Y; repeat destruct X as [<-|X]; try tauto; repeat destruct Y as [<-|Y]; try tauto; try discriminate L;
    try (vm_compute; tauto); exfalso; apply N; simpl; tauto.
Qed.
