(** * Components, completude, conflict listing; the invariant holds in every
    reachable manager. *)

From Coq Require Import List Bool Arith NArith QArith Lia Permutation.
From Verif Require Import Base Manager Spec Closure ManagerProofs ManagerInv.
Import ListNotations.
Open Scope nat_scope.
Open Scope py_scope.

(** The component of a data ID. *)
Definition comp_of (m : mgr) (a : pystr) : list pystr :=
  match dget a (ctrans m) with Some t => t_ml t | None => [] end.

Lemma comp_of_In m a b : Inv m -> In a (ids m) -> In b (comp_of m a) <-> linked (sml m) a b.
Proof.
  intros I Ia. rewrite <- (inv_keys _ I) in Ia. destruct (dget_In_key _ _ Ia) as [t E].
  unfold comp_of. rewrite E. apply (rep_ml _ _ _ (inv_rep _ I) a t E).
Qed.

Lemma comp_of_NoDup m a : Inv m -> NoDup (comp_of m a).
Proof.
  intros I. unfold comp_of. destruct (dget a (ctrans m)) eqn:E; [|constructor].
  eapply rep_ml_nodup; eauto. apply (inv_rep _ I).
Qed.

Lemma comp_of_share m a b : Inv m -> In a (ids m) -> In b (comp_of m a) -> comp_of m b = comp_of m a.
Proof.
  intros I Ia Ib. assert (L := Ib). apply comp_of_In in L; auto.
  assert (R := inv_rep _ I). rewrite <- (inv_keys _ I) in Ia.
  assert (Kb : In b (keys (ctrans m))) by (eapply rep_linked_keys; eauto).
  destruct (dget_In_key _ _ Ia) as [ta Ea]. destruct (dget_In_key _ _ Kb) as [tb Eb].
  unfold comp_of in *. rewrite Ea in *. rewrite Eb. eapply (rep_share _ _ _ R a b); eauto.
Qed.

Lemma linked_ids m a b : Inv m -> In a (ids m) -> linked (sml m) a b -> In b (ids m).
Proof.
  intros I Ia L. rewrite <- (inv_keys _ I) in *. eapply rep_linked_keys; eauto. apply (inv_rep _ I).
Qed.

Lemma separated_ids m a b : Inv m -> separated (sml m) (scl m) a b -> In a (ids m) /\ In b (ids m).
Proof.
  intros I S. rewrite <- (inv_keys _ I) in *. split.
  - apply separated_sym in S. eapply rep_separated_keys; eauto. apply (inv_rep _ I).
  - eapply rep_separated_keys; eauto. apply (inv_rep _ I).
Qed.

(** Pure form of the component listing: first occurrences of components. *)
Fixpoint comps_aux (m : mgr) (l : list pystr) (acc : list (list pystr)) : list (list pystr) :=
  match l with
  | [] => acc
  | x :: l' => comps_aux m l' (if mem (comp_of m x) acc then acc else acc ++ [comp_of m x])
  end.

Definition comps (m : mgr) : list (list pystr) := comps_aux m (ids m) [].

Lemma collect_run m l acc : incl l (keys (ctrans m)) ->
  collect_components (ctrans m) l acc = Ok (comps_aux m l acc).
Proof.
  revert acc. induction l as [|x l IH]; intros acc H; simpl; auto.
  destruct (dget_In_key x (ctrans m)) as [t E]; [apply H; left; auto|].
  unfold rbind. rewrite (dlookup_Some _ _ E). unfold comp_of at 1 2. rewrite E. apply IH.
  intros z Hz; apply H; right; auto.
Qed.

Lemma run_components m : Inv m -> get_connected_components m = (m, Ok (comps m)).
Proof.
  intro I. unfold get_connected_components, bind, gets, lift.
  rewrite collect_run by apply incl_refl. rewrite (inv_keys _ I). reflexivity.
Qed.

Lemma comps_aux_In m l : forall acc c,
  In c (comps_aux m l acc) <-> In c acc \/ exists x, In x l /\ c = comp_of m x.
Proof.
  induction l as [|x l IH]; intros acc c; simpl.
  - split; auto. intros [H|(x & [] & _)]; auto.
  - rewrite IH. destruct (mem (comp_of m x) acc) eqn:M0.
    + apply mem_In in M0. split.
      * intros [H|(y & H & E)]; eauto.
      * intros [H|(y & [H|H] & E)]; subst; eauto.
    + rewrite in_app_iff. simpl. split.
      * intros [[H|[H|[]]]|(y & H & E)]; subst; eauto.
      * intros [H|(y & [H|H] & E)]; subst; eauto.
Qed.

Lemma comps_aux_NoDup m l : forall acc, NoDup acc -> NoDup (comps_aux m l acc).
Proof.
  induction l as [|x l IH]; intros acc N; simpl; auto.
  apply IH. destruct (mem (comp_of m x) acc) eqn:M0; auto.
  apply mem_nIn in M0. apply NoDup_app_intro; auto.
  - constructor; [simpl; tauto|constructor].
  - intros z Hz [<-|[]]; tauto.
Qed.

Lemma comps_In m c : In c (comps m) <-> exists x, In x (ids m) /\ c = comp_of m x.
Proof. unfold comps. rewrite comps_aux_In. simpl. split; [intros [[]|H]; auto|auto]. Qed.

Lemma comps_NoDup m : NoDup (comps m).
Proof. apply comps_aux_NoDup. constructor. Qed.

Lemma comps_disjoint m c1 c2 x : Inv m -> In c1 (comps m) -> In c2 (comps m) -> In x c1 -> In x c2 -> c1 = c2.
Proof.
  intros I H1 H2 X1 X2. apply comps_In in H1. apply comps_In in H2.
  destruct H1 as (a & Ia & ->). destruct H2 as (b & Ib & ->).
  rewrite <- (comp_of_share m a x), <- (comp_of_share m b x); auto.
Qed.

Lemma self_comp m a : Inv m -> In a (ids m) -> In a (comp_of m a).
Proof. intros. apply comp_of_In; auto. apply linked_refl. Qed.

Lemma NoDup_concat_intro {A} (l : list (list A)) :
  NoDup l -> (forall c, In c l -> NoDup c) ->
  (forall c1 c2 x, In c1 l -> In c2 l -> In x c1 -> In x c2 -> c1 = c2) -> NoDup (concat l).
Proof.
  induction l as [|c l IH]; simpl; intros N Nc D. constructor.
  inversion N; subst. apply NoDup_app_intro.
  - apply Nc; auto.
  - apply IH; auto. intros; eapply D; eauto.
  - intros x X1 X2. apply in_concat in X2. destruct X2 as (c2 & H & X2).
    assert (c = c2) by (eapply D; eauto). subst. tauto.
Qed.

Lemma comps_permutation m : Inv m -> Permutation (concat (comps m)) (ids m).
Proof.
  intro I. apply NoDup_Permutation.
  - apply NoDup_concat_intro.
    + apply comps_NoDup.
    + intros c H. apply comps_In in H. destruct H as (a & _ & ->). apply comp_of_NoDup; auto.
    + intros. eapply comps_disjoint; eauto.
  - apply inv_nodup; auto.
  - intro x. rewrite in_concat. split.
    + intros (c & H & X). apply comps_In in H. destruct H as (a & Ia & ->).
      apply comp_of_In in X; auto. eapply linked_ids; eauto.
    + intro Ix. exists (comp_of m x). split; [apply comps_In; eauto|apply self_comp; auto].
Qed.

Lemma comps_common m a b : Inv m -> In a (ids m) -> In b (ids m) ->
  (exists c, In c (comps m) /\ In a c /\ In b c) <-> linked (sml m) a b.
Proof.
  intros I Ia Ib. split.
  - intros (c & H & A & B). apply comps_In in H. destruct H as (x & Ix & ->).
    apply comp_of_In in A; auto. apply comp_of_In in B; auto.
    eapply linked_trans; [apply linked_sym; exact A|exact B].
  - intro L. exists (comp_of m a). split; [apply comps_In; eauto|].
    split; [apply self_comp; auto|apply comp_of_In; auto].
Qed.

(** ** Completude *)
Definition cl_of (m : mgr) (a : pystr) : list pystr :=
  match dget a (ctrans m) with Some t => t_cl t | None => [] end.

Lemma cl_of_In m a b : Inv m -> In a (ids m) -> In b (cl_of m a) <-> separated (sml m) (scl m) a b.
Proof.
  intros I Ia. rewrite <- (inv_keys _ I) in Ia. destruct (dget_In_key _ _ Ia) as [t E].
  unfold cl_of. rewrite E. apply (rep_cl _ _ _ (inv_rep _ I) a t E).
Qed.

Lemma cl_of_NoDup m a : Inv m -> NoDup (cl_of m a).
Proof.
  intros I. unfold cl_of. destruct (dget a (ctrans m)) eqn:E; [|constructor].
  eapply rep_cl_nodup; eauto. apply (inv_rep _ I).
Qed.

Lemma all_complete_run m l : incl l (keys (ctrans m)) ->
  exists b, all_complete (ctrans m) l = Ok b /\
    (b = true <-> forall a, In a l -> length (comp_of m a) + length (cl_of m a) = length (keys (ctrans m))).
Proof.
  induction l as [|x l IH]; intro H; simpl.
  - exists true. split; auto. split; auto. intros _ a [].
  - destruct (dget_In_key x (ctrans m)) as [t E]; [apply H; left; auto|].
    rewrite (dlookup_Some _ _ E). simpl.
    assert (Ex : comp_of m x = t_ml t /\ cl_of m x = t_cl t) by (unfold comp_of, cl_of; rewrite E; auto).
    destruct Ex as [E1 E2].
    destruct (Nat.eqb_spec (length (t_ml t) + length (t_cl t)) (length (keys (ctrans m)))) as [Q|Q].
    + destruct IH as (b & R & S); [intros z Hz; apply H; right; auto|].
      exists b. split; auto. rewrite S. split.
      * intros K a [<-|Ha]; auto. rewrite E1, E2; auto.
      * intros K a Ha. apply K; auto.
    + exists false. split; auto. split; [discriminate|]. intro K. exfalso. apply Q. rewrite <- E1, <- E2. apply K; auto.
Qed.

Lemma complete_count m a : Inv m -> In a (ids m) ->
  length (comp_of m a) + length (cl_of m a) = length (ids m) <->
  (forall b, In b (ids m) -> infer m a b <> None).
Proof.
  intros I Ia. set (l := comp_of m a ++ cl_of m a).
  assert (N : NoDup l).
  { apply NoDup_app_intro; auto using comp_of_NoDup, cl_of_NoDup.
    intros x X1 X2. apply comp_of_In in X1; auto. apply cl_of_In in X2; auto. eapply rep_excl; eauto. }
  assert (Inc : incl l (ids m)).
  { intros x X. apply in_app_iff in X. destruct X as [X|X].
    - apply comp_of_In in X; auto. eapply linked_ids; eauto.
    - apply cl_of_In in X; auto. eapply separated_ids; eauto. }
  assert (InL : forall b, In b (ids m) -> In b l <-> infer m a b <> None).
  { intros b Ib. unfold l. rewrite in_app_iff, comp_of_In, cl_of_In by auto.
    rewrite <- (infer_ML m a b), <- (infer_CL m a b) by auto.
    destruct (infer_cases m a b) as [E|[E|E]]; rewrite E; split; try congruence; auto; intros [?|?]; congruence. }
  rewrite <- app_length. fold l. split.
  - intros Len b Ib. apply InL; auto.
    apply (NoDup_length_incl N (l' := ids m)); auto. lia.
  - intro H. apply Permutation_length. apply NoDup_Permutation; auto.
    + apply inv_nodup; auto.
    + intro x. split; [apply Inc|]. intro Ix. apply InL; auto.
Qed.

Lemma run_completude m : Inv m ->
  exists b, check_completude_of_constraints m = (m, Ok b) /\
    (b = true <-> forall x y, In x (ids m) -> In y (ids m) -> infer m x y <> None).
Proof.
  intro I. destruct (all_complete_run m (keys (ctrans m)) (incl_refl _)) as (b & R & S).
  exists b. split.
  - unfold check_completude_of_constraints, bind, gets, lift. rewrite R. reflexivity.
  - rewrite S. rewrite (inv_keys _ I). split.
    + intros H x y Ix Iy. apply (complete_count m x I Ix); auto.
    + intros H x Ix. apply (complete_count m x I Ix). auto.
Qed.

(** ** Conflict listing *)
Lemma run_conflict m a b t : Inv m ->
  get_list_of_involved_data_IDs_in_a_constraint_conflict a b t m =
  (m, if both m a b && mem t allowed_types then
        Ok (if accepts m a b t then None
            else Some (flat_map (fun c => if mem a c || mem b c then c else []) (comps m)))
      else Raise ValueError).
Proof.
  intro I. unfold get_list_of_involved_data_IDs_in_a_constraint_conflict, both, accepts, both.
  unfold bind at 1, in_dict, gets at 1. destruct (mem a (ids m)) eqn:Ea; [|reflexivity].
  unfold bind at 1. cbn [require]. unfold ret at 1. unfold bind at 1, in_dict, gets at 1.
  destruct (mem b (ids m)) eqn:Eb; [|reflexivity].
  unfold bind at 1. cbn [require]. unfold ret at 1. unfold bind at 1.
  destruct (mem t allowed_types) eqn:Et; [|reflexivity].
  cbn [require]. unfold ret at 1. unfold bind at 1. rewrite run_inferred by auto.
  assert (B : both m a b = true) by (unfold both; rewrite Ea, Eb; auto). rewrite B. cbn [andb].
  destruct (infer m a b) as [u|].
  - rewrite (eqb_sym t u). destruct (eqb u t); [reflexivity|]. cbn [negb].
    unfold bind. rewrite run_components by auto. reflexivity.
  - reflexivity.
Qed.

Lemma conflict_members m a b x : Inv m -> In a (ids m) -> In b (ids m) ->
  In x (flat_map (fun c => if mem a c || mem b c then c else []) (comps m)) <->
  linked (sml m) a x \/ linked (sml m) b x.
Proof.
  intros I Ia Ib. rewrite in_flat_map. split.
  - intros (c & H & X). destruct (mem a c || mem b c) eqn:E; [|destruct X].
    apply comps_In in H. destruct H as (y & Iy & ->). apply comp_of_In in X; auto.
    apply orb_true_iff in E. destruct E as [E|E]; apply mem_In, comp_of_In in E; auto; [left|right];
      (eapply linked_trans; [apply linked_sym; exact E|exact X]).
  - intro H. assert (K : forall z, In z (ids m) -> linked (sml m) z x -> (z = a \/ z = b) ->
        exists x0, In x0 (comps m) /\ In x (if mem a x0 || mem b x0 then x0 else [])).
    { intros z Iz L Z. exists (comp_of m z). split; [apply comps_In; eauto|].
      assert (S := self_comp m z I Iz). apply mem_In in S.
      destruct Z as [-> | ->]; rewrite S, ?orb_true_r; simpl; apply comp_of_In; auto. }
    destruct H as [H|H]; [apply (K a)|apply (K b)]; auto.
Qed.

Lemma conflict_NoDup m (f : list pystr -> bool) : Inv m -> NoDup (flat_map (fun c => if f c then c else []) (comps m)).
Proof.
  intro I. assert (E : flat_map (fun c => if f c then c else []) (comps m) = concat (filter f (comps m))).
  { induction (comps m) as [|c l IH]; simpl; auto. destruct (f c); simpl; congruence. }
  rewrite E. apply NoDup_concat_intro.
  - apply NoDup_filter_list, comps_NoDup.
  - intros c H. apply filter_In in H. destruct H as [H _]. apply comps_In in H. destruct H as (a & _ & ->).
    apply comp_of_NoDup; auto.
  - intros c1 c2 x H1 H2. apply filter_In in H1. apply filter_In in H2. apply (comps_disjoint m); tauto.
Qed.

(** ** Every call, in one lemma: state effect and kind of result. *)
Lemma exec_inv m c : Inv m -> Inv (fst (exec c m)).
Proof.
  intro I. destruct c; simpl; unfold bind.
  - assert (H := run_add_data_ID m x I). destruct (mem x (ids m)).
    + rewrite H; auto.
    + destruct H as (m' & -> & I' & _); auto.
  - assert (H := run_delete_data_ID m x I). destruct (mem x (ids m)).
    + destruct H as (m' & -> & I' & _); auto.
    + rewrite H; auto.
  - auto.
  - destruct (accepts m a b t) eqn:A.
    + destruct (run_add_constraint m a b t v I A) as (m' & -> & I' & _); auto.
    + rewrite run_add_constraint_raise; auto.
  - assert (H := run_delete_constraint m a b I). destruct (both m a b).
    + destruct H as (m' & -> & I' & _); auto.
    + rewrite H; auto.
  - rewrite run_added by auto. destruct (both m a b); auto.
  - rewrite run_inferred by auto. destruct (both m a b); auto.
  - rewrite run_components by auto. auto.
  - destruct (run_completude m I) as (b & -> & _). auto.
  - rewrite run_conflict by auto. destruct (both m a b && mem t allowed_types); auto.
Qed.

Theorem reachable_inv m : reachable m -> Inv m.
Proof. induction 1. apply init_inv. apply exec_inv; auto. Qed.

(** The getters leave any manager state as it is. *)
Lemma getters_change_nothing m a b t :
  fst (get_list_of_managed_data_IDs m) = m /\
  fst (get_added_constraint a b m) = m /\
  fst (get_inferred_constraint a b m) = m /\
  fst (get_connected_components m) = m /\
  fst (check_completude_of_constraints m) = m /\
  fst (get_list_of_involved_data_IDs_in_a_constraint_conflict a b t m) = m.
Proof.
  assert (G : forall a b, fst (get_constraint a b m) = m).
  { intros. unfold get_constraint, bind, gets, lift. destruct (dlookup a0 (cdict m)); reflexivity. }
  assert (T : forall a, fst (get_trans a m) = m).
  { intros. unfold get_trans, bind, gets, lift. reflexivity. }
  assert (Inf : fst (get_inferred_constraint a b m) = m).
  { unfold get_inferred_constraint, bind, in_trans, gets, require, ret, raise.
    destruct (mem a (keys (ctrans m))); [|reflexivity]. destruct (mem b (keys (ctrans m))); [|reflexivity].
    assert (E := T b). destruct (get_trans b m) as [m1 [t1|e1]]; simpl in E; subst m1; [|reflexivity].
    destruct (mem a (t_ml t1)); [reflexivity|].
    assert (E := T b). destruct (get_trans b m) as [m2 [t2|e2]]; simpl in E; subst m2; [|reflexivity].
    destruct (mem a (t_cl t2)); reflexivity. }
  repeat split; auto.
  - unfold get_added_constraint, bind, in_dict, gets, require, ret, raise.
    destruct (mem a (keys (cdict m))); [|reflexivity]. destruct (mem b (keys (cdict m))); [|reflexivity].
    destruct (str_leb a b); apply G.
  - unfold get_list_of_involved_data_IDs_in_a_constraint_conflict.
    unfold bind at 1. unfold in_dict at 1, gets at 1. unfold bind at 1.
    destruct (mem a (keys (cdict m))); [|reflexivity]. cbn [require ret].
    unfold bind at 1. unfold in_dict at 1, gets at 1. unfold bind at 1.
    destruct (mem b (keys (cdict m))); [|reflexivity]. cbn [require ret].
    unfold bind at 1. destruct (mem t allowed_types); [|reflexivity]. cbn [require ret].
    unfold bind at 1. destruct (get_inferred_constraint a b m) as [m1 [o|e]]; simpl in Inf; subst m1; [|reflexivity].
    destruct (match o with Some t0 => negb (eqb t t0) | None => false end); [|reflexivity].
    unfold bind at 1. unfold get_connected_components, bind, gets, lift.
    destruct (collect_components (ctrans m) (keys (ctrans m)) []); reflexivity.
Qed.
