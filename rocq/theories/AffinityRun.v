(** * The message passing of the model is affinity propagation. *)

From Coq Require Import String List Bool Arith ZArith Lia Permutation Sorted.
From Verif Require Import Base Manager Spec Closure ManagerProofs ManagerInv ManagerQueries ManagerThms
  Sampling SamplingSpec SamplingProofs SamplingThms Rename ClusterSpec RenameThms ClusterProofs KMeans KMeansSpec KMeansProofs KMeansThms
  Spectral SpectralSpec SpectralThms HierProofs HierRun Affinity AffinitySpec AffinityProofs.
Import ListNotations.
Open Scope nat_scope.
Open Scope py_scope.

Section Independent.
  Context {D : Type}.
  Variable o : ops D.
  Variables n_samples n max_iteration convergence_iteration : nat.
  Variable W : matrix D.

  Definition cl_below (cl : list (nat * nat)) : Prop := forall i j, In (i, j) cl -> i < n_samples /\ j < n_samples.

  Definition plain : matrix D :=
    mtab n n (fun i j => if i <? n_samples then mget o W i j else o_add D o (mget o W i j) (o_zero D o)).

  Lemma corrected_plain cl Q : cl_below cl -> corrected o n_samples n cl W Q = plain.
  Proof.
    intro B. unfold corrected, plain. apply mtab_ext. intros i j Hi Hj. destruct (Nat.ltb_spec i n_samples) as [L|L]; auto.
    replace (filter (fun e : nat * nat * matrix D => (i =? fst (fst e)) || (i =? snd (fst e))) (combine cl Q)) with (@nil (nat * nat * matrix D)); auto.
    symmetry. assert (F : forall e, In e (combine cl Q) -> (i =? fst (fst e)) || (i =? snd (fst e)) = false).
    { intros [[a b] q] J. apply in_combine_l in J. destruct (B a b J). cbn [fst snd].
      destruct (Nat.eqb_spec i a), (Nat.eqb_spec i b); subst; auto; lia. }
    revert F. generalize (combine cl Q). intro l. induction l as [|e l IH]; intro F; cbn [filter]; auto.
    rewrite (F e (or_introl eq_refl)). apply IH. intros; apply F; right; auto.
  Qed.

  Variable absolute : bool.
  Definition used_Sp : matrix D := if absolute then W else plain.

  (** What iterations compute, without cannot-links. *)
  Fixpoint AR (t : nat) : matrix D * matrix D :=
    match t with
    | O => (mtab n n (fun _ _ => o_zero D o), mtab n n (fun _ _ => o_zero D o))
    | S t => let R := responsibilities o n used_Sp (fst (AR t)) (snd (AR t)) in (availabilities o n R (fst (AR t)), R)
    end.
  Definition At t := fst (AR t).
  Definition Rt t := snd (AR t).
  Definition Et t : list bool := map (fun i => o_pos D o (o_add D o (mget o (At (S t)) i i) (mget o (Rt (S t)) i i))) (seq 0 n).
  Fixpoint et (t : nat) : list (list bool) :=
    match t with
    | O => repeat (repeat false n) convergence_iteration
    | S t => list_set (et t) (t mod convergence_iteration) (Et t)
    end.

  (** The state [t] iterations after the start. *)
  Definition at_iteration (t : nat) (p : passing) : Prop :=
    p_A p = At t /\ p_R p = Rt t /\ p_e p = et t /\ (absolute = true -> p_Sp p = W) /\
    match t with O => True | S t => p_E p = Et t /\ p_Sp p = used_Sp end.

  Variable cl : list (nat * nat).
  Hypothesis B : cl_below cl.

  Lemma at_start : at_iteration 0 (start_passing o absolute n convergence_iteration cl W).
  Proof.
    unfold at_iteration, start_passing, At, Rt. cbn [p_A p_R p_e p_Sp AR fst snd et].
    repeat split. intros ->. auto.
  Qed.

  Lemma at_pass t p : at_iteration t p -> at_iteration (S t) (pass o absolute n_samples n convergence_iteration cl W t p).
  Proof.
    intros (HA & HR & He & HS & _).
    assert (SP : (if absolute then p_Sp p else corrected o n_samples n cl W (p_Q2 p)) = used_Sp).
    { unfold used_Sp. rewrite corrected_plain by auto. destruct absolute; auto. }
    unfold at_iteration, pass. cbv zeta. rewrite SP, HA, HR, He. cbn [p_A p_R p_Sp p_E p_e].
    split; [reflexivity|]. split; [reflexivity|]. split; [reflexivity|]. split; [|split; reflexivity].
    unfold used_Sp. intros ->. auto.
  Qed.

  Definition stops_at (t : nat) : bool :=
    stops n max_iteration convergence_iteration t (mkPassing (At (S t)) (Rt (S t)) used_Sp [] [] (Et t) (et (S t))).

  Lemma stops_at_pass t p : at_iteration (S t) p -> stops n max_iteration convergence_iteration t p = stops_at t.
  Proof.
    intros (_ & _ & He & _ & HE & _). unfold stops_at, stops. rewrite He, HE. reflexivity.
  Qed.

  Lemma iterations_run remaining : forall t p, at_iteration t p ->
    let r := iterations o absolute n_samples n max_iteration convergence_iteration cl W remaining t p in
    (fst r = true /\ forall t', t <= t' < t + remaining -> stops_at t' = false) \/
    (fst r = false /\ exists t1, t <= t1 < t + remaining /\ stops_at t1 = true /\ (forall t', t <= t' < t1 -> stops_at t' = false) /\
       p_E (snd r) = Et t1 /\ p_Sp (snd r) = used_Sp).
  Proof.
    induction remaining as [|k IH]; intros t p P; cbn [iterations].
    - left. split; auto. intros; lia.
    - assert (P' := at_pass t p P). cbv zeta. rewrite (stops_at_pass t _ P').
      destruct (stops_at t) eqn:ST; cbn [fst snd].
      + right. split; auto. exists t. split; [lia|]. split; auto. split; [intros; lia|]. destruct P' as (_ & _ & _ & _ & HE & HS). auto.
      + destruct (IH (S t) _ P') as [[F N]|(F & t1 & L & S1 & N & HE & HS)].
        * left. split; auto. intros t' Q. destruct (Nat.eq_dec t' t) as [->|]; auto. apply N. lia.
        * right. split; auto. exists t1. split; [lia|]. split; auto. split; auto.
          intros t' Q. destruct (Nat.eq_dec t' t) as [->|]; auto. apply N. lia.
  Qed.

  Definition labels_at (t : nat) : res (option (list nat)) :=
    let I := flatnonzero (Et t) in
    if (0 <? length I) then
      I' <-- refine o n W I (assign_exemplars o n used_Sp I) ;;;
      labels <-- rmap (py_nth I') (assign_exemplars o n used_Sp I') ;;;
      Ok (Some labels)
    else Ok None.

  Lemma exemplar_labels_at :
    (exemplar_labels o absolute n_samples n max_iteration convergence_iteration cl W = Ok None /\
     forall t, t < max_iteration -> stops_at t = false) \/
    (exists t, t < max_iteration /\ stops_at t = true /\ (forall t', t' < t -> stops_at t' = false) /\
       exemplar_labels o absolute n_samples n max_iteration convergence_iteration cl W = labels_at t).
  Proof.
    destruct (iterations_run max_iteration 0 _ at_start) as [[F N]|(F & t1 & L & S1 & N & HE & HS)]; unfold exemplar_labels;
      destruct (iterations _ _ _ _ _ _ _ _ max_iteration 0 _) as [nc p]; cbn [fst snd] in *; subst nc.
    - left. split; [rewrite andb_false_r; auto|]. intros; apply N; lia.
    - right. exists t1. split; [lia|]. split; auto. split; [intros; apply N; lia|].
      unfold labels_at. rewrite HE, HS, andb_true_r. reflexivity.
  Qed.
End Independent.

(** The cannot-links given to the algorithm do not matter. *)
Lemma exemplar_labels_cl {D} (o : ops D) absolute n_samples n mi ci W cl1 cl2 : cl_below n_samples cl1 -> cl_below n_samples cl2 ->
  exemplar_labels o absolute n_samples n mi ci cl1 W = exemplar_labels o absolute n_samples n mi ci cl2 W.
Proof.
  intros B1 B2.
  destruct (exemplar_labels_at o n_samples n mi ci W absolute cl1 B1) as [[E1 N1]|(t1 & L1 & S1 & N1 & E1)];
  destruct (exemplar_labels_at o n_samples n mi ci W absolute cl2 B2) as [[E2 N2]|(t2 & L2 & S2 & N2 & E2)].
  - congruence.
  - rewrite N1 in S2 by auto. discriminate.
  - rewrite N2 in S1 by auto. discriminate.
  - destruct (Nat.lt_trichotomy t1 t2) as [Q|[Q|Q]]; [rewrite N2 in S1 by auto; discriminate| |rewrite N1 in S2 by auto; discriminate].
    subst. congruence.
Qed.

Lemma affinity_cl {D} (o : ops D) W mls cl1 cl2 absolute mi ci : cl_below (nrows W) cl1 -> cl_below (nrows W) cl2 ->
  affinity_propagation_constrained o W mls cl1 absolute mi ci = affinity_propagation_constrained o W mls cl2 absolute mi ci.
Proof.
  intros B1 B2. unfold affinity_propagation_constrained. cbv zeta.
  destruct ((nrows W =? 1) || _); auto. destruct absolute.
  - destruct (meta_similarities _ _ _); auto. cbn [rbind]. rewrite (exemplar_labels_cl o true (nrows W) _ mi ci _ cl1 cl2 B1 B2). auto.
  - destruct (mixed_similarities _ _ _); auto. cbn [rbind]. rewrite (exemplar_labels_cl o false (nrows W) _ mi ci _ cl1 cl2 B1 B2). auto.
Qed.

(** No iteration can stop before the window is full. *)
Lemma no_stop {D} (o : ops D) n_samples n mi ci W absolute t : t < ci -> stops_at o n_samples n mi ci W absolute t = false.
Proof. intro L. unfold stops_at, stops. destruct (Nat.leb_spec ci t); auto; lia. Qed.
Lemma never_labels {D} (o : ops D) n_samples n mi ci W absolute cl : cl_below n_samples cl -> mi <= ci ->
  exemplar_labels o absolute n_samples n mi ci cl W = Ok None.
Proof.
  intros B L. destruct (exemplar_labels_at o n_samples n mi ci W absolute cl B) as [[E _]|(t & Lt & S & _)]; auto.
  rewrite no_stop in S by lia. discriminate.
Qed.

(** ** The window of convergence *)
Lemma count_true_all l : count_true l = length l <-> forall b, In b l -> b = true.
Proof.
  unfold count_true. induction l as [|b l IH]; simpl; [split; auto; intros _ b []|].
  assert (G : length (filter (fun b => b) l) <= length l) by (clear; induction l as [|[|] l IH]; simpl; lia).
  destruct b; simpl.
  - split; intro H; [|f_equal; apply IH; auto]. injection H as H. intros b [<-|J]; auto. apply IH; auto.
  - split; intro H; [lia|]. specialize (H false (or_introl eq_refl)). discriminate.
Qed.
Lemma count_true_none l : count_true l = 0 <-> forall b, In b l -> b = false.
Proof.
  unfold count_true. induction l as [|b l IH]; simpl; [split; auto; intros _ b []|]. destruct b; simpl.
  - split; intro H; [lia|]. specialize (H true (or_introl eq_refl)). discriminate.
  - rewrite IH. split; intros H b; [intros [<-|J]; auto|auto].
Qed.
Lemma count_true_pos l : 0 < count_true l <-> In true l.
Proof.
  split; intro H.
  - destruct (in_dec bool_dec true l); auto. assert (C : count_true l = 0); [|lia]. apply count_true_none. intros [|] J; auto. contradiction.
  - destruct (count_true l) eqn:C; [|lia]. rewrite count_true_none in C. specialize (C true H). discriminate.
Qed.

Section Window.
  Context {D : Type}.
  Variable o : ops D.
  Variables n_samples n mi ci : nat.
  Variable W : matrix D.
  Variable absolute : bool.
  Hypothesis CI : 0 < ci.
  Notation ET := (Et o n_samples n W absolute).
  Notation et := (et o n_samples n ci W absolute).

  Lemma et_length t : length (et t) = ci.
  Proof. induction t; cbn [AffinityRun.et]; [apply repeat_length|]. rewrite list_set_length. auto. Qed.

  (** After iteration [t], the column of [t'] holds the exemplars of iteration [t']. *)
  Lemma et_nth t : forall t', t' <= t -> t < t' + ci -> nth_error (et (S t)) (t' mod ci) = Some (ET t').
  Proof.
    induction t as [|t IH]; intros t' L1 L2.
    - assert (t' = 0) by lia. subst t'. cbn [AffinityRun.et]. rewrite nth_error_list_set, Nat.mod_0_l by lia. rewrite Nat.eqb_refl.
      destruct (nth_error (repeat (repeat false n) ci) 0) eqn:Q; auto. apply nth_error_None in Q. rewrite repeat_length in Q. lia.
    - change (et (S (S t))) with (list_set (et (S t)) (S t mod ci) (ET (S t))). rewrite nth_error_list_set.
      destruct (Nat.eq_dec t' (S t)) as [->|N].
      + rewrite Nat.eqb_refl. destruct (nth_error (et (S t)) (S t mod ci)) eqn:Q; auto. apply nth_error_None in Q.
        rewrite et_length in Q. pose proof (Nat.mod_upper_bound (S t) ci). lia.
      + destruct (Nat.eqb_spec (t' mod ci) (S t mod ci)) as [E|_]; [|apply IH; lia].
        exfalso. pose proof (Nat.div_mod t' ci ltac:(lia)). pose proof (Nat.div_mod (S t) ci ltac:(lia)). rewrite E in *.
        assert (t' / ci < S t / ci \/ t' / ci = S t / ci \/ t' / ci > S t / ci) as [|[|]] by lia; nia.
  Qed.

  Lemma column_In t col : ci <= t -> In col (et (S t)) <-> exists t', t - ci < t' <= t /\ col = ET t'.
  Proof.
    intro L. split.
    - intro J. apply In_nth_error in J as [c C]. assert (Lc : c < ci) by (rewrite <- (et_length (S t)); apply nth_error_Some; congruence).
      assert (E : exists t', t - ci < t' <= t /\ t' mod ci = c).
      { pose proof (Nat.div_mod t ci ltac:(lia)) as DM. pose proof (Nat.mod_upper_bound t ci ltac:(lia)).
        destruct (Nat.le_gt_cases c (t mod ci)).
        - exists (ci * (t / ci) + c). split; [lia|]. rewrite Nat.add_comm, Nat.mul_comm, Nat.mod_add by lia. apply Nat.mod_small; auto.
        - assert (1 <= t / ci) by (apply Nat.div_le_lower_bound; lia).
          exists (ci * (t / ci - 1) + c). split; [nia|]. rewrite Nat.add_comm, Nat.mul_comm, Nat.mod_add by lia. apply Nat.mod_small; auto. }
      destruct E as (t' & L' & <-). exists t'. split; auto. rewrite et_nth in C by lia. congruence.
    - intros (t' & L' & ->). eapply nth_error_In. apply (et_nth t t'); lia.
  Qed.

  Lemma Et_length t : length (ET t) = n.
  Proof. unfold Et. rewrite map_length, seq_length. auto. Qed.

  Lemma stops_at_spec t : t < mi ->
    (stops_at o n_samples n mi ci W absolute t = true <->
     ci <= t /\ In true (ET t) /\ forall k t', k < n -> t - ci < t' <= t -> nth k (ET t') false = nth k (ET t) false).
  Proof.
    intro Lm. unfold stops_at, stops. cbn [p_e p_E]. destruct (Nat.leb_spec ci t) as [L|L]; [|split; [discriminate|lia]].
    destruct (Nat.eqb_spec t mi) as [|_]; [lia|]. rewrite orb_false_r, negb_involutive, andb_true_iff, Nat.ltb_lt, count_true_pos.
    set (counts := map (fun i => count_true (map (fun col => nth i col false) (et (S t)))) (seq 0 n)).
    assert (Q : Nat.eqb (count_true (map (fun x => Nat.eqb x ci || Nat.eqb x 0) counts)) n = true <->
                forall k t', k < n -> t - ci < t' <= t -> nth k (ET t') false = nth k (ET t) false).
    { rewrite Nat.eqb_eq. assert (LC : length (map (fun x => Nat.eqb x ci || Nat.eqb x 0) counts) = n) by (unfold counts; rewrite !map_length, seq_length; auto).
      rewrite <- LC at 1. rewrite count_true_all. unfold counts. rewrite map_map.
      assert (LE : forall i, length (map (fun col => nth i col false) (et (S t))) = ci) by (intro; rewrite map_length; apply et_length).
      split.
      - intros H k t' K L'. specialize (H ((count_true (map (fun col => nth k col false) (et (S t))) =? ci) || (count_true (map (fun col => nth k col false) (et (S t))) =? 0))).
        rewrite in_map_iff in H. specialize (H ltac:(exists k; split; auto; apply in_seq; lia)). apply orb_true_iff in H.
        assert (J : forall t'', t - ci < t'' <= t -> In (nth k (ET t'') false) (map (fun col => nth k col false) (et (S t)))).
        { intros t'' L''. apply in_map_iff. exists (ET t''). split; auto. apply column_In; eauto. }
        destruct H as [H|H]; apply Nat.eqb_eq in H.
        + rewrite <- (LE k) in H at 2. rewrite count_true_all in H. rewrite (H _ (J t' L')), (H _ (J t ltac:(lia))). auto.
        + rewrite count_true_none in H. rewrite (H _ (J t' L')), (H _ (J t ltac:(lia))). auto.
      - intros H b J. apply in_map_iff in J as (k & <- & K). apply in_seq in K. apply orb_true_iff.
        destruct (nth k (ET t) false) eqn:V; [left|right]; apply Nat.eqb_eq.
        + rewrite <- (LE k) at 2. apply count_true_all. intros b J. apply in_map_iff in J as (col & <- & J). apply column_In in J as (t' & L' & ->); auto.
          rewrite H by (auto; lia). auto.
        + apply count_true_none. intros b J. apply in_map_iff in J as (col & <- & J). apply column_In in J as (t' & L' & ->); auto.
          rewrite H by (auto; lia). auto. }
    rewrite Q. tauto.
  Qed.
End Window.
