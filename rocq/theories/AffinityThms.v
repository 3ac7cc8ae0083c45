(** * Properties of constrained affinity propagation (C44, C45, C69 to C72). *)

From Coq Require Import String List Bool Arith ZArith QArith Lia Permutation Sorted.
From Verif Require Import Base Manager Spec Closure ManagerProofs ManagerInv ManagerQueries ManagerThms
  Sampling SamplingSpec SamplingProofs SamplingThms Rename ClusterSpec RenameThms ClusterProofs KMeans KMeansSpec KMeansProofs KMeansThms
  Spectral SpectralSpec SpectralThms HierProofs HierRun Affinity AffinitySpec AffinityProofs AffinityRun AffinityExact AffinityExample.
Import ListNotations.
Open Scope nat_scope.
Open Scope py_scope.

(*HEADER
From Coq Require Import String List Bool Arith ZArith QArith Permutation Lia.
From Verif Require Import Base Manager Spec ManagerThms SamplingSpec ClusterSpec KMeansSpec KMeansThms SpectralSpec Affinity AffinitySpec AffinityExample AffinityThms.
Import ListNotations.
Open Scope nat_scope.
Open Scope py_scope.
HEADER*)

(** ** The message passing function *)
Section Function.
  Context {D : Type}.
  Variable o : ops D.

  Lemma flat_mtab n (f : nat -> nat -> D) : flat (mtab n n f) = all_values n f.
  Proof. unfold flat, mtab, all_values. rewrite flat_map_concat_map. reflexivity. Qed.

  Lemma last_of_first_row n (f : nat -> nat -> D) : 0 < n -> nth (n - 1) (all_values n f) (o_zero D o) = f 0 (n - 1).
  Proof.
    intro L. unfold all_values. destruct n as [|n]; [lia|]. replace (S n - 1) with n by lia.
    change (seq 0 (S n)) with (0 :: seq 1 n) at 2. cbn [flat_map]. rewrite app_nth1 by (rewrite map_length, seq_length; lia).
    apply (nth_seq_map (f 0)). lia.
  Qed.

  Lemma degenerate_spec n (f : nat -> nat -> D) : 1 <= n ->
    (Nat.eqb (nrows (mtab n n f)) 1 || equal_similarities_and_preferences o (mtab n n f) (o_median D o (flat (mtab n n f))) = true <-> degenerate o n f).
  Proof.
    intro L. rewrite nrows_mtab, flat_mtab, orb_true_iff, Nat.eqb_eq. unfold degenerate.
    destruct (Nat.eq_dec n 1) as [->|N]; [tauto|].
    assert (Q : equal_similarities_and_preferences o (mtab n n f) (o_median D o (all_values n f)) = true <->
                o_eq D o (o_median D o (all_values n f)) (o_median D o (all_values n f)) = true /\
                forall i j, i < n -> j < n -> i <> j -> o_eq D o (f i j) (f 0 1) = true).
    2:{ rewrite Q. cbv zeta. tauto. }
    unfold equal_similarities_and_preferences. rewrite nrows_mtab. cbv zeta. rewrite andb_true_iff.
    set (off := flat_map (fun i => map (mget o (mtab n n f) i) (filter (fun j => negb (Nat.eqb i j)) (seq 0 n))) (seq 0 n)).
    assert (OI : forall v, In v off <-> exists i j, i < n /\ j < n /\ i <> j /\ v = f i j).
    { intro v. unfold off. rewrite in_flat_map. split.
      - intros (i & I & J). apply in_map_iff in J as (j & <- & J). apply filter_In in J as [J E]. apply in_seq in I, J.
        exists i, j. rewrite mget_mtab by lia. split; [lia|]. split; [lia|]. split; auto. intros ->. rewrite Nat.eqb_refl in E. discriminate.
      - intros (i & j & I & J & Nij & ->). exists i. split; [apply in_seq; lia|]. apply in_map_iff. exists j. rewrite mget_mtab by lia. split; auto.
        apply filter_In. split; [apply in_seq; lia|]. destruct (Nat.eqb_spec i j); [contradiction|auto]. }
    assert (HD : exists r, off = f 0 1 :: r).
    { unfold off. destruct n as [|[|n']]; try lia. cbn [seq flat_map filter Nat.eqb negb map app]. rewrite mget_mtab by lia. eauto. }
    destruct HD as [r HD]. rewrite HD. rewrite <- HD. rewrite forallb_forall. split; intros [E A]; split; auto.
    - intros i j I J Nij. apply A. apply OI. exists i, j. auto.
    - intros v V. apply OI in V as (i & j & I & J & Nij & ->). auto.
  Qed.

  (** Groups of points. *)
  Record good_groups (n : nat) (mls : list (list nat)) : Prop := {
    gg_ne : forall g, In g mls -> g <> [];
    gg_nd : NoDup (concat mls);
    gg_in : forall i, In i (concat mls) <-> i < n }.

  Lemma gg_group n mls i : good_groups n mls -> i < n -> exists p g, nth_error mls p = Some g /\ In i g.
  Proof.
    intros G L. apply (gg_in _ _ G) in L. apply in_concat in L as (g & J & I). apply In_nth_error in J as [p P]. eauto.
  Qed.

  Lemma meta_run W mls : (forall g, In g mls -> g <> []) ->
    meta_similarities o W mls = Ok (map (fun m1 => map (fun m2 => o_pymax D o (map (fun kl => mget o W (fst kl) (snd kl)) (list_prod m1 m2))) mls) mls).
  Proof.
    intro NE. unfold meta_similarities. apply rmap_pure. intros m1 J1. apply rmap_pure. intros m2 J2.
    apply NE in J1, J2. destruct m1 as [|x m1]; [congruence|]. destruct m2 as [|y m2]; [congruence|]. reflexivity.
  Qed.
  Lemma mixed_run W mls : (forall g, In g mls -> g <> []) ->
    mixed_similarities o W mls = Ok (map (fun i => map (fun Pm => if existsb (Nat.eqb i) Pm then o_zero D o else o_pymax D o (map (mget o W i) Pm)) mls) (seq 0 (nrows W))).
  Proof.
    intro NE. unfold mixed_similarities. apply rmap_pure. intros i _. apply rmap_pure. intros g J. apply NE in J. destruct g; [congruence|].
    destruct (existsb _ _); auto.
  Qed.

  Definition meta_matrix (noisy : nat -> nat -> D) (mls : list (list nat)) : matrix D :=
    map (fun m1 => map (fun m2 => o_pymax D o (map (fun kl => noisy (fst kl) (snd kl)) (list_prod m1 m2))) mls) mls.
  Definition mixed_matrix n (noisy : nat -> nat -> D) (mls : list (list nat)) : matrix D :=
    map (fun i => map (fun Pm => if existsb (Nat.eqb i) Pm then o_zero D o else o_pymax D o (map (noisy i) Pm)) mls) (seq 0 n).

  Lemma list_prod_In {A B} (l : list A) (l' : list B) x y : In (x, y) (list_prod l l') <-> In x l /\ In y l'.
  Proof. apply in_prod_iff. Qed.

  (** What the function does after the degenerate case. *)
  Lemma function_run_loose n (f : nat -> nat -> D) mls cl absolute mi ci : 1 <= n -> (forall g, In g mls -> g <> []) -> (forall g i, In g mls -> In i g -> i < n) ->
    let noisy i j := o_noise D o i j (f i j) in
    affinity_propagation_constrained o (mtab n n f) mls cl absolute mi ci =
    if Nat.eqb (nrows (mtab n n f)) 1 || equal_similarities_and_preferences o (mtab n n f) (o_median D o (flat (mtab n n f))) then
      if o_ge D o (o_median D o (all_values n f)) (f 0 (n - 1)) then Ok (map Z.of_nat (seq 0 n)) else Ok (repeat 0%Z n)
    else if absolute then
      let W := with_preference o (meta_matrix noisy mls) (o_median D o (flat (meta_matrix noisy mls))) in
      labels <-- exemplar_labels o true n (length mls) mi ci cl W ;;;
      Ok (match labels with Some labels => gapless (member_labels n labels mls) | None => repeat (-1)%Z n end)
    else
      let W := with_preference o (block o (mtab n n noisy) (mixed_matrix n noisy mls) (length mls)) (o_median D o (all_values n f)) in
      labels <-- exemplar_labels o false n (n + length mls) mi ci cl W ;;;
      Ok (match labels with Some labels => gapless (map Z.of_nat (firstn n labels)) | None => repeat (-1)%Z n end).
  Proof.
    intros L NE LT noisy. unfold affinity_propagation_constrained. cbv zeta. rewrite nrows_mtab.
    destruct ((n =? 1) || _) eqn:DG.
    { rewrite flat_mtab, last_of_first_row by lia. auto. }
    assert (WN : mtab n n (fun i j => o_noise D o i j (mget o (mtab n n f) i j)) = mtab n n noisy).
    { apply mtab_ext. intros i j I J. rewrite mget_mtab by auto. auto. }
    rewrite WN.
    destruct absolute.
    - rewrite meta_run by exact NE. cbn [rbind].
      assert (MM : map (fun m1 => map (fun m2 => o_pymax D o (map (fun kl => mget o (mtab n n noisy) (fst kl) (snd kl)) (list_prod m1 m2))) mls) mls = meta_matrix noisy mls).
      { apply map_ext_in. intros m1 J1. apply map_ext_in. intros m2 J2. f_equal. apply map_ext_in. intros [k l] J. apply in_prod_iff in J as [K1 K2].
        cbn [fst snd]. apply mget_mtab; eauto. }
      rewrite MM. unfold with_preference at 1. rewrite nrows_mtab. unfold meta_matrix at 1, nrows at 1. rewrite map_length. reflexivity.
    - rewrite mixed_run by exact NE. cbn [rbind]. rewrite nrows_mtab.
      assert (MM : map (fun i => map (fun Pm => if existsb (Nat.eqb i) Pm then o_zero D o else o_pymax D o (map (mget o (mtab n n noisy) i) Pm)) mls) (seq 0 n) = mixed_matrix n noisy mls).
      { apply map_ext_in. intros i I. apply in_seq in I. apply map_ext_in. intros g J. destruct (existsb _ _); auto. f_equal. apply map_ext_in.
        intros j Jj. apply mget_mtab; [lia|eauto]. }
      rewrite MM. rewrite flat_mtab. unfold with_preference at 1. rewrite nrows_mtab. unfold block at 1. rewrite nrows_mtab, nrows_mtab. reflexivity.
  Qed.
  Lemma function_run n (f : nat -> nat -> D) mls cl absolute mi ci : 1 <= n -> good_groups n mls ->
    let noisy i j := o_noise D o i j (f i j) in
    affinity_propagation_constrained o (mtab n n f) mls cl absolute mi ci =
    if Nat.eqb (nrows (mtab n n f)) 1 || equal_similarities_and_preferences o (mtab n n f) (o_median D o (flat (mtab n n f))) then
      if o_ge D o (o_median D o (all_values n f)) (f 0 (n - 1)) then Ok (map Z.of_nat (seq 0 n)) else Ok (repeat 0%Z n)
    else if absolute then
      let W := with_preference o (meta_matrix noisy mls) (o_median D o (flat (meta_matrix noisy mls))) in
      labels <-- exemplar_labels o true n (length mls) mi ci cl W ;;;
      Ok (match labels with Some labels => gapless (member_labels n labels mls) | None => repeat (-1)%Z n end)
    else
      let W := with_preference o (block o (mtab n n noisy) (mixed_matrix n noisy mls) (length mls)) (o_median D o (all_values n f)) in
      labels <-- exemplar_labels o false n (n + length mls) mi ci cl W ;;;
      Ok (match labels with Some labels => gapless (map Z.of_nat (firstn n labels)) | None => repeat (-1)%Z n end).
  Proof. intros L G. apply function_run_loose; auto; [apply (gg_ne _ _ G)|]. intros g i J I. apply (gg_in _ _ G), in_concat; eauto. Qed.

  Lemma members_share n labels mls : good_groups n mls -> length labels = length mls ->
    length (member_labels n labels mls) = n /\
    forall p l g i, nth_error labels p = Some l -> nth_error mls p = Some g -> In i g -> nth_error (member_labels n labels mls) i = Some (Z.of_nat l).
  Proof.
    intros G L. apply member_labels_spec; auto; [|apply (gg_nd _ _ G)]. intros i J. apply (gg_in _ _ G); auto.
  Qed.

  (** The function never fails; labels. *)
  Lemma function_total n (f : nat -> nat -> D) mls cl absolute mi ci : valid_argmax o -> 1 <= n -> good_groups n mls ->
    exists labels, affinity_propagation_constrained o (mtab n n f) mls cl absolute mi ci = Ok labels /\ length labels = n /\
      (absolute = true -> ~ degenerate o n f \/ o_ge D o (o_median D o (all_values n f)) (f 0 (n - 1)) = false ->
       forall g i j, In g mls -> In i g -> In j g -> nth_error labels i = nth_error labels j).
  Proof.
    intros VA L G. rewrite function_run by auto. cbv zeta.
    assert (LT : forall g i, In g mls -> In i g -> i < n) by (intros g i J I; apply (gg_in _ _ G), in_concat; eauto).
    assert (NR : forall i (v : Z), i < n -> nth_error (repeat v n) i = Some v).
    { intros i v I. rewrite (nth_error_of_nth _ _ v) by (rewrite repeat_length; auto). rewrite nth_repeat. auto. }
    destruct (Nat.eqb (nrows (mtab n n f)) 1 || _) eqn:DG.
    - apply degenerate_spec in DG; auto. destruct (o_ge D o _ _).
      + eexists. split; [reflexivity|]. split; [rewrite map_length, seq_length; auto|]. intros _ [ND|Q]; [contradiction|discriminate].
      + eexists. split; [reflexivity|]. split; [apply repeat_length|]. intros _ _ g i j J I1 I2. rewrite !NR by eauto. auto.
    - destruct absolute.
      + destruct (exemplar_labels_run o VA true n (length mls) mi ci cl
            (with_preference o (meta_matrix (fun i j => o_noise D o i j (f i j)) mls) (o_median D o (flat (meta_matrix (fun i j => o_noise D o i j (f i j)) mls)))))
          as [[_ E]|(_ & _ & I' & labels & E & _ & _ & LL & _)]; rewrite E; cbn [rbind]; (eexists; split; [reflexivity|]).
        * split; [apply repeat_length|]. intros _ _ g i j J I1 I2. rewrite !NR by eauto. auto.
        * destruct (members_share n labels mls G LL) as [LM S]. rewrite gapless_length. split; auto.
          intros _ _ g i j J I1 I2. apply gapless_spec; try (rewrite LM; eauto). apply In_nth_error in J as [p P].
          assert (Lp : p < length labels) by (rewrite LL; apply nth_error_Some; congruence).
          rewrite (S p _ g i (nth_error_of_nth _ _ 0 Lp) P I1), (S p _ g j (nth_error_of_nth _ _ 0 Lp) P I2). auto.
      + destruct (exemplar_labels_run o VA false n (n + length mls) mi ci cl
            (with_preference o (block o (mtab n n (fun i j => o_noise D o i j (f i j))) (mixed_matrix n (fun i j => o_noise D o i j (f i j)) mls) (length mls)) (o_median D o (all_values n f))))
          as [[_ E]|(_ & _ & I' & labels & E & _ & _ & LL & _)]; rewrite E; cbn [rbind]; (eexists; split; [reflexivity|]).
        * split; [apply repeat_length|]. discriminate.
        * rewrite gapless_length, map_length, firstn_length, LL. split; [lia|discriminate].
  Qed.
End Function.

(** ** Calls *)
Section Calls.
  Context {vec D : Type}.
  Variable o : ops D.
  Variable similarity : list vec -> nat -> nat -> D.
  Notation cluster := (cluster vec D o similarity).

  Lemma groups_good m mls : Inv m -> Forall2 (indices_of m) (comps m) mls -> good_groups (length (ids m)) mls.
  Proof.
    intros I F. assert (P := comps_permutation m I).
    destruct (indices_partition m (comps m) mls F) as (ND & LT & LL & X).
    { eapply Permutation_NoDup; [symmetry; exact P|]. apply inv_nodup; auto. }
    constructor; auto.
    - intros g J. destruct (Forall2_In_r _ _ _ _ F J) as (c & C & E). destruct (comps_good m I c C) as [NE _].
      intros ->. unfold indices_of in E. destruct c; [congruence|discriminate].
    - intro i. split; auto. intro L. destruct (nth_error (ids m) i) as [x|] eqn:E; [|apply nth_error_None in E; lia].
      assert (J : In x (concat (comps m))) by (eapply Permutation_in; [symmetry; exact P|]; eapply nth_error_In; eauto).
      apply in_concat in J as (c & C & Xc). destruct (Forall2_In_l _ _ _ _ F C) as (g & G & E2).
      destruct (In_indices m c g x E2 Xc) as (i' & Ei & J'). assert (i = i').
      { apply (proj1 (NoDup_nth_error (ids m)) (inv_nodup m I)); auto. congruence. }
      subst i'. apply in_concat; eauto.
  Qed.

  (** A call with valid arguments. *)
  Lemma affinity_run p m vectors s : Inv m -> ids m <> [] -> (forall x, In x (ids m) -> In x (keys vectors)) -> 
    exists rows mls cls, vectors_are vectors (ids m) rows /\ length rows = length (ids m) /\
      must_link_indices m (ids m) = Ok mls /\ Forall2 (indices_of m) (comps m) mls /\ cl_below (length (ids m)) cls /\
      cluster p m vectors None s =
      match affinity_propagation_constrained o (mtab (length rows) (length rows) (similarity rows)) mls cls (ap_absolute p) (ap_max_iteration p) (ap_convergence_iteration p) with
      | Ok labels => match labelled (ids m) labels with
                     | Ok d => match rename_clusters_by_order d with Ok d => (Some d, Ok d) | Raise e => (None, Raise e) end
                     | Raise e => (None, Raise e)
                     end
      | Raise e => (None, Raise e)
      end.
  Proof.
    intros I NE COV. destruct (rows_for m vectors COV (ids m) (incl_refl _)) as (rows & ER & V & LR).
    destruct (must_link_indices_run m I) as (mls & EM & FM). destruct (cannot_link_pairs_run m I) as (cls & EC & BC).
    exists rows, mls, cls. split; auto. split; auto. split; auto. split; auto. split; auto.
    unfold Affinity.cluster, bind, lift, modify. rewrite ask_managed by auto. rewrite ER, EM, EC.
    destruct rows as [|r rows]; [destruct (ids m); [congruence|discriminate]|]. cbn [ret].
    destruct (affinity_propagation_constrained _ _ _ _ _ _ _) as [labels|e]; [|reflexivity].
    destruct (labelled (ids m) labels) as [d|e]; [|reflexivity]. destruct (rename_clusters_by_order d); reflexivity.
  Qed.

  (** The whole call. *)
  Lemma affinity_total p m vectors s : valid_argmax o -> Inv m -> ids m <> [] -> (forall x, In x (ids m) -> In x (keys vectors)) ->
    exists rows mls cls labels d, vectors_are vectors (ids m) rows /\ length rows = length (ids m) /\
      must_link_indices m (ids m) = Ok mls /\ Forall2 (indices_of m) (comps m) mls /\ good_groups (length (ids m)) mls /\ cl_below (length (ids m)) cls /\
      affinity_propagation_constrained o (mtab (length (ids m)) (length (ids m)) (similarity rows)) mls cls (ap_absolute p) (ap_max_iteration p) (ap_convergence_iteration p) = Ok labels /\
      length labels = length (ids m) /\
      cluster p m vectors None s = (Some d, Ok d) /\ canonical d /\ covers_exactly m d /\ grouped_by (ids m) labels d.
  Proof.
    intros VA I NE COV. destruct (affinity_run p m vectors s I NE COV) as (rows & mls & cls & V & LR & EM & FM & BC & E).
    assert (L1 : 1 <= length (ids m)) by (destruct (ids m); [congruence|simpl; lia]).
    assert (G := groups_good m mls I FM).
    destruct (function_total o (length (ids m)) (similarity rows) mls cls (ap_absolute p) (ap_max_iteration p) (ap_convergence_iteration p) VA L1 G) as (labels & EL & LL & _).
    destruct (labelled_renamed m labels I LL) as (d0 & d & E0 & E1 & C & Co & GB).
    exists rows, mls, cls, labels, d. rewrite LR, EL, E0, E1 in E. auto 15.
  Qed.

  Lemma affinity_fails p m vectors nb s : Inv m ->
    (nb <> None -> cluster p m vectors nb s = (s, Raise ValueError)) /\
    (nb = None -> (ids m = [] -> cluster p m vectors nb s = (None, Raise ValueError)) /\
       ((exists x, In x (ids m) /\ ~ In x (keys vectors)) -> cluster p m vectors nb s = (None, Raise KeyError))).
  Proof.
    intro I. unfold Affinity.cluster, bind, lift, modify. rewrite ask_managed by auto. split.
    - intro N. destruct nb; [reflexivity|congruence].
    - intros ->. split.
      + intros ->. reflexivity.
      + intro Mi. rewrite rmap_missing by auto. reflexivity.
  Qed.

  Lemma affinity_cases m vectors (nb : option Z) :
    nb <> None \/ (nb = None /\ (ids m = [] \/ (ids m <> [] /\ ((exists x, In x (ids m) /\ ~ In x (keys (V := vec) vectors)) \/ (forall x, In x (ids m) -> In x (keys vectors)))))).
  Proof.
    destruct nb as [n|]; [left; discriminate|]. right. split; auto.
    destruct (list_eq_dec (fun x y : pystr => eq_dec_of x y) (ids m) []) as [E0|NE]; auto. right. split; auto.
    destruct (missing_dec vectors (ids m)); auto.
  Qed.

  (** A successful call. *)
  Lemma affinity_ok p m vectors nb s s' d : valid_argmax o -> Inv m -> cluster p m vectors nb s = (s', Ok d) ->
    nb = None /\ s' = Some d /\ ids m <> [] /\ (forall x, In x (ids m) -> In x (keys vectors)) /\
    exists rows mls cls labels, vectors_are vectors (ids m) rows /\ length rows = length (ids m) /\
      must_link_indices m (ids m) = Ok mls /\ Forall2 (indices_of m) (comps m) mls /\ good_groups (length (ids m)) mls /\ cl_below (length (ids m)) cls /\
      affinity_propagation_constrained o (mtab (length (ids m)) (length (ids m)) (similarity rows)) mls cls (ap_absolute p) (ap_max_iteration p) (ap_convergence_iteration p) = Ok labels /\
      length labels = length (ids m) /\ canonical d /\ covers_exactly m d /\ grouped_by (ids m) labels d.
  Proof.
    intros VA I E. destruct (affinity_fails p m vectors nb s I) as [F1 F2].
    destruct (affinity_cases m vectors nb) as [B|(-> & [E0|(NE & [Mi|COV])])].
    - rewrite F1 in E by auto. discriminate.
    - rewrite (proj1 (F2 eq_refl)) in E by auto. discriminate.
    - rewrite (proj2 (F2 eq_refl)) in E by auto. discriminate.
    - destruct (affinity_total p m vectors s VA I NE COV) as (rows & mls & cls & labels & d' & V & LR & EM & FM & G & B & EL & LL & Ec & C & Co & GB).
      rewrite Ec in E. injection E as <- <-. split; auto. split; auto. split; auto. split; auto. exists rows, mls, cls, labels. auto 15.
  Qed.
End Calls.

Lemma vectors_are_length {vec} (vectors : dict pystr vec) l rows : vectors_are vectors l rows -> length rows = length l.
Proof. unfold vectors_are. intro V. apply (f_equal (@length _)) in V. rewrite !map_length in V. auto. Qed.
Lemma vectors_are_unique {vec} (vectors : dict pystr vec) l r1 r2 : vectors_are vectors l r1 -> vectors_are vectors l r2 -> r1 = r2.
Proof. intros V1 V2. apply map_Some_inj; unfold vectors_are in *; congruence. Qed.

Lemma comp_nth m a b : Inv m -> In a (ids m) -> In b (ids m) -> inferred m a b (Some MUST_LINK) -> exists c, In c (comps m) /\ In a c /\ In b c.
Proof. intros I A B H. apply comps_common; auto. apply inferred_ml in H; auto. apply ml_linked in H; auto. Qed.

(*PROP C44 refuted: two IDs linked by MUST_LINK are separated, with absolute_must_links and exact arithmetic. *)
Lemma C44_affinity_must_links_refuted_proof :
  ~ (forall vec D (o : ops D) similarity fin le p m (vectors : dict pystr vec) s d,
       exact o fin le -> reachable m -> ap_absolute p = true ->
       result (cluster vec D o similarity p m vectors None) s = Ok d -> respects_must_links m d).
Proof.
  intro H. set (m := run [CallAddConstraint A B MUST_LINK 1%Q] (init [A; B])).
  assert (Q : respects_must_links m [(A, 0); (B, 1)]%Z).
  { apply (H Z num exact_ops line nfin nle (params true) m vecs None _ exact_ops_exact).
    - apply run_reachable.
    - reflexivity.
    - vm_compute; reflexivity. }
  specialize (Q A B). assert (X : dget A [(A, 0); (B, 1)]%Z = dget B [(A, 0); (B, 1)]%Z).
  { apply Q; [eexists; split; [reflexivity|vm_compute; tauto]|eexists; split; [reflexivity|vm_compute; tauto]|]. vm_compute. reflexivity. }
  discriminate X.
Qed.

(*PROP C44, proved part: with absolute_must_links, IDs inferred MUST_LINK share a cluster unless the case of equal similarities gives every data its own cluster. *)
Lemma C44_affinity_must_links_partial_proof :
  forall vec D (o : ops D) similarity p m (vectors : dict pystr vec) s d l rows,
    valid_argmax o -> reachable m -> ask get_list_of_managed_data_IDs m = Ok l -> vectors_are vectors l rows -> ap_absolute p = true ->
    ~ degenerate o (length l) (similarity rows) \/ o_ge D o (o_median D o (all_values (length l) (similarity rows))) (similarity rows 0 (length l - 1)) = false ->
    result (cluster vec D o similarity p m vectors None) s = Ok d -> respects_must_links m d.
Proof.
  intros vec D o similarity p m vectors s d l rows VA R El V AB ND E a b Ma Mb H. apply reachable_inv in R.
  rewrite ask_managed in El by auto. injection El as <-. apply managed_ids in Ma, Mb. unfold result in E.
  destruct (cluster vec D o similarity p m vectors None s) as [s' r] eqn:EC. cbn [snd] in E. subst r.
  destruct (affinity_ok o similarity p m vectors None s s' d VA R EC) as (_ & _ & NE & _ & rows' & mls & cls & labels & V' & LR & EM & FM & G & B & EL & LL & C & Co & GB).
  rewrite (vectors_are_unique _ _ _ _ V' V) in *. clear V'. rewrite AB in EL.
  assert (L1 : 1 <= length (ids m)) by (destruct (ids m); [congruence|simpl; lia]).
  destruct (function_total o (length (ids m)) (similarity rows) mls cls true (ap_max_iteration p) (ap_convergence_iteration p) VA L1 G) as (labels' & EL' & _ & S).
  rewrite EL in EL'. injection EL' as <-.
  destruct (comp_nth m a b R Ma Mb H) as (c & Cc & Ca & Cb). destruct (Forall2_In_l _ _ _ _ FM Cc) as (g & Gg & X).
  destruct (In_indices m c g a X Ca) as (i & Ei & Ii). destruct (In_indices m c g b X Cb) as (j & Ej & Ij).
  apply (GB i j a b Ei Ej). apply (S eq_refl ND g i j Gg Ii Ij).
Qed.

(*EX
(** [a] and [c] are linked and share a cluster; the similarities are not degenerate. *)
Example C44_ex : vectors_are vecs [A; B; C; E; F] [0; 1; 3; 112; 110]%Z /\ ~ degenerate exact_ops 5 (line [0; 1; 3; 112; 110]%Z) /\
  ask (get_inferred_constraint A C) ex = Ok (Some MUST_LINK) /\ affinity_Z (params true) ex vecs None = Ok [(A, 0); (B, 0); (C, 0); (E, 1); (F, 1)]%Z.
Proof.
  split; [reflexivity|]. split; [|split; vm_compute; reflexivity].
  intros [Q|[_ Q]]; [discriminate|]. specialize (Q 0 2 ltac:(lia) ltac:(lia) ltac:(lia)). vm_compute in Q. discriminate.
Qed.
(** Two linked IDs are separated: there is only one similarity. *)
Example C44_separated : affinity_Z (params true) (run [CallAddConstraint A B MUST_LINK 1%Q] (init [A; B])) vecs None = Ok [(A, 0); (B, 1)]%Z.
Proof. vm_compute; reflexivity. Qed.
EX*)

(*PROP C45 refuted: IDs linked by CANNOT_LINK share a cluster, with exact arithmetic. *)
Lemma C45_affinity_cannot_links_refuted_proof :
  ~ (forall vec D (o : ops D) similarity fin le p m (vectors : dict pystr vec) s d,
       exact o fin le -> reachable m ->
       result (cluster vec D o similarity p m vectors None) s = Ok d -> respects_cannot_links m d).
Proof.
  intro H.
  assert (Q : respects_cannot_links ex [(A, 0); (B, 0); (C, 0); (E, 1); (F, 1)]%Z).
  { apply (H Z num exact_ops line nfin nle (params true) ex vecs None _ exact_ops_exact).
    - apply run_reachable.
    - vm_compute; reflexivity. }
  apply (Q A B); [eexists; split; [reflexivity|vm_compute; tauto]|eexists; split; [reflexivity|vm_compute; tauto]|vm_compute; reflexivity|]. reflexivity.
Qed.

(*EX
Example C45_violated : ask (get_inferred_constraint A B) ex = Ok (Some CANNOT_LINK) /\
  affinity_Z (params true) ex vecs None = Ok [(A, 0); (B, 0); (C, 0); (E, 1); (F, 1)]%Z.
Proof. split; vm_compute; reflexivity. Qed.
EX*)

(** ** Cannot-links do not matter *)
Section Ignored.
  Variables vec D : Type.
  Variable o : ops D.
  Variable similarity : list vec -> nat -> nat -> D.

  Lemma same_questions p m1 m2 (vectors : dict pystr vec) nb s : Inv m1 -> Inv m2 -> ids m1 = ids m2 -> comps m1 = comps m2 ->
    cluster vec D o similarity p m1 vectors nb s = cluster vec D o similarity p m2 vectors nb s.
  Proof.
    intros I1 I2 EI EC. unfold cluster, bind, lift, modify. rewrite !ask_managed by auto. rewrite <- EI.
    destruct nb; [reflexivity|]. destruct (rmap _ (ids m1)) as [rows|e] eqn:ER; [|reflexivity].
    destruct rows as [|r rows]; [reflexivity|]. cbn [ret].
    assert (EM : must_link_indices m1 (ids m1) = must_link_indices m2 (ids m1)) by (unfold must_link_indices; rewrite !ask_components, EC by auto; reflexivity).
    rewrite EM. destruct (must_link_indices m2 (ids m1)) as [mls|e]; [|reflexivity].
    destruct (cannot_link_pairs_run m1 I1) as (c1 & E1 & B1). destruct (cannot_link_pairs_run m2 I2) as (c2 & E2 & B2).
    rewrite <- EI in E2, B2. rewrite E1, E2.
    assert (LR : length (r :: rows) = length (ids m1)).
    { clear - ER. revert ER. generalize (r :: rows). generalize (ids m1). intro l. induction l as [|x l IH]; intros rs E; cbn [rmap] in E; [injection E as <-; auto|].
      destruct (dlookup x vectors); [|discriminate]. cbn [rbind] in E. destruct (rmap _ l) as [q|]; [|discriminate]. injection E as <-. simpl. f_equal. auto. }
    rewrite (affinity_cl o _ mls c1 c2); [reflexivity| |]; unfold cl_below; rewrite nrows_mtab, LR; auto.
  Qed.
End Ignored.

Lemma comps_same m1 m2 : ids m1 = ids m2 -> (forall x, comp_of m1 x = comp_of m2 x) -> comps m1 = comps m2.
Proof.
  intros EI EC. unfold comps. rewrite EI. generalize (ids m2). intro l. generalize (@nil (list pystr)). induction l as [|x l IH]; intro acc; simpl; auto.
  rewrite EC. apply IH.
Qed.

Definition same_comps (m1 m2 : mgr) : Prop := ids m1 = ids m2 /\ forall x, comp_of m1 x = comp_of m2 x.
Lemma same_comps_trans a b c : same_comps a b -> same_comps b c -> same_comps a c.
Proof. intros [A1 A2] [B1 B2]. split; [congruence|]. intro x. rewrite A2. auto. Qed.

Lemma set_cl_same x l m m' : set_cl x l m = (m', Ok tt) -> same_comps m m'.
Proof.
  unfold set_cl, get_trans, gets, bind, lift, modify. destruct (dlookup x (ctrans m)) as [t|e] eqn:L; [|discriminate].
  intro E. injection E as <-. split; [reflexivity|]. intro y. unfold comp_of. cbn [ctrans].
  destruct (eq_dec_of y x) as [->|N]; [rewrite dget_dset_same|rewrite dget_dset_other; auto].
  unfold dlookup in L. destruct (dget x (ctrans m)); [|discriminate]. injection L as <-. auto.
Qed.
Lemma for_cl_same l f : forall m m', for_ l (fun x => set_cl x f) m = (m', Ok tt) -> same_comps m m'.
Proof.
  induction l as [|x l IH]; intros m m' E; cbn [for_] in E.
  - injection E as <-. split; auto.
  - unfold bind in E. destruct (set_cl x f m) as [m1 [[]|e]] eqn:E1; [|discriminate].
    eapply same_comps_trans; [eapply set_cl_same; eauto|]. apply IH; auto.
Qed.

Lemma bind_inv {S X Y} (q : M S X) (f : X -> M S Y) s s' r : bind q f s = (s', Ok r) -> exists s1 x, q s = (s1, Ok x) /\ f x s1 = (s', Ok r).
Proof. unfold bind. destruct (q s) as [s1 [x|e]]; [eauto|discriminate]. Qed.

Lemma set_constraint_same x y v m m' : set_constraint x y v m = (m', Ok tt) -> same_comps m m'.
Proof.
  unfold set_constraint, bind, gets, lift, modify. destruct (dlookup x (cdict m)) as [row|e] eqn:L; [|discriminate].
  intro E. injection E as <-. split; [|reflexivity]. cbn [cdict]. symmetry. apply keys_dset_in.
  unfold dlookup in L. destruct (dget x (cdict m)) eqn:G; [|discriminate]. eapply dget_Some_key; eauto.
Qed.
Lemma get_trans_same x m m' t : get_trans x m = (m', Ok t) -> m' = m.
Proof. unfold get_trans, bind, gets, lift. destruct (dlookup x (ctrans m)); congruence. Qed.

Lemma add_cannot_same m a b v m' r : Inv m -> add_constraint a b CANNOT_LINK v m = (m', Ok r) -> same_comps m m'.
Proof.
  intros I E. unfold add_constraint in E.
  apply bind_inv in E as (m1 & k1 & E1 & E). unfold in_dict, gets in E1. injection E1 as <- E1.
  apply bind_inv in E as (m2 & u1 & E2 & E). assert (m2 = m /\ k1 = true) as [-> ->].
  { clear - E2. destruct k1; cbn in E2; [|discriminate]. injection E2 as <- _. auto. }
  apply bind_inv in E as (m3 & k2 & E3 & E). unfold in_dict, gets in E3. injection E3 as <- E3.
  apply bind_inv in E as (m4 & u2 & E4 & E). assert (m4 = m /\ k2 = true) as [-> ->].
  { clear - E4. destruct k2; cbn in E4; [|discriminate]. injection E4 as <- _. auto. }
  apply bind_inv in E as (m5 & u3 & E5 & E). assert (m5 = m) as ->.
  { clear - E5. destruct (mem CANNOT_LINK allowed_types); cbn in E5; [|discriminate]. injection E5 as <- _. auto. }
  assert (Bo : both m a b = true) by (apply both_true; split; apply mem_In; auto).
  apply bind_inv in E as (m6 & inf & E6 & E). rewrite run_inferred in E6 by auto. rewrite Bo in E6. injection E6 as <- _.
  apply bind_inv in E as (m7 & u4 & E7 & E). assert (m7 = m) as ->.
  { clear - E7. destruct inf as [t|]; [|injection E7 as <- _; auto]. destruct (eqb t CANNOT_LINK); [injection E7 as <- _; auto|discriminate]. }
  apply bind_inv in E as (m8 & ad & E8 & E). rewrite run_added in E8 by auto. rewrite Bo in E8. injection E8 as <- _.
  destruct ad as [c|]; [cbn in E; injection E as <- _; split; auto|].
  apply bind_inv in E as (m9 & [] & E9 & E). assert (S9 : same_comps m m9) by (destruct (str_leb a b); eapply set_constraint_same; eauto).
  apply bind_inv in E as (m10 & b10 & E10 & E). cbn in E. injection E as <- _.
  unfold add_constraint_transitivity in E10. replace (eqb CANNOT_LINK MUST_LINK) with false in E10 by reflexivity.
  apply bind_inv in E10 as (m11 & [] & E11 & E12). cbn in E12. injection E12 as <- _.
  apply bind_inv in E11 as (x1 & t1 & Q1 & E11). apply get_trans_same in Q1 as ->.
  apply bind_inv in E11 as (x2 & t2 & Q2 & E11). apply get_trans_same in Q2 as ->.
  apply bind_inv in E11 as (x3 & t3 & Q3 & E11). apply get_trans_same in Q3 as ->.
  apply bind_inv in E11 as (x4 & [] & Q4 & E11). apply for_cl_same in Q4.
  apply bind_inv in E11 as (x5 & t5 & Q5 & E11). apply get_trans_same in Q5 as ->. apply for_cl_same in E11.
  eapply same_comps_trans; [exact S9|]. eapply same_comps_trans; eauto.
Qed.

(*PROP C45: what is true instead: CANNOT_LINK constraints have no influence at all, for any arithmetic.  The result only depends on the IDs and on the components; in particular adding a CANNOT_LINK never changes it. *)
Lemma C45_cannot_links_ignored_proof :
  forall vec D (o : ops D) similarity p (vectors : dict pystr vec) nb s,
    (forall m1 m2, reachable m1 -> reachable m2 ->
       ask get_list_of_managed_data_IDs m1 = ask get_list_of_managed_data_IDs m2 ->
       ask get_connected_components m1 = ask get_connected_components m2 ->
       cluster vec D o similarity p m1 vectors nb s = cluster vec D o similarity p m2 vectors nb s) /\
    (forall m m' a b v r, reachable m -> add_constraint a b CANNOT_LINK v m = (m', Ok r) ->
       cluster vec D o similarity p m' vectors nb s = cluster vec D o similarity p m vectors nb s).
Proof.
  intros vec D o similarity p vectors nb s. split.
  - intros m1 m2 R1 R2 EI EC. apply reachable_inv in R1, R2. rewrite !ask_managed in EI by auto. rewrite !ask_components in EC by auto.
    injection EI as EI. injection EC as EC. apply same_questions; auto.
  - intros m m' a b v r R E. assert (R' : reachable m').
    { replace m' with (run [CallAddConstraint a b CANNOT_LINK v] m); [apply run_reachable_from; auto|]. cbn [run fold_left exec]. unfold run, bind. cbn [fold_left exec]. unfold bind. rewrite E. reflexivity. }
    assert (Q := add_cannot_same m a b v m' r (reachable_inv m R) E). apply reachable_inv in R, R'. symmetry. apply same_questions; auto; [apply Q|].
    apply comps_same; apply Q.
Qed.

(*EX
Example C45_ignored_ex :
  affinity_Z (params true) (run [CallAddConstraint A C MUST_LINK 1%Q] (init [A; B; C; E; F])) vecs None = affinity_Z (params true) ex vecs None /\
  affinity_Z (params false) (run [CallAddConstraint A C MUST_LINK 1%Q] (init [A; B; C; E; F])) vecs None = affinity_Z (params false) ex vecs None.
Proof. split; vm_compute; reflexivity. Qed.
EX*)

(*PROP C69: a successful call gives every managed ID a cluster, numbered canonically, and stores the result. *)
Lemma C69_affinity_canonical_proof :
  forall vec D (o : ops D) similarity p m (vectors : dict pystr vec) nb s s' d,
    valid_argmax o -> reachable m -> cluster vec D o similarity p m vectors nb s = (s', Ok d) ->
    canonical d /\ covers_exactly m d /\ s' = Some d.
Proof.
  intros vec D o similarity p m vectors nb s s' d VA R E. apply reachable_inv in R.
  destruct (affinity_ok o similarity p m vectors nb s s' d VA R E) as (_ & -> & _ & _ & rows & mls & cls & labels & _ & _ & _ & _ & _ & _ & _ & _ & C & Co & _). auto.
Qed.

(*PROP C69: affinity propagation raises exactly when a number of clusters is given, when there is no ID or when a vector is missing; message passing never fails. *)
Lemma C69_affinity_errors_proof :
  forall vec D (o : ops D) similarity p m (vectors : dict pystr vec) nb s e,
    valid_argmax o -> reachable m ->
    (result (cluster vec D o similarity p m vectors nb) s = Raise e <->
     (e = ValueError /\ (nb <> None \/ ~ has_ids m)) \/
     (e = KeyError /\ nb = None /\ exists x, managed m x /\ ~ In x (keys vectors))).
Proof.
  intros vec D o similarity p m vectors nb s e VA R. apply reachable_inv in R.
  destruct (affinity_fails o similarity p m vectors nb s R) as [F1 F2]. unfold result.
  assert (Mi0 : (exists x, managed m x /\ ~ In x (keys vectors)) <-> exists x, In x (ids m) /\ ~ In x (keys vectors)).
  { split; intros (x & X & Y); exists x; split; auto; apply managed_ids; auto. }
  rewrite Mi0. clear Mi0.
  destruct (affinity_cases m vectors nb) as [B|(-> & [E0|(NE & [Mi|COV])])].
  - rewrite F1 by auto. cbn [snd]. split; [intro E; injection E as <-; auto|]. intros [[-> _]|(_ & N & _)]; auto. contradiction.
  - rewrite (proj1 (F2 eq_refl)) by auto. cbn [snd]. split.
    + intro E. injection E as <-. left. split; auto. right. intro HI. apply has_ids_spec in HI. auto.
    + intros [[-> _]|(_ & _ & x & X & _)]; auto. rewrite E0 in X. destruct X.
  - rewrite (proj2 (F2 eq_refl)) by auto. cbn [snd]. split.
    + intro E. injection E as <-. right. auto.
    + intros [(_ & [Nn|Nn])|(-> & _)]; auto; exfalso; [congruence|apply Nn, has_ids_spec; auto].
  - destruct (affinity_total o similarity p m vectors s VA R NE COV) as (rows & mls & cls & labels & d & _ & _ & _ & _ & _ & _ & _ & _ & Ec & _). rewrite Ec.
    cbn [snd]. split; [discriminate|]. intros [(_ & [Nn|Nn])|(_ & _ & x & X & Nx)]; exfalso; [congruence|apply Nn, has_ids_spec; auto|apply Nx; auto].
Qed.

(*PROP C69: the constructor accepts exactly positive numbers of iterations. *)
Lemma C69_affinity_constructor_proof :
  forall max_iteration convergence_iteration absolute,
    (forall p, make_affinity max_iteration convergence_iteration absolute = Ok p <->
       (1 <= max_iteration)%Z /\ (1 <= convergence_iteration)%Z /\
       Z.of_nat (ap_max_iteration p) = max_iteration /\ Z.of_nat (ap_convergence_iteration p) = convergence_iteration /\ ap_absolute p = absolute) /\
    ((max_iteration < 1)%Z \/ (convergence_iteration < 1)%Z -> make_affinity max_iteration convergence_iteration absolute = Raise ValueError).
Proof.
  intros mi ci ab. unfold make_affinity. destruct (Z.ltb_spec mi 1); [split; auto; intro p; split; [discriminate|lia]|].
  destruct (Z.ltb_spec ci 1); [split; auto; intro p; split; [discriminate|lia]|]. split; [|lia].
  intros [a b c]. cbn [ap_max_iteration ap_convergence_iteration ap_absolute]. split.
  - intro E. injection E as <- <- <-. rewrite !Z2Nat.id by lia. auto.
  - intros (_ & _ & <- & <- & ->). rewrite !Nat2Z.id. auto.
Qed.

(*EX
Example C69_ex : affinity_Z (params true) ex vecs None = Ok [(A, 0); (B, 0); (C, 0); (E, 1); (F, 1)]%Z /\
  affinity_Z (params true) ex vecs (Some 2%Z) = Raise ValueError /\ affinity_Z (params true) ex [(A, 0)]%Z None = Raise KeyError /\
  affinity_Z (params true) (init []) vecs None = Raise ValueError /\
  make_affinity 500 15 true = Ok (mkAPParams 500 15 true) /\ make_affinity 0 15 true = Raise ValueError /\ make_affinity 500 0 true = Raise ValueError.
Proof. repeat split; vm_compute; reflexivity. Qed.
EX*)

Lemma canonical_single d : canonical d -> (forall x y, In x (keys d) -> In y (keys d) -> dget x d = dget y d) -> forall x, In x (keys d) -> dget x d = Some 0%Z.
Proof.
  intros [S FA] H x X. destruct d as [|[k v] d]; [destruct X|]. cbn in FA. destruct FA as [Q _].
  rewrite (H x k X (or_introl eq_refl)). unfold dget. cbn. rewrite eqb_refl. f_equal. lia.
Qed.

(*PROP C70: when the maximal number of iterations does not exceed the convergence window (for instance max_iteration=15), the run cannot converge: all the data end in one cluster, apart from the case of equal similarities. *)
Lemma C70_affinity_short_run_proof :
  forall vec D (o : ops D) similarity p m (vectors : dict pystr vec) s l rows,
    valid_argmax o -> reachable m -> ask get_list_of_managed_data_IDs m = Ok l -> l <> [] -> vectors_are vectors l rows ->
    ap_max_iteration p <= ap_convergence_iteration p -> ~ degenerate o (length l) (similarity rows) ->
    exists d, result (cluster vec D o similarity p m vectors None) s = Ok d /\ forall x, managed m x -> dget x d = Some 0%Z.
Proof.
  intros vec D o similarity p m vectors s l rows VA R El NE V LE ND. apply reachable_inv in R.
  rewrite ask_managed in El by auto. injection El as <-.
  assert (COV : forall x, In x (ids m) -> In x (keys vectors)).
  { intros x X. unfold vectors_are in V. apply (in_map (fun x => dget x vectors)) in X. rewrite V in X. apply in_map_iff in X as (r & Q & _).
    eapply dget_Some_key. symmetry. exact Q. }
  destruct (affinity_total o similarity p m vectors s VA R NE COV) as (rows' & mls & cls & labels & d & V' & LR & _ & FM & G & B & EL & LL & Ec & C & Co & GB).
  rewrite (vectors_are_unique _ _ _ _ V' V) in *. clear V'. exists d. unfold result. rewrite Ec. split; auto.
  assert (L1 : 1 <= length (ids m)) by (destruct (ids m); [congruence|simpl; lia]).
  rewrite function_run in EL by auto. cbv zeta in EL.
  destruct (Nat.eqb (nrows _) 1 || _) eqn:DG; [apply degenerate_spec in DG; [contradiction|auto]|].
  assert (Q : labels = repeat (-1)%Z (length (ids m))).
  { destruct (ap_absolute p); rewrite never_labels in EL by auto; cbn [rbind] in EL; congruence. }
  subst labels. intros x X. apply canonical_single; auto; [|apply Co; auto].
  intros a b Ka Kb. apply Co, managed_ids in Ka, Kb. apply In_nth_error in Ka as [i Ei], Kb as [j Ej]. apply (GB i j a b Ei Ej).
  assert (NR : forall i, i < length (ids m) -> nth_error (repeat (-1)%Z (length (ids m))) i = Some (-1)%Z).
  { intros k Lk. rewrite (nth_error_of_nth _ _ (-1)%Z) by (rewrite repeat_length; auto). rewrite nth_repeat. auto. }
  rewrite !NR; auto; apply nth_error_Some; congruence.
Qed.

(*EX
(** With 15 iterations and a window of 15 everything is in one cluster; with 150 and 10 there are two clusters. *)
Example C70_ex : affinity_Z (mkAPParams 15 15 true) ex vecs None = Ok [(A, 0); (B, 0); (C, 0); (E, 0); (F, 0)]%Z /\
  affinity_Z (mkAPParams 150 10 true) ex vecs None = Ok [(A, 0); (B, 0); (C, 0); (E, 1); (F, 1)]%Z.
Proof. split; vm_compute; reflexivity. Qed.
EX*)

(** ** The whole result, with exact arithmetic *)
Lemma map_as_seq {A B} (f : A -> B) l d : map f l = map (fun p => f (nth p l d)) (seq 0 (length l)).
Proof.
  apply (nth_ext _ _ (f d) (f d)); [rewrite !map_length, seq_length; auto|]. intros p L. rewrite map_length in L.
  rewrite map_nth. symmetry. apply (nth_seq_map (fun p => f (nth p l d))). auto.
Qed.

Section Whole.
  Context {D : Type}.
  Variable o : ops D.
  Variable fin : D -> Prop.
  Variable le : D -> D -> Prop.
  Hypothesis X : exact o fin le.
  Variable n : nat.
  Variable noisy : nat -> nat -> D.
  Hypothesis FN : forall i j, i < n -> j < n -> fin (noisy i j).
  Variable mls : list (list nat).
  Hypothesis G : good_groups n mls.

  Let LT : forall g i, In g mls -> In i g -> i < n.
  Proof. intros g i J I. apply (gg_in _ _ G), in_concat; eauto. Qed.

  Definition top (p q : nat) : D := o_pymax D o (map (fun kl => noisy (fst kl) (snd kl)) (list_prod (nth p mls []) (nth q mls []))).
  Lemma meta_top : meta_matrix o noisy mls = mtab (length mls) (length mls) top.
  Proof.
    unfold meta_matrix, mtab. rewrite (map_as_seq _ mls []). apply map_ext. intro p.
    rewrite (map_as_seq _ mls []). reflexivity.
  Qed.
  Lemma top_largest p q gp gq : nth_error mls p = Some gp -> nth_error mls q = Some gq ->
    largest le (top p q) (map (fun ij => noisy (fst ij) (snd ij)) (list_prod gp gq)).
  Proof.
    intros P Q. unfold top. rewrite (nth_of_error _ _ _ [] P), (nth_of_error _ _ _ [] Q). apply (ex_pymax o fin le X).
    apply nth_error_In, (gg_ne _ _ G) in P, Q. destruct gp, gq; try congruence. discriminate.
  Qed.
  Lemma top_fin p q : p < length mls -> q < length mls -> fin (top p q).
  Proof.
    intros P Q. pose proof (nth_error_of_nth mls p [] P) as EP. pose proof (nth_error_of_nth mls q [] Q) as EQ.
    destruct (top_largest p q _ _ EP EQ) as [J _]. apply in_map_iff in J as ([a b] & <- & J). apply in_prod_iff in J as [A B]. cbn [fst snd].
    apply FN; [eapply LT; [|exact A]|eapply LT; [|exact B]]; eapply nth_error_In; eauto.
  Qed.
  Lemma all_values_fin k f : (forall i j, i < k -> j < k -> fin (f i j)) -> forall x, In x (all_values k f) -> fin x.
  Proof using Type.
    intros H x J. unfold all_values in J. apply in_flat_map in J as (i & I & J). apply in_map_iff in J as (j & <- & J). apply in_seq in I, J. apply H; lia.
  Qed.

  Lemma absolute_labels mi ci cl : 2 <= length mls -> 0 < ci -> cl_below n cl ->
    exists s' labels, group_similarities o le noisy mls s' /\ ap_result o le (length mls) s' ci mi labels /\
      match labels with Some l => length l = length mls | None => True end /\
      exemplar_labels o true n (length mls) mi ci cl (with_preference o (meta_matrix o noisy mls) (o_median D o (flat (meta_matrix o noisy mls)))) = Ok labels.
  Proof.
    intros K2 C B. set (k := length mls) in *. rewrite meta_top. fold k. rewrite flat_mtab.
    set (pref := o_median D o (all_values k top)).
    set (s' := fun p q => if Nat.eqb p q then pref else top p q).
    assert (WE : with_preference o (mtab k k top) pref = mtab k k s').
    { unfold with_preference. rewrite nrows_mtab. apply mtab_ext. intros i j I J. unfold s'. rewrite mget_mtab by auto. auto. }
    rewrite WE.
    assert (FP : fin pref) by (apply (ex_median o fin le X), all_values_fin; intros; apply top_fin; auto).
    assert (FS : forall i j, i < k -> j < k -> fin (s' i j)) by (intros i j I J; unfold s'; destruct (i =? j); auto; apply top_fin; auto).
    destruct (ap_result_run o fin le X k K2 s' FS (mtab k k s') (fun i j I J => mget_mtab o k k s' i j I J) n mi ci true (mtab k k s')
               (fun i j I J => mget_mtab o k k s' i j I J) eq_refl cl B C) as (labels & E & AP & L).
    exists s', labels. split; [|auto]. exists top. split; [apply top_largest|]. intros p q P Q. reflexivity.
  Qed.

  Lemma mixed_labels mi ci cl preference : 1 <= n -> fin preference -> 0 < ci -> cl_below n cl ->
    exists s' labels, mixed_with_groups o le n noisy mls preference s' /\ ap_result o le (n + length mls) s' ci mi labels /\
      match labels with Some l => length l = n + length mls | None => True end /\
      exemplar_labels o false n (n + length mls) mi ci cl
        (with_preference o (block o (mtab n n noisy) (mixed_matrix o n noisy mls) (length mls)) preference) = Ok labels.
  Proof.
    intros N1 FP C B. set (k := length mls) in *. set (N := n + k) in *.
    assert (K1 : 1 <= k).
    { unfold k. destruct mls as [|g l] eqn:E; [|simpl; lia]. exfalso. assert (Q : In 0 (concat (@nil (list nat)))) by (apply (gg_in _ _ G); lia). destruct Q. }
    set (low := o_double D o (o_min D o (all_values n noisy))).
    set (mps := fun i p => if existsb (Nat.eqb i) (nth p mls []) then o_zero D o else o_pymax D o (map (noisy i) (nth p mls []))).
    assert (ME : mixed_matrix o n noisy mls = mtab n k mps).
    { unfold mixed_matrix, mtab. apply map_ext. intro i. rewrite (map_as_seq _ mls []). reflexivity. }
    set (s' := fun i j => if Nat.eqb i j then preference
                          else if i <? n then if j <? n then noisy i j else mps i (j - n) else if j <? n then mps j (i - n) else low).
    assert (WE : with_preference o (block o (mtab n n noisy) (mixed_matrix o n noisy mls) k) preference = mtab N N s').
    { unfold with_preference, block. rewrite ME, !nrows_mtab, flat_mtab. fold N. apply mtab_ext. intros i j I J. unfold s'. destruct (i =? j); auto.
      rewrite mget_mtab by auto. destruct (Nat.ltb_spec i n), (Nat.ltb_spec j n); auto; rewrite mget_mtab by (unfold N in *; lia); auto. }
    rewrite WE.
    assert (MPS : forall i p g, i < n -> nth_error mls p = Some g ->
              (In i g -> mps i p = o_zero D o) /\ (~ In i g -> largest le (mps i p) (map (noisy i) g))).
    { intros i p g I P. unfold mps. rewrite (nth_of_error _ _ _ [] P). split.
      - intro J. replace (existsb (Nat.eqb i) g) with true; auto. symmetry. apply existsb_exists. exists i. split; auto. apply Nat.eqb_refl.
      - intro J. destruct (existsb (Nat.eqb i) g) eqn:Q.
        + apply existsb_exists in Q as (x & Xx & Ex). apply Nat.eqb_eq in Ex. subst x. contradiction.
        + apply (ex_pymax o fin le X). apply nth_error_In, (gg_ne _ _ G) in P. destruct g; [congruence|discriminate]. }
    assert (FM : forall i p, i < n -> p < k -> fin (mps i p)).
    { intros i p I P. pose proof (nth_error_of_nth mls p [] P) as EP. destruct (MPS i p _ I EP) as [M1 M2].
      destruct (in_dec Nat.eq_dec i (nth p mls [])) as [J|J]; [rewrite M1 by auto; apply (ex_zero o fin le X)|].
      destruct (M2 J) as [Q _]. apply in_map_iff in Q as (j & <- & Q). apply FN; auto. eapply LT; [|exact Q]. eapply nth_error_In; eauto. }
    assert (FL : fin low) by (apply (ex_low o fin le X), all_values_fin; intros; apply FN; auto).
    assert (FS : forall i j, i < N -> j < N -> fin (s' i j)).
    { intros i j I J. unfold s'. destruct (i =? j); auto. unfold N in *. destruct (Nat.ltb_spec i n), (Nat.ltb_spec j n); auto; apply FM; lia. }
    assert (SP : forall i j, i < N -> j < N -> mget o (used_Sp o n N (mtab N N s') false) i j = s' i j).
    { intros i j I J. unfold used_Sp, plain. rewrite mget_mtab by auto. rewrite mget_mtab by auto. destruct (i <? n); auto. apply (ex_zero_r o fin le X). }
    destruct (ap_result_run o fin le X N ltac:(unfold N; lia) s' FS (used_Sp o n N (mtab N N s') false) SP n mi ci false (mtab N N s')
               (fun i j I J => mget_mtab o N N s' i j I J) eq_refl cl B C) as (labels & E & AP & L).
    exists s', labels. split; [|auto]. unfold mixed_with_groups. fold k. split; [|split; [|split]].
    - intros i I. unfold s'. rewrite Nat.eqb_refl. auto.
    - intros i j I J Nij. unfold s'. destruct (Nat.eqb_spec i j); [contradiction|]. destruct (Nat.ltb_spec i n), (Nat.ltb_spec j n); auto; lia.
    - intros i p g I P. assert (Lp : p < k) by (apply nth_error_Some; congruence). unfold s'.
      destruct (Nat.eqb_spec i (n + p)); [lia|]. destruct (Nat.eqb_spec (n + p) i); [lia|].
      destruct (Nat.ltb_spec i n); [|lia]. destruct (Nat.ltb_spec (n + p) n); [lia|]. replace (n + p - n) with p by lia. split; [reflexivity|]. exact (MPS i p g I P).
    - intros p q P Q Npq. unfold s'. destruct (Nat.eqb_spec (n + p) (n + q)); [lia|]. destruct (Nat.ltb_spec (n + p) n); [lia|]. destruct (Nat.ltb_spec (n + q) n); [lia|]. reflexivity.
  Qed.
End Whole.

(** What both modes start with. *)
Lemma whole_start vec D (o : ops D) similarity p m (vectors : dict pystr vec) s l rows cs :
  valid_argmax o -> reachable m -> ask get_list_of_managed_data_IDs m = Ok l -> l <> [] -> vectors_are vectors l rows -> ask get_connected_components m = Ok cs ->
  exists mls cls labels d, Forall2 (fun c g => map (nth_error l) g = map Some c) cs mls /\ good_groups (length l) mls /\ cl_below (length l) cls /\
    affinity_propagation_constrained o (mtab (length l) (length l) (similarity rows)) mls cls (ap_absolute p) (ap_max_iteration p) (ap_convergence_iteration p) = Ok labels /\
    length labels = length l /\ result (cluster vec D o similarity p m vectors None) s = Ok d /\ grouped_by l labels d.
Proof.
  intros VA R El NE V Ec. apply reachable_inv in R. rewrite ask_managed in El by auto. injection El as <-. rewrite ask_components in Ec by auto. injection Ec as <-.
  assert (COV : forall x, In x (ids m) -> In x (keys vectors)).
  { intros x J. unfold vectors_are in V. apply (in_map (fun x => dget x vectors)) in J. rewrite V in J. apply in_map_iff in J as (r & Q & _).
    eapply dget_Some_key. symmetry. exact Q. }
  destruct (affinity_total o similarity p m vectors s VA R NE COV) as (rows' & mls & cls & labels & d & V' & LR & _ & FM & G & B & EL & LL & E & C & Co & GB).
  rewrite (vectors_are_unique _ _ _ _ V' V) in *. exists mls, cls, labels, d. unfold result. rewrite E. split; [exact FM|]. auto 10.
Qed.

(*PROP C71: in exact arithmetic and with absolute_must_links, the clusters are those of affinity propagation (Frey and Dueck) run on the components, two components being as similar as their most similar members; without convergence there is one cluster. *)
Lemma C71_affinity_absolute_proof :
  forall vec D (o : ops D) similarity fin le p m (vectors : dict pystr vec) s l rows cs,
    exact o fin le -> reachable m -> ask get_list_of_managed_data_IDs m = Ok l -> vectors_are vectors l rows -> ask get_connected_components m = Ok cs ->
    2 <= length cs -> 0 < ap_convergence_iteration p -> ap_absolute p = true -> ~ degenerate o (length l) (similarity rows) ->
    let noisy i j := o_noise D o i j (similarity rows i j) in
    (forall i j, i < length l -> j < length l -> fin (noisy i j)) ->
    exists groups s' labels d,
      Forall2 (fun c g => map (nth_error l) g = map Some c) cs groups /\
      group_similarities o le noisy groups s' /\
      ap_result o le (length cs) s' (ap_convergence_iteration p) (ap_max_iteration p) labels /\
      result (cluster vec D o similarity p m vectors None) s = Ok d /\
      forall u v cu cv a b, nth_error cs u = Some cu -> In a cu -> nth_error cs v = Some cv -> In b cv ->
        (dget a d = dget b d <-> match labels with Some labels => nth_error labels u = nth_error labels v | None => True end).
Proof.
  intros vec D o similarity fin le p m vectors s l rows cs X R El V Ec K2 CI AB ND noisy FN.
  pose proof (exact_argmax o fin le X) as VA.
  assert (LC : forall mls : list (list nat), Forall2 (fun c g => map (nth_error l) g = map Some c) cs mls -> length cs = length mls)
    by (intros mls F; clear - F; induction F; simpl; auto).
  assert (NE : l <> []).
  { intros ->. apply reachable_inv in R. rewrite ask_managed in El by auto. injection El as El. rewrite ask_components in Ec by auto. injection Ec as <-.
    unfold comps in K2. rewrite El in K2. simpl in K2. lia. }
  destruct (whole_start vec D o similarity p m vectors s l rows cs VA R El NE V Ec) as (mls & cls & labels & d & F & G & B & EL & LL & E & GB).
  assert (L1 : 1 <= length l) by (destruct l; [congruence|simpl; lia]).
  rewrite function_run in EL by auto. cbv zeta in EL. rewrite AB in EL.
  destruct (Nat.eqb (nrows _) 1 || _) eqn:DG; [apply degenerate_spec in DG; [contradiction|auto]|].
  destruct (absolute_labels o fin le X (length l) noisy FN mls G (ap_max_iteration p) (ap_convergence_iteration p) cls) as (s' & lab & GS & AP & Ll & EX); auto.
  { rewrite <- (LC mls F). auto. }
  unfold noisy in EX at 1 2. rewrite EX in EL. cbn [rbind] in EL. exists mls, s', lab, d. split; auto. split; auto. split; [rewrite (LC mls F); auto|]. split; auto.
  intros u v cu cv a b U A Vv Bb. clear EX.
  assert (IX : forall u cu a, nth_error cs u = Some cu -> In a cu -> exists g i, nth_error mls u = Some g /\ nth_error l i = Some a /\ In i g).
  { clear - F. intros u cu a U A. revert u U. induction F as [|c g cs mls Q F IH]; intros [|u] U; cbn [nth_error] in U; try discriminate.
    - injection U as ->. exists g. assert (Z : exists i, nth_error l i = Some a /\ In i g).
      { apply (in_map Some) in A. rewrite <- Q in A. apply in_map_iff in A as (i & Ei & I). eauto. }
      destruct Z as (i & Ei & I). exists i. auto.
    - destruct (IH u U) as (g' & i & Gg & Z). exists g', i. auto. }
  destruct (IX u cu a U A) as (gu & i & Gu & Ei & Iu). destruct (IX v cv b Vv Bb) as (gv & j & Gv & Ej & Iv).
  rewrite (GB i j a b Ei Ej).
  assert (Li : i < length l) by (apply nth_error_Some; congruence). assert (Lj : j < length l) by (apply nth_error_Some; congruence).
  destruct lab as [lab|].
  - injection EL as <-. destruct (members_share (length l) lab mls G Ll) as [LM SM]. rewrite gapless_spec by (rewrite LM; auto).
    assert (Lu : u < length lab) by (rewrite Ll; apply nth_error_Some; congruence). assert (Lv : v < length lab) by (rewrite Ll; apply nth_error_Some; congruence).
    rewrite (SM u _ gu i (nth_error_of_nth lab u 0 Lu) Gu Iu), (SM v _ gv j (nth_error_of_nth lab v 0 Lv) Gv Iv).
    rewrite (nth_error_of_nth lab u 0 Lu), (nth_error_of_nth lab v 0 Lv). split; intro Q; injection Q as Q; [apply Nat2Z.inj in Q|]; congruence.
  - injection EL as <-. split; auto. intros _.
    rewrite !(nth_error_of_nth (repeat (-1)%Z (length l)) _ (-1)%Z) by (rewrite repeat_length; auto). rewrite !nth_repeat. auto.
Qed.

(*PROP C71: in exact arithmetic and without absolute_must_links, the clusters are those of affinity propagation run on the data and one extra point per component. *)
Lemma C71_affinity_mixed_proof :
  forall vec D (o : ops D) similarity fin le p m (vectors : dict pystr vec) s l rows cs,
    exact o fin le -> reachable m -> ask get_list_of_managed_data_IDs m = Ok l -> l <> [] -> vectors_are vectors l rows -> ask get_connected_components m = Ok cs ->
    0 < ap_convergence_iteration p -> ap_absolute p = false -> ~ degenerate o (length l) (similarity rows) ->
    let noisy i j := o_noise D o i j (similarity rows i j) in
    (forall i j, i < length l -> j < length l -> fin (similarity rows i j) /\ fin (noisy i j)) ->
    exists groups s' labels d,
      Forall2 (fun c g => map (nth_error l) g = map Some c) cs groups /\
      mixed_with_groups o le (length l) noisy groups (o_median D o (all_values (length l) (similarity rows))) s' /\
      ap_result o le (length l + length cs) s' (ap_convergence_iteration p) (ap_max_iteration p) labels /\
      result (cluster vec D o similarity p m vectors None) s = Ok d /\
      forall i j a b, nth_error l i = Some a -> nth_error l j = Some b ->
        (dget a d = dget b d <-> match labels with Some labels => nth_error labels i = nth_error labels j | None => True end).
Proof.
  intros vec D o similarity fin le p m vectors s l rows cs X R El NE V Ec CI AB ND noisy FN.
  pose proof (exact_argmax o fin le X) as VA.
  assert (LC : forall mls : list (list nat), Forall2 (fun c g => map (nth_error l) g = map Some c) cs mls -> length cs = length mls)
    by (intros mls F; clear - F; induction F; simpl; auto).
  destruct (whole_start vec D o similarity p m vectors s l rows cs VA R El NE V Ec) as (mls & cls & labels & d & F & G & B & EL & LL & E & GB).
  assert (L1 : 1 <= length l) by (destruct l; [congruence|simpl; lia]).
  rewrite function_run in EL by auto. cbv zeta in EL. rewrite AB in EL.
  destruct (Nat.eqb (nrows _) 1 || _) eqn:DG; [apply degenerate_spec in DG; [contradiction|auto]|].
  assert (FP : fin (o_median D o (all_values (length l) (similarity rows)))).
  { apply (ex_median o fin le X). apply all_values_fin. intros i j I J. apply FN; auto. }
  destruct (mixed_labels o fin le X (length l) noisy (fun i j I J => proj2 (FN i j I J)) mls G (ap_max_iteration p) (ap_convergence_iteration p) cls
              (o_median D o (all_values (length l) (similarity rows))) L1 FP CI B) as (s' & lab & MS & AP & Ll & EX).
  unfold noisy in EX at 1 2. rewrite EX in EL. cbn [rbind] in EL. exists mls, s', lab, d. split; auto. split; auto. split; [rewrite (LC mls F); auto|]. split; auto.
  intros i j a b Ei Ej. clear EX. rewrite (GB i j a b Ei Ej).
  assert (Li : i < length l) by (apply nth_error_Some; congruence). assert (Lj : j < length l) by (apply nth_error_Some; congruence).
  destruct lab as [lab|].
  - injection EL as <-. rewrite gapless_length in LL. rewrite gapless_spec by (rewrite LL; auto). rewrite !nth_error_map.
    assert (NF : forall i, i < length l -> nth_error (firstn (length l) lab) i = nth_error lab i).
    { intros k Lk. rewrite <- (firstn_skipn (length l) lab) at 2. rewrite nth_error_app1; auto. rewrite firstn_length, Ll. lia. }
    rewrite !NF by auto. rewrite (nth_error_of_nth lab i 0), (nth_error_of_nth lab j 0) by lia. cbn [option_map].
    split; intro Q; injection Q as Q; [apply Nat2Z.inj in Q|]; congruence.
  - injection EL as <-. split; auto. intros _.
    rewrite !(nth_error_of_nth (repeat (-1)%Z (length l)) _ (-1)%Z) by (rewrite repeat_length; auto). rewrite !nth_repeat. auto.
Qed.

(*EX
(** Exact arithmetic exists; four components for five IDs; finite similarities; both modes converge. *)
Example C71_ex : exact exact_ops nfin nle /\ ask get_connected_components ex = Ok [[A; C]; [B]; [E]; [F]] /\
  vectors_are vecs [A; B; C; E; F] [0; 1; 3; 112; 110]%Z /\ ~ degenerate exact_ops 5 (line [0; 1; 3; 112; 110]%Z) /\
  (forall i j, nfin (o_noise num exact_ops i j (line [0; 1; 3; 112; 110]%Z i j))) /\
  affinity_Z (params true) ex vecs None = Ok [(A, 0); (B, 0); (C, 0); (E, 1); (F, 1)]%Z /\
  affinity_Z (params false) ex vecs None = Ok [(A, 0); (B, 1); (C, 0); (E, 2); (F, 3)]%Z.
Proof.
  split; [apply exact_ops_exact|]. split; [vm_compute; reflexivity|]. split; [reflexivity|]. split; [|split; [|split; vm_compute; reflexivity]].
  - intros [Q|[_ Q]]; [discriminate|]. specialize (Q 0 2 ltac:(lia) ltac:(lia) ltac:(lia)). vm_compute in Q. discriminate.
  - intros i j. discriminate.
Qed.
EX*)

(*PROP C72: an affinity propagation object can be reused: neither the result nor the stored dictionary depends on earlier calls. *)
Lemma C72_affinity_no_memory_proof :
  forall vec D (o : ops D) similarity p m (vectors : dict pystr vec) nb s1 s2,
    result (cluster vec D o similarity p m vectors nb) s1 = result (cluster vec D o similarity p m vectors nb) s2 /\
    forall s1' s2' d1 d2, cluster vec D o similarity p m vectors nb s1 = (s1', Ok d1) ->
      cluster vec D o similarity p m vectors nb s2 = (s2', Ok d2) -> s1' = s2'.
Proof.
  intros vec D o similarity p m vectors nb s1 s2. unfold result, cluster, bind, lift, modify.
  destruct (ask get_list_of_managed_data_IDs m) as [l|e]; [|split; [reflexivity|discriminate]].
  destruct nb as [n|]; [split; [reflexivity|discriminate]|].
  destruct (rmap _ l) as [rows|e]; [|split; [reflexivity|discriminate]].
  destruct rows as [|r rows]; [split; [reflexivity|discriminate]|]. cbn [ret].
  destruct (must_link_indices m l) as [mls|e]; [|split; [reflexivity|discriminate]].
  destruct (cannot_link_pairs m l) as [cls|e]; [|split; [reflexivity|discriminate]].
  destruct (affinity_propagation_constrained _ _ _ _ _ _ _) as [labels|e]; [|split; [reflexivity|discriminate]].
  destruct (labelled l labels) as [d|e]; [|split; [reflexivity|discriminate]].
  destruct (rename_clusters_by_order d) as [d'|e]; split; try reflexivity; try discriminate.
  intros s1' s2' d1 d2 E1 E2. assert (Q : (s1', Ok d1) = (s2', Ok d2)) by (etransitivity; [symmetry; exact E1|exact E2]). congruence.
Qed.

(*EX
Example C72_ex : forall s, result (cluster Z num exact_ops line (params true) ex vecs None) s = Ok [(A, 0); (B, 0); (C, 0); (E, 1); (F, 1)]%Z.
Proof. intro s. transitivity (affinity_Z (params true) ex vecs None); [apply C72_affinity_no_memory|vm_compute; reflexivity]. Qed.
EX*)
