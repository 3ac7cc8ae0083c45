(** * Threads that cluster with affinity propagation while one thread adds constraints (C156). *)

From Coq Require Import String List Bool Arith ZArith QArith Lia Permutation.
(*HEADER
From Coq Require Import String List Bool Arith ZArith QArith Permutation Lia.
From Verif Require Import Base Manager Spec ManagerThms ManagerInv ManagerQueries Sampling SamplingSpec ClusterSpec KMeansSpec Affinity AffinitySpec AffinityExample Threads ThreadSpec ThreadsThms Readers ReadersSpec
  ReadersThms ListingSpec Listing SampleThread AffinityThread AffinityThreadSpec AffinityThreadThms.
Import ListNotations.
Open Scope nat_scope.

Definition A := str "a". Definition B := str "b". Definition C := str "c". Definition E := str "e".

HEADER*)
From Verif Require Import Base Manager Spec Closure ManagerProofs ManagerInv ManagerQueries ManagerSem ManagerThms Sampling SamplingSpec SamplingProofs SamplingThms
  Rename ClusterSpec RenameThms ClusterProofs KMeans KMeansSpec KMeansProofs KMeansThms Spectral SpectralThms HierProofs HierRun Affinity AffinitySpec AffinityProofs AffinityRun AffinityExample AffinityThms
  Threads ThreadSpec ThreadsThms Readers ReadersSpec ReadersThms Listing ListingSpec ListingThms SampleThread SampleThreadThms KMeansThread KMeansThreadThms HierThreadProofs HierThreadThms
  AffinityThread AffinityThreadSpec.
Import ListNotations.
Open Scope nat_scope.
Open Scope py_scope.

(** ** Lists of linked data that overlap *)
Lemma member_labels_loose (labels : list nat) : forall mls real, (forall g i, In g mls -> In i g -> i < length real) ->
  let r := fold_left (fun real e => fold_left (fun real i => list_set real i (Z.of_nat (fst e))) (snd e) real) (combine labels mls) real in
  length r = length real /\ forall i j, (forall g, In g mls -> In i g <-> In j g) -> nth_error real i = nth_error real j -> nth_error r i = nth_error r j.
Proof.
  induction labels as [|l labels IH]; intros mls real LT; [cbn; auto|]. destruct mls as [|ml mls]; [cbn; auto|]. cbn [combine fold_left fst snd].
  destruct (set_members (Z.of_nat l) ml real) as [L1 G1]; [intros; eapply LT; [left|]; eauto|].
  set (real1 := fold_left (fun real i => list_set real i (Z.of_nat l)) ml real) in *.
  destruct (IH mls real1) as [L2 G2]; [intros g i J I; rewrite L1; eapply LT; [right|]; eauto|]. split; [rewrite L2; auto|].
  intros i j S E. apply G2; [intros g J; apply S; right; auto|]. rewrite !G1.
  assert (X : existsb (Nat.eqb i) ml = existsb (Nat.eqb j) ml).
  { apply eq_true_iff_eq. rewrite !existsb_exists. assert (Q := S ml (or_introl eq_refl)).
    split; intros (x & Jx & Ex); apply Nat.eqb_eq in Ex; subst x; [exists j|exists i]; (split; [tauto|apply Nat.eqb_refl]). }
  rewrite X. destruct (existsb (Nat.eqb j) ml); auto.
Qed.

Lemma function_loose {D} (o : ops D) n (f : nat -> nat -> D) mls cl absolute mi ci : valid_argmax o -> 1 <= n -> (forall g, In g mls -> g <> []) -> (forall g i, In g mls -> In i g -> i < n) ->
  exists labels, affinity_propagation_constrained o (mtab n n f) mls cl absolute mi ci = Ok labels /\ length labels = n /\
    (absolute = true -> ~ degenerate o n f \/ o_ge D o (o_median D o (all_values n f)) (f 0 (n - 1)) = false ->
     forall i j, i < n -> j < n -> (forall g, In g mls -> In i g <-> In j g) -> nth_error labels i = nth_error labels j).
Proof.
  intros VA L NE LT. rewrite function_run_loose by auto. cbv zeta.
  assert (NR : forall i (v : Z), i < n -> nth_error (repeat v n) i = Some v).
  { intros i v I. rewrite (nth_error_of_nth _ _ v) by (rewrite repeat_length; auto). rewrite nth_repeat. auto. }
  destruct (Nat.eqb (nrows (mtab n n f)) 1 || _) eqn:DG.
  - apply degenerate_spec in DG; auto. destruct (o_ge D o _ _).
    + eexists. split; [reflexivity|]. split; [rewrite map_length, seq_length; auto|]. intros _ [ND|Q]; [contradiction|discriminate].
    + eexists. split; [reflexivity|]. split; [apply repeat_length|]. intros _ _ i j I J _. rewrite !NR by auto. auto.
  - destruct absolute.
    + destruct (exemplar_labels_run o VA true n (length mls) mi ci cl
          (with_preference o (meta_matrix o (fun i j => o_noise D o i j (f i j)) mls) (o_median D o (flat (meta_matrix o (fun i j => o_noise D o i j (f i j)) mls)))))
        as [[_ E]|(_ & _ & I' & labels & E & _ & _ & LL & _)]; rewrite E; cbn [rbind]; (eexists; split; [reflexivity|]).
      * split; [apply repeat_length|]. intros _ _ i j I J _. rewrite !NR by auto. auto.
      * destruct (member_labels_loose labels mls (repeat (-1)%Z n)) as [LM S]; [rewrite repeat_length; auto|]. rewrite repeat_length in LM.
        change (length (member_labels n labels mls) = n) in LM. rewrite gapless_length. split; auto.
        intros _ _ i j I J Q. apply gapless_spec; try (rewrite LM; auto). apply S; auto. rewrite !NR by auto. auto.
    + destruct (exemplar_labels_run o VA false n (n + length mls) mi ci cl
          (with_preference o (block o (mtab n n (fun i j => o_noise D o i j (f i j))) (mixed_matrix o n (fun i j => o_noise D o i j (f i j)) mls) (length mls)) (o_median D o (all_values n f))))
        as [[_ E]|(_ & _ & I' & labels & E & _ & _ & LL & _)]; rewrite E; cbn [rbind]; (eexists; split; [reflexivity|]).
      * split; [apply repeat_length|]. discriminate.
      * rewrite gapless_length, map_length, firstn_length, LL. split; [lia|discriminate].
Qed.

Lemma link_indices_run m : Inv m -> forall cs, (forall c, In c cs -> incl c (ids m)) -> exists mls, link_indices (ids m) cs = Ok mls /\ Forall2 (indices_of m) cs mls.
Proof.
  intros I cs. unfold link_indices. induction cs as [|c cs IH]; intro S; [exists []; split; [reflexivity|constructor]|].
  assert (C : exists il, rmap (fun x => dlookup x (fold_left (fun d e => dset (snd e) (fst e) d) (enum (ids m)) [])) c = Ok il /\ indices_of m c il).
  { assert (SC := S c (or_introl eq_refl)). clear - SC I. induction c as [|x c IH]; [exists []; split; reflexivity|].
    destruct IH as (il & R & X); [intros y Y; apply SC; right; auto|].
    assert (J : In x (ids m)) by (apply SC; left; auto). apply In_nth_error in J as [i E].
    exists (i :: il). cbn [rmap]. rewrite (id_index_dict m I x i E). cbn [rbind]. rewrite R. cbn [rbind]. split; auto.
    unfold indices_of in *. cbn [map]. rewrite E, X. auto. }
  destruct C as (il & R & X). destruct (IH (fun c' C' => S c' (or_intror C'))) as (mls & R2 & F).
  exists (il :: mls). cbn [rmap]. rewrite R. cbn [rbind]. rewrite R2. split; [reflexivity|constructor; auto].
Qed.

(** ** The other threads *)
Lemma silent_affinity {vec D} o similarity p vectors nb : silent (p_affinity vec D o similarity p vectors nb).
Proof.
  unfold p_affinity. apply silent_bind; [cbn; auto|]. intro l. destruct nb; [exact I|]. apply silent_bind; [exact I|]. intros [|r rows]; [exact I|].
  apply silent_bind; [apply silent_bind; [cbn; auto|intro; apply silent_collect]|]. intro. apply silent_bind; [exact I|]. intro. apply silent_bind; [|intro; exact I].
  apply silent_filter. intro. apply silent_bind; [exact I|]. intro. apply silent_bind; [exact I|]. intro. apply silent_bind; [apply silent_added|]. intro; exact I.
Qed.

Lemma cannot_pairs_right m0 cs : reachable m0 -> Forall only_adds_constraints cs -> forall l lo r hi, (forall ij, In ij l -> fst ij < length (ids m0) /\ snd ij < length (ids m0)) ->
  watch (spot m0 cs) lo (pfilter (fun ij => pbind (Done (py_nth (ids m0) (fst ij))) (fun a => pbind (Done (py_nth (ids m0) (snd ij))) (fun b =>
     pbind (p_get_added_constraint a b) (fun c => Done (Ok (match c with Some c => eqb (fst c) CANNOT_LINK | None => false end)))))) l) r hi -> exists cls, r = Ok cls.
Proof.
  intros R0 AC. induction l as [|[i j] l IH]; intros lo r hi S W; cbn [pfilter] in W.
  - apply watch_done_inv in W as [-> _]. eauto.
  - destruct (S (i, j) (or_introl eq_refl)) as [Li Lj]. cbn [fst snd] in Li, Lj. apply watch_bind in W as (x & n1 & W1 & W). cbn [fst snd] in W1. unfold py_nth in W1.
    destruct (nth_error (ids m0) i) as [a|] eqn:Ea; [|apply nth_error_None in Ea; lia]. destruct (nth_error (ids m0) j) as [b|] eqn:Eb; [|apply nth_error_None in Eb; lia]. cbn [pbind] in W1.
    apply watch_bind in W1 as (y & n2 & W0 & W1). apply (watch_impl (spot m0 cs) (seen m0 cs)) in W0; [|intros ? ? [[? ?] _]; auto]. apply nth_error_In in Ea, Eb.
    apply (added_right m0 cs R0 (adds cs AC)) in W0 as (n & _ & _ & ->); auto. rewrite run_added in W1 by (apply N_inv; auto).
    replace (both (ReadersThms.N m0 cs n) a b) with true in W1 by (symmetry; apply both_true; rewrite (N_ids m0 cs R0 AC); auto). cbn [snd] in W1.
    apply watch_done_inv in W1 as [-> _]. apply watch_bind in W as (z & n3 & W2 & W). apply IH in W2 as [cls ->]; [|intros; apply S; right; auto].
    apply watch_done_inv in W as [-> _]. eauto.
Qed.

Lemma affinity_right m0 cs : reachable m0 -> Forall only_adds_constraints cs -> forall {vec D : Type} (o : ops D) (similarity : list vec -> nat -> nat -> D) q lo r hi,
  valid_argmax o -> valid_affinity_call m0 q -> watch (spot m0 cs) lo (p_affinity vec D o similarity (fst q) (snd q) None) r hi ->
  exists d, r = Ok d /\ canonical d /\ covers_exactly m0 d /\ (links_count o similarity m0 q -> respects_must_links m0 d).
Proof.
  intros R0 AC vec D o similarity [p vectors] lo r hi VA [HI (v' & Ev & COV)] W. injection Ev as <-. cbn [fst snd] in *.
  assert (I0 := reachable_inv _ R0). assert (NE := proj1 (has_ids_spec m0) HI).
  assert (CV : forall x, In x (ids m0) -> In x (keys vectors)) by (intros x X; apply COV, managed_ids; auto).
  unfold p_affinity in W. apply watch_bind in W as (u & n1 & W1 & W). apply watch_read in W1 as (_ & s & [_ K] & ->). rewrite K in W.
  destruct (rows_for m0 vectors CV (ids m0) (incl_refl _)) as (rows & ER & V & LR). cbn [pbind] in W. rewrite ER in W.
  assert (X : exists d, (match rows with [] => Done (Raise ValueError) | _ => pbind p_get_connected_components (fun closures => pbind (Done (link_indices (ids m0) closures)) (fun must_links =>
      pbind (p_cannot_link_pairs (ids m0)) (fun cannot_links => Done (rbind (affinity_propagation_constrained o (mtab (length rows) (length rows) (similarity rows)) must_links cannot_links (ap_absolute p)
                               (ap_max_iteration p) (ap_convergence_iteration p)) (fun labels => rbind (labelled (ids m0) labels) rename_clusters_by_order))))) end) = d /\ watch (spot m0 cs) n1 d r hi).
  { eexists. split; [reflexivity|exact W]. }
  clear W. destruct X as (prog & EP & W). assert (L1 : 1 <= length (ids m0)) by (destruct (ids m0); [congruence|simpl; lia]).
  destruct rows as [|r0 rows0] eqn:Er; [simpl in LR; lia|]. rewrite <- Er in *. clear r0 rows0 Er. subst prog.
  apply watch_bind in W as (u & n2 & W1 & W). apply (listed m0 cs R0 AC) in W1 as (l & -> & LC & LA).
  destruct (link_indices_run m0 I0 l) as (mls & EM & FM); [intros c Jc; destruct (LC c Jc) as (_ & Q & _); auto|]. cbn [pbind] in W. rewrite EM in W.
  apply watch_bind in W as (u & n3 & W1 & W). apply (cannot_pairs_right m0 cs R0 AC) in W1 as [cls ->]; [|intros [i j] J; apply index_pairs_In in J; cbn; lia].
  apply watch_done_inv in W as [-> _]. rewrite LR.
  assert (LT : forall g i, In g mls -> In i g -> i < length (ids m0)).
  { intros g i G Ji. destruct (Forall2_In_r _ _ _ _ FM G) as (c & Cc & Q). destruct (indices_In m0 c g i Q Ji) as (x & Ex & _). apply nth_error_Some. congruence. }
  assert (NG : forall g, In g mls -> g <> []).
  { intros g G ->. destruct (Forall2_In_r _ _ _ _ FM G) as (c & Cc & Q). destruct (LC c Cc) as (Q1 & _). unfold indices_of in Q. destruct c; [congruence|discriminate]. }
  destruct (function_loose o (length (ids m0)) (similarity rows) mls cls (ap_absolute p) (ap_max_iteration p) (ap_convergence_iteration p) VA L1 NG LT) as (labels & EL & LL & SH).
  destruct (labelled_renamed m0 labels I0 LL) as (d0 & d & E0 & E1 & Can & Co & GB). rewrite EL. cbn [rbind]. rewrite E0. cbn [rbind]. rewrite E1.
  exists d. split; auto. split; auto. split; auto. intros (AB & l' & rows' & Hl & V' & ND) a b Ma Mb Hh. cbn [fst snd] in *. rewrite ask_managed in Hl by auto. injection Hl as <-.
  rewrite (vectors_are_unique _ _ _ _ V' V) in ND. apply managed_ids in Ma, Mb. apply inferred_ml in Hh; auto.
  destruct (In_nth_error _ _ Ma) as [i Ei]. destruct (In_nth_error _ _ Mb) as [j Ej].
  assert (Li : i < length (ids m0)) by (apply nth_error_Some; congruence). assert (Lj : j < length (ids m0)) by (apply nth_error_Some; congruence).
  apply (GB i j a b Ei Ej). apply (SH AB ND i j Li Lj). intros g G. destruct (Forall2_In_r _ _ _ _ FM G) as (c & Cc & Q). destruct (LC c Cc) as (_ & _ & CL & _).
  assert (Y : forall x y k k', nth_error (ids m0) k = Some x -> nth_error (ids m0) k' = Some y -> In x (ids m0) -> In y (ids m0) -> ml m0 x y = true -> In k g -> In k' g).
  { intros x y k k' Ex Ey Ix Iy M Jk. destruct (indices_In m0 c g k Q Jk) as (x' & Ex' & Jx). rewrite Ex in Ex'. injection Ex' as <-. apply (CL x y Ix Iy M) in Jx.
    destruct (In_indices m0 c g y Q Jx) as (k2 & E2 & J2). assert (k' = k2).
    { apply (proj1 (NoDup_nth_error (ids m0)) (inv_nodup m0 I0)); [apply nth_error_Some; congruence|congruence]. } subst k2. auto. }
  split; [apply (Y a b i j); auto|apply (Y b a j i); auto]. rewrite (ml_sym m0); auto.
Qed.

Lemma affinities_watched {vec D} (o : ops D) similarity m cs (qs : list (affinity_call vec)) m' r rs : reachable m -> Forall only_adds_constraints cs ->
  interleaved m (p_left (p_wsession cs) :: map (fun q => p_right (p_affinity vec D o similarity (fst q) (snd q) None)) qs) m' (r :: rs) ->
  (m' = run (map as_wcall cs) m /\ r = Ok (inl (snd (one_by_one (map as_wcall cs) m)))) /\
  Forall2 (fun q x => exists r0 hi, x = rbind r0 (fun d => Ok (inr d)) /\ watch (spot m cs) 0 (p_affinity vec D o similarity (fst q) (snd q) None) r0 hi) qs rs.
Proof.
  intros R AC J. destruct (both_trail m cs R AC cs 0 eq_refl (Nat.le_0_l _)) as [e T].
  assert (T2 : trail (spot m cs) 0 (p_wsession cs) m e).
  { apply trail_and; [exact T|]. destruct (sd_session cs AC m) as [S1 _]. intros x [<-|Ix]; auto. }
  assert (PE : spot m cs e (fst (alone (p_wsession cs) m))) by (eapply trail_end; eauto).
  destruct (silent_watch (spot m cs) m (p_left (p_wsession cs)) _ m' r rs 0 e J) as [E W].
  { apply Forall_forall. intros p Ip. apply in_map_iff in Ip as (q & <- & _). apply silent_bind; [apply silent_affinity|intro; exact I]. }
  { unfold p_left. eapply trail_bind; [exact T2|]. rewrite alone_wsession in *. cbn. auto. }
  unfold p_left in E. rewrite alone_bind, alone_wsession in E. cbn [alone] in E. injection E as <- <-. split; auto.
  clear J T T2 PE. revert rs W. induction qs as [|q qs IH]; intros rs W; inversion W as [|? ? ? ? [hi Hw] W']; subst; constructor; auto.
  unfold p_right in Hw. apply watch_bind in Hw as (x & n1 & H1 & H2). exists x, n1. split; auto. destruct x; [apply watch_done_inv in H2 as [-> _]|destruct H2 as [-> _]]; reflexivity.
Qed.

(*PROP C156: the clustering alone, action by action, leaves the manager as it is and ends with the result of the method. *)
Lemma C156_alone_proof : forall vec D (o : ops D) similarity p vectors nb s m, reachable m ->
  alone (p_affinity vec D o similarity p vectors nb) m = (m, result (Affinity.cluster vec D o similarity p m vectors nb) s).
Proof.
  intros vec D o similarity p vectors nb s m R. assert (I := reachable_inv _ R).
  unfold p_affinity, result, Affinity.cluster. rewrite alone_bind. cbn [p_ids pread alone]. unfold bind at 1, lift at 1. rewrite ask_managed.
  destruct nb as [nb|]; [reflexivity|]. unfold bind at 1, modify at 1. cbn [pbind]. unfold bind at 1, lift at 1.
  destruct (rmap (fun x => dlookup x vectors) (keys (cdict m))) as [[|r0 rows]|]; [reflexivity| |reflexivity]. unfold bind at 1, ret at 1.
  rewrite alone_bind, alone_components. unfold bind at 1, lift at 1. unfold must_link_indices. destruct (ask get_connected_components m) as [cl|]; cbn [rbind]; [|reflexivity].
  change (rmap _ cl) with (link_indices (keys (cdict m)) cl). destruct (link_indices (keys (cdict m)) cl) as [mls|]; [|reflexivity]. cbn [pbind].
  rewrite alone_bind. unfold p_cannot_link_pairs. erewrite alone_filter.
  2:{ intros [i j] J. cbn [fst snd]. instantiate (1 := fun ij => a <-- py_nth (keys (cdict m)) (fst ij) ;;; b <-- py_nth (keys (cdict m)) (snd ij) ;;; c <-- ask (get_added_constraint a b) m ;;;
               Ok (match c with Some c => eqb (fst c) CANNOT_LINK | None => false end)). cbn [fst snd].
      destruct (py_nth _ i) as [a|]; cbn [pbind rbind]; [|reflexivity]. destruct (py_nth _ j) as [b|]; cbn [pbind rbind]; [|reflexivity].
      rewrite alone_bind, does_added. unfold ask. rewrite run_added by auto. cbn [snd]. destruct (both m a b); reflexivity. }
  unfold bind at 1, lift at 1, cannot_link_pairs. destruct (rfilter _ _) as [cls|]; [|reflexivity]. cbn [alone]. unfold bind at 1, lift at 1.
  destruct (affinity_propagation_constrained _ _ _ _ _ _ _) as [labels|]; cbn [rbind]; [|reflexivity]. unfold bind at 1, lift at 1. destruct (labelled _ labels) as [d|]; cbn [rbind]; [|reflexivity].
  unfold bind at 1, lift at 1. destruct (rename_clusters_by_order d); reflexivity.
Qed.
(*EX
Definition ex2 : mgr := run [CallAddConstraint A C MUST_LINK 1%Q] (init [A; B; C; E]).
Lemma ex2_reachable : reachable ex2. Proof. apply run_reachable. Qed.
Definition places : dict pystr Z := [(A, 0); (B, 1); (C, 3); (E, 112)]%Z.
Definition on_line : prog (dict pystr Z) := p_affinity Z num exact_ops line (params true) places None.
Example C156_alone_ex : alone on_line ex2 = (ex2, Ok [(A, 0); (B, 0); (C, 0); (E, 1)]%Z).
Proof. vm_compute. reflexivity. Qed.
EX*)

(*PROP C156: one thread adds constraints, any number of calls, and any number of other threads cluster the data with affinity propagation. However their reads and writes are interleaved, the additions
    end as when they are made alone, and no clustering fails: each gives a cluster to each of the data and to nothing else, with clusters numbered by the first of their data in the order of the IDs. *)
Lemma C156_no_failure_proof : forall vec D (o : ops D) similarity m cs (qs : list (affinity_call vec)) m' r rs,
    valid_argmax o -> reachable m -> Forall only_adds_constraints cs -> Forall (valid_affinity_call m) qs ->
    interleaved m (p_left (p_wsession cs) :: map (fun q => p_right (p_affinity vec D o similarity (fst q) (snd q) None)) qs) m' (r :: rs) ->
    m' = run (map as_wcall cs) m /\ r = Ok (inl (snd (one_by_one (map as_wcall cs) m))) /\
    Forall (fun x => exists d, x = Ok (inr d) /\ canonical d /\ covers_exactly m d) rs.
Proof.
  intros vec D o similarity m cs qs m' r rs VA R AC VQ J.
  destruct (affinities_watched o similarity m cs qs m' r rs R AC J) as ((E1 & E2) & W). split; auto. split; auto. clear J E1 E2.
  revert VQ. induction W as [|q x qs rs (r0 & hi & -> & H1) W IH]; intro VQ; constructor; inversion VQ as [|? ? Q VQ']; subst; auto.
  apply (affinity_right m cs R AC) in H1 as (d & -> & Can & CE & _); auto. exists d. auto.
Qed.
(*EX
Definition news : list wcall := [WAdd C E MUST_LINK 1%Q].
Definition all_of_them : nat := length (states (p_wsession news) ex2).
Lemma ex2_valid : valid_affinity_call ex2 (params true, places).
Proof.
  split; [exists A; apply managed_ids; change (In A [A; B; C; E]); left; auto|].
  exists places. split; auto. intros x Mx. apply managed_ids in Mx. exact Mx.
Qed.
Lemma exact_argmax : valid_argmax exact_ops.
Proof. intros l NE. destruct (ex_argmax _ _ _ exact_ops_exact l NE) as (x & Ex & _). apply nth_error_Some. rewrite Ex. discriminate. Qed.
(** The constraint between [c] and [e] is added after the first of the components, that of [a] and [c], is listed: these two are also listed with [e]. The result is neither that without the constraint
    nor that with it. *)
Example C156_no_failure_ex : Forall only_adds_constraints news /\
  snd (alone on_line ex2) = Ok [(A, 0); (B, 0); (C, 0); (E, 1)]%Z /\ snd (alone on_line (run (map as_wcall news) ex2)) = Ok [(A, 0); (B, 1); (C, 0); (E, 0)]%Z /\
  exists m', interleaved ex2 [p_left (p_wsession news); p_right on_line] m' [Ok (inl [Ok (VBool true)]); Ok (inr [(A, 0); (B, 0); (C, 0); (E, 0)]%Z)].
Proof.
  split; [repeat constructor|]. split; [vm_compute; reflexivity|]. split; [vm_compute; reflexivity|].
  eexists. apply (play_interleaved (repeat 1 4 ++ repeat 0 all_of_them ++ repeat 1 20)). vm_compute. reflexivity.
Qed.
EX*)

(*PROP C156: data that were known as MUST_LINK when the threads started end in the same cluster, whatever is added meanwhile: with the option [absolute_must_links], and similarities that are not all
    equal (the exception of C44). *)
Lemma C156_must_links_proof : forall vec D (o : ops D) similarity m cs (qs : list (affinity_call vec)) m' r rs,
    valid_argmax o -> reachable m -> Forall only_adds_constraints cs -> Forall (valid_affinity_call m) qs ->
    interleaved m (p_left (p_wsession cs) :: map (fun q => p_right (p_affinity vec D o similarity (fst q) (snd q) None)) qs) m' (r :: rs) ->
    Forall2 (fun q x => links_count o similarity m q -> exists d, x = Ok (inr d) /\ respects_must_links m d) qs rs.
Proof.
  intros vec D o similarity m cs qs m' r rs VA R AC VQ J.
  destruct (affinities_watched o similarity m cs qs m' r rs R AC J) as (_ & W). clear J.
  revert VQ. induction W as [|q x qs rs (r0 & hi & -> & H1) W IH]; intro VQ; constructor; inversion VQ as [|? ? Q VQ']; subst; auto.
  apply (affinity_right m cs R AC) in H1 as (d & -> & _ & _ & RS); auto. intro LC. exists d. auto.
Qed.
(*EX
Lemma ex2_counts : links_count exact_ops line ex2 (params true, places).
Proof.
  split; [reflexivity|]. exists [A; B; C; E], [0; 1; 3; 112]%Z. split; [vm_compute; reflexivity|]. split; [reflexivity|]. left.
  intros [Q|[_ Q]]; [discriminate|]. specialize (Q 0 2 ltac:(cbn; lia) ltac:(cbn; lia) ltac:(lia)). vm_compute in Q. discriminate.
Qed.
(** The same interleaving: [a] and [c], which were linked before, are together. *)
Example C156_must_links_ex : Forall (valid_affinity_call ex2) [(params true, places)] /\ links_count exact_ops line ex2 (params true, places) /\
  ask (get_inferred_constraint A C) ex2 = Ok (Some MUST_LINK) /\
  exists m', interleaved ex2 [p_left (p_wsession news); p_right on_line] m' [Ok (inl [Ok (VBool true)]); Ok (inr [(A, 0); (B, 0); (C, 0); (E, 0)]%Z)].
Proof.
  split; [constructor; [apply ex2_valid|constructor]|]. split; [apply ex2_counts|]. split; [vm_compute; reflexivity|].
  eexists. apply (play_interleaved (repeat 1 4 ++ repeat 0 all_of_them ++ repeat 1 20)). vm_compute. reflexivity.
Qed.
EX*)
