(** * Properties of the constrained DBScan (C46, C47, C73 to C75). *)

From Coq Require Import String List Bool Arith ZArith QArith Lia Permutation Sorted.
From Verif Require Import Base Manager Spec Closure ManagerProofs ManagerInv ManagerQueries ManagerThms
  Sampling SamplingSpec SamplingProofs SamplingThms Rename ClusterSpec RenameThms ClusterProofs KMeans KMeansSpec KMeansProofs KMeansThms
  Hierarchical HierSpec HierProofs HierRun Spectral Dbscan DbscanSpec DbscanProofs DbscanRun.
Import ListNotations.
Open Scope nat_scope.
Open Scope py_scope.

(*HEADER
From Coq Require Import String List Bool Arith ZArith QArith Permutation Lia.
From Verif Require Import Base Manager Spec ManagerThms SamplingSpec ClusterSpec KMeansSpec Dbscan DbscanSpec DbscanThms.
Import ListNotations.
Open Scope nat_scope.
Open Scope py_scope.

(** An instance for the examples: points on a line, [set] removes repetitions. *)
Definition pw (X : list Z) (i j : nat) : Z := Z.abs (nth i X 0 - nth j X 0)%Z.
Definition dbscan_Z (p : db_params Z) := cluster Z Z pw Z.leb Z.ltb Z.of_nat dedup p.
Definition rev_set (l : list pystr) : list pystr := rev (dedup l).
Lemma dedup_valid : valid_setlist dedup.
Proof. exact dedup_setlist. Qed.
Lemma rev_valid : valid_setlist rev_set.
Proof. exact rev_dedup_setlist. Qed.
Lemma pw_refl eps : (0 <= eps)%Z -> forall rows i, Z.leb (pw rows i i) eps = true.
Proof. intros E rows i. apply Z.leb_le. unfold pw. lia. Qed.
Lemma leb_ltb : forall x y, Z.leb x y = negb (Z.ltb y x).
Proof. intros x y. rewrite Z.leb_antisym. reflexivity. Qed.
Lemma ltb_swo : strict_weak_order Z.ltb.
Proof. split; [|split]; intros; rewrite ?Z.ltb_lt, ?Z.ltb_ge in *; try lia; auto using Z.ltb_irrefl. Qed.
Definition A := str "a". Definition B := str "b". Definition C := str "c". Definition E := str "d". Definition F := str "e".
(** Parameters: eps 2, min_samples 2 *)
Definition pars := mkDBParams Z 2%Z 2.
Definition ex : mgr := run [CallAddConstraint A F MUST_LINK 1%Q; CallAddConstraint B C CANNOT_LINK 1%Q] (init [A; B; C; E; F]).
Lemma ex_reachable : reachable ex.
Proof. apply run_reachable. Qed.
Definition vecs : dict pystr Z := [(A, 0); (B, 10); (C, 11); (E, 30); (F, 50)]%Z.
HEADER*)

Lemma dedup_setlist : valid_setlist dedup.
Proof. intro l. split; [apply dedup_NoDup|]. intro x. apply dedup_In. Qed.
Lemma rev_dedup_setlist : valid_setlist (fun l => rev (dedup l)).
Proof. intro l. split; [apply NoDup_rev, dedup_NoDup|]. intro x. rewrite <- in_rev. apply dedup_In. Qed.

Lemma make_ok {D} (leb : D -> D -> bool) of_nat eps ms p : make_dbscan D leb of_nat eps ms = Ok p ->
  db_eps D p = eps /\ 1 <= db_min_samples D p /\ leb eps (of_nat 0) = false /\ (0 < ms)%Z /\ db_min_samples D p = Z.to_nat ms.
Proof.
  unfold make_dbscan. destruct (leb eps (of_nat 0)) eqn:L; [discriminate|]. destruct (Z.leb_spec ms 0) as [N|N]; [discriminate|]. intro E. injection E as <-.
  cbn [db_eps db_min_samples]. split; auto. split; [lia|]. auto.
Qed.

Section Calls.
  Context {vec D : Type}.
  Variable pairwise : list vec -> nat -> nat -> D.
  Variables leb ltb : D -> D -> bool.
  Variable of_nat : nat -> D.
  Variable setlist : list pystr -> list pystr.
  Variable p : db_params D.
  Hypothesis SL : valid_setlist setlist.
  Hypothesis REFL : forall rows i, leb (pairwise rows i i) (db_eps D p) = true.
  Hypothesis MS : 1 <= db_min_samples D p.
  Variable m : mgr.
  Variable vectors : dict pystr vec.
  Hypothesis I : Inv m.
  Notation l := (ids m).
  Notation cluster := (cluster vec D pairwise leb ltb of_nat setlist p m vectors).
  Notation within := (within pairwise leb (db_eps D p) m vectors).

  (** Facts about the table. *)
  Section Table.
    Variable table : dict pystr (dict pystr D).
    Hypothesis GT : good_ptable pairwise m vectors table.
    Notation near := (near D leb p table).

    Lemma table_total x y : In x l -> In y l -> exists d, table_get D table (x, y) = Ok d.
    Proof. intros X Y. destruct (GT x y X Y) as (d & E & _). eauto. Qed.
    Lemma near_within x y : In x l -> In y l -> near x y = true <-> within x y.
    Proof.
      intros X Y. destruct (GT x y X Y) as (d & E & Dd). unfold near, dist. rewrite E. split.
      - intro Q. exists d. auto.
      - intros (d' & Dd' & Q). rewrite (distance_unique _ _ _ _ _ _ I Dd Dd'). auto.
    Qed.
    Lemma near_refl x : In x l -> near x x = true.
    Proof.
      intro X. destruct (GT x x X X) as (d & E & (ids' & rows & i & j & EI & ER & Ni & Nj & ->)). unfold near, dist. rewrite E.
      cbn [fst snd] in *. rewrite ask_managed in EI by auto. injection EI as <-.
      assert (i = j); [|subst; apply REFL]. assert (ND := inv_nodup m I). rewrite NoDup_nth_error in ND. apply ND; [apply nth_error_Some; congruence|congruence].
    Qed.
  End Table.

  Notation cores_of table cores := (fst (merged D leb ltb setlist p m table cores (pool D leb p m table))).
  Notation rest_of table cores := (filter (fun e => mem (fst e) (snd (merged D leb ltb setlist p m table cores (pool D leb p m table)))) (local D leb p m table)).

  Definition core_group (cs : list (list pystr)) (x : pystr) : option group := match lastidx cs x with Some j => Some (inl j) | None => None end.
  Definition groups (table : dict pystr (dict pystr D)) (cores : dict pystr (list pystr)) : pystr -> option group :=
    local_groups D leb of_nat p (rest_of table cores) (core_group (vals (cores_of table cores))).

  (** A run without exception. *)
  Record ran (table : dict pystr (dict pystr D)) (cores : dict pystr (list pystr)) (raw : dict pystr Z) (n : Z) (rr : dict pystr Z) : Prop := {
    rn_eq : pairwise_table vec D pairwise m vectors = Ok table;
    rn_table : good_ptable pairwise m vectors table;
    rn_cores : good_cores D leb p m table cores;
    rn_named : named raw n (groups table cores);
    rn_incl : incl (keys raw) l;
    rn_fine : forall v, exists c, fine m c /\ forall x, dget x raw = Some v -> In x c;
    rn_ren : rename_clusters_by_order raw = Ok rr;
    rn_run : forall s, cluster None s = (mkDbscan (Some (final l rr)) (Z.of_nat (length (missing l rr))) (Z.of_nat (nb_clusters_of rr)) (Z.of_nat (nb_clusters_of (final l rr))), Ok (final l rr)) }.

  Lemma cluster_run : l <> [] -> (forall x, In x l -> In x (keys vectors)) -> exists table cores raw n rr, ran table cores raw n rr.
  Proof.
    intros NE COV. destruct (pairwise_table_run pairwise m vectors I COV NE) as (table & ET & GT).
    assert (TG := table_total table GT). assert (RF := near_refl table GT).
    destruct (local_clusters_run D leb p m table I TG) as [EL _].
    destruct (phases_run D leb ltb setlist p m table I SL TG RF MS) as (core & cores & E1 & E2 & GC & E3).
    destruct (groups_fine D leb ltb setlist p m table I SL TG RF cores GC) as [F1 F2].
    set (cs := cores_of table cores) in *. set (rest := rest_of table cores) in *.
    set (s1 := final_core (vals cs) ([], 0%Z)). set (s2 := final_local D leb of_nat p (vals rest) s1).
    assert (NM1 : named (fst s1) (snd s1) (core_group (vals cs))).
    { apply named_ext with (g := fun x => match lastidx (vals cs) x with Some j => Some (inl (0 + j)) | None => None end).
      - intro x. unfold core_group. destruct (lastidx (vals cs) x); auto.
      - apply (final_core_named (vals cs) [] 0%Z (fun _ => None) 0); [|discriminate]. constructor; [constructor|lia|tauto|discriminate|congruence]. }
    assert (NL : NoDup (keys rest)).
    { unfold rest. rewrite (keys_filter (fun x => mem x (snd (merged D leb ltb setlist p m table cores (pool D leb p m table))))). apply NoDup_filter_list.
      exact (li_nodup _ _ _ (final_inv D leb p m table I TG RF)). }
    assert (NM2 : named (fst s2) (snd s2) (groups table cores)).
    { unfold s2, groups. fold cs rest. rewrite (surjective_pairing s1). apply final_local_named; auto. intros x k _. unfold core_group. destruct (lastidx _ x); discriminate. }
    assert (NB : numbered (fine m) (fst s2) (snd s2)).
    { apply final_local_numbered; [exact F2|]. apply final_core_numbered; [exact F1|]. apply numbered_start. }
    destruct (rename_run (fst s2) (nm_nodup _ _ _ NM2)) as (rr & ER & _).
    assert (FN : fine m []) by (split; [intros x []|reflexivity]).
    assert (INC : incl (keys (fst s2)) l).
    { intros x X. apply dget_In_key in X as [v E]. destruct (nb_good _ _ _ NB v) as (c & [->|G] & H); apply H in E; [destruct E|]. apply G; auto. }
    exists table, cores, (fst s2), (snd s2), rr. constructor; auto.
    - intro v. destruct (nb_good _ _ _ NB v) as (c & [->|G] & H); eauto.
    - intro s. unfold Dbscan.cluster. unfold bind at 1, lift at 1. rewrite ask_managed by auto. unfold bind at 1, lift at 1. rewrite ET.
      unfold bind at 1, modify at 1. unfold bind at 1, lift at 1. rewrite EL. unfold bind at 1, lift at 1. rewrite E1. unfold bind at 1, lift at 1. rewrite E2.
      unfold bind at 1, lift at 1. unfold local in E3. rewrite E3. cbn [fst snd]. fold (local D leb p m table). fold cs rest.
      unfold bind at 1, lift at 1. fold s1 s2. rewrite ER.
      rewrite (final_ignored_eq l (inv_nodup m I) rr). cbn [fst snd]. unfold bind, modify, ret. f_equal. f_equal.
      + lia.
      + f_equal. symmetry. apply final_count_dedup.
      + rewrite (final_count l (fst s2) rr (snd s2) (groups table cores) NM2 ER), <- final_count_dedup. lia.
  Qed.

  Lemma cluster_fails nb s :
    (nb <> None -> cluster nb s = (s, Raise ValueError)) /\
    (nb = None -> (l = [] -> cluster nb s = (s, Raise ValueError)) /\ ((exists x, In x l /\ ~ In x (keys vectors)) -> cluster nb s = (s, Raise KeyError))).
  Proof.
    unfold Dbscan.cluster. unfold bind at 1, lift at 1. rewrite ask_managed by auto. split.
    - destruct nb; [reflexivity|congruence].
    - intros ->. unfold bind at 1 2, lift at 1 2, pairwise_table at 1 2. rewrite ask_managed by auto. cbn [rbind]. split.
      + intros ->. reflexivity.
      + intro Mi. rewrite rmap_missing by auto. reflexivity.
  Qed.

  Lemma returned nb s s' d : cluster nb s = (s', Ok d) -> nb = None /\ exists table cores raw n rr, ran table cores raw n rr /\ d = final l rr /\
    s' = mkDbscan (Some d) (Z.of_nat (length (missing l rr))) (Z.of_nat (nb_clusters_of rr)) (Z.of_nat (nb_clusters_of d)).
  Proof.
    intro E. destruct (cluster_fails nb s) as [C1 C2].
    destruct nb as [n|]; [rewrite C1 in E; [discriminate|discriminate]|]. destruct (C2 eq_refl) as [C3 C4]. split; auto.
    destruct (list_eq_dec (fun x y : pystr => eq_dec_of x y) l []) as [E0|NE]; [rewrite C3 in E; [discriminate|auto]|].
    destruct (missing_dec vectors l) as [COV|M0]; [|rewrite C4 in E; [discriminate|auto]].
    destruct (cluster_run NE COV) as (table & cores & raw & n & rr & R). exists table, cores, raw, n, rr. split; auto.
    rewrite (rn_run _ _ _ _ _ R) in E. injection E as <- <-. auto.
  Qed.
End Calls.

(*PROP C46: a result is about exactly the managed IDs; the regular clusters are numbered canonically from 0, the ignored points get -1, -2, ... in the order of the manager, and the counters of the object are right. *)
Lemma C46_dbscan_partition_proof :
  forall vec D pairwise leb ltb of_nat setlist eps ms p m vectors nb s s' d,
    valid_setlist setlist -> make_dbscan D leb of_nat eps ms = Ok p -> (forall rows i, leb (pairwise rows i i) eps = true) -> reachable m ->
    cluster vec D pairwise leb ltb of_nat setlist p m vectors nb s = (s', Ok d) ->
    covers_exactly m d /\ NoDup (keys d) /\ db_predicted s' = Some d /\
    exists l regular ignored, ask get_list_of_managed_data_IDs m = Ok l /\
      d = regular ++ ignored /\ canonical regular /\
      vals ignored = negatives (length ignored) /\ (forall x y, before (keys ignored) x y -> before l x y) /\
      db_nb_regular s' = Z.of_nat (nb_clusters_of regular) /\ db_nb_noise s' = Z.of_nat (length ignored) /\
      db_nb_clusters s' = Z.of_nat (nb_clusters_of d).
Proof.
  intros vec D pairwise leb ltb of_nat setlist eps ms p m vectors nb s s' d SL MK RF R E. apply reachable_inv in R. apply make_ok in MK as (<- & MS & _).
  destruct (returned pairwise leb ltb of_nat setlist p SL RF MS m vectors R nb s s' d E) as (_ & table & cores & raw & n & rr & [_ GT GC NM IN FI RE RU] & Ed & Es).
  subst d s'. assert (ND := inv_nodup m R). cbn [db_predicted db_nb_regular db_nb_noise db_nb_clusters].
  split; [intro x; rewrite (final_keys_In (ids m) raw rr n _ NM IN RE), managed_ids; tauto|].
  split; [apply (final_nodup (ids m) ND raw rr n _ NM RE)|]. split; auto.
  exists (ids m), rr, (ignored (ids m) rr). split; [apply ask_managed; auto|]. split; auto. split; [apply (rr_ok raw rr n _ NM RE)|].
  assert (L : length (ignored (ids m) rr) = length (missing (ids m) rr)) by (rewrite <- (keys_ignored (ids m) rr); unfold keys; rewrite map_length; auto).
  rewrite L. split; [apply vals_ignored|]. split; [|auto].
  intros x y B. rewrite keys_ignored in B. apply KMeansProofs.before_filter in B. auto.
Qed.

(*EX
(** A and F are linked; B and C are near but must be separated (each too small for a cluster of its own); E is alone. *)
Example C46_ex : dbscan_Z pars ex vecs None fresh_dbscan =
  (mkDbscan (Some [(A, 0); (F, 0); (B, -1); (C, -2); (E, -3)]%Z) 3 1 4, Ok [(A, 0); (F, 0); (B, -1); (C, -2); (E, -3)]%Z).
Proof. vm_compute; reflexivity. Qed.
Example C46_hypotheses : valid_setlist dedup /\ make_dbscan Z Z.leb Z.of_nat 2%Z 2%Z = Ok pars /\ (forall rows i, Z.leb (pw rows i i) 2%Z = true) /\ reachable ex.
Proof. split; [exact dedup_valid|]. split; [reflexivity|]. split; [apply pw_refl; lia|exact ex_reachable]. Qed.
EX*)

(*PROP C47 (cannot-links, proved): no cluster joins two IDs known as CANNOT_LINK. *)
Lemma C47_cannot_links_proof :
  forall vec D pairwise leb ltb of_nat setlist eps ms p m vectors nb s d,
    valid_setlist setlist -> make_dbscan D leb of_nat eps ms = Ok p -> (forall rows i, leb (pairwise rows i i) eps = true) -> reachable m ->
    result (cluster vec D pairwise leb ltb of_nat setlist p m vectors nb) s = Ok d -> respects_cannot_links m d.
Proof.
  intros vec D pairwise leb ltb of_nat setlist eps ms p m vectors nb s d SL MK RF R E a b Ma Mb CL Q. apply reachable_inv in R. apply make_ok in MK as (<- & MS & _).
  apply managed_ids in Ma, Mb. apply (inferred_cl m R) in CL; auto. unfold result in E. destruct (cluster _ _ _ _ _ _ _ _ _ _ _ s) as [s' r] eqn:Ec. cbn [snd] in E. subst r.
  destruct (returned pairwise leb ltb of_nat setlist p SL RF MS m vectors R nb s s' d Ec) as (_ & table & cores & raw & n & rr & [_ GT GC NM IN FI RE RU] & Ed & _).
  subst d. assert (ND := inv_nodup m R). set (g := groups leb ltb of_nat setlist p m table cores) in *. destruct (g a) eqn:Ga.
  - assert (Gn : g a <> None) by congruence. apply (final_same _ ND raw rr n g NM RE a b Ma Mb Gn) in Q.
    apply (nm_same _ _ _ NM a b Gn) in Q. destruct (dget a raw) as [v|] eqn:Ea; [|apply (nm_none _ _ _ NM) in Ea; congruence].
    destruct (FI v) as (c & [_ F] & H). rewrite clash_false in F. rewrite (F a b) in CL; [discriminate|apply H; auto|apply H; auto].
  - destruct (final_none _ ND raw rr n g NM RE a Ma Ga) as (v & Ev & _).
    assert (Eb : dget b (final (ids m) rr) = Some v) by congruence.
    pose proof (final_distinct _ ND raw rr n g NM RE a b v Ma Mb Ga Ev Eb). subst b. rewrite cl_irrefl in CL; auto. discriminate.
Qed.

(*EX
(** B and C are neighbours, apart in the result. *)
Example C47_cannot_ex : exists d, result (dbscan_Z pars ex vecs None) fresh_dbscan = Ok d /\ inferred ex B C (Some CANNOT_LINK) /\ pw [10; 11]%Z 0 1 = 1%Z /\
  dget B d = Some (-1)%Z /\ dget C d = Some (-2)%Z.
Proof. eexists. split; [vm_compute; reflexivity|]. split; [vm_compute; reflexivity|]. split; vm_compute; auto. Qed.
EX*)

(*PROP C47 (must-links, refuted): two IDs known as MUST_LINK can end in different clusters. *)
Lemma C47_must_links_refuted_proof :
  exists (pairwise : list Z -> nat -> nat -> Z) p m vectors d,
    make_dbscan Z Z.leb Z.of_nat 2%Z 2%Z = Ok p /\ (forall rows i, Z.leb (pairwise rows i i) 2%Z = true) /\ reachable m /\
    result (cluster Z Z pairwise Z.leb Z.ltb Z.of_nat dedup p m vectors None) (fresh_dbscan) = Ok d /\
    ~ respects_must_links m d.
Proof.
  exists (fun X i j => Z.abs (nth i X 0 - nth j X 0)%Z), (mkDBParams Z 2%Z 2).
  exists (run [CallAddConstraint (str "b") (str "d") MUST_LINK 1%Q] (init [str "a"; str "b"; str "c"; str "d"])).
  exists [(str "a", 0); (str "b", 1); (str "c", 10); (str "d", 11)]%Z. eexists.
  split; [reflexivity|]. split; [intros rows i; apply Z.leb_le; lia|]. split; [apply run_reachable|].
  split; [vm_compute; reflexivity|]. intro H.
  assert (Q := H (str "b") (str "d")). vm_compute in Q.
  assert (M1 : managed (run [CallAddConstraint (str "b") (str "d") MUST_LINK 1%Q] (init [str "a"; str "b"; str "c"; str "d"])) (str "b")) by (eexists; split; [reflexivity|vm_compute; tauto]).
  assert (M2 : managed (run [CallAddConstraint (str "b") (str "d") MUST_LINK 1%Q] (init [str "a"; str "b"; str "c"; str "d"])) (str "d")) by (eexists; split; [reflexivity|vm_compute; tauto]).
  specialize (H _ _ M1 M2 eq_refl). vm_compute in H. discriminate.
Qed.

(*PROP C47 (must-links, partial): a component of at least two IDs with no other ID within eps is exactly one cluster.  Missing: components with neighbours can be split. *)
Lemma C47_must_links_partial_proof :
  forall vec D pairwise leb ltb of_nat setlist eps ms p m vectors nb s d a b,
    valid_setlist setlist -> make_dbscan D leb of_nat eps ms = Ok p -> (forall rows i, leb (pairwise rows i i) eps = true) -> (forall x y, leb x y = negb (ltb y x)) -> reachable m ->
    result (cluster vec D pairwise leb ltb of_nat setlist p m vectors nb) s = Ok d ->
    managed m a -> managed m b -> a <> b -> inferred m a b (Some MUST_LINK) ->
    (forall x y, managed m x -> managed m y -> inferred m a x (Some MUST_LINK) -> ~ inferred m a y (Some MUST_LINK) ->
       ~ within pairwise leb eps m vectors x y /\ ~ within pairwise leb eps m vectors y x) ->
    forall x, managed m x -> (dget a d = dget x d <-> inferred m a x (Some MUST_LINK)).
Proof.
  intros vec D pairwise leb ltb of_nat setlist eps ms p m vectors nb s d a b SL MK RF LE R E Ma Mb Nab ML ISO x Mx. apply reachable_inv in R. apply make_ok in MK as (<- & MS & _).
  apply managed_ids in Ma, Mb, Mx. apply (inferred_ml m R) in ML; auto. unfold result in E. destruct (cluster _ _ _ _ _ _ _ _ _ _ _ s) as [s' r] eqn:Ec. cbn [snd] in E. subst r.
  destruct (returned pairwise leb ltb of_nat setlist p SL RF MS m vectors R nb s s' d Ec) as (_ & table & cores & raw & n & rr & [_ GT GC NM IN FI RE RU] & Ed & _).
  subst d. assert (ND := inv_nodup m R). assert (TG := table_total pairwise m vectors table GT). assert (RFt := near_refl pairwise leb p RF m vectors R table GT).
  assert (ISO' : forall x y, In x (ids m) -> In y (ids m) -> ml m a x = true -> ml m a y = false -> near D leb p table x y = false /\ near D leb p table y x = false).
  { intros u v U V Mu Mv. destruct (ISO u v) as [N1 N2]; [apply managed_ids; auto|apply managed_ids; auto|apply inferred_ml; auto|rewrite inferred_ml by auto; congruence|].
    split; apply not_true_is_false; rewrite (near_within pairwise leb p m vectors R table GT) by auto; auto. }
  set (g := groups leb ltb of_nat setlist p m table cores) in *.
  set (cs := fst (merged D leb ltb setlist p m table cores (pool D leb p m table))) in *.
  destruct GC as [GK GV].
  assert (GV' : forall i c, In (i, c) cores -> In i (ids m) /\ forall y, In y c <-> core0 D leb p m table i y = true).
  { intros i c J. split; [|apply (GV i c J)]. assert (Q : In i (filter (leader D leb p m table) (ids m))) by (rewrite <- GK; apply in_map_iff; exists (i, c); auto). apply filter_In in Q. tauto. }
  assert (SP : incl (pool D leb p m table) (ids m)).
  { intros z Z. apply pool_In in Z. exact (li_incl _ _ _ (final_inv D leb p m table R TG RFt) z Z). }
  destruct (merged_iso D leb ltb setlist p m table R SL TG RFt MS (fun x y => cl m x y = true) (fun _ _ _ _ => iff_refl _) a Ma ISO' LE cores (pool D leb p m table) SP GV') as [KC CI]. fold cs in KC, CI.
  destruct (leader_iso D leb p m table R TG RFt MS (fun x y => cl m x y = true) (fun _ _ _ _ => iff_refl _) a Ma ISO' b Mb (not_eq_sym Nab) ML) as (i0 & J0 & M0 & L0).
  (* the last core cluster of the component *)
  assert (CV : forall t c y, nth_error (vals cs) t = Some c -> In y c -> ml m a y = true -> forall z, In z (ids m) -> (ml m a z = true <-> In z c)).
  { intros t c y Nt Y My z Jz. unfold vals in Nt. rewrite nth_error_map in Nt. destruct (nth_error cs t) as [[i c']|] eqn:Nc; [|discriminate]. cbn in Nt. injection Nt as ->.
    apply nth_error_In in Nc. destruct (CI i c Nc) as [C1 C2].
    assert (Mi : ml m a i = true) by (rewrite <- (C2 y Y); auto).
    assert (Ji : In i (ids m)).
    { assert (Q : In i (keys cores)) by (rewrite <- KC; apply in_map_iff; exists (i, c); auto). rewrite GK in Q. apply filter_In in Q. tauto. }
    split.
    - intro Mz. apply C1. unfold core0. rewrite mem_true; auto. apply filter_In. split; auto. apply (ml_trans m R i a z); auto. rewrite ml_sym; auto.
    - intro Z. rewrite (C2 z Z). auto. }
  assert (EX : exists t c, nth_error (vals cs) t = Some c /\ In a c).
  { assert (Q : In i0 (keys cs)) by (rewrite KC, GK; apply filter_In; auto). apply dget_In_key in Q as [c Q]. apply dget_In in Q. destruct (CI i0 c Q) as [C1 _].
    assert (Qv : In c (vals cs)) by (apply in_map_iff; exists (i0, c); auto). apply In_nth_error in Qv as [t Qt]. exists t, c. split; auto.
    apply C1. unfold core0. rewrite mem_true; auto. apply filter_In. split; auto. rewrite ml_sym; auto. }
  assert (LA : exists t, lastidx (vals cs) a = Some t).
  { destruct (lastidx (vals cs) a) eqn:E0; eauto. exfalso. destruct EX as (t & c & Nt & Ac). apply (proj1 (lastidx_None _ _) E0 c); auto. eapply nth_error_In; eauto. }
  destruct LA as [t LA]. destruct (proj1 (lastidx_Some _ _ _) LA) as [(c & Nt & Ac) MX].
  assert (GA : g a = Some (inl t)) by (apply local_groups_inl; unfold core_group; fold cs; rewrite LA; auto).
  rewrite (final_same _ ND raw rr n g NM RE a x Ma Mx) by congruence. rewrite GA, (inferred_ml m R) by auto.
  assert (Maa : ml m a a = true) by (apply ml_refl; auto).
  split.
  - intro Q. symmetry in Q. apply local_groups_inl in Q. unfold core_group in Q. fold cs in Q. destruct (lastidx (vals cs) x) as [t'|] eqn:Lx; [|discriminate]. injection Q as ->.
    apply lastidx_Some in Lx as [(c' & Nt' & Xc) _]. rewrite Nt in Nt'. injection Nt' as <-. apply (CV t c a Nt Ac Maa x Mx). auto.
  - intro Q. symmetry. apply local_groups_inl. unfold core_group. fold cs.
    assert (Lx : lastidx (vals cs) x = Some t); [|rewrite Lx; auto].
    apply lastidx_Some. split; [exists c; split; auto; apply (CV t c a Nt Ac Maa x Mx); auto|].
    intros t' c' Nt' Xc. apply (MX t' c' Nt'). apply (CV t' c' x Nt' Xc Q a Ma). auto.
Qed.

(*EX
(** A and F, far from each other and from everything, are one cluster. *)
Example C47_must_ex : exists d, result (dbscan_Z pars ex vecs None) fresh_dbscan = Ok d /\ inferred ex A F (Some MUST_LINK) /\ A <> F /\
  map (fun x => (pw [0; 10; 11; 30; 50]%Z 0 x <=? 2, pw [0; 10; 11; 30; 50]%Z 4 x <=? 2)%Z) [1; 2; 3] = repeat (false, false) 3 /\ dget A d = dget F d.
Proof. eexists. split; [vm_compute; reflexivity|]. split; [vm_compute; reflexivity|]. split; [discriminate|]. split; vm_compute; reflexivity. Qed.
EX*)

(*PROP C73: DBScan accepts only positive parameters; a call raises exactly when a number of clusters is given, without ID, or when a vector is missing, and a failing call changes nothing. *)
Lemma C73_dbscan_errors_proof :
  forall vec D pairwise leb ltb of_nat setlist eps ms,
    ((exists p, make_dbscan D leb of_nat eps ms = Ok p) <-> leb eps (of_nat 0) = false /\ (0 < ms)%Z) /\
    (make_dbscan D leb of_nat eps ms = Raise ValueError \/ exists p, make_dbscan D leb of_nat eps ms = Ok p) /\
    forall p m vectors nb s e,
      valid_setlist setlist -> make_dbscan D leb of_nat eps ms = Ok p -> (forall rows i, leb (pairwise rows i i) eps = true) -> reachable m ->
      (result (cluster vec D pairwise leb ltb of_nat setlist p m vectors nb) s = Raise e <->
       (e = ValueError /\ (nb <> None \/ ~ has_ids m)) \/
       (e = KeyError /\ nb = None /\ exists x, managed m x /\ ~ In x (keys vectors))) /\
      (result (cluster vec D pairwise leb ltb of_nat setlist p m vectors nb) s = Raise e ->
       cluster vec D pairwise leb ltb of_nat setlist p m vectors nb s = (s, Raise e)).
Proof.
  intros vec D pairwise leb ltb of_nat setlist eps ms. split; [|split].
  - unfold make_dbscan. destruct (leb eps (of_nat 0)); [split; [intros [p Q]; discriminate|intros [Q _]; discriminate]|].
    destruct (Z.leb_spec ms 0); [split; [intros [p Q]; discriminate|intros [_ Q]; lia]|]. split; [intros _; split; auto|eauto].
  - unfold make_dbscan. destruct (leb eps (of_nat 0)); auto. destruct (ms <=? 0)%Z; eauto.
  - intros p m vectors nb s e SL MK RF R. apply reachable_inv in R. apply make_ok in MK as (<- & MS & _).
    destruct (cluster_fails pairwise leb ltb of_nat setlist p m vectors nb s) as [C1 C2]. unfold result.
    assert (Mi : (exists x, managed m x /\ ~ In x (keys vectors)) <-> exists x, In x (ids m) /\ ~ In x (keys vectors)).
    { split; intros (x & X & Y); exists x; split; auto; apply managed_ids; auto. }
    rewrite Mi. clear Mi. destruct nb as [n|].
    { rewrite C1 by discriminate. cbn [snd]. split; [split|].
      - intro E. injection E as <-. left. split; auto. left. discriminate.
      - intros [[-> _]|(_ & Q & _)]; [auto|discriminate].
      - intro E. injection E as <-. auto. }
    destruct (C2 eq_refl) as [C3 C4].
    destruct (list_eq_dec (fun x y : pystr => eq_dec_of x y) (ids m) []) as [E0|E0].
    { rewrite C3 by auto. cbn [snd]. split; [split|].
      - intro E. injection E as <-. left. split; auto. right. intro HI. apply has_ids_spec in HI. auto.
      - intros [[-> _]|(_ & _ & x & X & _)]; auto. rewrite E0 in X. destruct X.
      - intro E. injection E as <-. auto. }
    destruct (missing_dec vectors (ids m)) as [COV|M0].
    + destruct (cluster_run pairwise leb ltb of_nat setlist p SL RF MS m vectors R E0 COV) as (table & cores & raw & n & rr & Q). rewrite (rn_run _ _ _ _ _ _ _ _ _ _ _ _ _ Q). cbn [snd].
      split; [|discriminate]. split; [discriminate|]. intros [(_ & [N|N])|(_ & _ & x & X & Nx)]; exfalso.
      * auto.
      * apply N, has_ids_spec; auto.
      * apply Nx; auto.
    + rewrite C4 by auto. cbn [snd]. split; [split|].
      * intro E. injection E as <-. right. auto.
      * intros [(_ & [N|N])|(-> & _)]; auto; exfalso; [auto|]. apply N, has_ids_spec; auto.
      * intro E. injection E as <-. auto.
Qed.

(*EX
Example C73_ex : make_dbscan Z Z.leb Z.of_nat 0%Z 2%Z = Raise ValueError /\ make_dbscan Z Z.leb Z.of_nat 2%Z 0%Z = Raise ValueError /\
  result (dbscan_Z pars ex vecs (Some 2%Z)) fresh_dbscan = Raise ValueError /\
  result (dbscan_Z pars ex [(A, 0)]%Z None) fresh_dbscan = Raise KeyError /\
  result (dbscan_Z pars (init []) vecs None) fresh_dbscan = Raise ValueError.
Proof. repeat split; vm_compute; reflexivity. Qed.
EX*)

(** ** Independence *)
Section Independence.
  Context {vec D : Type}.
  Variable pairwise : list vec -> nat -> nat -> D.
  Variables leb ltb : D -> D -> bool.
  Variable of_nat : nat -> D.
  Variables setlist1 setlist2 : list pystr -> list pystr.
  Variable p : db_params D.
  Hypothesis SL1 : valid_setlist setlist1.
  Hypothesis SL2 : valid_setlist setlist2.
  Hypothesis REFL : forall rows i, leb (pairwise rows i i) (db_eps D p) = true.
  Hypothesis MS : 1 <= db_min_samples D p.
  Hypothesis SW : strict_weak_order ltb.
  Hypothesis LE : forall x y, leb x y = negb (ltb y x).
  Variable m : mgr.
  Variable vectors : dict pystr vec.
  Hypothesis I : Inv m.
  Notation l := (ids m).
  Variable table : dict pystr (dict pystr D).
  Hypothesis GT : good_ptable pairwise m vectors table.

  Let TG := table_total pairwise m vectors table GT.
  Let RF := near_refl pairwise leb p REFL m vectors I table GT.
  Notation points := (points D leb p m table).
  Notation absorbed1 := (absorbed D leb ltb setlist1 p m table).
  Notation absorbed2 := (absorbed D leb ltb setlist2 p m table).
  Notation merged1 := (merged D leb ltb setlist1 p m table).
  Notation merged2 := (merged D leb ltb setlist2 p m table).

  Definition alike (c1 c2 : list pystr) : Prop := (forall x, In x c1 <-> In x c2) /\ incl c1 l /\ c1 <> [].

  Lemma joinable_alike c1 c2 k : alike c1 c2 -> In k l -> noise D leb p m table k = false -> joinable D leb ltb p m table c1 k = joinable D leb ltb p m table c2 k.
  Proof.
    intros (E & IC & NE) K NK. apply eq_true_iff_eq.
    rewrite (joinable_iff D leb ltb p m table I TG RF MS (fun x y => near D leb p table x y = true) (fun x y => cl m x y = true) (fun _ _ _ _ => iff_refl _) (fun _ _ _ _ => iff_refl _) SW LE (fun x => In x c1) c1 k) by (auto; tauto).
    rewrite (joinable_iff D leb ltb p m table I TG RF MS (fun x y => near D leb p table x y = true) (fun x y => cl m x y = true) (fun _ _ _ _ => iff_refl _) (fun _ _ _ _ => iff_refl _) SW LE (fun x => In x c1) c2 k); auto; [tauto| |].
    - intros x X. apply IC, E; auto.
    - intros ->. destruct c1 as [|x c1]; auto. destruct (proj1 (E x)); simpl; auto.
  Qed.
  Lemma absorbed_alike ks : (forall k, In k ks -> In k l /\ noise D leb p m table k = false) -> forall c1 c2, alike c1 c2 ->
    alike (fst (absorbed1 ks c1)) (fst (absorbed2 ks c2)) /\ snd (absorbed1 ks c1) = snd (absorbed2 ks c2).
  Proof.
    induction ks as [|k ks IH]; intros HK c1 c2 A; cbn [absorbed]; [auto|]. destruct (HK k (or_introl eq_refl)) as [K NK].
    rewrite (joinable_alike c1 c2 k A K NK). destruct (joinable _ _ _ _ _ _ c2 k); [|auto].
    apply IH; [intros k' K'; apply HK; simpl; auto|]. destruct A as (E & IC & NE). destruct (points_ok D leb p m table I TG RF k K) as (_ & P2 & P3 & _).
    split; [|split].
    - intro x. rewrite (proj2 (SL1 _) x), (proj2 (SL2 _) x), !in_app_iff, E. tauto.
    - intros x X. apply SL1, in_app_or in X as [X|X]; auto.
    - intro Q. assert (Z : In k (setlist1 (c1 ++ points k))) by (apply SL1, in_or_app; auto). rewrite Q in Z. destruct Z.
  Qed.
  Lemma merged_alike cs1 : forall cs2 ks, (forall k, In k ks -> In k l /\ noise D leb p m table k = false) ->
    Forall2 (fun e1 e2 => alike (snd e1) (snd e2)) cs1 cs2 ->
    Forall2 (fun e1 e2 => alike (snd e1) (snd e2)) (fst (merged1 cs1 ks)) (fst (merged2 cs2 ks)) /\ snd (merged1 cs1 ks) = snd (merged2 cs2 ks).
  Proof.
    induction cs1 as [|[i1 c1] cs1 IH]; intros cs2 ks HK F; inversion F as [|? [i2 c2] ? cs2' A F']; subst; cbn [merged fst snd]; [split; [constructor|auto]|].
    cbn [snd] in A. destruct (absorbed_alike ks HK c1 c2 A) as [A1 A2]. rewrite <- A2.
    destruct (IH cs2' (snd (absorbed1 ks c1))) as [B1 B2]; auto.
    { intros k K. apply HK. destruct (absorbed_suffix D leb ltb setlist1 p m table ks c1) as [b E]. rewrite E. apply in_or_app; auto. }
  Qed.
  Lemma lastidx_alike cs1 cs2 x : Forall2 alike cs1 cs2 -> lastidx cs1 x = lastidx cs2 x.
  Proof.
    induction 1 as [|c1 c2 cs1 cs2 (E & _) _ IH]; cbn [lastidx]; auto. rewrite IH. destruct (lastidx cs2 x); auto.
    assert (Q : mem x c1 = mem x c2) by (apply eq_true_iff_eq; rewrite !mem_In; apply E). rewrite Q. auto.
  Qed.

  Lemma groups_alike cores1 cores2 : good_cores D leb p m table cores1 -> good_cores D leb p m table cores2 ->
    forall x, groups leb ltb of_nat setlist1 p m table cores1 x = groups leb ltb of_nat setlist2 p m table cores2 x.
  Proof.
    intros [K1 V1] [K2 V2].
    assert (F : Forall2 (fun e1 e2 => alike (snd e1) (snd e2)) cores1 cores2).
    { assert (LD : forall i, In i (filter (leader D leb p m table) l) -> In i l) by (intros i J; apply filter_In in J; tauto).
      rewrite <- K1 in LD. rewrite <- K1 in K2. clear K1. revert cores2 K2 V2 V1 LD. induction cores1 as [|[i1 c1] cs1 IH]; intros [|[i2 c2] cs2] K2 V2 V1 LD; try discriminate; constructor.
      - cbn [keys map fst] in K2. injection K2 as -> _. destruct (V1 i1 c1 (or_introl eq_refl)) as [_ E1]. destruct (V2 i1 c2 (or_introl eq_refl)) as [_ E2]. cbn [snd].
        assert (Ji : In i1 l) by (apply LD; simpl; auto). split; [intro x; rewrite E1, E2; tauto|]. split.
        + intros x X. apply E1 in X. apply (core0_In D leb p m table I TG RF i1); auto.
        + intros ->. destruct (proj2 (E1 i1)). apply core0_self; auto.
      - cbn [keys map fst] in K2. injection K2 as _ K2. apply IH; auto.
        + intros i c J. apply (V2 i c). simpl; auto.
        + intros i c J. apply (V1 i c). simpl; auto.
        + intros i J. apply LD. simpl; auto. }
    destruct (merged_alike cores1 cores2 (pool D leb p m table)) as [A B]; auto.
    { intros k K. apply pool_In in K. pose proof (li_incl _ _ _ (final_inv D leb p m table I TG RF) k K) as Kl. split; auto. apply (in_local D leb p m table I TG RF); auto. }
    intro x. unfold groups. rewrite B. apply local_groups_ext. intro y. unfold core_group. rewrite (lastidx_alike _ (vals (fst (merged2 cores2 (pool D leb p m table)))) y); auto.
    clear - A. induction A; cbn [vals map]; constructor; auto.
  Qed.
End Independence.

(*PROP C74 (memory): the answer does not depend on earlier calls on the same object. *)
Lemma C74_dbscan_no_memory_proof :
  forall vec D pairwise leb ltb of_nat setlist p m vectors nb s1 s2,
    result (cluster vec D pairwise leb ltb of_nat setlist p m vectors nb) s1 = result (cluster vec D pairwise leb ltb of_nat setlist p m vectors nb) s2.
Proof.
  intros. cbv [result cluster bind lift modify raise ret]. destruct (ask get_list_of_managed_data_IDs m) as [l|e]; [|reflexivity].
  destruct nb; [reflexivity|]. destruct (pairwise_table _ _ _ _ _) as [table|e]; [|reflexivity].
  destruct (local_clusters _ _ _ _ _ _) as [a|e]; [|reflexivity]. destruct (merge_must_links _ _ _ _) as [b|e]; [|reflexivity].
  destruct (clean _ _) as [c|e]; [|reflexivity]. destruct (merge_cannot_links _ _ _ _ _ _ _ _) as [d|e]; [|reflexivity].
  destruct (rename_clusters_by_order _) as [r|e]; reflexivity.
Qed.

(*PROP C74 (set order): when distances are ordered, neither the answer nor the final object depends on the order in which Python enumerates sets. *)
Lemma C74_dbscan_set_order_proof :
  forall vec D pairwise leb ltb of_nat setlist1 setlist2 eps ms p m vectors nb s,
    valid_setlist setlist1 -> valid_setlist setlist2 -> make_dbscan D leb of_nat eps ms = Ok p -> (forall rows i, leb (pairwise rows i i) eps = true) ->
    strict_weak_order ltb -> (forall x y, leb x y = negb (ltb y x)) -> reachable m ->
    cluster vec D pairwise leb ltb of_nat setlist1 p m vectors nb s = cluster vec D pairwise leb ltb of_nat setlist2 p m vectors nb s.
Proof.
  intros vec D pairwise leb ltb of_nat setlist1 setlist2 eps ms p m vectors nb s SL1 SL2 MK RF SW LE R. apply reachable_inv in R. apply make_ok in MK as (<- & MS & _).
  destruct (cluster_fails pairwise leb ltb of_nat setlist1 p m vectors nb s) as [C1 C2].
  destruct (cluster_fails pairwise leb ltb of_nat setlist2 p m vectors nb s) as [C1' C2'].
  destruct nb as [n|]; [rewrite C1, C1' by discriminate; auto|]. destruct (C2 eq_refl) as [C3 C4]. destruct (C2' eq_refl) as [C3' C4'].
  destruct (list_eq_dec (fun x y : pystr => eq_dec_of x y) (ids m) []) as [E0|NE]; [rewrite C3, C3' by auto; auto|].
  destruct (missing_dec vectors (ids m)) as [COV|M0]; [|rewrite C4, C4' by auto; auto].
  destruct (cluster_run pairwise leb ltb of_nat setlist1 p SL1 RF MS m vectors R NE COV) as (t1 & co1 & raw1 & n1 & rr1 & [ET1 GT1 GC1 NM1 IN1 FI1 RE1 RU1]).
  destruct (cluster_run pairwise leb ltb of_nat setlist2 p SL2 RF MS m vectors R NE COV) as (t2 & co2 & raw2 & n2 & rr2 & [ET2 GT2 GC2 NM2 IN2 FI2 RE2 RU2]).
  rewrite ET1 in ET2. injection ET2 as <-. rewrite RU1, RU2.
  assert (G := groups_alike pairwise leb ltb of_nat setlist1 setlist2 p SL1 SL2 RF MS SW LE m vectors R t1 GT1 co1 co2 GC1 GC2).
  assert (SP : same_partition raw1 raw2).
  { assert (K : forall x, In x (keys raw1) <-> In x (keys raw2)).
    { intro x. pose proof (nm_none _ _ _ NM1 x) as Q1. pose proof (nm_none _ _ _ NM2 x) as Q2. rewrite <- G in Q2. rewrite !dget_None in *.
      destruct (in_dec eq_dec_of x (keys raw1)), (in_dec eq_dec_of x (keys raw2)); tauto. }
    split; auto. intros x y X Y. assert (Gx : groups leb ltb of_nat setlist1 p m t1 co1 x <> None).
    { intro Q. apply (nm_none _ _ _ NM1) in Q. apply dget_None in Q. contradiction. }
    rewrite (nm_same _ _ _ NM1 x y Gx). rewrite G in Gx. rewrite (nm_same _ _ _ NM2 x y Gx), !G. tauto. }
  assert (rr1 = rr2); [|subst; auto].
  destruct (rr_ok raw1 rr1 n1 _ NM1 RE1) as (_ & Can1 & P1). destruct (rr_ok raw2 rr2 n2 _ NM2 RE2) as (_ & Can2 & P2).
  apply canonical_unique; auto. eapply same_partition_trans; [apply same_partition_sym; exact P1|]. eapply same_partition_trans; [exact SP|exact P2].
Qed.

(*EX
Example C74_ex : forall s, dbscan_Z pars ex vecs None s = cluster Z Z pw Z.leb Z.ltb Z.of_nat rev_set pars ex vecs None s.
Proof.
  intro s. apply (C74_dbscan_set_order Z Z pw Z.leb Z.ltb Z.of_nat dedup rev_set 2%Z 2%Z); [exact dedup_valid|exact rev_valid|reflexivity|apply pw_refl; lia|exact ltb_swo|exact leb_ltb|exact ex_reachable].
Qed.
EX*)

(*PROP C75: what DBScan computes, step by step: neighbourhoods seen in order, singled out points, noise, must-link cores owned by the first who reaches them, absorption in the order of the names, remaining local clusters in the order of creation. *)
Lemma C75_dbscan_functional_proof :
  forall vec D pairwise leb ltb of_nat setlist eps ms p m vectors nb s d l,
    valid_setlist setlist -> make_dbscan D leb of_nat eps ms = Ok p -> (forall rows i, leb (pairwise rows i i) eps = true) ->
    strict_weak_order ltb -> (forall x y, leb x y = negb (ltb y x)) -> reachable m -> ~ managed m (str "NONE") ->
    result (cluster vec D pairwise leb ltb of_nat setlist p m vectors nb) s = Ok d ->
    ask get_list_of_managed_data_IDs m = Ok l ->
    dbscan_result l (within pairwise leb eps m vectors)
      (fun a b => inferred m a b (Some MUST_LINK)) (fun a b => inferred m a b (Some CANNOT_LINK))
      (fun n => Z.to_nat ms <= n) (fun n => leb eps (of_nat n) = true) d.
Proof.
  intros vec D pairwise leb ltb of_nat setlist eps ms p m vectors nb s d l0 SL MK RF SW LE R NN E EI. apply reachable_inv in R. apply make_ok in MK as (<- & MS & _ & _ & EM).
  rewrite ask_managed in EI by auto. injection EI as <-. rewrite managed_ids in NN. fold NONE in NN. rewrite <- EM. change (fun n => db_min_samples D p <= n) with (enoughP D p).
  unfold result in E. destruct (cluster _ _ _ _ _ _ _ _ _ _ _ s) as [s' r] eqn:Ec. cbn [snd] in E. subst r.
  destruct (returned pairwise leb ltb of_nat setlist p SL RF MS m vectors R nb s s' d Ec) as (_ & table & cores & raw & n & rr & [_ GT GC NM IN FI RE RU] & Ed & _).
  subst d. clear Ec s' RU. assert (ND := inv_nodup m R). assert (TG := table_total pairwise m vectors table GT). assert (RFt := near_refl pairwise leb p RF m vectors R table GT).
  set (nearP := within pairwise leb (db_eps D p) m vectors). set (mustP := fun a b => inferred m a b (Some MUST_LINK)). set (cannotP := fun a b => inferred m a b (Some CANNOT_LINK)).
  assert (nearE : forall x y, In x (ids m) -> In y (ids m) -> nearP x y <-> near D leb p table x y = true) by (intros x y X Y; symmetry; apply (near_within pairwise leb p m vectors R table GT); auto).
  assert (mustE : forall x y, In x (ids m) -> In y (ids m) -> mustP x y <-> ml m x y = true) by (intros x y X Y; apply inferred_ml; auto).
  assert (cannotE : forall x y, In x (ids m) -> In y (ids m) -> cannotP x y <-> cl m x y = true) by (intros x y X Y; apply inferred_cl; auto).
  set (g := groups leb ltb of_nat setlist p m table cores) in *.
  set (K := pool D leb p m table). set (cs := fst (merged D leb ltb setlist p m table cores K)). set (ks := snd (merged D leb ltb setlist p m table cores K)).
  set (rest := filter (fun e => mem (fst e) ks) (local D leb p m table)).
  destruct GC as [GK GV].
  assert (GV' : forall i c, In (i, c) cores -> In i (ids m) /\ forall y, In y c <-> core0 D leb p m table i y = true).
  { intros i c J. split; [|apply (GV i c J)]. assert (Q : In i (filter (leader D leb p m table) (ids m))) by (rewrite <- GK; apply in_map_iff; exists (i, c); auto). apply filter_In in Q. tauto. }
  assert (KI : forall x, In x K <-> In x (ids m) /\ noise D leb p m table x = false).
  { intro x. unfold K. rewrite <- pool_In. split.
    - intro X. pose proof (li_incl _ _ _ (final_inv D leb p m table R TG RFt) x X) as Xl. split; auto. apply (in_local D leb p m table R TG RFt); auto.
    - intros [X Y]. apply (in_local D leb p m table R TG RFt); auto. }
  assert (KR : keys rest = filter (fun x => mem x ks) (keys (local D leb p m table))) by (apply (keys_filter (fun x => mem x ks))).
  assert (NR : NoDup (keys rest)) by (rewrite KR; apply NoDup_filter_list; exact (li_nodup _ _ _ (final_inv D leb p m table R TG RFt))).
  assert (KS : forall x, In x ks -> In x K) by (intros x X; destruct (merged_suffix D leb ltb setlist p m table cores K) as [b Eb]; rewrite Eb; apply in_or_app; auto).
  exists (hood D leb p m table), (singled D leb p m table), (keys cores), K, (map (fun c x => In x c) (vals cs)), ks, (keys rest), (taken D leb of_nat p rest (core_group (vals cs))).
  split; [apply turns_ok; auto|]. split; [|split; [|split; [|split; [|split]]]].
  - rewrite GK. split; [apply NoDup_filter_list; auto|]. split; [|intros x y B; apply KMeansProofs.before_filter in B; auto].
    intro x. rewrite filter_In. split; intros [X Y]; split; auto; apply (leader_iff D leb p m table R TG RFt MS mustP cannotP mustE cannotE NN); auto.
  - split; [apply (pool_sorted D leb p m table R TG RFt)|]. intro x. rewrite KI. split; intros [X Y]; split; auto; apply (noise_false D leb p m table R RFt MS cannotP cannotE); auto.
  - apply (grow_ok D leb ltb setlist p m table R SL TG RFt MS nearP mustP cannotP nearE mustE cannotE NN SW LE); auto. intros k Kk. apply KI; auto.
  - split; auto. split.
    + intro x. rewrite KR, filter_In, mem_In. split; [tauto|]. intro X. split; auto. apply pool_In. apply KS; auto.
    + intros x y B. rewrite KR in B. apply KMeansProofs.before_filter in B.
      apply (proj2 (proj2 (order_after D leb p m table R MS cannotP cannotE (ids m) [] (eq_sym (app_nil_r _))))). exact B.
  - intros r Rr.
    assert (RL : In r (keys (local D leb p m table))) by (rewrite KR in Rr; apply filter_In in Rr; tauto).
    destruct (local_points D leb p m table R TG RFt r RL) as [Jr Er].
    assert (Er' : dget r rest = Some (points D leb p m table r)).
    { unfold rest. rewrite (dget_filter (fun x => mem x ks)). rewrite KR in Rr. apply filter_In in Rr as [_ Rr]. rewrite Rr. auto. }
    destruct (taken_spec D leb of_nat p rest (core_group (vals cs)) NR) with (r := r) (pts := points D leb p m table r) as [A B]; auto.
    { intros k pts J. apply filter_In in J as [J _]. apply (li_pts _ _ _ (final_inv D leb p m table R TG RFt) k). apply In_dget; auto. exact (li_nodup _ _ _ (final_inv D leb p m table R TG RFt)). }
    split; auto. intro y. rewrite B. rewrite (local_iff D leb p m table R RFt MS cannotP cannotE r y Jr).
    assert (NZ : noise D leb p m table r = false) by (apply (in_local D leb p m table R TG RFt); auto).
    assert (CG : core_group (vals cs) y = None <-> forall t, ~ in_core (map (fun c x => In x c) (vals cs)) t y).
    { unfold core_group. split.
      - intros Q t (C & Nt & Cy). destruct (lastidx (vals cs) y) eqn:Ly; [discriminate|]. rewrite nth_error_map in Nt. destruct (nth_error (vals cs) t) as [c|] eqn:Nc; [|discriminate].
        cbn in Nt. injection Nt as <-. apply (proj1 (lastidx_None _ _) Ly c); auto. eapply nth_error_In; eauto.
      - intro Q. destruct (lastidx (vals cs) y) as [t|] eqn:Ly; auto. apply lastidx_Some in Ly as [(c & Nc & Yc) _]. exfalso. apply (Q t). exists (fun x => In x c).
        rewrite nth_error_map, Nc. auto. }
    rewrite CG. unfold big. tauto.
  - exists g. split; [|split; [|split; [|split]]].
    + intros x t. unfold g, groups. rewrite local_groups_inl. fold K cs. unfold core_group.
      assert (LC : lastidx (vals cs) x = Some t <-> in_core (map (fun c x => In x c) (vals cs)) t x /\ forall t', in_core (map (fun c x => In x c) (vals cs)) t' x -> t' <= t).
      { assert (IC : forall t, in_core (map (fun c x => In x c) (vals cs)) t x <-> exists c, nth_error (vals cs) t = Some c /\ In x c).
        { intro t0. unfold in_core. split.
          - intros (C & Nt & Cy). rewrite nth_error_map in Nt. destruct (nth_error (vals cs) t0) as [c|]; [|discriminate]. cbn in Nt. injection Nt as <-. exists c. auto.
          - intros (c & Nt & X). exists (fun x => In x c). rewrite nth_error_map, Nt. auto. }
        rewrite lastidx_Some, IC. split; intros [X Y]; split; auto.
        - intros t' T. apply IC in T as (c & Nc & Xc). eauto.
        - intros t' c Nc Xc. apply Y, IC. eauto. }
      rewrite <- LC. destruct (lastidx (vals cs) x); split; congruence.
    + intros x r. unfold g, groups. fold K cs ks rest. rewrite (local_groups_new D leb of_nat p rest (core_group (vals cs)) r NR).
      * unfold big. split; [intros [Q|Q]; auto|auto]. unfold core_group in Q. destruct (lastidx (vals cs) x); discriminate.
      * intros y k _. unfold core_group. destruct (lastidx (vals cs) y); discriminate.
    + intros x X G. apply (final_none _ ND raw rr n g NM RE x X G).
    + intros x X G. apply (final_some _ ND raw rr n g NM RE x G).
    + intros x y X Y G. apply (final_same _ ND raw rr n g NM RE x y X Y G).
Qed.

(*EX
(** min_samples 3: A and B see each other and C, in the middle; C comes first and takes both, but the noise point F leads too, and takes A, linked to it. E is ignored. *)
Definition ex2 : mgr := run [CallAddConstraint A F MUST_LINK 1%Q] (init [C; A; B; E; F]).
Example C75_ex : result (dbscan_Z (mkDBParams Z 2%Z 3) ex2 [(A, 0); (B, 2); (C, 1); (E, 40); (F, 41)]%Z None) fresh_dbscan = Ok [(A, 0); (B, 1); (C, 1); (F, 0); (E, -1)]%Z /\
  ~ managed ex2 (str "NONE") /\ reachable ex2 /\ make_dbscan Z Z.leb Z.of_nat 2%Z 3%Z = Ok (mkDBParams Z 2%Z 3).
Proof.
  split; [vm_compute; reflexivity|]. split; [|split; [apply run_reachable|reflexivity]]. intros (l & Q & J). vm_compute in Q. injection Q as <-.
  repeat (destruct J as [J|J]; [discriminate|]). destruct J.
Qed.
EX*)
