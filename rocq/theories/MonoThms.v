(** * Proofs about renamings which keep the alphabetical order (see MonoSpec.v) *)

From Coq Require Import String List Bool Arith ZArith QArith Permutation Lia.
From Verif Require Import Base Manager Spec ManagerThms Rename Sampling SamplingSpec ClusterSpec KMeans KMeansSpec Spectral Hierarchical DbscanSpec DbscanThms MpckSpec MpckThms NamesSpec ResumeSpec MonoSpec.
From Verif Require Import Rel RelManager RelClusterings RelHierDb.
From Verif Require Dbscan Mpckmeans Affinity.
Import ListNotations.
Open Scope nat_scope.

(*HEADER
From Coq Require Import String List Bool Arith ZArith QArith Permutation Lia.
From Verif Require Import Base Manager Spec ManagerThms Rename Sampling SamplingSpec ClusterSpec KMeans KMeansSpec Spectral Hierarchical DbscanSpec DbscanThms MpckSpec MpckThms AffinityExample NamesSpec ResumeSpec MonoSpec MonoThms.
From Verif Require Dbscan Mpckmeans Affinity.
Import ListNotations.
Open Scope nat_scope.

Definition A := str "a". Definition B := str "b". Definition C := str "c". Definition E := str "d".
(** A common prefix keeps the order of all names. *)
Definition prefix (x : pystr) : pystr := str "doc_" ++ x.
Lemma prefix_order used : keeps_order used prefix.
Proof. intros x y _ _. reflexivity. Qed.
(** A session of four points on a line: c and a are linked, a and b are not. *)
Definition data : list pystr := [B; A; C; E].
Definition session : list call := [CallAddConstraint C A MUST_LINK 1%Q; CallAddConstraint A B CANNOT_LINK 1%Q].
Definition vecs : dict pystr Z := [(E, 12); (A, 0); (B, 1); (C, 10)]%Z.
Definition before : mgr := run session (init data).
Definition renamed : mgr := run (map (rename_call prefix) session) (init (map prefix data)).
Definition prefixed (l : list (pystr * Z)) : dict pystr Z := map (fun e => (str "doc_" ++ fst e, snd e)) l.
Definition pw (X Y : list Z) (i j : nat) : Z := Z.abs (nth i X 0 - nth j Y 0)%Z.
Definition zmean (l : list Z) : Z := (fold_right Z.add 0 l / Z.of_nat (length l))%Z.
Definition zsum (l : list Z) : Z := fold_right Z.add 0%Z l.
(** Reversing a list moves its positions, whatever its elements. *)
Lemma rev_by_position T : by_position (@rev T).
Proof.
  exists (fun n => rev (seq 0 n)). intro l. rewrite !map_rev. f_equal. induction l as [|x l IH]; auto. cbn [map length seq nth_error].
  f_equal; auto. rewrite <- seq_shift, map_map. exact IH.
Qed.
HEADER*)

(** [x'] is the new name of [x], a name which is used. *)
Definition named (f : pystr -> pystr) (used : list pystr) (x x' : pystr) : Prop := x' = f x /\ In x used.

Lemma named_order f used : keeps_order used f -> same_order (named f used).
Proof. intros K x x' y y' [-> I] [-> J]. symmetry. apply K; auto. Qed.

Lemma named_list f used l : incl l used -> RL (named f used) l (map f l).
Proof. induction l as [|x l IH]; intro I; cbn; constructor; [split; auto; apply I; left; auto|]. apply IH. intros y J. apply I. right; auto. Qed.
Lemma list_named f used l l' : RL (named f used) l l' -> l' = map f l.
Proof. induction 1 as [|x x' l l' E F IH]; cbn; [auto|]; destruct E as [-> _]; cbn; rewrite IH; auto. Qed.
Lemma lists_named f used l l' : RL (RL (named f used)) l l' -> l' = map (map f) l.
Proof. induction 1 as [|x x' l l' E F IH]; cbn; auto. rewrite (list_named _ _ _ _ E), IH. auto. Qed.
Lemma named_dict {V} f used (d : dict pystr V) : incl (keys d) used -> RD (named f used) eq d (rename_dict f d).
Proof. induction d as [|[x v] d IH]; intro I; cbn; constructor; [constructor; auto; split; auto; apply I; left; auto|]. apply IH. intros y J. apply I. right; auto. Qed.
Lemma dict_named {V} f used (d d' : dict pystr V) : RD (named f used) eq d d' -> d' = rename_dict f d.
Proof. induction 1 as [|? ? d d' E F IH]; cbn; [auto|]; destruct E as [x x' v v' [-> _] ->]; cbn; rewrite IH; auto. Qed.
Lemma pairs_named f used l l' : RL (RP (named f used) (named f used)) l l' -> l' = map (fun p => (f (fst p), f (snd p))) l.
Proof. induction 1 as [|? ? l l' E F IH]; cbn; [auto|]; destruct E as [x x' y y' [-> _] [-> _]]; cbn; rewrite IH; auto. Qed.
Lemma call_named f used c : incl (call_names c) used -> RC (named f used) c (rename_call f c).
Proof. intro I. destruct c; cbn in *; constructor; split; auto; apply I; cbn; auto. Qed.
Lemma value_named f used r r' : RR (RV (named f used)) r r' -> r' = rename_result f r.
Proof.
  intros [v v' []|e]; cbn; auto.
  - rewrite (list_named _ _ _ _ H). auto.
  - rewrite (lists_named _ _ _ _ H). auto.
  - destruct H as [|x x' E]; cbn; auto. rewrite (list_named _ _ _ _ E). auto.
Qed.

Section Histories.
  Variables (f : pystr -> pystr) (used : list pystr).
  Hypothesis K : keeps_order used f.
  Instance SO : same_order (named f used) := named_order f used K.

  Lemma history_named h : incl (flat_map call_names h) used -> forall m m', RMgr (named f used) m m' ->
    outputs (map (rename_call f) h) m' = map (rename_result f) (outputs h m) /\ RMgr (named f used) (run h m) (run (map (rename_call f) h) m').
  Proof.
    induction h as [|c h IH]; intros I m m' Rm; [split; auto|]. cbn [map outputs run fold_left]. cbn [flat_map] in I.
    destruct (exec_rel (named f used) c (rename_call f c) (call_named f used c (fun x J => I x (in_or_app _ _ x (or_introl J)))) m m' Rm) as [E1 E2].
    destruct (IH (fun x J => I x (in_or_app _ _ x (or_intror J))) _ _ E1) as [E3 E4]. split; auto. rewrite (value_named f used _ _ E2), E3. auto.
  Qed.
  Lemma run_named ids h : incl (ids ++ flat_map call_names h) used -> RMgr (named f used) (run h (init ids)) (run (map (rename_call f) h) (init (map f ids))).
  Proof.
    intro I. apply history_named; [intros x J; apply I, in_or_app; auto|]. apply init_rel; [apply SO|]. apply named_list. intros x J. apply I, in_or_app; auto.
  Qed.
End Histories.

(*PROP C103: when the data are renamed without changing their alphabetical order, every history of calls of a manager gives exactly the same answers with the new names. *)
Lemma C103_manager_names_proof :
  forall f ids history, keeps_order (ids ++ flat_map call_names history) f ->
    outputs (map (rename_call f) history) (init (map f ids)) = map (rename_result f) (outputs history (init ids)).
Proof.
  intros f ids h K. apply (history_named f _ K); [intros x J; apply in_or_app; auto|]. apply init_rel; [apply (SO f _ K)|]. apply named_list. intros x J. apply in_or_app; auto.
Qed.

(*EX
Definition history : list call := [CallAddConstraint B C MUST_LINK 1%Q; CallAddConstraint A B MUST_LINK 1%Q; CallDeleteConstraint A A; CallComponents; CallAddConstraint A C CANNOT_LINK 1%Q].
(** Not a prefix: a, b, c become x, xa, y. *)
Definition xyz (n : pystr) : pystr := if eqb n A then str "x" else if eqb n B then str "xa" else if eqb n C then str "y" else n.
Example C103_ex : keeps_order ([C; A; B] ++ flat_map call_names history) xyz /\
  outputs history (init [C; A; B]) = [Ok (VBool true); Ok (VBool true); Ok (VBool true); Ok (VComponents [[A; B; C]]); Raise ValueError] /\
  outputs (map (rename_call xyz) history) (init [str "y"; str "x"; str "xa"]) =
    [Ok (VBool true); Ok (VBool true); Ok (VBool true); Ok (VComponents [[str "x"; str "xa"; str "y"]]); Raise ValueError].
Proof.
  split; [|split; vm_compute; reflexivity]. intros x y I J. cbn in I, J.
  repeat (destruct I as [<-|I]; [repeat (destruct J as [<-|J]; [vm_compute; reflexivity|]); contradiction|]). contradiction.
Qed.
EX*)

Lemma pairs_answer f u r r' : RR (RL (RP (named f u) (named f u))) r r' -> r' = rename_answer (map (fun p => (f (fst p), f (snd p)))) r.
Proof. intros [l l' E|e]; cbn; auto. rewrite (pairs_named _ _ _ _ E). auto. Qed.

(*PROP C104: when the data are renamed without changing their alphabetical order, a sampler selects the same pairs with the new names. *)
Lemma C104_sampling_names_proof :
  forall vec D pairwise ltb draw o nb f ids history clusters vectors,
    keeps_order (ids ++ flat_map call_names history ++ optional_keys clusters ++ optional_keys vectors) f ->
    (forall k, by_position (fun l => draw l k)) ->
    result (sample vec D pairwise ltb draw o nb (option_map (rename_dict f) clusters) (option_map (rename_dict f) vectors))
        (fresh_sampler vec D, run (map (rename_call f) history) (init (map f ids))) =
      rename_answer (map (fun p => (f (fst p), f (snd p))))
        (result (sample vec D pairwise ltb draw o nb clusters vectors) (fresh_sampler vec D, run history (init ids))).
Proof.
  intros vec D pairwise ltb draw o nb f ids h c v K DR. set (u := ids ++ _) in K. unfold result.
  destruct (fun SO => @sample_rel (named f u) SO vec D pairwise ltb draw DR o nb c (option_map (rename_dict f) c) v (option_map (rename_dict f) v)) with
    (s1 := (fresh_sampler vec D, run h (init ids))) (s2 := (fresh_sampler vec D, run (map (rename_call f) h) (init (map f ids)))) as [_ E].
  - apply named_order, K.
  - destruct c as [c|]; constructor. apply named_dict. intros x J. unfold u. cbn [optional_keys]. rewrite !in_app_iff. auto.
  - destruct v as [v|]; constructor. apply named_dict. intros x J. unfold u. cbn [optional_keys]. rewrite !in_app_iff. auto.
  - constructor; [constructor; constructor|]. apply (run_named f u K). intros x J. unfold u. rewrite !in_app_iff in *. tauto.
  - exact (pairs_answer f u _ _ E).
Qed.

(*EX
(** The draw by position: from the end. *)
Lemma draw_by_position k : by_position (fun l : list (pystr * pystr) => firstn k (rev l)).
Proof.
  exists (fun n => firstn k (rev (seq 0 n))). intro l.
  rewrite <- !firstn_map. f_equal. rewrite !map_rev. f_equal. induction l as [|x l IH]; auto. cbn [map length seq nth_error]. f_equal; auto. rewrite <- seq_shift, map_map. exact IH.
Qed.
Definition closest : options := mkOptions None (Some CLOSEST) true true.
Example C104_ex :
  result (sample Z Z (fun X => pw X X) Z.ltb (fun l k => firstn k (rev l)) closest 2%Z None (Some vecs)) (fresh_sampler Z Z, before) = Ok [(C, E); (B, E)] /\
  result (sample Z Z (fun X => pw X X) Z.ltb (fun l k => firstn k (rev l)) closest 2%Z None (Some (rename_dict prefix vecs))) (fresh_sampler Z Z, renamed) =
    Ok [(str "doc_c", str "doc_d"); (str "doc_b", str "doc_d")].
Proof. split; vm_compute; reflexivity. Qed.
Example C104_random_ex :
  result (sample Z Z (fun X => pw X X) Z.ltb (fun l k => firstn k (rev l)) (mkOptions None None true true) 2%Z None None) (fresh_sampler Z Z, renamed) =
    Ok [(str "doc_c", str "doc_d"); (str "doc_a", str "doc_d")].
Proof. vm_compute; reflexivity. Qed.
EX*)

Lemma names_in {V} ids h (v : dict pystr V) : incl (ids ++ flat_map call_names h) (names ids h v) /\ incl (keys v) (names ids h v).
Proof. unfold names. split; intros x J; rewrite !in_app_iff in *; tauto. Qed.
Lemma answer_named f u r r' : RR (RD (named f u) (@eq Z)) r r' -> r' = rename_answer (rename_dict f) r.
Proof. intros [d d' E|e]; cbn; auto. rewrite (dict_named _ _ _ _ E). auto. Qed.
Lemma by_rel {S} (I : S -> S -> Prop) f u (q q' : M S (dict pystr Z)) s : RM I (RD (named f u) eq) q q' -> I s s -> result q' s = rename_answer (rename_dict f) (result q s).
Proof. intros E F. apply (answer_named f u). apply (E s s F). Qed.

(*PROP C105: so does [rename_clusters_by_order]: its numbering follows the new names. *)
Lemma C105_rename_names_proof :
  forall f d, keeps_order (keys d) f -> rename_clusters_by_order (rename_dict f d) = rename_answer (rename_dict f) (rename_clusters_by_order d).
Proof. intros f d K. apply (answer_named f (keys d)). apply rename_rel; [apply named_order, K|]. apply named_dict. intros x J; auto. Qed.

(*EX
Example C105_rename_ex : rename_clusters_by_order (prefixed [(C, 7); (A, 3); (B, 7)]%Z) = Ok (prefixed [(A, 0); (B, 1); (C, 1)]%Z).
Proof. vm_compute; reflexivity. Qed.
(** When the order changes (a becomes z), so does the numbering. *)
Definition to_z (x : pystr) : pystr := if eqb x A then str "z" else x.
Example C105_order_matters : rename_clusters_by_order (rename_dict to_z [(A, 3); (B, 7)]%Z) = Ok [(B, 0); (str "z", 1)]%Z /\
  rename_answer (rename_dict to_z) (rename_clusters_by_order [(A, 3); (B, 7)]%Z) = Ok [(str "z", 0); (B, 1)]%Z.
Proof. split; vm_compute; reflexivity. Qed.
EX*)

(*PROP C105: when the data are renamed without changing their alphabetical order, constrained KMeans gives the same clusters with the new names, when [shuffle] moves positions. *)
Lemma C105_kmeans_names_proof :
  forall vec D (eqD : EqB D) pairwise ltb dsum mean shuffle set_order p nb f ids history vectors,
    keeps_order (names ids history vectors) f -> by_position shuffle ->
    result (KMeans.cluster vec D pairwise ltb dsum mean shuffle set_order p (run (map (rename_call f) history) (init (map f ids))) (rename_dict f vectors) nb) (fresh_kmeans vec) =
      rename_answer (rename_dict f) (result (KMeans.cluster vec D pairwise ltb dsum mean shuffle set_order p (run history (init ids)) vectors nb) (fresh_kmeans vec)).
Proof.
  intros vec D eqD pairwise ltb dsum mean shuffle set_order p nb f ids h v K SH. destruct (names_in ids h v) as [N1 N2]. apply (by_rel (RK (named f (names ids h v)) vec) f (names ids h v)).
  - apply kmeans_rel; auto; [apply named_order, K|apply (run_named f _ K); auto|apply named_dict; auto].
  - repeat constructor.
Qed.

(*EX
Example C105_kmeans_ex :
  result (KMeans.cluster Z Z pw Z.ltb zsum zmean (@rev pystr) (nodup Z.eq_dec) (mkKParams Z 5 1%Z) renamed (rename_dict prefix vecs) (Some 2%Z)) (fresh_kmeans Z) =
    Ok (prefixed [(A, 0); (B, 1); (C, 0); (E, 0)]%Z).
Proof. vm_compute; reflexivity. Qed.
EX*)

(*PROP C105: the same for hierarchical clustering. *)
Lemma C105_hierarchical_names_proof :
  forall vec D (eqD : EqB D) pairwise cdistance ltb dsum ddiv inf mean linkage nb f ids history vectors,
    keeps_order (names ids history vectors) f ->
    result (Hierarchical.cluster vec D pairwise cdistance ltb dsum ddiv inf mean linkage (run (map (rename_call f) history) (init (map f ids))) (rename_dict f vectors) nb) (fresh_hier vec) =
      rename_answer (rename_dict f) (result (Hierarchical.cluster vec D pairwise cdistance ltb dsum ddiv inf mean linkage (run history (init ids)) vectors nb) (fresh_hier vec)).
Proof.
  intros vec D eqD pairwise cdistance ltb dsum ddiv inf mean linkage nb f ids h v K. destruct (names_in ids h v) as [N1 N2]. apply (by_rel (RH (named f (names ids h v)) vec) f (names ids h v)).
  - apply hierarchical_rel; auto; [apply named_order, K|apply (run_named f _ K); auto|apply named_dict; auto].
  - repeat constructor.
Qed.

(*EX
Example C105_hierarchical_ex :
  result (Hierarchical.cluster Z Z (fun X => pw X X) (fun x y => Z.abs (x - y)%Z) Z.ltb zsum (fun d n => (d / Z.of_nat n)%Z) 1000000%Z zmean (str "single") renamed (rename_dict prefix vecs) (Some 2%Z)) (fresh_hier Z) =
    Ok (prefixed [(A, 0); (B, 1); (C, 0); (E, 0)]%Z).
Proof. vm_compute; reflexivity. Qed.
EX*)

(*PROP C105: the same for spectral clustering. *)
Lemma C105_spectral_names_proof :
  forall vec D kernel zero one solver nb f ids history vectors,
    keeps_order (names ids history vectors) f ->
    result (Spectral.cluster vec D kernel zero one solver (run (map (rename_call f) history) (init (map f ids))) (rename_dict f vectors) nb) (fresh_spectral D) =
      rename_answer (rename_dict f) (result (Spectral.cluster vec D kernel zero one solver (run history (init ids)) vectors nb) (fresh_spectral D)).
Proof.
  intros vec D kernel zero one solver nb f ids h v K. destruct (names_in ids h v) as [N1 N2]. apply (by_rel (RSp (named f (names ids h v)) D) f (names ids h v)).
  - apply spectral_rel; auto; [apply named_order, K|apply (run_named f _ K); auto|apply named_dict; auto].
  - repeat constructor.
Qed.

(*EX
Definition solve (n : nat) (M : list (list Z)) : res (list Z) :=
  match M with [] => Raise ValueError | row :: _ => Ok (map (fun v => if (v <? 900)%Z then 7 else 3)%Z row) end.
Example C105_spectral_ex :
  result (Spectral.cluster Z Z (fun X i j => 1000 - 10 * pw X X i j)%Z 0%Z 1000%Z solve renamed (rename_dict prefix vecs) (Some 2%Z)) (fresh_spectral Z) =
    Ok (prefixed [(A, 0); (B, 1); (C, 0); (E, 0)]%Z).
Proof. vm_compute; reflexivity. Qed.
EX*)

(*PROP C105: the same for affinity propagation. *)
Lemma C105_affinity_names_proof :
  forall vec D o similarity p nb f ids history vectors,
    keeps_order (names ids history vectors) f ->
    result (Affinity.cluster vec D o similarity p (run (map (rename_call f) history) (init (map f ids))) (rename_dict f vectors) nb) None =
      rename_answer (rename_dict f) (result (Affinity.cluster vec D o similarity p (run history (init ids)) vectors nb) None).
Proof.
  intros vec D o similarity p nb f ids h v K. destruct (names_in ids h v) as [N1 N2]. apply (by_rel (RO (RD (named f (names ids h v)) eq)) f (names ids h v)).
  - apply affinity_rel; auto; [apply named_order, K|apply (run_named f _ K); auto|apply named_dict; auto].
  - constructor.
Qed.

(*EX
Example C105_affinity_ex :
  result (Affinity.cluster Z num exact_ops line (params true) renamed (rename_dict prefix vecs) None) None =
    Ok (prefixed [(A, 0); (B, 0); (C, 0); (E, 1)]%Z).
Proof. vm_compute; reflexivity. Qed.
EX*)

(*PROP C105: the same for MPCKMeans, when neither the old names nor the new ones end with NUL (numpy drops it, see C102). *)
Lemma C105_mpckmeans_names_proof :
  forall vec D o flatten limit order first sample shuffle p nb f ids history vectors,
    keeps_order (names ids history vectors) f ->
    (forall x, In x (names ids history vectors) -> ~ ends_with_nul x /\ ~ ends_with_nul (f x)) ->
    result (Mpckmeans.cluster vec D o flatten limit order first sample shuffle p (run (map (rename_call f) history) (init (map f ids))) (rename_dict f vectors) nb) (Mpckmeans.fresh_mpckmeans D) =
      rename_answer (rename_dict f) (result (Mpckmeans.cluster vec D o flatten limit order first sample shuffle p (run history (init ids)) vectors nb) (Mpckmeans.fresh_mpckmeans D)).
Proof.
  intros vec D o flatten limit order first sample shuffle p nb f ids h v K NU. destruct (names_in ids h v) as [N1 N2]. apply (by_rel (RMp (named f (names ids h v)) D) f (names ids h v)).
  - apply mpckmeans_rel; auto; [apply named_order, K| |apply (run_named f _ K); auto|apply named_dict; auto].
    intros x x' [-> I]. destruct (NU x I). rewrite !np_str_plain by auto. split; auto.
  - repeat constructor.
Qed.

(*EX
Lemma no_nul x : In x (names data session vecs) -> ~ ends_with_nul x /\ ~ ends_with_nul (prefix x).
Proof.
  cbn. intro I. repeat (destruct I as [<-|I]; [split; intros [y Y]; apply (f_equal (fun l => last l 1%N)) in Y; rewrite last_last in Y; discriminate Y|]). contradiction.
Qed.
Example C105_mpckmeans_ex :
  result (Mpckmeans.cluster Z Q Qops (fun x => [inject_Z x]) 100 (fun l => l) (fun _ _ => 0) (fun _ k => seq 0 k) (fun _ l => l) (Mpckmeans.mkMPParams Q 10 (1#1)%Q)
    renamed (rename_dict prefix vecs) (Some 2%Z)) (Mpckmeans.fresh_mpckmeans Q) = Ok (prefixed [(A, 0); (B, 0); (C, 1); (E, 1)]%Z).
Proof. vm_compute; reflexivity. Qed.
EX*)

(*PROP C105: the same for DBScan, when "NONE" is neither an old name nor a new one, even if the two runs enumerate sets in different orders. *)
Lemma C105_dbscan_names_proof :
  forall vec D pairwise leb ltb of_nat setlist1 setlist2 eps ms p nb f ids history vectors,
    valid_setlist setlist1 -> valid_setlist setlist2 -> Dbscan.make_dbscan D leb of_nat eps ms = Ok p -> (forall rows i, leb (pairwise rows i i) eps = true) ->
    strict_weak_order ltb -> (forall x y, leb x y = negb (ltb y x)) ->
    keeps_order (names ids history vectors) f ->
    (forall x, In x (names ids history vectors) -> x <> str "NONE" /\ f x <> str "NONE") ->
    result (Dbscan.cluster vec D pairwise leb ltb of_nat setlist2 p (run (map (rename_call f) history) (init (map f ids))) (rename_dict f vectors) nb) Dbscan.fresh_dbscan =
      rename_answer (rename_dict f) (result (Dbscan.cluster vec D pairwise leb ltb of_nat setlist1 p (run history (init ids)) vectors nb) Dbscan.fresh_dbscan).
Proof.
  intros vec D pairwise leb ltb of_nat sl1 sl2 eps ms p nb f ids h v V1 V2 MK RF SW LE K NO. destruct (names_in ids h v) as [N1 N2]. unfold result.
  rewrite (C74_dbscan_set_order_proof vec D pairwise leb ltb of_nat sl1 dedup eps ms p (run h (init ids)) v nb) by (auto using dedup_setlist, run_reachable).
  rewrite (C74_dbscan_set_order_proof vec D pairwise leb ltb of_nat sl2 dedup eps ms p (run (map (rename_call f) h) (init (map f ids))) (rename_dict f v) nb) by (auto using dedup_setlist, run_reachable).
  assert (NO' := named_order f _ K). apply (by_rel (RDb (named f (names ids h v))) f (names ids h v)).
  - apply dbscan_rel; auto; [|intros x x' [-> I]|apply (run_named f _ K); auto|apply named_dict; auto].
    + intros l l' E. assert (RelEq (named f (names ids h v))) by (apply R_eqb; auto). apply (dedup_rel (named f (names ids h v))); auto.
    + destruct (NO x I) as [G1 G2]. destruct (eqb_spec x Dbscan.NONE), (eqb_spec (f x) Dbscan.NONE); auto; contradiction.
  - repeat constructor.
Qed.

(*EX
Example C105_dbscan_ex :
  result (Dbscan.cluster Z Z (fun X => pw X X) Z.leb Z.ltb Z.of_nat (fun l => rev (dedup l)) (Dbscan.mkDBParams Z 2%Z 2) renamed (rename_dict prefix vecs) None) Dbscan.fresh_dbscan =
    Ok (prefixed [(A, 0); (C, 0); (B, -1); (E, -2)]%Z) /\
  (forall x, In x (names data session vecs) -> x <> str "NONE" /\ prefix x <> str "NONE").
Proof.
  split; [vm_compute; reflexivity|]. cbn. intros x I. repeat (destruct I as [<-|I]; [split; discriminate|]). contradiction.
Qed.
EX*)
