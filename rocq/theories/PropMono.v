(** Generated from MonoThms.v by tools/gen_props.py: theorem statements,
    each closed by the lemma of the same name proved there. *)

From Coq Require Import String List Bool Arith ZArith QArith Permutation Lia.
From Verif Require Import Base Manager Spec ManagerThms Rename Sampling SamplingSpec ClusterSpec KMeans KMeansSpec Spectral Hierarchical DbscanSpec DbscanThms MpckSpec MpckThms AffinityExample NamesSpec ResumeSpec MonoSpec MonoThms.
From Verif Require Dbscan Mpckmeans Affinity.
Import ListNotations.
Open Scope nat_scope.

Definition A := str "a". Definition B := str "b". Definition C := str "c". Definition E := str "d".
(** A common prefix keeps the order of all names. *)
Definition prefix (x : pystr) : pystr := str "doc_" ++ x.
Lemma prefix_order used : keeps_order used prefix.
Proof. intros x y _ _. reflexivity. Qed.
(** A session of four points on a line: c and a are linked, a and b are not. *)
Definition data : list pystr := [B; A; C; E].
Definition session : list call := [CallAddConstraint C A MUST_LINK 1%Q; CallAddConstraint A B CANNOT_LINK 1%Q].
Definition vecs : dict pystr Z := [(E, 12); (A, 0); (B, 1); (C, 10)]%Z.
Definition before : mgr := run session (init data).
Definition renamed : mgr := run (map (rename_call prefix) session) (init (map prefix data)).
Definition prefixed (l : list (pystr * Z)) : dict pystr Z := map (fun e => (str "doc_" ++ fst e, snd e)) l.
Definition pw (X Y : list Z) (i j : nat) : Z := Z.abs (nth i X 0 - nth j Y 0)%Z.
Definition zmean (l : list Z) : Z := (fold_right Z.add 0 l / Z.of_nat (length l))%Z.
Definition zsum (l : list Z) : Z := fold_right Z.add 0%Z l.
(** Reversing a list moves its positions, whatever its elements. *)
Lemma rev_by_position T : by_position (@rev T).
Proof.
  exists (fun n => rev (seq 0 n)). intro l. rewrite !map_rev. f_equal. induction l as [|x l IH]; auto. cbn [map length seq nth_error].
  f_equal; auto. rewrite <- seq_shift, map_map. exact IH.
Qed.

(** C103: when the data are renamed without changing their alphabetical order, every history of calls of a manager gives exactly the same answers with the new names. *)
Theorem C103_manager_names :
  forall f ids history, keeps_order (ids ++ flat_map call_names history) f ->
    outputs (map (rename_call f) history) (init (map f ids)) = map (rename_result f) (outputs history (init ids)).
Proof. exact C103_manager_names_proof. Qed.
Print Assumptions C103_manager_names.

Definition history : list call := [CallAddConstraint B C MUST_LINK 1%Q; CallAddConstraint A B MUST_LINK 1%Q; CallDeleteConstraint A A; CallComponents; CallAddConstraint A C CANNOT_LINK 1%Q].
(** Not a prefix: a, b, c become x, xa, y. *)
Definition xyz (n : pystr) : pystr := if eqb n A then str "x" else if eqb n B then str "xa" else if eqb n C then str "y" else n.
Example C103_ex : keeps_order ([C; A; B] ++ flat_map call_names history) xyz /\
  outputs history (init [C; A; B]) = [Ok (VBool true); Ok (VBool true); Ok (VBool true); Ok (VComponents [[A; B; C]]); Raise ValueError] /\
  outputs (map (rename_call xyz) history) (init [str "y"; str "x"; str "xa"]) =
    [Ok (VBool true); Ok (VBool true); Ok (VBool true); Ok (VComponents [[str "x"; str "xa"; str "y"]]); Raise ValueError].
Proof.
  split; [|split; vm_compute; reflexivity]. intros x y I J. cbn in I, J.
  repeat (destruct I as [<-|I]; [repeat (destruct J as [<-|J]; [vm_compute; reflexivity|]); contradiction|]). contradiction.
Qed.

(** C104: when the data are renamed without changing their alphabetical order, a sampler selects the same pairs with the new names. *)
Theorem C104_sampling_names :
  forall vec D pairwise ltb draw o nb f ids history clusters vectors,
    keeps_order (ids ++ flat_map call_names history ++ optional_keys clusters ++ optional_keys vectors) f ->
    (forall k, by_position (fun l => draw l k)) ->
    result (sample vec D pairwise ltb draw o nb (option_map (rename_dict f) clusters) (option_map (rename_dict f) vectors))
        (fresh_sampler vec D, run (map (rename_call f) history) (init (map f ids))) =
      rename_answer (map (fun p => (f (fst p), f (snd p))))
        (result (sample vec D pairwise ltb draw o nb clusters vectors) (fresh_sampler vec D, run history (init ids))).
Proof. exact C104_sampling_names_proof. Qed.
Print Assumptions C104_sampling_names.

(** The draw by position: from the end. *)
Lemma draw_by_position k : by_position (fun l : list (pystr * pystr) => firstn k (rev l)).
Proof.
  exists (fun n => firstn k (rev (seq 0 n))). intro l.
  rewrite <- !firstn_map. f_equal. rewrite !map_rev. f_equal. induction l as [|x l IH]; auto. cbn [map length seq nth_error]. f_equal; auto. rewrite <- seq_shift, map_map. exact IH.
Qed.
Definition closest : options := mkOptions None (Some CLOSEST) true true.
Example C104_ex :
  result (sample Z Z (fun X => pw X X) Z.ltb (fun l k => firstn k (rev l)) closest 2%Z None (Some vecs)) (fresh_sampler Z Z, before) = Ok [(C, E); (B, E)] /\
  result (sample Z Z (fun X => pw X X) Z.ltb (fun l k => firstn k (rev l)) closest 2%Z None (Some (rename_dict prefix vecs))) (fresh_sampler Z Z, renamed) =
    Ok [(str "doc_c", str "doc_d"); (str "doc_b", str "doc_d")].
Proof. split; vm_compute; reflexivity. Qed.
Example C104_random_ex :
  result (sample Z Z (fun X => pw X X) Z.ltb (fun l k => firstn k (rev l)) (mkOptions None None true true) 2%Z None None) (fresh_sampler Z Z, renamed) =
    Ok [(str "doc_c", str "doc_d"); (str "doc_a", str "doc_d")].
Proof. vm_compute; reflexivity. Qed.

(** C105: so does [rename_clusters_by_order]: its numbering follows the new names. *)
Theorem C105_rename_names :
  forall f d, keeps_order (keys d) f -> rename_clusters_by_order (rename_dict f d) = rename_answer (rename_dict f) (rename_clusters_by_order d).
Proof. exact C105_rename_names_proof. Qed.
Print Assumptions C105_rename_names.

Example C105_rename_ex : rename_clusters_by_order (prefixed [(C, 7); (A, 3); (B, 7)]%Z) = Ok (prefixed [(A, 0); (B, 1); (C, 1)]%Z).
Proof. vm_compute; reflexivity. Qed.
(** When the order changes (a becomes z), so does the numbering. *)
Definition to_z (x : pystr) : pystr := if eqb x A then str "z" else x.
Example C105_order_matters : rename_clusters_by_order (rename_dict to_z [(A, 3); (B, 7)]%Z) = Ok [(B, 0); (str "z", 1)]%Z /\
  rename_answer (rename_dict to_z) (rename_clusters_by_order [(A, 3); (B, 7)]%Z) = Ok [(str "z", 0); (B, 1)]%Z.
Proof. split; vm_compute; reflexivity. Qed.

(** C105: when the data are renamed without changing their alphabetical order, constrained KMeans gives the same clusters with the new names, when [shuffle] moves positions. *)
Theorem C105_kmeans_names :
  forall vec D (eqD : EqB D) pairwise ltb dsum mean shuffle set_order p nb f ids history vectors,
    keeps_order (names ids history vectors) f -> by_position shuffle ->
    result (KMeans.cluster vec D pairwise ltb dsum mean shuffle set_order p (run (map (rename_call f) history) (init (map f ids))) (rename_dict f vectors) nb) (fresh_kmeans vec) =
      rename_answer (rename_dict f) (result (KMeans.cluster vec D pairwise ltb dsum mean shuffle set_order p (run history (init ids)) vectors nb) (fresh_kmeans vec)).
Proof. exact C105_kmeans_names_proof. Qed.
Print Assumptions C105_kmeans_names.

Example C105_kmeans_ex :
  result (KMeans.cluster Z Z pw Z.ltb zsum zmean (@rev pystr) (nodup Z.eq_dec) (mkKParams Z 5 1%Z) renamed (rename_dict prefix vecs) (Some 2%Z)) (fresh_kmeans Z) =
    Ok (prefixed [(A, 0); (B, 1); (C, 0); (E, 0)]%Z).
Proof. vm_compute; reflexivity. Qed.

(** C105: the same for hierarchical clustering. *)
Theorem C105_hierarchical_names :
  forall vec D (eqD : EqB D) pairwise cdistance ltb dsum ddiv inf mean linkage nb f ids history vectors,
    keeps_order (names ids history vectors) f ->
    result (Hierarchical.cluster vec D pairwise cdistance ltb dsum ddiv inf mean linkage (run (map (rename_call f) history) (init (map f ids))) (rename_dict f vectors) nb) (fresh_hier vec) =
      rename_answer (rename_dict f) (result (Hierarchical.cluster vec D pairwise cdistance ltb dsum ddiv inf mean linkage (run history (init ids)) vectors nb) (fresh_hier vec)).
Proof. exact C105_hierarchical_names_proof. Qed.
Print Assumptions C105_hierarchical_names.

Example C105_hierarchical_ex :
  result (Hierarchical.cluster Z Z (fun X => pw X X) (fun x y => Z.abs (x - y)%Z) Z.ltb zsum (fun d n => (d / Z.of_nat n)%Z) 1000000%Z zmean (str "single") renamed (rename_dict prefix vecs) (Some 2%Z)) (fresh_hier Z) =
    Ok (prefixed [(A, 0); (B, 1); (C, 0); (E, 0)]%Z).
Proof. vm_compute; reflexivity. Qed.

(** C105: the same for spectral clustering. *)
Theorem C105_spectral_names :
  forall vec D kernel zero one solver nb f ids history vectors,
    keeps_order (names ids history vectors) f ->
    result (Spectral.cluster vec D kernel zero one solver (run (map (rename_call f) history) (init (map f ids))) (rename_dict f vectors) nb) (fresh_spectral D) =
      rename_answer (rename_dict f) (result (Spectral.cluster vec D kernel zero one solver (run history (init ids)) vectors nb) (fresh_spectral D)).
Proof. exact C105_spectral_names_proof. Qed.
Print Assumptions C105_spectral_names.

Definition solve (n : nat) (M : list (list Z)) : res (list Z) :=
  match M with [] => Raise ValueError | row :: _ => Ok (map (fun v => if (v <? 900)%Z then 7 else 3)%Z row) end.
Example C105_spectral_ex :
  result (Spectral.cluster Z Z (fun X i j => 1000 - 10 * pw X X i j)%Z 0%Z 1000%Z solve renamed (rename_dict prefix vecs) (Some 2%Z)) (fresh_spectral Z) =
    Ok (prefixed [(A, 0); (B, 1); (C, 0); (E, 0)]%Z).
Proof. vm_compute; reflexivity. Qed.

(** C105: the same for affinity propagation. *)
Theorem C105_affinity_names :
  forall vec D o similarity p nb f ids history vectors,
    keeps_order (names ids history vectors) f ->
    result (Affinity.cluster vec D o similarity p (run (map (rename_call f) history) (init (map f ids))) (rename_dict f vectors) nb) None =
      rename_answer (rename_dict f) (result (Affinity.cluster vec D o similarity p (run history (init ids)) vectors nb) None).
Proof. exact C105_affinity_names_proof. Qed.
Print Assumptions C105_affinity_names.

Example C105_affinity_ex :
  result (Affinity.cluster Z num exact_ops line (params true) renamed (rename_dict prefix vecs) None) None =
    Ok (prefixed [(A, 0); (B, 0); (C, 0); (E, 1)]%Z).
Proof. vm_compute; reflexivity. Qed.

(** C105: the same for MPCKMeans, when neither the old names nor the new ones end with NUL (numpy drops it, see C102). *)
Theorem C105_mpckmeans_names :
  forall vec D o flatten limit order first sample shuffle p nb f ids history vectors,
    keeps_order (names ids history vectors) f ->
    (forall x, In x (names ids history vectors) -> ~ ends_with_nul x /\ ~ ends_with_nul (f x)) ->
    result (Mpckmeans.cluster vec D o flatten limit order first sample shuffle p (run (map (rename_call f) history) (init (map f ids))) (rename_dict f vectors) nb) (Mpckmeans.fresh_mpckmeans D) =
      rename_answer (rename_dict f) (result (Mpckmeans.cluster vec D o flatten limit order first sample shuffle p (run history (init ids)) vectors nb) (Mpckmeans.fresh_mpckmeans D)).
Proof. exact C105_mpckmeans_names_proof. Qed.
Print Assumptions C105_mpckmeans_names.

Lemma no_nul x : In x (names data session vecs) -> ~ ends_with_nul x /\ ~ ends_with_nul (prefix x).
Proof.
  cbn. intro I. repeat (destruct I as [<-|I]; [split; intros [y Y]; apply (f_equal (fun l => last l 1%N)) in Y; rewrite last_last in Y; discriminate Y|]). contradiction.
Qed.
Example C105_mpckmeans_ex :
  result (Mpckmeans.cluster Z Q Qops (fun x => [inject_Z x]) 100 (fun l => l) (fun _ _ => 0) (fun _ k => seq 0 k) (fun _ l => l) (Mpckmeans.mkMPParams Q 10 (1#1)%Q)
    renamed (rename_dict prefix vecs) (Some 2%Z)) (Mpckmeans.fresh_mpckmeans Q) = Ok (prefixed [(A, 0); (B, 0); (C, 1); (E, 1)]%Z).
Proof. vm_compute; reflexivity. Qed.

(** C105: the same for DBScan, when "NONE" is neither an old name nor a new one, even if the two runs enumerate sets in different orders. *)
Theorem C105_dbscan_names :
  forall vec D pairwise leb ltb of_nat setlist1 setlist2 eps ms p nb f ids history vectors,
    valid_setlist setlist1 -> valid_setlist setlist2 -> Dbscan.make_dbscan D leb of_nat eps ms = Ok p -> (forall rows i, leb (pairwise rows i i) eps = true) ->
    strict_weak_order ltb -> (forall x y, leb x y = negb (ltb y x)) ->
    keeps_order (names ids history vectors) f ->
    (forall x, In x (names ids history vectors) -> x <> str "NONE" /\ f x <> str "NONE") ->
    result (Dbscan.cluster vec D pairwise leb ltb of_nat setlist2 p (run (map (rename_call f) history) (init (map f ids))) (rename_dict f vectors) nb) Dbscan.fresh_dbscan =
      rename_answer (rename_dict f) (result (Dbscan.cluster vec D pairwise leb ltb of_nat setlist1 p (run history (init ids)) vectors nb) Dbscan.fresh_dbscan).
Proof. exact C105_dbscan_names_proof. Qed.
Print Assumptions C105_dbscan_names.

Example C105_dbscan_ex :
  result (Dbscan.cluster Z Z (fun X => pw X X) Z.leb Z.ltb Z.of_nat (fun l => rev (dedup l)) (Dbscan.mkDBParams Z 2%Z 2) renamed (rename_dict prefix vecs) None) Dbscan.fresh_dbscan =
    Ok (prefixed [(A, 0); (C, 0); (B, -1); (E, -2)]%Z) /\
  (forall x, In x (names data session vecs) -> x <> str "NONE" /\ prefix x <> str "NONE").
Proof.
  split; [vm_compute; reflexivity|]. cbn. intros x I. repeat (destruct I as [<-|I]; [split; discriminate|]). contradiction.
Qed.
