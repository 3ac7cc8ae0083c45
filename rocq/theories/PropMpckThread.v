(** Generated from MpckThreadThms.v by tools/gen_props.py: theorem statements,
    each closed by the lemma of the same name proved there. *)

From Coq Require Import String List Bool Arith ZArith QArith Permutation Lia.
From Verif Require Import Base Manager Spec ManagerThms ManagerInv ManagerQueries Sampling SamplingSpec ClusterSpec KMeansSpec SpectralSpec Mpckmeans MpckSpec MpckThms Threads ThreadSpec ThreadsThms
  Readers ReadersSpec ReadersThms ListingSpec Listing SampleThread MpckThread MpckThreadSpec MpckThreadThms.
Import ListNotations.
Open Scope nat_scope.

Definition A := str "a". Definition B := str "b". Definition C := str "c". Definition E := str "d".


(** C159: the clustering alone, action by action, leaves the manager as it is and ends with the result of the method. *)
Theorem C159_alone : forall vec D o flatten limit order first sample shuffle p vectors nb s m, reachable m ->
  alone (p_mpckmeans vec D o flatten limit order first sample shuffle p vectors nb) m = (m, result (Mpckmeans.cluster vec D o flatten limit order first sample shuffle p m vectors nb) s).
Proof. exact C159_alone_proof. Qed.
Print Assumptions C159_alone.

Definition ex : mgr := run [CallAddConstraint A C CANNOT_LINK 1%Q] (init [A; B; C; E]).
Lemma ex_reachable : reachable ex. Proof. apply run_reachable. Qed.
Definition vecs : dict pystr Z := [(A, 0); (B, 9); (C, 10); (E, 1)]%Z.
(** Rational numbers and points on a line, sets in the order of insertion, no shuffling, and the first indices drawn. *)
Definition on_a_line : prog (dict pystr Z) :=
  p_mpckmeans Z Q Qops (fun x => [inject_Z x]) 100 (fun l => l) (fun _ _ => 0) (fun _ k => seq 0 k) (fun _ l => l) (mkMPParams Q 10 (1#1)%Q) vecs (Some 2%Z).
Example C159_alone_ex : alone on_a_line ex = (ex, Ok [(A, 0); (B, 1); (C, 1); (E, 0)]%Z).
Proof. vm_compute. reflexivity. Qed.

(** C159: one thread adds constraints, any number of calls, and any number of other threads read the constraints for MPCKMeans and preprocess them. However their reads and writes are interleaved, the
    additions end as when they are made alone, and each preprocessing ends with graphs that make sense: they contain what was inferred when the threads started, only contain what is inferred at the
    end, the must-links are those within the neighborhoods, and what cannot be linked cannot be linked for the whole neighborhoods. "Inconsistent constraints" is never raised; only a component beyond
    the recursion limit, at the end, can make it fail. *)
Theorem C159_constraints : forall limit order m cs count m' r rs l comps,
    valid_order order -> reachable m -> ask get_list_of_managed_data_IDs m = Ok l -> Forall only_adds_constraints cs -> ask get_connected_components m' = Ok comps ->
    interleaved m (p_left (p_wsession cs) :: repeat (p_right (p_constraint_graphs limit order l)) count) m' (r :: rs) ->
    m' = run (map as_wcall cs) m /\ r = Ok (inl (snd (one_by_one (map as_wcall cs) m))) /\
    Forall (fun x => (x = Raise RecursionError /\ exists c, In c comps /\ limit < length c) \/
                     exists mg cg groups must cannot, x = Ok (inr (mg, cg, groups)) /\ graph_has (length l) must mg /\ graph_has (length l) cannot cg /\ knowledge m m' l must cannot groups) rs.
Proof. exact C159_constraints_proof. Qed.
Print Assumptions C159_constraints.

Definition news : list wcall := [WAdd A B MUST_LINK 1%Q; WAdd C E MUST_LINK 1%Q].
Definition all_of_them : nat := length (states (p_wsession news) ex).
(** The constraints are added while the must-links are read: the second is seen, not the first, and all the cannot-links that both imply are. The manager never was in such a state, but it makes sense. *)
Example C159_constraints_ex : Forall only_adds_constraints news /\
  exists m', interleaved ex (p_left (p_wsession news) :: repeat (p_right (p_constraint_graphs 100 (fun l => l) [A; B; C; E])) 1) m'
    [Ok (inl [Ok (VBool true); Ok (VBool true)]);
     Ok (inr ([(0, [0]); (1, [1]); (2, [2; 3]); (3, [2; 3])], [(0, [2; 3]); (1, [2; 3]); (2, [0; 1]); (3, [0; 1])], [[0]; [1]; [3; 2]]))].
Proof. split; [repeat constructor|]. eexists. apply (play_interleaved (repeat 1 30 ++ repeat 0 all_of_them ++ repeat 1 84)). vm_compute. reflexivity. Qed.

(** C159: one thread adds constraints and any number of other threads cluster the data with MPCKMeans, with vectors in the order of the manager. However their reads and writes are interleaved, each
    clustering that returns is a run of the algorithm for constraints that make sense, that contain what was inferred when the threads started and only contain what is inferred at the end: a canonical
    clustering of all the data, by the labels of the last iteration. It fails for the reasons of the method alone: a component beyond the recursion limit, a first centre that cannot be chosen, vectors
    that cannot be told apart, or an empty cluster when there are fewer than ten. *)
Theorem C159_clustering : forall vec D o flatten limit order first sample shuffle model it w p m cs (qs : list (mpck_call vec)) m' r rs l comps,
    valid_order order -> valid_shuffle shuffle -> valid_first first -> valid_sample sample -> exact_argmin o -> strict_weak_order (o_ltb D o) -> make_mpckmeans D o model it w = Ok p ->
    reachable m -> ask get_list_of_managed_data_IDs m = Ok l -> (forall x, In x l -> ~ ends_with_nul x) -> Forall only_adds_constraints cs ->
    Forall (valid_mpck_call l) qs -> Forall (fun q => forall v v', In v (vals (fst q)) -> In v' (vals (fst q)) -> length (flatten v) = length (flatten v')) qs ->
    ask get_connected_components m' = Ok comps ->
    interleaved m (p_left (p_wsession cs) :: map (fun q => p_right (p_mpckmeans vec D o flatten limit order first sample shuffle p (fst q) (Some (snd q)))) qs) m' (r :: rs) ->
    m' = run (map as_wcall cs) m /\ r = Ok (inl (snd (one_by_one (map as_wcall cs) m))) /\
    Forall2 (fun q res =>
      let x := fun i => nth i (map flatten (vals (fst q))) [] in let n := length l in let k := Nat.min (Z.to_nat (snd q)) n in
      (res = Raise RecursionError /\ exists c, In c comps /\ limit < length c) \/
      exists must cannot groups, knowledge m m' l must cannot groups /\
        match res with
        | Ok (inl _) => False
        | Ok (inr d) => exists C0 C L, first_centers o n (length (x 0)) x k first sample groups C0 /\
            iterates o n (length (x 0)) x k w must cannot (fun t => shuffle t (seq 0 n)) 0 (Z.to_nat it) C0 (repeat (o_of_nat D o 1) (length (x 0))) C L /\
            canonical d /\ covers_exactly m d /\ (forall i j a b, nth_error l i = Some a -> nth_error l j = Some b -> dget a d = dget b d <-> L i = L j)
        | Raise e => (e = IndexError /\ k < length groups) \/ e = AssertionError \/ (e = ValueError /\ k < 10)
        end) qs rs.
Proof. exact C159_clustering_proof. Qed.
Print Assumptions C159_clustering.

Lemma ex_valid : valid_mpck_call [A; B; C; E] (vecs, 2%Z).
Proof. split; [reflexivity|]. split; [discriminate|]. cbn. lia. Qed.
Lemma ex_plain : forall x, In x [A; B; C; E] -> ~ ends_with_nul x.
Proof. intros x J [y Y]. cbn [In] in J. destruct J as [<-|[<-|[<-|[<-|[]]]]]; destruct y as [|c [|c' y]]; discriminate. Qed.
(** At the same time, a clustering: neither what it returns without the new constraints, in [C159_alone_ex], nor what it returns with them. *)
Definition after : mgr := run (map as_wcall news) ex.
Example C159_clustering_ex : snd (alone on_a_line after) = Ok [(A, 0); (B, 0); (C, 1); (E, 1)]%Z /\
  interleaved ex [p_left (p_wsession news); p_right on_a_line] after [Ok (inl [Ok (VBool true); Ok (VBool true)]); Ok (inr [(A, 0); (B, 1); (C, 0); (E, 0)]%Z)].
Proof. split; [vm_compute; reflexivity|]. apply (play_interleaved (repeat 1 30 ++ repeat 0 all_of_them ++ repeat 1 85)). vm_compute. reflexivity. Qed.
(** It is a run of the algorithm. *)
Example C159_clustering_ex_run : exists must cannot groups C0 Ck L, knowledge ex after [A; B; C; E] must cannot groups /\
  iterates Qops 4 1 (fun i => nth i [[inject_Z 0]; [inject_Z 9]; [inject_Z 10]; [inject_Z 1]] []) 2 (1#1)%Q must cannot (fun _ => seq 0 4) 0 10 C0 [1%Q] Ck L /\ L 0 = L 2 /\ L 0 <> L 1.
Proof.
  destruct C159_clustering_ex as (_ & J). destruct C159_constraints_ex as (AC & _).
  destruct (C159_clustering Z Q Qops (fun x => [inject_Z x]) 100 (fun l => l) (fun _ _ => 0) (fun _ k => seq 0 k) (fun _ l => l) (str "MPC") 10%Z (1#1)%Q (mkMPParams Q 10 (1#1)%Q) ex news [(vecs, 2%Z)]
    after (Ok (inl [Ok (VBool true); Ok (VBool true)])) [Ok (inr [(A, 0); (B, 1); (C, 0); (E, 0)]%Z)] [A; B; C; E] [[A; B]; [C; E]]) as (_ & _ & F); auto.
  - intro. apply Permutation_refl.
  - intros t u. apply Permutation_refl.
  - intros n w L. exact L.
  - intros n k L. split; [apply seq_length|]. split; [apply seq_NoDup|]. intros i I. apply in_seq in I. lia.
  - exact Qargmin_exact.
  - exact Qlt_swo.
  - apply ex_reachable.
  - apply ex_plain.
  - constructor; [apply ex_valid|constructor].
  - inversion F as [|? ? ? ? H _]; subst. cbv zeta in H. destruct H as [[H _]|(must & cannot & groups & K & C0 & Ck & L & _ & IT & _ & _ & SAME)]; [discriminate|].
    exists must, cannot, groups, C0, Ck, L. split; auto. split; [exact IT|]. split; [apply (SAME 0 2 A C eq_refl eq_refl); reflexivity|]. rewrite <- (SAME 0 1 A B eq_refl eq_refl). discriminate.
Qed.
