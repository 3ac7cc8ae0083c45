(** Generated from SpectralThreadThms.v by tools/gen_props.py: theorem statements,
    each closed by the lemma of the same name proved there. *)

From Coq Require Import String List Bool Arith ZArith QArith Permutation Lia.
From Verif Require Import Base Manager Spec ManagerThms ManagerInv ManagerQueries Sampling SamplingSpec ClusterSpec KMeansSpec Spectral SpectralSpec Threads ThreadSpec ThreadsThms Readers ReadersSpec
  ReadersThms ListingSpec Listing SampleThread SpectralThread SpectralThreadSpec SpectralThreadThms.
Import ListNotations.
Open Scope nat_scope.

Definition A := str "a". Definition B := str "b". Definition C := str "c". Definition E := str "d".
(** A kernel, and a solver that puts in one cluster the points whose similarity to the last point is at least 900. *)
Definition sim (X : list Z) (i j : nat) : Z := (1000 - 10 * Z.abs (nth i X 0 - nth j X 0))%Z.
Definition solve (n : nat) (M : list (list Z)) : res (list Z) :=
  match rev M with [] => Raise ValueError | row :: _ => Ok (map (fun v => if (v <? 900)%Z then 7 else 3)%Z row) end.


(** C158: the clustering alone, action by action, leaves the manager as it is and ends with the result of the method. *)
Theorem C158_alone : forall vec D kernel (zero one : D) solver vectors nb s m, reachable m ->
  alone (p_spectral vec D kernel zero one solver vectors nb) m = (m, result (Spectral.cluster vec D kernel zero one solver m vectors nb) s).
Proof. exact C158_alone_proof. Qed.
Print Assumptions C158_alone.

Definition ex : mgr := run [CallAddConstraint A C MUST_LINK 1%Q; CallAddConstraint A B CANNOT_LINK 1%Q] (init [A; B; C; E]).
Lemma ex_reachable : reachable ex. Proof. apply run_reachable. Qed.
Definition vecs : dict pystr Z := [(E, 5); (A, 0); (B, 1); (C, 10)]%Z.
Definition by_solver : prog (dict pystr Z) := p_spectral Z Z sim 0%Z 1000%Z solve vecs (Some 2%Z).
Example C158_alone_ex : alone by_solver ex = (ex, Ok [(A, 0); (B, 0); (C, 0); (E, 0)]%Z).
Proof. vm_compute. reflexivity. Qed.

(** C158: one thread adds constraints, any number of calls, and any number of other threads cluster the data with the spectral method. However their reads and writes are interleaved, the additions
    end as when they are made alone, and the solver of each clustering gets a matrix in which every entry, and its mirror image, is what it would be in one of the managers between two additions: 1 for
    what is inferred there as MUST_LINK, 0 for CANNOT_LINK, the kernel for the rest. What was inferred when the threads started counts, and what is not inferred at the end has the kernel.
    When the solver labels all the data, the result is a canonical clustering of them that follows the labels; only an error of the solver makes the clustering fail. *)
Theorem C158_matrix : forall vec D kernel (zero one : D) solver m cs (qs : list (spectral_call vec)) m' r rs l,
    reachable m -> ask get_list_of_managed_data_IDs m = Ok l -> Forall only_adds_constraints cs -> Forall (valid_spectral_call m) qs ->
    interleaved m (p_left (p_wsession cs) :: map (fun q => p_right (p_spectral vec D kernel zero one solver (fst q) (Some (snd q)))) qs) m' (r :: rs) ->
    m' = run (map as_wcall cs) m /\ r = Ok (inl (snd (one_by_one (map as_wcall cs) m))) /\
    Forall2 (fun q x => exists rows M, vectors_are (fst q) l rows /\ matrix_on_the_way m cs l zero one (kernel rows) M /\
      match solver (Nat.min (Z.to_nat (snd q)) (length l)) M with
      | Raise e => x = Raise e
      | Ok labels => length labels = length l -> exists d, x = Ok (inr d) /\ canonical d /\ covers_exactly m d /\ grouped_by l labels d
      end) qs rs.
Proof. exact C158_matrix_proof. Qed.
Print Assumptions C158_matrix.

Definition news : list wcall := [WAdd C E CANNOT_LINK 1%Q; WAdd B E MUST_LINK 1%Q].
Definition all_of_them : nat := length (states (p_wsession news) ex).
Lemma ex_valid : valid_spectral_call ex (vecs, 2%Z).
Proof.
  split; [exists A; apply managed_ids; change (In A [A; B; C; E]); left; auto|]. split; [|cbn; lia].
  exists vecs. split; auto. intros x Mx. apply managed_ids in Mx. cbn [vecs keys map fst]. change (In x [A; B; C; E]) in Mx. cbn [In] in *. tauto.
Qed.
(** The constraints are added once the pairs with [a] are read: [a] and [d] have their kernel, [c] and [d] have 0, and [a] and [c], which are linked, are apart for this solver. The result is neither
    that without the constraints nor that with them. *)
Example C158_matrix_ex : Forall only_adds_constraints news /\ snd (alone by_solver (run (map as_wcall news) ex)) = Ok [(A, 0); (B, 1); (C, 0); (E, 1)]%Z /\
  exists m', interleaved ex [p_left (p_wsession news); p_right by_solver] m' [Ok (inl [Ok (VBool true); Ok (VBool true)]); Ok (inr [(A, 0); (B, 0); (C, 1); (E, 0)]%Z)].
Proof.
  split; [repeat constructor|]. split; [vm_compute; reflexivity|].
  eexists. apply (play_interleaved (repeat 1 30 ++ repeat 0 all_of_them ++ repeat 1 22)). vm_compute. reflexivity.
Qed.

(** C158: the matrix is symmetric when the kernel is. *)
Theorem C158_symmetric : forall D m cs (zero one : D) kernel M l, reachable m -> ask get_list_of_managed_data_IDs m = Ok l -> Forall only_adds_constraints cs ->
    matrix_on_the_way m cs l zero one kernel M -> (forall i j, kernel i j = kernel j i) -> forall i j, SpectralSpec.entry M i j = SpectralSpec.entry M j i.
Proof. exact C158_symmetric_proof. Qed.
Print Assumptions C158_symmetric.

Example C158_symmetric_ex : exists rows M, vectors_are vecs [A; B; C; E] rows /\ matrix_on_the_way ex news [A; B; C; E] 0%Z 1000%Z (sim rows) M /\ forall i j, SpectralSpec.entry M i j = SpectralSpec.entry M j i.
Proof.
  destruct C158_matrix_ex as (AC & _ & m' & J).
  destruct (C158_matrix Z Z sim 0%Z 1000%Z solve ex news [(vecs, 2%Z)] m' _ _ [A; B; C; E] ex_reachable eq_refl AC (Forall_cons _ ex_valid (Forall_nil _)) J) as (_ & _ & F).
  inversion F as [|? ? ? ? (rows & M & V & MW & _) _]; subst. exists rows, M. split; auto. split; auto.
  apply (C158_symmetric Z ex news 0%Z 1000%Z (sim rows) M [A; B; C; E]); auto; [apply ex_reachable|]. intros i j. unfold sim. rewrite <- Z.abs_opp, Z.opp_sub_distr, Z.add_comm. reflexivity.
Qed.
