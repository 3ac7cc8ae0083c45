(** * When the limit on the rounds of KMeans no longer matters (C129) *)

From Coq Require Import String List Bool Arith ZArith QArith Lia.
(*HEADER
From Coq Require Import String List Bool Arith ZArith QArith.
From Verif Require Import Base Manager Spec ManagerThms SamplingSpec ClusterSpec KMeans KMeansSpec LloydSpec LloydThms ConvergeSpec ConvergeThms PeriodThms.
Import ListNotations.
Open Scope nat_scope.
HEADER*)
From Verif Require Import Base Manager Spec Rename SamplingSpec KMeans KMeansSpec.
Import ListNotations.
Open Scope nat_scope.
Open Scope py_scope.

Section Rounds.
  Variables vec D : Type.
  Context `{EqB D}.
  Variable pairwise : list vec -> list vec -> nat -> nat -> D.
  Variable ltb : D -> D -> bool.
  Variable dsum : list D -> D.
  Variable mean : list vec -> vec.
  Variable shuffle : list pystr -> list pystr.
  Variable set_order : list Z -> list Z.
  Hypothesis SO : valid_set_order set_order.
  Variable tol : D.
  Variable m : mgr.
  Variable ids : list pystr.
  Variable vectors : dict pystr vec.
  Variable nb : nat.

  Definition limit (n : nat) : kparams D := mkKParams D n tol.

  (** The loop, with the flag it ends with. *)
  Fixpoint rounds (n : nat) (last : option (dict pystr Z)) (converged : bool) : M (kmeans vec) (option (dict pystr Z) * bool) :=
    if converged then ret (last, converged)
    else
      match n with
      | O => ret (last, converged)
      | S n =>
          centroids <- gets (k_centroids vec) ;;
          clusters <- gets (k_clusters vec) ;;
          new_clusters <- lift (assign vec D pairwise ltb m ids vectors nb centroids) ;;
          new_centroids <- lift (compute_centroids vec mean set_order m vectors new_clusters) ;;
          converged <- lift (has_converged vec D pairwise ltb dsum (limit 0) clusters new_clusters centroids new_centroids) ;;
          modify (set_clusters vec new_clusters) ;;
          modify (set_centroids vec new_centroids) ;;
          rounds n (Some new_clusters) converged
      end.

  Lemma iterate_rounds q n : forall last conv s,
    iterate vec D pairwise ltb dsum mean set_order (limit q) m ids vectors nb n last conv s = bind (rounds n last conv) (fun r => ret (fst r)) s.
  Proof.
    induction n as [|n IH]; intros last [|] s; try reflexivity. cbn [iterate rounds]. unfold bind, gets, lift, modify.
    destruct (assign vec D pairwise ltb m ids vectors nb (k_centroids vec s)) as [c|e]; auto.
    destruct (compute_centroids vec mean set_order m vectors c) as [z|e]; auto.
    change (has_converged vec D pairwise ltb dsum (limit q)) with (has_converged vec D pairwise ltb dsum (limit 0)).
    destruct (has_converged _ _ _ _ _ _ _ _ _ _) as [v|e]; auto. rewrite IH. reflexivity.
  Qed.

  Lemma rounds_plus a : forall b last conv s,
    rounds (a + b) last conv s = bind (rounds a last conv) (fun r => rounds b (fst r) (snd r)) s.
  Proof.
    induction a as [|a IH]; intros b last conv s.
    - change (0 + b) with b. cbn [rounds]. destruct conv; unfold bind, ret; cbn [fst snd]; auto. 
    - destruct conv.
      { change (S a + b) with (S (a + b)). cbn [rounds]. unfold bind, ret. cbn [fst snd]. destruct b; reflexivity. }
      change (S a + b) with (S (a + b)). cbn [rounds]. unfold bind, gets, lift, modify.
      destruct (assign vec D pairwise ltb m ids vectors nb (k_centroids vec s)) as [c|e]; auto.
      destruct (compute_centroids vec mean set_order m vectors c) as [z|e]; auto.
      destruct (has_converged _ _ _ _ _ _ _ _ _ _) as [v|e]; auto. rewrite IH. reflexivity.
  Qed.

  Lemma rounds_done n last s : rounds n last true s = (s, Ok (last, true)).
  Proof. destruct n; reflexivity. Qed.

  (** What the loop leaves after at least one round. *)
  Definition neat (s : kmeans vec) : Prop := compute_centroids vec mean set_order m vectors (k_clusters vec s) = Ok (k_centroids vec s).

  Lemma rounds_neat n : forall last conv s s' last' conv', rounds n last conv s = (s', Ok (last', conv')) ->
    (last = Some (k_clusters vec s) /\ neat s) \/ (0 < n /\ conv = false) ->
    last' = Some (k_clusters vec s') /\ neat s'.
  Proof.
    induction n as [|n IH]; intros last conv s s' last' conv' E C.
    - destruct C as [C|[C _]]; [|lia]. destruct conv; injection E as <- <- <-; exact C.
    - destruct conv.
      + rewrite rounds_done in E. injection E as <- <- <-. destruct C as [C|[_ C]]; [exact C|discriminate].
      + cbn [rounds] in E. unfold bind, gets, lift, modify in E.
        destruct (assign vec D pairwise ltb m ids vectors nb (k_centroids vec s)) as [c|e]; [|discriminate].
        destruct (compute_centroids vec mean set_order m vectors c) as [z|e] eqn:Z; [|discriminate].
        destruct (has_converged _ _ _ _ _ _ _ _ _ _) as [v|e]; [|discriminate]. apply (IH _ _ _ _ _ _ E). left. split; [reflexivity|exact Z].
  Qed.

  Lemma rounds_predicted n : forall last conv s, k_predicted vec (fst (rounds n last conv s)) = k_predicted vec s.
  Proof.
    induction n as [|n IH]; intros last [|] s; try reflexivity. cbn [rounds]. unfold bind, gets, lift, modify.
    destruct (assign vec D pairwise ltb m ids vectors nb (k_centroids vec s)) as [c|e]; auto.
    destruct (compute_centroids vec mean set_order m vectors c) as [z|e]; auto.
    destruct (has_converged _ _ _ _ _ _ _ _ _ _) as [v|e]; auto. rewrite IH. reflexivity.
  Qed.

  (** The numbers of the clusters are those of the centroids. *)
  Lemma centroid_keys_fold clusters l : forall acc r,
    rfold (fun centroids cluster_ID =>
               managed <-- ask get_list_of_managed_data_IDs m ;;;
               members <-- rfilter (fun x => c <-- dlookup x clusters ;;; Ok (Z.eqb c cluster_ID)) managed ;;;
               members <-- rmap (fun x => dlookup x vectors) members ;;;
               match members with
               | [] => Raise ZeroDivisionError
               | _ => Ok (dset cluster_ID (mean members) centroids)
               end) l acc = Ok r ->
    forall y, In y (keys r) <-> In y (keys acc) \/ In y l.
  Proof.
    induction l as [|x l IH]; intros acc r E y.
    - injection E as <-. simpl. tauto.
    - cbn [rfold] in E. unfold rbind in E at 1.
      match type of E with match ?X with _ => _ end = _ => destruct X as [acc'|e] eqn:X0; [|discriminate] end.
      assert (Q : exists v, acc' = dset x v acc).
      { unfold rbind in X0. destruct (ask get_list_of_managed_data_IDs m) as [mg|]; [|discriminate].
        destruct (rfilter _ mg) as [mb|]; [|discriminate]. destruct (rmap _ mb) as [vs|]; [|discriminate].
        destruct vs as [|v0 vs]; [discriminate|]. injection X0 as <-. eauto. }
      destruct Q as [v ->]. rewrite (IH _ _ E y), In_keys_dset. simpl. intuition congruence.
  Qed.

  Lemma neat_labels s y : neat s -> In y (keys (k_centroids vec s)) <-> In y (vals (k_clusters vec s)).
  Proof.
    intro N. unfold neat, compute_centroids in N. rewrite (centroid_keys_fold _ _ _ _ N y). destruct (SO (vals (k_clusters vec s))) as [_ E].
    rewrite E. simpl. tauto.
  Qed.

  Lemma set_eqb_ext a b c : (forall x : Z, In x a <-> In x b) -> set_eqb a c = set_eqb b c.
  Proof.
    intro E. unfold set_eqb. f_equal.
    - apply eq_true_iff_eq. rewrite !forallb_forall. setoid_rewrite E. tauto.
    - apply eq_true_iff_eq. rewrite !forallb_forall. split; intros F x X; apply mem_In; apply E, mem_In, F, X.
  Qed.

  Lemma rounds_same q last1 last2 s1 s2 : neat s1 -> neat s2 -> k_centroids vec s1 = k_centroids vec s2 -> k_predicted vec s1 = k_predicted vec s2 ->
    forall r, snd (rounds (S q) last1 false s1) = Ok r -> rounds (S q) last2 false s2 = rounds (S q) last1 false s1.
  Proof.
    intros N1 N2 C P r E. cbn [rounds] in *. unfold bind, gets, lift, modify in *. rewrite <- C.
    destruct (assign vec D pairwise ltb m ids vectors nb (k_centroids vec s1)) as [c|e]; [|discriminate].
    destruct (compute_centroids vec mean set_order m vectors c) as [z|e]; [|discriminate].
    assert (HC : has_converged vec D pairwise ltb dsum (limit 0) (k_clusters vec s2) c (k_centroids vec s1) z =
                 has_converged vec D pairwise ltb dsum (limit 0) (k_clusters vec s1) c (k_centroids vec s1) z).
    { unfold has_converged. rewrite (set_eqb_ext (vals (k_clusters vec s2)) (vals (k_clusters vec s1))); auto.
      intro y. rewrite <- !neat_labels, C by auto. tauto. }
    rewrite HC. destruct (has_converged _ _ _ _ _ _ _ _ _ _) as [v|e]; [|discriminate].
    unfold set_centroids, set_clusters. cbn [k_predicted k_clusters k_centroids]. rewrite P. reflexivity.
  Qed.

  (** A period of the loop. *)
  Lemma rounds_period n k last s0 sA lA vA sB lB vB : 1 <= n -> 1 <= k ->
    rounds n last false s0 = (sA, Ok (lA, vA)) -> rounds (n + k) last false s0 = (sB, Ok (lB, vB)) ->
    k_centroids vec sA = k_centroids vec sB ->
    forall N, n + k <= N -> rounds (N + k) last false s0 = rounds N last false s0.
  Proof.
    intros Hn Hk EA EB C N HN.
    destruct (rounds_neat n last false s0 sA lA vA EA) as [LA NA]; [right; split; [lia|auto]|].
    destruct (rounds_neat (n + k) last false s0 sB lB vB EB) as [LB NB]; [right; split; [lia|auto]|].
    assert (PA := rounds_predicted n last false s0). rewrite EA in PA. cbn [fst] in PA.
    assert (PB := rounds_predicted (n + k) last false s0). rewrite EB in PB. cbn [fst] in PB.
    assert (AB : rounds k lA vA sA = (sB, Ok (lB, vB))). { rewrite rounds_plus in EB. unfold bind in EB. rewrite EA in EB. exact EB. }
    assert (From : forall q, rounds (n + k + q) last false s0 = rounds q lB vB sB).
    { intro q. rewrite rounds_plus. unfold bind. rewrite EB. reflexivity. }
    replace (N + k) with (n + k + (k + (N - n - k))) by lia. replace N with (n + k + (N - n - k)) at 2 by lia. rewrite !From.
    destruct vB. { rewrite !rounds_done. reflexivity. }
    destruct vA. { rewrite rounds_done in AB. discriminate. }
    rewrite rounds_plus. destruct k as [|k]; [lia|].
    assert (BB : rounds (S k) lB false sB = (sB, Ok (lB, false))).
    { rewrite <- AB. rewrite (rounds_same k lA lB sA sB NA NB C ltac:(congruence) (lB, false)); auto. rewrite AB. reflexivity. }
    unfold bind. rewrite BB. reflexivity.
  Qed.
End Rounds.

Section Call.
  Variables vec D : Type.
  Context `{EqB D}.
  Variable pairwise : list vec -> list vec -> nat -> nat -> D.
  Variable ltb : D -> D -> bool.
  Variable dsum : list D -> D.
  Variable mean : list vec -> vec.
  Variable shuffle : list pystr -> list pystr.
  Variable set_order : list Z -> list Z.
  Hypothesis SO : valid_set_order set_order.
  Variable tol : D.
  Variable m : mgr.
  Variable vectors : dict pystr vec.
  Variable nb : option Z.
  Variable s : kmeans vec.
  Notation call n := (cluster vec D pairwise ltb dsum mean shuffle set_order (mkKParams D n tol) m vectors nb).

  (** What follows the loop. *)
  Definition rest (new_clusters : option (dict pystr Z)) : M (kmeans vec) (dict pystr Z) :=
    d <- (clusters <- gets (k_clusters vec) ;;
          clusters <- lift (rename_clusters_by_order clusters) ;;
          modify (set_clusters vec clusters) ;;
          new_clusters <- (match new_clusters with Some c => ret c | None => raise UnboundLocalError end) ;;
          centroids <- lift (compute_centroids vec mean set_order m vectors new_clusters) ;;
          modify (set_centroids vec centroids) ;;
          ret clusters) ;;
    modify (set_predicted vec (Some d)) ;;
    ret d.

  Lemma rest_centroids z l d : snd (rest l z) = Ok d -> l = Some (k_clusters vec z) -> neat vec mean set_order m vectors z ->
    k_centroids vec (fst (rest l z)) = k_centroids vec z.
  Proof.
    intros E -> N. unfold rest, bind, gets, lift, modify, ret in *. destruct (rename_clusters_by_order (k_clusters vec z)) as [c|]; [|discriminate].
    unfold neat in N. rewrite N. reflexivity.
  Qed.

  Lemma call_shape : (exists e, forall n, snd (call n s) = Raise e) \/
    exists ids k z, forall n, call n s = bind (rounds vec D pairwise ltb dsum mean set_order tol m ids vectors k n None false) (fun r => rest (fst r)) z.
  Proof.
    unfold cluster. destruct (ask get_list_of_managed_data_IDs m) as [ids|e] eqn:EI; [|left; exists e; reflexivity].
    destruct nb as [z|]; [|left; exists ValueError; reflexivity].
    unfold bind at 1, lift at 1. destruct (z <? 2)%Z; [left; exists ValueError; reflexivity|].
    set (k := Nat.min (Z.to_nat z) (length ids)). unfold clustering_COP.
    destruct (initialize_centroids vec shuffle ids vectors k) as [c0|e] eqn:E0.
    2:{ left. exists e. intro n. reflexivity. }
    right. exists ids, k, (set_clusters vec (dcomp (fun _ => (-1)%Z) ids) (set_centroids vec c0 (set_predicted vec None s))).
    intro n. fold k. unfold bind at 1, modify at 1. unfold bind at 1. unfold bind at 1. unfold lift at 1. fold k. rewrite E0.
    unfold bind at 1, modify at 1. unfold bind at 1, modify at 1. cbn [kp_max_iteration]. unfold bind at 1.
    unfold lift at 1. unfold bind at 1. change (mkKParams D n tol) with (limit D tol n). rewrite iterate_rounds.
    unfold rest, bind. 
    destruct (rounds vec D pairwise ltb dsum mean set_order tol m ids vectors k n None false _) as [s1 [[l v]|e]]; reflexivity.
  Qed.
End Call.

(*PROP C129: if the runs with limits n and n + k on the number of rounds leave the same centroids, the results of all larger limits repeat with period k, whatever the constraints, the tolerance and the distances. *)
Lemma C129_period_proof :
  forall vec D (eqD : EqB D) pairwise ltb dsum mean shuffle set_order tol m vectors nb s n k,
    let call i := cluster vec D pairwise ltb dsum mean shuffle set_order (mkKParams D i tol) m vectors nb in
    valid_set_order set_order -> 1 <= n -> 1 <= k ->
    (exists d, result (call n) s = Ok d) -> (exists d, result (call (n + k)) s = Ok d) ->
    k_centroids vec (fst (call n s)) = k_centroids vec (fst (call (n + k) s)) ->
    forall i, n + k <= i -> call (i + k) s = call i s.
Proof.
  intros vec D eqD pairwise ltb dsum mean shuffle set_order tol m vectors nb s n k call SO Hn Hk [d1 E1] [d2 E2] C i Hi. unfold result in *. unfold call in *.
  destruct (call_shape vec D pairwise ltb dsum mean shuffle set_order tol m vectors nb s) as [[e Bad]|(ids & q & z & Shape)].
  { rewrite Bad in E1. discriminate. }
  rewrite !Shape in *. unfold bind in *.
  destruct (rounds vec D pairwise ltb dsum mean set_order tol m ids vectors q n None false z) as [sA [[lA vA]|e]] eqn:RA; [|discriminate].
  destruct (rounds vec D pairwise ltb dsum mean set_order tol m ids vectors q (n + k) None false z) as [sB [[lB vB]|e]] eqn:RB; [|discriminate].
  cbn [fst] in *.
  destruct (rounds_neat _ _ _ _ _ _ _ _ _ _ _ _ _ _ _ _ _ _ _ RA) as [LA NA]; [right; split; [lia|auto]|].
  destruct (rounds_neat _ _ _ _ _ _ _ _ _ _ _ _ _ _ _ _ _ _ _ RB) as [LB NB]; [right; split; [lia|auto]|].
  rewrite (rest_centroids _ _ _ _ _ _ _ _ E1 LA NA), (rest_centroids _ _ _ _ _ _ _ _ E2 LB NB) in C.
  rewrite (rounds_period vec D pairwise ltb dsum mean shuffle set_order SO tol m ids vectors q n k None z sA lA vA sB lB vB Hn Hk RA RB C i Hi). reflexivity.
Qed.

(*EX
(** Two CANNOT_LINK make the centroids of the first and the third round equal, and the second ones different. *)
Definition turning (i : nat) := cluster (list Q) Q (squared 1) less (fun l => Qred (sumQ l)) (mean_of 1) (fun l => l) (nodup Z.eq_dec) (mkKParams Q i (1 # 10000)%Q) apart apart_at (Some 2%Z).
Example C129_period_ex : valid_set_order (nodup Z.eq_dec) /\
  (exists d, result (turning 1) (fresh_kmeans (list Q)) = Ok d) /\ (exists d, result (turning (1 + 2)) (fresh_kmeans (list Q)) = Ok d) /\
  k_centroids _ (fst (turning 1 (fresh_kmeans (list Q)))) = k_centroids _ (fst (turning (1 + 2) (fresh_kmeans (list Q)))) /\
  result (turning 2) (fresh_kmeans (list Q)) <> result (turning 1) (fresh_kmeans (list Q)).
Proof.
  split; [intro l; split; [apply NoDup_nodup|intro; apply nodup_In]|]. split; [eexists; vm_compute; reflexivity|]. split; [eexists; vm_compute; reflexivity|].
  split; [vm_compute; reflexivity|vm_compute; discriminate].
Qed.
EX*)

(*PROP C129: in particular, as soon as one more round changes no centroid, more rounds change nothing at all. *)
Lemma C129_settled_proof :
  forall vec D (eqD : EqB D) pairwise ltb dsum mean shuffle set_order tol m vectors nb s n,
    let call i := cluster vec D pairwise ltb dsum mean shuffle set_order (mkKParams D i tol) m vectors nb in
    valid_set_order set_order -> 1 <= n ->
    (exists d, result (call n) s = Ok d) -> (exists d, result (call (n + 1)) s = Ok d) ->
    k_centroids vec (fst (call n s)) = k_centroids vec (fst (call (n + 1) s)) ->
    forall i, n + 1 <= i -> call i s = call (n + 1) s.
Proof.
  intros vec D eqD pairwise ltb dsum mean shuffle set_order tol m vectors nb s n call SO Hn E1 E2 C i Hi.
  assert (P := C129_period_proof vec D eqD pairwise ltb dsum mean shuffle set_order tol m vectors nb s n 1 SO Hn (le_n 1) E1 E2 C). fold call in P.
  induction i as [|i IH]; [lia|]. destruct (Nat.eq_dec (S i) (n + 1)) as [->|N]; auto. rewrite <- IH by lia. rewrite <- (P i) by lia. f_equal. lia.
Qed.

(*EX
(** Four data on a line, tolerance zero: the fourth round changes no centroid, the second one does. *)
Definition line : dict pystr (list Q) := [(str "a", [0]); (str "b", [1]); (str "c", [2]); (str "d", [10])]%Q.
Definition resting (i : nat) := cluster (list Q) Q (squared 1) less (fun l => Qred (sumQ l)) (mean_of 1) (fun l => l) (nodup Z.eq_dec) (mkKParams Q i 0%Q) (init (keys line)) line (Some 2%Z).
Example C129_settled_ex :
  (exists d, result (resting 3) (fresh_kmeans (list Q)) = Ok d) /\ (exists d, result (resting (3 + 1)) (fresh_kmeans (list Q)) = Ok d) /\
  k_centroids _ (fst (resting 3 (fresh_kmeans (list Q)))) = k_centroids _ (fst (resting (3 + 1) (fresh_kmeans (list Q)))) /\
  k_centroids _ (fst (resting 1 (fresh_kmeans (list Q)))) <> k_centroids _ (fst (resting 2 (fresh_kmeans (list Q)))).
Proof.
  split; [eexists; vm_compute; reflexivity|]. split; [eexists; vm_compute; reflexivity|]. split; [vm_compute; reflexivity|vm_compute; discriminate].
Qed.
EX*)
