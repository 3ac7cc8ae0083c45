(** Generated from ConvergeThms.v by tools/gen_props.py: theorem statements,
    each closed by the lemma of the same name proved there. *)

From Coq Require Import String List Bool Arith ZArith QArith Permutation Lia.
From Verif Require Import Base Manager Spec ManagerThms SamplingSpec ClusterSpec KMeans KMeansSpec LloydSpec LloydThms ConvergeSpec ConvergeThms.
Import ListNotations.
Open Scope nat_scope.

(** C117: with a tolerance that no move of the centroids is below (zero), without CANNOT_LINK and with MUST_LINK only between data at the same place: as soon as there are more rounds than ways to number the data with the requested clusters, no data is closer to the centre of another cluster than to the centre of its own (in exact arithmetic), and further rounds neither improve nor worsen the sum of squared distances. *)
Theorem C117_settles :
  forall n D (eqD : EqB D) pairwise ltb dzero dsum mean shuffle set_order model it tol p m vectors nb s d,
    valid_set_order set_order -> valid_shuffle shuffle -> strict_weak_order ltb ->
    euclidean n pairwise ltb -> exact_mean n mean -> reachable m -> no_tension n m vectors ->
    (forall X Y k, ltb (dsum (map (fun i => pairwise X Y i i) (seq 0 k))) tol = false) ->
    make_kmeans D ltb dzero model it tol = Ok p ->
    result (cluster (list Q) D pairwise ltb dsum mean shuffle set_order p m vectors (Some nb)) s = Ok d ->
    exists ids, ask get_list_of_managed_data_IDs m = Ok ids /\
      ((nb ^ Z.of_nat (length ids) < it)%Z ->
        settled n ids vectors d /\
        forall it' p' s' d', (it <= it')%Z -> make_kmeans D ltb dzero model it' tol = Ok p' ->
          result (cluster (list Q) D pairwise ltb dsum mean shuffle set_order p' m vectors (Some nb)) s' = Ok d' ->
          Qeq (inertia n ids vectors d') (inertia n ids vectors d)).
Proof. exact C117_settles_proof. Qed.
Print Assumptions C117_settles.

(** C117: with constraints there may be no such number of rounds: two CANNOT_LINK, or two MUST_LINK, and the call returns one clustering when the number of rounds is odd and another one when it is even, however large it is, with the default tolerance. *)
Theorem C117_constraints_oscillate :
  forall t, t = CANNOT_LINK \/ t = MUST_LINK ->
  exists (eqD : EqB Q) pairwise ltb dsum mean shuffle set_order m ids a b a' b' vectors d d',
    valid_set_order set_order /\ valid_shuffle shuffle /\ strict_weak_order ltb /\
    euclidean 1 pairwise ltb /\ exact_mean 1 mean /\
    m = run [CallAddConstraint a b t 1%Q; CallAddConstraint a' b' t 1%Q] (init ids) /\
    ~ same_partition d d' /\
    forall it p s, make_kmeans Q ltb 0%Q (str "COP") it (1 # 10000)%Q = Ok p ->
      (Z.Odd it -> result (cluster (list Q) Q pairwise ltb dsum mean shuffle set_order p m vectors (Some 2%Z)) s = Ok d) /\
      (Z.Even it -> result (cluster (list Q) Q pairwise ltb dsum mean shuffle set_order p m vectors (Some 2%Z)) s = Ok d').
Proof. exact C117_constraints_oscillate_proof. Qed.
Print Assumptions C117_constraints_oscillate.

(** Four data on a line, two clusters, no constraint, tolerance zero: seventeen rounds are more than the sixteen numberings. *)
Definition A := str "a". Definition B := str "b". Definition C := str "c". Definition E := str "d".
Definition places : dict pystr (list Q) := [(A, [0]); (B, [1]); (C, [2]); (E, [10])]%Q.
Definition free : mgr := init [A; B; C; E].
Definition exact_call (rounds : nat) := cluster (list Q) Q (squared 1) less (fun l => Qred (sumQ l)) (mean_of 1) (fun l => l) (nodup Z.eq_dec) (mkKParams Q rounds 0%Q).
Example C117_ex :
  reachable free /\ no_tension 1 free places /\
  (forall X Y k, less (Qred (sumQ (map (fun i => squared 1 X Y i i) (seq 0 k)))) 0 = false) /\
  make_kmeans Q less 0%Q (str "COP") 17%Z 0%Q = Ok (mkKParams Q 17 0%Q) /\
  result (exact_call 17 free places (Some 2%Z)) (fresh_kmeans (list Q)) = Ok [(A, 0); (B, 0); (C, 0); (E, 1)]%Z /\
  result (exact_call 1 free places (Some 2%Z)) (fresh_kmeans (list Q)) = Ok [(A, 0); (B, 1); (C, 1); (E, 1)]%Z /\
  settled 1 [A; B; C; E] places [(A, 0); (B, 0); (C, 0); (E, 1)]%Z /\
  ~ settled 1 [A; B; C; E] places [(A, 0); (B, 1); (C, 1); (E, 1)]%Z.
Proof.
  split; [apply reach_init|]. split; [|split].
  - intros a b (l & El & Ia) (l' & El' & Ib). injection El as <-. injection El' as <-. split.
    + intro H. simpl in Ia, Ib. destruct Ia as [<-|[<-|[<-|[<-|[]]]]], Ib as [<-|[<-|[<-|[<-|[]]]]]; vm_compute in H; discriminate.
    + intro H. simpl in Ia, Ib. destruct Ia as [<-|[<-|[<-|[<-|[]]]]], Ib as [<-|[<-|[<-|[<-|[]]]]]; try (vm_compute in H; discriminate); intros i _; reflexivity.
  - intros X Y k. destruct (less _ 0) eqn:L; auto. apply less_spec in L. rewrite Qred_correct in L. exfalso. revert L. apply Qle_not_lt.
    induction (seq 0 k) as [|i l IH]; [apply Qle_refl|]. cbn [map sumQ fold_right]. change 0%Q with (0 + 0)%Q at 1. apply Qplus_le_compat; [|exact IH].
    unfold squared. rewrite Qred_correct. cbn. rewrite Qplus_0_r. generalize (coord (nth i X []) 0 - coord (nth i Y []) 0)%Q as z. intro z.
    destruct z as [a b]. unfold Qle. simpl. nia.
  - split; [reflexivity|]. split; [vm_compute; reflexivity|]. split; [vm_compute; reflexivity|]. split.
    + intros x y Ix Iy. simpl in Ix, Iy. destruct Ix as [<-|[<-|[<-|[<-|[]]]]], Iy as [<-|[<-|[<-|[<-|[]]]]]; vm_compute; discriminate.
    + intro St. assert (X := St B A ltac:(simpl; tauto) ltac:(simpl; tauto)). vm_compute in X. auto.
Qed.
