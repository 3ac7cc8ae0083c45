(** Generated from LloydThms.v by tools/gen_props.py: theorem statements,
    each closed by the lemma of the same name proved there. *)

From Coq Require Import String List Bool Arith ZArith QArith Permutation Lia.
From Verif Require Import Base Manager Spec ManagerThms SamplingSpec ClusterSpec KMeans KMeansSpec LloydSpec LloydThms.
Import ListNotations.
Open Scope nat_scope.

(** C107: without CANNOT_LINK, and with MUST_LINK only between data at the same place, a call with more rounds ends with a clustering that is at least as good (sum of the squared distances to the centres, in exact arithmetic). *)
Theorem C107_more_rounds :
  forall n D (eqD : EqB D) pairwise ltb dzero dsum mean shuffle set_order model it it' tol p p' m vectors nb s s' d d',
    valid_set_order set_order -> valid_shuffle shuffle -> strict_weak_order ltb ->
    euclidean n pairwise ltb -> exact_mean n mean -> reachable m -> no_tension n m vectors ->
    make_kmeans D ltb dzero model it tol = Ok p -> make_kmeans D ltb dzero model it' tol = Ok p' -> (it <= it')%Z ->
    result (cluster (list Q) D pairwise ltb dsum mean shuffle set_order p m vectors nb) s = Ok d ->
    result (cluster (list Q) D pairwise ltb dsum mean shuffle set_order p' m vectors nb) s' = Ok d' ->
    exists ids, ask get_list_of_managed_data_IDs m = Ok ids /\ (inertia n ids vectors d' <= inertia n ids vectors d)%Q.
Proof. exact C107_more_rounds_proof. Qed.
Print Assumptions C107_more_rounds.

(** C107: and it is at least as good as sending each data to any of the data drawn first. *)
Theorem C107_better_than_start :
  forall n D (eqD : EqB D) pairwise ltb dzero dsum mean shuffle set_order model it tol p m vectors nb s d,
    valid_set_order set_order -> valid_shuffle shuffle -> strict_weak_order ltb ->
    euclidean n pairwise ltb -> exact_mean n mean -> reachable m -> no_tension n m vectors ->
    make_kmeans D ltb dzero model it tol = Ok p ->
    result (cluster (list Q) D pairwise ltb dsum mean shuffle set_order p m vectors (Some nb)) s = Ok d ->
    exists ids, ask get_list_of_managed_data_IDs m = Ok ids /\
      forall chosen, (forall x, In x ids -> In (chosen x) (firstn (Z.to_nat nb) (shuffle ids))) ->
        (inertia n ids vectors d <= sumQ (map (fun x => sqdist n (point vectors x) (point vectors (chosen x))) ids))%Q.
Proof. exact C107_better_than_start_proof. Qed.
Print Assumptions C107_better_than_start.

(** C107: with constraints this is lost: one CANNOT_LINK, or one MUST_LINK between distant data, and a second round can make the clustering worse. *)
Theorem C107_constraints_matter :
  forall t, t = CANNOT_LINK \/ t = MUST_LINK ->
  exists (eqD : EqB Q) pairwise ltb dsum mean shuffle set_order p p' m ids a b vectors nb d d',
    valid_set_order set_order /\ valid_shuffle shuffle /\ strict_weak_order ltb /\
    euclidean 1 pairwise ltb /\ exact_mean 1 mean /\ m = run [CallAddConstraint a b t 1%Q] (init ids) /\
    make_kmeans Q ltb 0%Q (str "COP") 1%Z (1 # 10000)%Q = Ok p /\ make_kmeans Q ltb 0%Q (str "COP") 2%Z (1 # 10000)%Q = Ok p' /\
    result (cluster (list Q) Q pairwise ltb dsum mean shuffle set_order p m vectors nb) (fresh_kmeans (list Q)) = Ok d /\
    result (cluster (list Q) Q pairwise ltb dsum mean shuffle set_order p' m vectors nb) (fresh_kmeans (list Q)) = Ok d' /\
    ask get_list_of_managed_data_IDs m = Ok ids /\
    (inertia 1 ids vectors d < inertia 1 ids vectors d')%Q.
Proof. exact C107_constraints_matter_proof. Qed.
Print Assumptions C107_constraints_matter.

(** Without constraint, on a line: the first round is not the best one. *)
Definition A := str "a". Definition B := str "b". Definition C := str "c". Definition E := str "d".
Definition places : dict pystr (list Q) := [(A, [0]); (B, [1]); (C, [2]); (E, [10])]%Q.
Definition free : mgr := init [A; B; C; E].
Example C107_ex :
  reachable free /\ no_tension 1 free places /\
  result (lloyd 1 free places (Some 2%Z)) (fresh_kmeans (list Q)) = Ok [(A, 0); (B, 1); (C, 1); (E, 1)]%Z /\
  result (lloyd 5 free places (Some 2%Z)) (fresh_kmeans (list Q)) = Ok [(A, 0); (B, 0); (C, 0); (E, 1)]%Z /\
  (inertia 1 [A; B; C; E] places [(A, 0); (B, 1); (C, 1); (E, 1)]%Z == 146 # 3)%Q /\
  (inertia 1 [A; B; C; E] places [(A, 0); (B, 0); (C, 0); (E, 1)]%Z == 2)%Q.
Proof.
  split; [apply reach_init|]. split.
  - intros a b (l & El & Ia) (l' & El' & Ib). injection El as <-. injection El' as <-. split.
    + intro H. simpl in Ia, Ib. destruct Ia as [<-|[<-|[<-|[<-|[]]]]], Ib as [<-|[<-|[<-|[<-|[]]]]]; vm_compute in H; discriminate.
    + intro H. simpl in Ia, Ib. destruct Ia as [<-|[<-|[<-|[<-|[]]]]], Ib as [<-|[<-|[<-|[<-|[]]]]]; try (vm_compute in H; discriminate); intros i _; reflexivity.
  - repeat split; vm_compute; reflexivity.
Qed.
