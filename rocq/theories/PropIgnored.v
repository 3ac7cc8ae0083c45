(** Generated from IgnoredThms.v by tools/gen_props.py: theorem statements,
    each closed by the lemma of the same name proved there. *)

From Coq Require Import String List Bool Arith ZArith QArith Permutation Lia Relations.
From Verif Require Import Base Manager Spec ManagerThms SamplingSpec ClusterSpec KMeansSpec Dbscan DbscanSpec DbscanThms DensitySpec DensityThms IgnoredThms.
Import ListNotations.
Open Scope nat_scope.
Open Scope py_scope.

Definition A := str "a". Definition B := str "b". Definition C := str "c". Definition E := str "d". Definition F := str "e". Definition G := str "f".

(** C132: when no two data must be apart and every positive number of points is at least eps, DBScan keeps exactly the data within eps of a core point and the data linked with another data; it ignores all others. *)
Theorem C132_kept_exactly :
  forall vec D pairwise leb ltb of_nat setlist eps ms p m vectors nb s d x,
    valid_setlist setlist -> make_dbscan D leb of_nat eps ms = Ok p -> (forall rows i, leb (pairwise rows i i) eps = true) ->
    strict_weak_order ltb -> (forall x y, leb x y = negb (ltb y x)) -> reachable m -> ~ managed m (str "NONE") ->
    (forall a b, ~ inferred m a b (Some CANNOT_LINK)) -> (forall n, 1 <= n -> leb eps (of_nat n) = true) ->
    result (cluster vec D pairwise leb ltb of_nat setlist p m vectors nb) s = Ok d -> managed m x ->
    ((exists c, dget x d = Some c /\ (0 <= c)%Z) <->
     (exists y, dense pairwise leb eps m vectors (Z.to_nat ms) y /\ within pairwise leb eps m vectors y x) \/
     (exists y, y <> x /\ inferred m x y (Some MUST_LINK))).
Proof. exact C132_kept_exactly_proof. Qed.
Print Assumptions C132_kept_exactly.

(** In tenths: eps is 0.9. B, C and E are a chain of core points, A and F are linked, G is ignored. *)
Definition tenths (n : nat) : Z := (10 * Z.of_nat n)%Z.
Definition data : dict pystr Z := [(B, 100); (C, 109); (E, 118); (A, 0); (F, 50); (G, 200)]%Z.
Definition linked_mgr : mgr := run [CallAddConstraint A F MUST_LINK 1%Q] (init [B; C; E; A; F; G]).
Example C132_kept_ex : make_dbscan Z Z.leb tenths 9%Z 2%Z = Ok (mkDBParams Z 9%Z 2) /\ (forall n, 1 <= n -> Z.leb 9 (tenths n) = true) /\
  reachable linked_mgr /\ ~ managed linked_mgr (str "NONE") /\
  (forall a b, ~ inferred linked_mgr a b (Some CANNOT_LINK)) /\
  result (cluster Z Z on_line Z.leb Z.ltb tenths dedup (mkDBParams Z 9%Z 2) linked_mgr data None) fresh_dbscan =
    Ok [(A, 0); (B, 1); (C, 1); (E, 1); (F, 0); (G, -1)]%Z.
Proof.
  split; [reflexivity|]. split; [intros n N; apply Z.leb_le; unfold tenths; lia|]. split; [apply run_reachable|].
  split. { intros (l & Q & J). vm_compute in Q. injection Q as <-. repeat (destruct J as [J|J]; [discriminate|]). destruct J. }
  split; [|vm_compute; reflexivity]. apply no_cannot; [apply run_reachable|]. intros x y Q. apply ManagerThms.addf_added in Q; [|apply ManagerQueries.reachable_inv, run_reachable].
  destruct Q as (X & Y & Q). revert X Y Q. set (f := ManagerInv.addf linked_mgr). intros X Y. vm_compute in X, Y.
  repeat (destruct X as [<-|X]; [repeat (destruct Y as [<-|Y]; [vm_compute; discriminate|]); contradiction|]). contradiction.
Qed.

(** C132 (refuted): the same data without constraints, eps 0.9 and then 1.2, which puts no more data within eps of each other: a data that was in a cluster is ignored. *)
Theorem C132_larger_eps_refuted :
  exists names (vectors : dict pystr Z) eps eps' ms p p' d d' x,
    (eps < eps')%Z /\
    make_dbscan Z Z.leb (fun n => 10 * Z.of_nat n)%Z eps ms = Ok p /\ make_dbscan Z Z.leb (fun n => 10 * Z.of_nat n)%Z eps' ms = Ok p' /\
    result (cluster Z Z on_line Z.leb Z.ltb (fun n => 10 * Z.of_nat n)%Z dedup p (init names) vectors None) fresh_dbscan = Ok d /\
    result (cluster Z Z on_line Z.leb Z.ltb (fun n => 10 * Z.of_nat n)%Z dedup p' (init names) vectors None) fresh_dbscan = Ok d' /\
    (exists c, dget x d = Some c /\ (0 <= c)%Z) /\ dget x d' = Some (-1)%Z.
Proof. exact C132_larger_eps_refuted_proof. Qed.
Print Assumptions C132_larger_eps_refuted.

(** C132 (partial): when no two data must be apart and every positive number of points is at least both values of eps, a larger eps and a smaller min_samples never ignore a data that was in a cluster, whatever the vectors, the set orders and the objects. *)
Theorem C132_monotone_partial :
  forall vec D pairwise leb ltb of_nat setlist setlist' eps eps' ms ms' p p' m vectors nb nb' s s' d d' x,
    valid_setlist setlist -> valid_setlist setlist' -> make_dbscan D leb of_nat eps ms = Ok p -> make_dbscan D leb of_nat eps' ms' = Ok p' ->
    (forall rows i, leb (pairwise rows i i) eps = true) ->
    strict_weak_order ltb -> (forall x y, leb x y = negb (ltb y x)) -> reachable m -> ~ managed m (str "NONE") ->
    (forall a b, ~ inferred m a b (Some CANNOT_LINK)) -> leb eps' (of_nat 1) = true -> (forall n, leb (of_nat n) (of_nat (S n)) = true) ->
    leb eps eps' = true -> (ms' <= ms)%Z ->
    result (cluster vec D pairwise leb ltb of_nat setlist p m vectors nb) s = Ok d ->
    result (cluster vec D pairwise leb ltb of_nat setlist' p' m vectors nb') s' = Ok d' ->
    (exists c, dget x d = Some c /\ (0 <= c)%Z) -> exists c, dget x d' = Some c /\ (0 <= c)%Z.
Proof. exact C132_monotone_partial_proof. Qed.
Print Assumptions C132_monotone_partial.

(** eps grows from 0.9 to 1 and min_samples from 3 falls to 2: the chain of three data, of which only the middle one was a core point, stays; the pair A, F, which was ignored, is added. *)
Definition more : dict pystr Z := [(B, 100); (C, 109); (E, 118); (A, 0); (F, 10)]%Z.
Example C132_monotone_ex : make_dbscan Z Z.leb tenths 9%Z 3%Z = Ok (mkDBParams Z 9%Z 3) /\ make_dbscan Z Z.leb tenths 10%Z 2%Z = Ok (mkDBParams Z 10%Z 2) /\
  result (cluster Z Z on_line Z.leb Z.ltb tenths dedup (mkDBParams Z 9%Z 3) (init [B; C; E; A; F]) more None) fresh_dbscan = Ok [(B, 0); (C, 0); (E, 0); (A, -1); (F, -2)]%Z /\
  result (cluster Z Z on_line Z.leb Z.ltb tenths dedup (mkDBParams Z 10%Z 2) (init [B; C; E; A; F]) more None) fresh_dbscan = Ok [(A, 0); (B, 1); (C, 1); (E, 2); (F, 0)]%Z /\
  Z.leb 10 (tenths 1) = true /\ (forall n, Z.leb (tenths n) (tenths (S n)) = true).
Proof. do 5 (split; [vm_compute; reflexivity|]). intro n. apply Z.leb_le. unfold tenths. lia. Qed.
