(** * Only the geometry of the vectors matters (C125). *)

From Coq Require Import String List Bool Arith ZArith Lia Qcanon.
(*HEADER
From Coq Require Import String List Bool Arith ZArith Qcanon.
From Verif Require Import Base Manager Spec ManagerThms SamplingSpec ClusterSpec Sampling KMeans Hierarchical Dbscan Spectral Affinity MoveSpec.
From Verif Require Import MoveThms.
Import ListNotations.
Open Scope nat_scope.

(** Five points of the plane; a turn whose sine is 3/5, then a shift. *)
Definition qc (a : Z) (b : positive) : Qc := Q2Qc (QArith_base.Qmake a b).
Definition turn (i j : nat) : Qc := match i, j with 0, 0 | 1, 1 => qc 4 5 | 0, 1 => qc (-3) 5 | 1, 0 => qc 3 5 | _, _ => qc 0 1 end.
Definition away : list Qc := [qc 7 1; qc (-11) 3].
Definition five_ids : list pystr := [str "a"; str "b"; str "c"; str "d"; str "e"].
Definition five : dict pystr (list Qc) :=
  [(str "a", [qc 0 1; qc 0 1]); (str "b", [qc 1 1; qc 1 2]); (str "c", [qc 6 1; qc 5 1]); (str "d", [qc 7 1; qc 4 1]); (str "e", [qc 2 1; qc (-1) 1])].
#[local] Instance EqB_Qc : EqB Qc := { eqb := Qc_eq_bool; eqb_eq := Qc_eqb_spec }.
Definition Qcltb (a b : Qc) : bool := match (a ?= b)%Qc with Lt => true | _ => false end.
HEADER*)
From Verif Require Import Base Manager Spec Sampling Rename KMeans Hierarchical Dbscan Spectral Affinity UnitProofs MoveSpec MoveProofs.
Import ListNotations.
Open Scope nat_scope.
Open Scope py_scope.

Lemma Qc_eqb_spec (x y : Qc) : Qc_eq_bool x y = true <-> x = y.
Proof.
  split; [apply Qc_eq_bool_correct|]. intros ->. unfold Qc_eq_bool. destruct (Qc_eq_dec y y); auto.
Qed.

(*PROP C125 (hierarchical clustering): in other coordinates that keep distances and means, every linkage builds the same tree, up to the
    coordinates of its centroids, and gives the same clusters or the same error; so does any later cut of the tree. *)
Lemma C125_hierarchical_proof :
  forall (vec vec' D : Type) (eqD : EqB D) (T : vec -> vec') pairwise pairwise' cdistance cdistance' ltb dsum ddiv inf mean mean' linkage m vectors nb s,
    keeps_pairwise T pairwise pairwise' -> keeps_distance T cdistance cdistance' -> keeps_mean T mean mean' ->
    let run := Hierarchical.cluster vec D pairwise cdistance ltb dsum ddiv inf mean linkage m vectors nb s in
    Hierarchical.cluster vec' D pairwise' cdistance' ltb dsum ddiv inf mean' linkage m (moved T vectors) nb (moved_hier T s) =
      (moved_hier T (fst run), snd run) /\
    forall k by_ s', compute_predicted_clusters vec' k by_ (moved_hier T s') =
      (moved_hier T (fst (compute_predicted_clusters vec k by_ s')), snd (compute_predicted_clusters vec k by_ s')).
Proof. intros. split; [apply hier_T; auto|intros; apply cut_T]. Qed.

(*EX
(** The quantities are exact squares of distances; each linkage separates c, d from the others, before and after the move. *)
Example C125_hierarchical_ex : forall name, In name [str "single"; str "complete"; str "average"; str "ward"] ->
  let run vectors := result (Hierarchical.cluster (list Qc) Qc (fun X i j => apart2 2 (nth i X []) (nth j X [])) (apart2 2) Qcltb total
    (fun d n => (d / qc (Z.of_nat n) 1)%Qc) (qc 1000000 1) (gravity 2) name (init five_ids) vectors (Some 2%Z)) (fresh_hier (list Qc)) in
  run five = Ok [(str "a", 0); (str "b", 0); (str "c", 1); (str "d", 1); (str "e", 0)]%Z /\
  run (moved (isometry 2 turn away) five) = run five.
Proof. intros name [<-|[<-|[<-|[<-|[]]]]]; vm_compute; auto. Qed.
EX*)

(*PROP C125 (KMeans): in other coordinates that keep distances and means, the same clusters or the same error, and the images of the centroids. *)
Lemma C125_kmeans_proof :
  forall (vec vec' D : Type) (eqD : EqB D) (T : vec -> vec') pairwise pairwise' ltb dsum mean mean' shuffle set_order p m vectors nb s,
    keeps_pairwise2 T pairwise pairwise' -> keeps_mean T mean mean' ->
    let run := KMeans.cluster vec D pairwise ltb dsum mean shuffle set_order p m vectors nb s in
    KMeans.cluster vec' D pairwise' ltb dsum mean' shuffle set_order p m (moved T vectors) nb (moved_kmeans T s) =
      (moved_kmeans T (fst run), snd run).
Proof. intros. apply kmeans_T; auto. Qed.

(*EX
Example C125_kmeans_ex :
  let run vectors := result (KMeans.cluster (list Qc) Qc (fun X Y i j => apart2 2 (nth i X []) (nth j Y [])) Qcltb total (gravity 2)
    (fun l => l) (nodup Z.eq_dec) (mkKParams Qc 20 (qc 1 1000)) (init five_ids) vectors (Some 2%Z)) (fresh_kmeans (list Qc)) in
  run five = Ok [(str "a", 0); (str "b", 0); (str "c", 1); (str "d", 1); (str "e", 0)]%Z /\
  run (moved (isometry 2 turn away) five) = run five.
Proof. vm_compute. auto. Qed.
EX*)

Lemma mtab_in {D} n p (f g : nat -> nat -> D) : (forall i j, i < n -> j < p -> f i j = g i j) -> mtab n p f = mtab n p g.
Proof.
  intro E. apply map_ext_in. intros i I. apply in_seq in I. apply map_ext_in. intros j J. apply in_seq in J. apply E; lia.
Qed.

(*PROP C125 (DBScan, spectral clustering, affinity propagation): in other coordinates that keep distances (or similarities), the same result and the same state of the object. *)
Lemma C125_others_proof :
  forall (vec vec' D : Type) (T : vec -> vec') pairwise pairwise' m vectors nb, keeps_pairwise T pairwise pairwise' ->
    (forall leb ltb of_nat setlist p s,
       Dbscan.cluster vec' D pairwise' leb ltb of_nat setlist p m (moved T vectors) nb s = Dbscan.cluster vec D pairwise leb ltb of_nat setlist p m vectors nb s) /\
    (forall zero one solver s,
       Spectral.cluster vec' D pairwise' zero one solver m (moved T vectors) nb s = Spectral.cluster vec D pairwise zero one solver m vectors nb s) /\
    (forall o p s, Affinity.cluster vec' D o pairwise' p m (moved T vectors) nb s = Affinity.cluster vec D o pairwise p m vectors nb s).
Proof.
  intros vec vec' D T pw pw' m vectors nb P. split; [|split].
  - intros. unfold Dbscan.cluster. rewrite (pairwise_table_T vec vec' D T pw pw' P). reflexivity.
  - intros. unfold Spectral.cluster. assert (E : similarity_matrix vec' D pw' m (moved T vectors) = similarity_matrix vec D pw m vectors).
    { unfold similarity_matrix. rewrite <- rok_id. apply same_bind. intro managed. rewrite rok_id, rows_T.
      destruct (rmap (fun x => dlookup x vectors) managed) as [[|r rows]|]; cbn [rok rbind map]; auto.
      f_equal. change (T r :: map T rows) with (map T (r :: rows)). rewrite map_length. apply mtab_in. intros. apply P; auto. }
    rewrite E. reflexivity.
  - intros. unfold Affinity.cluster. unfold bind at 1. unfold bind at 9. unfold lift at 1 7. destruct (ask get_list_of_managed_data_IDs m) as [ids|]; auto.
    destruct nb; auto. unfold bind at 1. unfold bind at 8. unfold modify at 1 3. cbv beta. unfold bind at 1. unfold bind at 7. unfold lift at 1 6. rewrite rows_T.
    destruct (rmap (fun x => dlookup x vectors) ids) as [[|r rows]|]; cbn [rok map]; auto.
    change (T r :: map T rows) with (map T (r :: rows)). rewrite map_length. rewrite (mtab_in _ _ (pw' (map T (r :: rows))) (pw (r :: rows))); [reflexivity|].
    intros. apply P; auto.
Qed.

(*EX
Example C125_others_ex :
  let run vectors := result (Dbscan.cluster (list Qc) Qc (fun X i j => apart2 2 (nth i X []) (nth j X [])) (fun a b => negb (Qcltb b a)) Qcltb
    (fun n => qc (Z.of_nat n) 1) (fun l => l) (mkDBParams Qc (qc 4 1) 2) (init five_ids) vectors None) fresh_dbscan in
  run five = Ok [(str "a", 0); (str "b", 0); (str "c", 1); (str "d", 1); (str "e", 0)]%Z /\
  run (moved (isometry 2 turn away) five) = run five.
Proof. vm_compute. auto. Qed.
EX*)

(*PROP C125 (sampling): in other coordinates that keep distances, the same sample or the same error; what the sampler remembers differs by the coordinates only. *)
Lemma C125_sampling_proof :
  forall (vec vec' D : Type) (T : vec -> vec') pairwise pairwise' ltb draw o nb clustering vectors s m,
    keeps_pairwise T pairwise pairwise' ->
    let run := sample vec D pairwise ltb draw o nb clustering vectors (s, m) in
    sample vec' D pairwise' ltb draw o nb clustering (option_map (moved T) vectors) (moved_sampler T s, m) =
      ((moved_sampler T (fst (fst run)), snd (fst run)), snd run).
Proof.
  intros vec vec' D T pw pw' ltb draw o nb clustering vectors s m P run.
  assert (Q := sample_T vec vec' D T ltb pw pw' P draw o nb clustering vectors (s, m)).
  unfold wT in Q. cbn [fst snd] in Q. rewrite Q. unfold run. rewrite rok_id. reflexivity.
Qed.

(*EX
Example C125_sampling_ex :
  let run vectors := snd (sample (list Qc) Qc (fun X i j => apart2 2 (nth i X []) (nth j X [])) Qcltb (fun l _ => l)
    (mkOptions None (Some CLOSEST) false false) 3%Z None (Some vectors) (fresh_sampler (list Qc) Qc, init five_ids)) in
  run five = Ok [(str "a", str "b"); (str "c", str "d"); (str "b", str "e")] /\ run (moved (isometry 2 turn away) five) = run five.
Proof. vm_compute. auto. Qed.
EX*)

(*PROP C125 (Euclid): in exact arithmetic, turning, mirroring and shifting the space keeps all of this, for the distance of Euclid or anything computed from it. *)
Lemma C125_isometries_proof :
  forall (D : Type) (g : Qc -> D) n M t, orthogonal n M ->
    keeps_pairwise (isometry n M t) (fun X i j => g (apart2 n (nth i X []) (nth j X []))) (fun X i j => g (apart2 n (nth i X []) (nth j X []))) /\
    keeps_pairwise2 (isometry n M t) (fun X Y i j => g (apart2 n (nth i X []) (nth j Y []))) (fun X Y i j => g (apart2 n (nth i X []) (nth j Y []))) /\
    keeps_distance (isometry n M t) (fun u v => g (apart2 n u v)) (fun u v => g (apart2 n u v)) /\
    keeps_mean (isometry n M t) (gravity n) (gravity n).
Proof.
  intros D g n M t O.
  assert (N : forall (X : list (list Qc)) i, i < length X -> nth i (map (isometry n M t) X) [] = isometry n M t (nth i X [])).
  { intros X i L. rewrite (nth_indep _ [] (isometry n M t [])) by (rewrite map_length; auto). apply map_nth. }
  split; [|split; [|split]].
  - intros X i j I J. rewrite !N, isometry_apart; auto.
  - intros X Y i j I J. rewrite !N, isometry_apart; auto.
  - intros u v. rewrite isometry_apart; auto.
  - intros l L. apply isometry_gravity; auto.
Qed.

(*EX
(** The move of the examples is one of these; a matrix that stretches is not orthogonal. *)
Example C125_isometries_ex : orthogonal 2 turn /\ ~ orthogonal 2 (fun i j => if i =? j then qc 2 1 else qc 0 1) /\ isometry 2 turn away [qc 1 1; qc 1 2] = [qc 15 2; qc (-8) 3].
Proof.
  split; [|split].
  - intros [|[|j]] [|[|k]] J K; try (exfalso; apply (Nat.lt_irrefl 2); eapply Nat.le_lt_trans; [|eassumption]; repeat apply le_n_S; apply Nat.le_0_l); vm_compute; apply Qc_is_canon; reflexivity.
  - intro Q. specialize (Q 0 0 ltac:(repeat constructor) ltac:(repeat constructor)). vm_compute in Q. discriminate.
  - vm_compute. repeat f_equal; apply Qc_is_canon; reflexivity.
Qed.
EX*)
