(** Generated from MoveThms.v by tools/gen_props.py: theorem statements,
    each closed by the lemma of the same name proved there. *)

From Coq Require Import String List Bool Arith ZArith Qcanon.
From Verif Require Import Base Manager Spec ManagerThms SamplingSpec ClusterSpec Sampling KMeans Hierarchical Dbscan Spectral Affinity MoveSpec.
From Verif Require Import MoveThms.
Import ListNotations.
Open Scope nat_scope.

(** Five points of the plane; a turn whose sine is 3/5, then a shift. *)
Definition qc (a : Z) (b : positive) : Qc := Q2Qc (QArith_base.Qmake a b).
Definition turn (i j : nat) : Qc := match i, j with 0, 0 | 1, 1 => qc 4 5 | 0, 1 => qc (-3) 5 | 1, 0 => qc 3 5 | _, _ => qc 0 1 end.
Definition away : list Qc := [qc 7 1; qc (-11) 3].
Definition five_ids : list pystr := [str "a"; str "b"; str "c"; str "d"; str "e"].
Definition five : dict pystr (list Qc) :=
  [(str "a", [qc 0 1; qc 0 1]); (str "b", [qc 1 1; qc 1 2]); (str "c", [qc 6 1; qc 5 1]); (str "d", [qc 7 1; qc 4 1]); (str "e", [qc 2 1; qc (-1) 1])].
#[local] Instance EqB_Qc : EqB Qc := { eqb := Qc_eq_bool; eqb_eq := Qc_eqb_spec }.
Definition Qcltb (a b : Qc) : bool := match (a ?= b)%Qc with Lt => true | _ => false end.

(** C125 (hierarchical clustering): in other coordinates that keep distances and means, every linkage builds the same tree, up to the
    coordinates of its centroids, and gives the same clusters or the same error; so does any later cut of the tree. *)
Theorem C125_hierarchical :
  forall (vec vec' D : Type) (eqD : EqB D) (T : vec -> vec') pairwise pairwise' cdistance cdistance' ltb dsum ddiv inf mean mean' linkage m vectors nb s,
    keeps_pairwise T pairwise pairwise' -> keeps_distance T cdistance cdistance' -> keeps_mean T mean mean' ->
    let run := Hierarchical.cluster vec D pairwise cdistance ltb dsum ddiv inf mean linkage m vectors nb s in
    Hierarchical.cluster vec' D pairwise' cdistance' ltb dsum ddiv inf mean' linkage m (moved T vectors) nb (moved_hier T s) =
      (moved_hier T (fst run), snd run) /\
    forall k by_ s', compute_predicted_clusters vec' k by_ (moved_hier T s') =
      (moved_hier T (fst (compute_predicted_clusters vec k by_ s')), snd (compute_predicted_clusters vec k by_ s')).
Proof. exact C125_hierarchical_proof. Qed.
Print Assumptions C125_hierarchical.

(** The quantities are exact squares of distances; each linkage separates c, d from the others, before and after the move. *)
Example C125_hierarchical_ex : forall name, In name [str "single"; str "complete"; str "average"; str "ward"] ->
  let run vectors := result (Hierarchical.cluster (list Qc) Qc (fun X i j => apart2 2 (nth i X []) (nth j X [])) (apart2 2) Qcltb total
    (fun d n => (d / qc (Z.of_nat n) 1)%Qc) (qc 1000000 1) (gravity 2) name (init five_ids) vectors (Some 2%Z)) (fresh_hier (list Qc)) in
  run five = Ok [(str "a", 0); (str "b", 0); (str "c", 1); (str "d", 1); (str "e", 0)]%Z /\
  run (moved (isometry 2 turn away) five) = run five.
Proof. intros name [<-|[<-|[<-|[<-|[]]]]]; vm_compute; auto. Qed.

(** C125 (KMeans): in other coordinates that keep distances and means, the same clusters or the same error, and the images of the centroids. *)
Theorem C125_kmeans :
  forall (vec vec' D : Type) (eqD : EqB D) (T : vec -> vec') pairwise pairwise' ltb dsum mean mean' shuffle set_order p m vectors nb s,
    keeps_pairwise2 T pairwise pairwise' -> keeps_mean T mean mean' ->
    let run := KMeans.cluster vec D pairwise ltb dsum mean shuffle set_order p m vectors nb s in
    KMeans.cluster vec' D pairwise' ltb dsum mean' shuffle set_order p m (moved T vectors) nb (moved_kmeans T s) =
      (moved_kmeans T (fst run), snd run).
Proof. exact C125_kmeans_proof. Qed.
Print Assumptions C125_kmeans.

Example C125_kmeans_ex :
  let run vectors := result (KMeans.cluster (list Qc) Qc (fun X Y i j => apart2 2 (nth i X []) (nth j Y [])) Qcltb total (gravity 2)
    (fun l => l) (nodup Z.eq_dec) (mkKParams Qc 20 (qc 1 1000)) (init five_ids) vectors (Some 2%Z)) (fresh_kmeans (list Qc)) in
  run five = Ok [(str "a", 0); (str "b", 0); (str "c", 1); (str "d", 1); (str "e", 0)]%Z /\
  run (moved (isometry 2 turn away) five) = run five.
Proof. vm_compute. auto. Qed.

(** C125 (DBScan, spectral clustering, affinity propagation): in other coordinates that keep distances (or similarities), the same result and the same state of the object. *)
Theorem C125_others :
  forall (vec vec' D : Type) (T : vec -> vec') pairwise pairwise' m vectors nb, keeps_pairwise T pairwise pairwise' ->
    (forall leb ltb of_nat setlist p s,
       Dbscan.cluster vec' D pairwise' leb ltb of_nat setlist p m (moved T vectors) nb s = Dbscan.cluster vec D pairwise leb ltb of_nat setlist p m vectors nb s) /\
    (forall zero one solver s,
       Spectral.cluster vec' D pairwise' zero one solver m (moved T vectors) nb s = Spectral.cluster vec D pairwise zero one solver m vectors nb s) /\
    (forall o p s, Affinity.cluster vec' D o pairwise' p m (moved T vectors) nb s = Affinity.cluster vec D o pairwise p m vectors nb s).
Proof. exact C125_others_proof. Qed.
Print Assumptions C125_others.

Example C125_others_ex :
  let run vectors := result (Dbscan.cluster (list Qc) Qc (fun X i j => apart2 2 (nth i X []) (nth j X [])) (fun a b => negb (Qcltb b a)) Qcltb
    (fun n => qc (Z.of_nat n) 1) (fun l => l) (mkDBParams Qc (qc 4 1) 2) (init five_ids) vectors None) fresh_dbscan in
  run five = Ok [(str "a", 0); (str "b", 0); (str "c", 1); (str "d", 1); (str "e", 0)]%Z /\
  run (moved (isometry 2 turn away) five) = run five.
Proof. vm_compute. auto. Qed.

(** C125 (sampling): in other coordinates that keep distances, the same sample or the same error; what the sampler remembers differs by the coordinates only. *)
Theorem C125_sampling :
  forall (vec vec' D : Type) (T : vec -> vec') pairwise pairwise' ltb draw o nb clustering vectors s m,
    keeps_pairwise T pairwise pairwise' ->
    let run := sample vec D pairwise ltb draw o nb clustering vectors (s, m) in
    sample vec' D pairwise' ltb draw o nb clustering (option_map (moved T) vectors) (moved_sampler T s, m) =
      ((moved_sampler T (fst (fst run)), snd (fst run)), snd run).
Proof. exact C125_sampling_proof. Qed.
Print Assumptions C125_sampling.

Example C125_sampling_ex :
  let run vectors := snd (sample (list Qc) Qc (fun X i j => apart2 2 (nth i X []) (nth j X [])) Qcltb (fun l _ => l)
    (mkOptions None (Some CLOSEST) false false) 3%Z None (Some vectors) (fresh_sampler (list Qc) Qc, init five_ids)) in
  run five = Ok [(str "a", str "b"); (str "c", str "d"); (str "b", str "e")] /\ run (moved (isometry 2 turn away) five) = run five.
Proof. vm_compute. auto. Qed.

(** C125 (Euclid): in exact arithmetic, turning, mirroring and shifting the space keeps all of this, for the distance of Euclid or anything computed from it. *)
Theorem C125_isometries :
  forall (D : Type) (g : Qc -> D) n M t, orthogonal n M ->
    keeps_pairwise (isometry n M t) (fun X i j => g (apart2 n (nth i X []) (nth j X []))) (fun X i j => g (apart2 n (nth i X []) (nth j X []))) /\
    keeps_pairwise2 (isometry n M t) (fun X Y i j => g (apart2 n (nth i X []) (nth j Y []))) (fun X Y i j => g (apart2 n (nth i X []) (nth j Y []))) /\
    keeps_distance (isometry n M t) (fun u v => g (apart2 n u v)) (fun u v => g (apart2 n u v)) /\
    keeps_mean (isometry n M t) (gravity n) (gravity n).
Proof. exact C125_isometries_proof. Qed.
Print Assumptions C125_isometries.

(** The move of the examples is one of these; a matrix that stretches is not orthogonal. *)
Example C125_isometries_ex : orthogonal 2 turn /\ ~ orthogonal 2 (fun i j => if i =? j then qc 2 1 else qc 0 1) /\ isometry 2 turn away [qc 1 1; qc 1 2] = [qc 15 2; qc (-8) 3].
Proof.
  split; [|split].
  - intros [|[|j]] [|[|k]] J K; try (exfalso; apply (Nat.lt_irrefl 2); eapply Nat.le_lt_trans; [|eassumption]; repeat apply le_n_S; apply Nat.le_0_l); vm_compute; apply Qc_is_canon; reflexivity.
  - intro Q. specialize (Q 0 0 ltac:(repeat constructor) ltac:(repeat constructor)). vm_compute in Q. discriminate.
  - vm_compute. repeat f_equal; apply Qc_is_canon; reflexivity.
Qed.
