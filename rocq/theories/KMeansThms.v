(** * Properties of KMeans (C34-C36, C55, C58-C60). *)

From Coq Require Import String List Bool Arith ZArith Lia Permutation.
From Verif Require Import Base Manager Spec Closure ManagerProofs ManagerInv ManagerQueries ManagerThms
  Sampling SamplingSpec SamplingProofs SamplingThms Rename ClusterSpec RenameThms ClusterProofs KMeans KMeansSpec KMeansProofs KMeansRun.
Import ListNotations.
Open Scope nat_scope.
Open Scope py_scope.

(*HEADER
From Coq Require Import String List Bool Arith ZArith QArith Permutation Lia.
From Verif Require Import Base Manager Spec ManagerThms SamplingSpec ClusterSpec KMeans KMeansSpec KMeansThms.
Import ListNotations.
Open Scope nat_scope.

(** An instance for the examples: points on a line. *)
Definition pw (X Y : list Z) (i j : nat) : Z := Z.abs (nth i X 0 - nth j Y 0)%Z.
Definition zmean (l : list Z) : Z := (fold_right Z.add 0 l / Z.of_nat (length l))%Z.
Definition zsum (l : list Z) : Z := fold_right Z.add 0%Z l.
Definition kmeans_Z := cluster Z Z pw Z.ltb zsum zmean (fun l => l) (nodup Z.eq_dec).
Definition A := str "a". Definition B := str "b". Definition C := str "c". Definition E := str "d".
Definition ex : mgr := run [CallAddConstraint A C MUST_LINK 1%Q; CallAddConstraint A B CANNOT_LINK 1%Q] (init [A; B; C; E]).
Lemma ex_reachable : reachable ex.
Proof. apply run_reachable. Qed.
Definition vecs : dict pystr Z := [(A, 0); (B, 1); (C, 10); (E, 12)]%Z.
Definition pars := mkKParams Z 5 1%Z.
Lemma nodup_order : valid_set_order (nodup Z.eq_dec).
Proof. intro l. split; [apply NoDup_nodup|intro; apply nodup_In]. Qed.
Lemma id_shuffle : valid_shuffle (fun l => l).
Proof. intro l. apply Permutation_refl. Qed.

HEADER*)

Section Failures.
  Context {vec D : Type} `{EqB D}.

  Lemma rmap_missing (vectors : dict pystr vec) l : (exists x, In x l /\ ~ In x (keys vectors)) ->
    rmap (fun x => dlookup x vectors) l = Raise KeyError.
  Proof.
    intros (x & X & N). induction l as [|y l IH]; [destruct X|]. simpl. unfold dlookup at 1.
    destruct (dget y vectors) eqn:E; [|reflexivity]. cbn [rbind]. destruct X as [->|X].
    - apply dget_Some_key in E. tauto.
    - rewrite IH; auto.
  Qed.

  Lemma initialize_error shuffle (l : list pystr) (vectors : dict pystr vec) nb : valid_shuffle shuffle -> nb <= length l ->
    initialize_centroids vec shuffle l vectors nb = Raise KeyError \/ exists c, initialize_centroids vec shuffle l vectors nb = Ok c.
  Proof.
    intros SH L. unfold initialize_centroids. set (chosen := firstn nb (shuffle l)).
    assert (LC : length chosen = nb) by (unfold chosen; rewrite firstn_length, <- (Permutation_length (SH l)); lia).
    assert (G : forall n k d0, k + n <= length chosen ->
      let r := rfold (fun d i =>
               x <-- (match nth_error chosen i with Some x => Ok x | None => Raise IndexError end) ;;;
               v <-- dlookup x vectors ;;;
               Ok (dset (Z.of_nat i) v d)) (seq k n) d0 in r = Raise KeyError \/ exists c, r = Ok c).
    { clear. induction n as [|n IH]; intros k d0 L; simpl; [eauto|].
      destruct (nth_error chosen k) as [x|] eqn:E; [|apply nth_error_None in E; lia]. cbn [rbind].
      unfold dlookup at 1 3. destruct (dget x vectors); cbn [rbind]; auto. apply IH. lia. }
    apply G. lia.
  Qed.
End Failures.

Lemma has_ids_spec m : has_ids m <-> ids m <> [].
Proof.
  unfold has_ids. split.
  - intros [x X]. apply managed_ids in X. intro E. rewrite E in X. destruct X.
  - destruct (ids m) as [|x l] eqn:E; [congruence|]. exists x. apply managed_ids. rewrite E. left; auto.
Qed.

Lemma make_kmeans_max {D} (ltb : D -> D -> bool) z model it tol p : make_kmeans D ltb z model it tol = Ok p -> 1 <= kp_max_iteration D p.
Proof.
  unfold make_kmeans. destruct (negb (eqb model (str "COP"))); [discriminate|]. destruct (Z.ltb_spec it 1); [discriminate|].
  destruct (ltb tol z); [discriminate|]. intro E. injection E as <-. simpl. lia.
Qed.

(** When a call is valid. *)
Lemma cluster_cases {vec D} `{EqB D} (pairwise : list vec -> list vec -> nat -> nat -> D) ltb dsum mean shuffle set_order p m
    vectors nb s :
  valid_shuffle shuffle -> 1 <= kp_max_iteration D p -> Inv m ->
  let r := result (cluster vec D pairwise ltb dsum mean shuffle set_order p m vectors nb) s in
  (match nb with None => True | Some n => (n < 2)%Z end -> r = Raise ValueError) /\
  (forall n, nb = Some n -> (2 <= n)%Z ->
     (ids m = [] -> r = Raise ValueError) /\
     ((exists x, In x (ids m) /\ ~ In x (keys vectors)) -> r = Raise KeyError)).
Proof.
  intros SH MAX I r. split.
  - intro N. unfold r, result, cluster. unfold bind at 1, lift at 1. rewrite ask_managed.
    destruct nb as [n|]; [|reflexivity]. destruct (Z.ltb_spec n 2); [reflexivity|lia].
  - intros n -> N.
    assert (Go : forall k, k = Nat.min (Z.to_nat n) (length (ids m)) ->
       (forall c, initialize_centroids vec shuffle (ids m) vectors k = Ok c ->
                  exists e, distance_table vec D pairwise m vectors c = Raise e /\ r = Raise e) /\
       (forall e, initialize_centroids vec shuffle (ids m) vectors k = Raise e -> r = Raise e) \/
       exists t c, initialize_centroids vec shuffle (ids m) vectors k = Ok c /\ distance_table vec D pairwise m vectors c = Ok t).
    { intros k ->. destruct (kp_max_iteration D p) as [|mx] eqn:EM; [lia|].
      destruct (initialize_centroids vec shuffle (ids m) vectors (Nat.min (Z.to_nat n) (length (ids m)))) as [c|e] eqn:EI.
      - destruct (distance_table vec D pairwise m vectors c) as [t|e] eqn:ED; [right; eauto|]. left. split; [|discriminate].
        intros c' Ec. injection Ec as <-. exists e. split; auto.
        unfold r, result, cluster. unfold bind at 1, lift at 1. rewrite ask_managed. destruct (Z.ltb_spec n 2); [lia|].
        unfold bind at 1, modify at 1. unfold bind at 1, clustering_COP. unfold bind at 1, lift at 1. rewrite EI.
        unfold bind at 1, modify at 1. unfold bind at 1, modify at 1. unfold bind at 1. rewrite EM. cbn [iterate].
        unfold bind at 1, gets at 1. unfold bind at 1, gets at 1. unfold bind at 1, lift at 1.
        cbn [k_centroids set_clusters set_centroids]. unfold assign. rewrite ED. reflexivity.
      - left. split; [discriminate|]. intros e' E'. injection E' as <-.
        unfold r, result, cluster. unfold bind at 1, lift at 1. rewrite ask_managed. destruct (Z.ltb_spec n 2); [lia|].
        unfold bind at 1, modify at 1. unfold bind at 1, clustering_COP. unfold bind at 1, lift at 1. rewrite EI. reflexivity. }
    destruct (initialize_error shuffle (ids m) vectors (Nat.min (Z.to_nat n) (length (ids m))) SH) as [EI|[c EI]]; [lia| |].
    + destruct (Go _ eq_refl) as [[_ G]|(t & c & E & _)]; [|congruence]. split.
      * intro E0. exfalso. rewrite E0 in EI. rewrite Nat.min_0_r in EI. discriminate.
      * intros _. apply G. auto.
    + split.
      * intro E0. destruct (Go _ eq_refl) as [[G _]|(t & c' & E & Et)].
        -- destruct (G c EI) as (e & ED & ->). unfold distance_table in ED. rewrite ask_managed, E0 in ED. simpl in ED. congruence.
        -- unfold distance_table in Et. rewrite ask_managed, E0 in Et. discriminate.
      * intro Mi. destruct (Go _ eq_refl) as [[G _]|(t & c' & E & Et)].
        -- destruct (G c EI) as (e & ED & ->). unfold distance_table in ED. rewrite ask_managed in ED. cbn [rbind] in ED.
           rewrite rmap_missing in ED by auto. cbn [rbind] in ED. congruence.
        -- unfold distance_table in Et. rewrite ask_managed in Et. cbn [rbind] in Et. rewrite rmap_missing in Et by auto. discriminate.
Qed.

Lemma missing_dec {V} (v : dict pystr V) l : (forall x, In x l -> In x (keys v)) \/ exists x, In x l /\ ~ In x (keys v).
Proof.
  induction l as [|y l [IH|(x & X & N)]]; [left; simpl; tauto| |right; exists x; simpl; auto].
  destruct (mem y (keys v)) eqn:E.
  - left. intros x [<-|X]; auto. apply mem_In; auto.
  - right. exists y. split; [left; auto|apply mem_nIn; auto].
Qed.

Section Theorems.
  Context {vec D : Type} `{EqB D}.
  Variable pairwise : list vec -> list vec -> nat -> nat -> D.
  Variable ltb : D -> D -> bool.
  Variable dsum : list D -> D.
  Variable mean : list vec -> vec.
  Variable shuffle : list pystr -> list pystr.
  Variable set_order : list Z -> list Z.
  Hypothesis SO : valid_set_order set_order.
  Hypothesis SH : valid_shuffle shuffle.
  Variable p : kparams D.
  Hypothesis MAX : 1 <= kp_max_iteration D p.
  Notation cluster := (KMeans.cluster vec D pairwise ltb dsum mean shuffle set_order).

  (** A call that returns was valid. *)
  Lemma returned_valid m vectors nb s d : Inv m -> result (cluster p m vectors nb) s = Ok d ->
    exists n, nb = Some n /\ (2 <= n)%Z /\ ids m <> [] /\ forall x, In x (ids m) -> In x (keys vectors).
  Proof.
    intros I E. destruct (cluster_cases pairwise ltb dsum mean shuffle set_order p m vectors nb s SH MAX I) as [C1 C2].
    destruct nb as [n|]; [|rewrite C1 in E; [discriminate|exact Logic.I]].
    destruct (Z.ltb_spec n 2); [rewrite C1 in E; [discriminate|auto]|].
    exists n. split; auto. split; auto. destruct (C2 n eq_refl H0) as [C3 C4]. split.
    - intro E0. rewrite C3 in E; [discriminate|auto].
    - destruct (missing_dec vectors (ids m)) as [|M0]; auto. rewrite C4 in E; [discriminate|auto].
  Qed.

  Lemma returned_run m vectors nb s d : Inv m -> result (cluster p m vectors nb) s = Ok d ->
    exists n raw fc c0, nb = Some n /\ (2 <= n)%Z /\ (forall x, In x (ids m) -> In x (keys vectors)) /\
      cluster p m vectors nb s = (mkKMeans vec (Some d) d fc, Ok d) /\
      sound m raw /\ centroids_of mean (ids m) vectors raw fc /\
      canonical d /\ same_partition raw d /\
      initial_centroids (ids m) vectors (Nat.min (Z.to_nat n) (length (ids m))) c0 /\
      (strict_weak_order ltb ->
         cop_run pairwise ltb dsum mean (kp_tolerance D p) m (ids m) vectors (kp_max_iteration D p) c0 None raw fc).
  Proof.
    intros I E. destruct (returned_valid m vectors nb s d I E) as (n & -> & N & NE & COV).
    destruct (cluster_run pairwise ltb dsum mean shuffle set_order SO SH p MAX m vectors n s I NE COV N)
      as (raw & d' & fc & c0 & R & Rest). unfold result in E. rewrite R in E. injection E as ->.
    exists n, raw, fc, c0. auto.
  Qed.

  Lemma sound_facts m raw d : Inv m -> sound m raw -> same_partition raw d -> covers_exactly m d /\ respects m d.
  Proof.
    intros I (K & R & _) P. assert (C : covers_exactly m raw).
    { intro x. rewrite K. symmetry. apply managed_ids. }
    split; [eapply covers_transfer; eauto|eapply respects_transfer; eauto].
  Qed.
End Theorems.

(*PROP C34: whatever the vectors, distances and random choices, a clustering returned by KMeans respects every known constraint. *)
Lemma C34_kmeans_respects_constraints_proof :
  forall vec D (eqD : EqB D) pairwise ltb dzero dsum mean shuffle set_order model it tol p m vectors nb s d,
    valid_set_order set_order -> valid_shuffle shuffle -> reachable m ->
    make_kmeans D ltb dzero model it tol = Ok p ->
    result (cluster vec D pairwise ltb dsum mean shuffle set_order p m vectors nb) s = Ok d ->
    respects m d.
Proof.
  intros vec D eqD pairwise ltb dzero dsum mean shuffle set_order model it tol p m vectors nb s d SO SH R MK E.
  apply reachable_inv in R. apply make_kmeans_max in MK.
  destruct (returned_run pairwise ltb dsum mean shuffle set_order SO SH p MK m vectors nb s d R E)
    as (n & raw & fc & c0 & _ & _ & _ & _ & So & _ & _ & SP & _).
  eapply sound_facts; eauto.
Qed.

(*EX
(** "a" and "b" are nearest to each other, "c" is nearest to "d": the constraints decide. *)
Example C34_ex :
  inferred ex B C (Some CANNOT_LINK) /\
  result (kmeans_Z pars ex vecs (Some 2%Z)) (fresh_kmeans Z) = Ok [(A, 0); (B, 1); (C, 0); (E, 0)]%Z.
Proof. split; vm_compute; reflexivity. Qed.
EX*)

(*PROP C35: on a non-empty manager whose IDs all have vectors, KMeans returns a canonical clustering of exactly the managed IDs. *)
Lemma C35_kmeans_total_proof :
  forall vec D (eqD : EqB D) pairwise ltb dzero dsum mean shuffle set_order model it tol p m vectors nb s,
    valid_set_order set_order -> valid_shuffle shuffle -> reachable m ->
    make_kmeans D ltb dzero model it tol = Ok p ->
    has_ids m -> covers (Some vectors) m -> (2 <= nb)%Z ->
    exists d, result (cluster vec D pairwise ltb dsum mean shuffle set_order p m vectors (Some nb)) s = Ok d /\
      canonical d /\ covers_exactly m d.
Proof.
  intros vec D eqD pairwise ltb dzero dsum mean shuffle set_order model it tol p m vectors nb s SO SH R MK HI (v & Ev & C) N.
  injection Ev as <-. apply reachable_inv in R. apply make_kmeans_max in MK. apply has_ids_spec in HI.
  assert (COV : forall x, In x (ids m) -> In x (keys vectors)) by (intros x X; apply C, managed_ids; auto).
  destruct (cluster_run pairwise ltb dsum mean shuffle set_order SO SH p MK m vectors nb s R HI COV N)
    as (raw & d & fc & c0 & Run & So & _ & Can & SP & _).
  exists d. unfold result. rewrite Run. split; auto. split; auto. eapply sound_facts; eauto.
Qed.

(*EX
Example C35_ex : make_kmeans Z Z.ltb 0%Z (str "COP") 5%Z 1%Z = Ok pars /\ has_ids ex /\ covers (Some vecs) ex.
Proof.
  split; [reflexivity|]. split; [exists A, [A; B; C; E]; split; [reflexivity|left; reflexivity]|].
  exists vecs. split; [reflexivity|]. intros x (l & El & J). injection El as <-. exact J.
Qed.
EX*)

(*PROP C35: KMeans raises exactly on a bad number of clusters, a manager without ID or a missing vector; never anything else. *)
Lemma C35_kmeans_errors_proof :
  forall vec D (eqD : EqB D) pairwise ltb dzero dsum mean shuffle set_order model it tol p m vectors nb s e,
    valid_set_order set_order -> valid_shuffle shuffle -> reachable m ->
    make_kmeans D ltb dzero model it tol = Ok p ->
    (result (cluster vec D pairwise ltb dsum mean shuffle set_order p m vectors nb) s = Raise e <->
     (e = ValueError /\ (nb = None \/ (exists n, nb = Some n /\ (n < 2)%Z) \/ ~ has_ids m)) \/
     (e = KeyError /\ (exists n, nb = Some n /\ (2 <= n)%Z) /\ exists x, managed m x /\ ~ In x (keys vectors))).
Proof.
  intros vec D eqD pairwise ltb dzero dsum mean shuffle set_order model it tol p m vectors nb s e SO SH R MK.
  apply reachable_inv in R. apply make_kmeans_max in MK.
  destruct (cluster_cases pairwise ltb dsum mean shuffle set_order p m vectors nb s SH MK R) as [C1 C2].
  assert (Mi : (exists x, managed m x /\ ~ In x (keys vectors)) <-> exists x, In x (ids m) /\ ~ In x (keys vectors)).
  { split; intros (x & X & Y); exists x; split; auto; apply managed_ids; auto. }
  rewrite Mi. clear Mi. destruct nb as [n|].
  2:{ rewrite C1 by exact Logic.I. split.
      - intro E. injection E as <-. auto.
      - intros [[-> _]|(_ & (n & N & _) & _)]; [auto|discriminate]. }
  destruct (Z.ltb_spec n 2) as [L|L].
  { rewrite C1 by auto. split.
    - intro E. injection E as <-. left. split; auto. right; left. eauto.
    - intros [[-> _]|(_ & (n' & N & L') & _)]; [auto|]. injection N as <-. lia. }
  destruct (C2 n eq_refl L) as [C3 C4].
  destruct (list_eq_dec (fun x y : pystr => eq_dec_of x y) (ids m) []) as [E0|E0].
  { rewrite C3 by auto. split.
    - intro E. injection E as <-. left. split; auto. right; right. intro HI. apply has_ids_spec in HI. auto.
    - intros [[-> _]|(_ & _ & x & X & _)]; auto. rewrite E0 in X. destruct X. }
  destruct (missing_dec vectors (ids m)) as [COV|M0].
  - destruct (cluster_run pairwise ltb dsum mean shuffle set_order SO SH p MK m vectors n s R E0 COV L)
      as (raw & d & fc & c0 & Run & _). unfold result. rewrite Run. split; [discriminate|].
    intros [(_ & [N|[(n' & N & L')|N]])|(_ & _ & x & X & Nx)]; exfalso.
    + discriminate.
    + injection N as <-. lia.
    + apply N, has_ids_spec; auto.
    + apply Nx; auto.
  - rewrite C4 by auto. split.
    + intro E. injection E as <-. right. split; auto. split; eauto.
    + intros [(_ & [N|[(n' & N & L')|N]])|(-> & _)]; auto; exfalso.
      * discriminate.
      * injection N as <-. lia.
      * apply N, has_ids_spec; auto.
Qed.

(*EX
Example C35_ex_errors :
  result (kmeans_Z pars ex vecs None) (fresh_kmeans Z) = Raise ValueError /\
  result (kmeans_Z pars (init []) vecs (Some 2%Z)) (fresh_kmeans Z) = Raise ValueError /\
  result (kmeans_Z pars ex [(A, 0%Z)] (Some 2%Z)) (fresh_kmeans Z) = Raise KeyError.
Proof. repeat split; vm_compute; reflexivity. Qed.
EX*)

(*PROP C36 as stated is false: the numbers of the centroids are not those of the returned clusters. *)
Lemma C36_centroids_refuted_proof :
  exists (pairwise : list Z -> list Z -> nat -> nat -> Z) ltb dsum mean shuffle set_order p m vectors nb s s' d,
    valid_set_order set_order /\ valid_shuffle shuffle /\ strict_weak_order ltb /\ reachable m /\
    make_kmeans Z ltb 0%Z (str "COP") 150%Z 1%Z = Ok p /\
    cluster Z Z pairwise ltb dsum mean shuffle set_order p m vectors nb s = (s', Ok d) /\
    exists ids, ask get_list_of_managed_data_IDs m = Ok ids /\ ~ centroids_of mean ids vectors d (k_centroids Z s').
Proof.
  exists (fun X Y i j => Z.abs (nth i X 0 - nth j Y 0))%Z, Z.ltb, (fun l => fold_right Z.add 0%Z l),
    (fun l => (fold_right Z.add 0 l / Z.of_nat (length l))%Z), (@rev pystr), (nodup Z.eq_dec), (mkKParams Z 150 1%Z),
    (init [str "a"; str "b"]), [(str "a", 0%Z); (str "b", 10%Z)], (Some 2%Z), (fresh_kmeans Z).
  eexists. eexists. split; [intro l; split; [apply NoDup_nodup|intro; apply nodup_In]|].
  split; [intro l; apply Permutation_rev|].
  split. { split; [|split]; intros; rewrite ?Z.ltb_lt, ?Z.ltb_ge in *; try lia; auto using Z.ltb_irrefl. }
  split; [apply reach_init|]. split; [reflexivity|]. split; [reflexivity|].
  exists [str "a"; str "b"]. split; [reflexivity|].
  intros (_ & _ & G). destruct (G 0%Z 10%Z eq_refl) as (rows & V & Em).
  unfold vectors_are in V. simpl in V. destruct rows as [|r [|? ?]]; try discriminate. injection V as <-. discriminate.
Qed.

(*PROP C36, the part that holds: the centroids are the means of the returned clusters, under some other numbering of the clusters. *)
Lemma C36_centroids_partial_proof :
  forall vec D (eqD : EqB D) pairwise ltb dzero dsum mean shuffle set_order model it tol p m vectors nb s s' d,
    valid_set_order set_order -> valid_shuffle shuffle -> reachable m ->
    make_kmeans D ltb dzero model it tol = Ok p ->
    cluster vec D pairwise ltb dsum mean shuffle set_order p m vectors nb s = (s', Ok d) ->
    k_clusters vec s' = d /\ k_predicted vec s' = Some d /\
    exists ids raw, ask get_list_of_managed_data_IDs m = Ok ids /\ same_partition raw d /\
      centroids_of mean ids vectors raw (k_centroids vec s').
Proof.
  intros vec D eqD pairwise ltb dzero dsum mean shuffle set_order model it tol p m vectors nb s s' d SO SH R MK E.
  apply reachable_inv in R. apply make_kmeans_max in MK.
  assert (E' : result (cluster vec D pairwise ltb dsum mean shuffle set_order p m vectors nb) s = Ok d) by (unfold result; rewrite E; auto).
  destruct (returned_run pairwise ltb dsum mean shuffle set_order SO SH p MK m vectors nb s d R E')
    as (n & raw & fc & c0 & _ & _ & _ & Run & _ & Ce & _ & SP & _).
  rewrite E in Run. injection Run as ->. split; auto. split; auto. exists (ids m), raw. auto.
Qed.

(*EX
Example C36_ex : let run := kmeans_Z pars ex vecs (Some 2%Z) (fresh_kmeans Z) in
  (snd run, k_centroids Z (fst run)) = (Ok [(A, 0); (B, 1); (C, 0); (E, 0)], [(0, 1); (1, 7)])%Z.
Proof. vm_compute; reflexivity. Qed.
EX*)

(*PROP C55: with complete constraints the clusters are the connected components. *)
Lemma C55_kmeans_complete_constraints_proof :
  forall vec D (eqD : EqB D) pairwise ltb dzero dsum mean shuffle set_order model it tol p m vectors nb s d a b,
    valid_set_order set_order -> valid_shuffle shuffle -> reachable m ->
    make_kmeans D ltb dzero model it tol = Ok p ->
    complete m -> managed m a -> managed m b ->
    result (cluster vec D pairwise ltb dsum mean shuffle set_order p m vectors nb) s = Ok d ->
    (dget a d = dget b d <-> linked (added_must m) a b).
Proof.
  intros vec D eqD pairwise ltb dzero dsum mean shuffle set_order model it tol p m vectors nb s d a b SO SH R MK Co Ma Mb E.
  assert (Re := C34_kmeans_respects_constraints_proof _ _ _ _ _ _ _ _ _ _ _ _ _ _ _ _ _ _ _ SO SH R MK E).
  destruct (C14_completude_exact_proof m R) as (bb & Eb & Hb). unfold complete in Co. rewrite Co in Eb. injection Eb as <-.
  apply reachable_inv in R. rewrite added_linked by auto.
  apply managed_ids in Ma as Ia. apply managed_ids in Mb as Ib. rewrite <- ml_linked by auto.
  destruct (proj1 Hb eq_refl a b Ma Mb) as [L|L].
  - split; [intros _; apply inferred_ml; auto|]. intros _. apply (proj1 Re); auto.
  - assert (N := proj2 Re a b Ma Mb L). apply inferred_cl in L; auto. split; [tauto|]. intro M0. exfalso. eapply ml_cl; eauto.
Qed.

(*EX
Definition ex_complete : mgr := run [CallAddConstraint A E CANNOT_LINK 1%Q; CallAddConstraint B E CANNOT_LINK 1%Q] ex.
Example C55_ex : complete ex_complete /\
  result (kmeans_Z pars ex_complete vecs (Some 2%Z)) (fresh_kmeans Z) = Ok [(A, 0); (B, 1); (C, 0); (E, 2)]%Z.
Proof. split; vm_compute; reflexivity. Qed.
EX*)

(*PROP C58: a call is a COP-KMeans run: rounds that send each component to the nearest cluster that is not blocked by a CANNOT_LINK, then recompute the means, until the centroids are stable or the rounds are used up. *)
Lemma C58_kmeans_is_cop_run_proof :
  forall vec D (eqD : EqB D) pairwise ltb dzero dsum mean shuffle set_order model it tol p m vectors nb s s' d,
    valid_set_order set_order -> valid_shuffle shuffle -> strict_weak_order ltb -> reachable m ->
    make_kmeans D ltb dzero model it tol = Ok p ->
    cluster vec D pairwise ltb dsum mean shuffle set_order p m vectors (Some nb) s = (s', Ok d) ->
    exists ids first raw, ask get_list_of_managed_data_IDs m = Ok ids /\
      initial_centroids ids vectors (Nat.min (Z.to_nat nb) (length ids)) first /\
      cop_run pairwise ltb dsum mean tol m ids vectors (Z.to_nat it) first None raw (k_centroids vec s') /\
      same_partition raw d.
Proof.
  intros vec D eqD pairwise ltb dzero dsum mean shuffle set_order model it tol p m vectors nb s s' d SO SH SWO R MK E.
  apply reachable_inv in R. assert (MX := make_kmeans_max _ _ _ _ _ _ MK).
  assert (E' : result (cluster vec D pairwise ltb dsum mean shuffle set_order p m vectors (Some nb)) s = Ok d) by (unfold result; rewrite E; auto).
  destruct (returned_run pairwise ltb dsum mean shuffle set_order SO SH p MX m vectors (Some nb) s d R E')
    as (n & raw & fc & c0 & En & _ & _ & Run & _ & _ & _ & SP & IC & CR).
  injection En as <-. rewrite E in Run. injection Run as ->.
  assert (Ep : p = mkKParams D (Z.to_nat it) tol).
  { unfold make_kmeans in MK. destruct (negb (eqb model (str "COP"))); [discriminate|]. destruct (it <? 1)%Z; [discriminate|].
    destruct (ltb tol dzero); [discriminate|]. congruence. }
  exists (ids m), c0, raw. split; auto. split; auto. split; auto. specialize (CR SWO). rewrite Ep in CR. exact CR.
Qed.

(*EX
Lemma ltb_swo : strict_weak_order Z.ltb.
Proof. split; [|split]; intros; rewrite ?Z.ltb_lt, ?Z.ltb_ge in *; try lia; auto using Z.ltb_irrefl. Qed.
(** Without constraints: two groups on a line. *)
Example C58_ex : result (kmeans_Z pars (init [A; B; C; E]) vecs (Some 2%Z)) (fresh_kmeans Z) = Ok [(A, 0); (B, 0); (C, 1); (E, 1)]%Z.
Proof. vm_compute; reflexivity. Qed.
EX*)

(*PROP C59: a KMeans object can be reused: result and centroids do not depend on earlier calls. *)
Lemma C59_kmeans_no_memory_proof :
  forall vec D (eqD : EqB D) pairwise ltb dsum mean shuffle set_order p m vectors nb s1 s2,
    result (cluster vec D pairwise ltb dsum mean shuffle set_order p m vectors nb) s1 =
    result (cluster vec D pairwise ltb dsum mean shuffle set_order p m vectors nb) s2 /\
    forall s1' s2' d1 d2,
      cluster vec D pairwise ltb dsum mean shuffle set_order p m vectors nb s1 = (s1', Ok d1) ->
      cluster vec D pairwise ltb dsum mean shuffle set_order p m vectors nb s2 = (s2', Ok d2) -> s1' = s2'.
Proof.
  intros vec D eqD pairwise ltb dsum mean shuffle set_order p m vectors nb s1 s2.
  unfold result, cluster, bind, lift, modify.
  destruct (ask get_list_of_managed_data_IDs m) as [l|e]; [|split; [reflexivity|discriminate]].
  destruct nb as [n|]; [|split; [reflexivity|discriminate]].
  destruct (n <? 2)%Z; [split; [reflexivity|discriminate]|].
  unfold clustering_COP, bind at 1 4 7 10, lift.
  destruct (initialize_centroids vec shuffle l vectors (Nat.min (Z.to_nat n) (length l))) as [c|e]; [|split; [reflexivity|discriminate]].
  unfold bind at 1 3 5 7, modify at 1 3 5 7, bind at 1 3 5 7, modify at 1 3 5 7, set_centroids at 1 3 5 7, set_clusters at 1 3 5 7, set_predicted.
  cbn [k_predicted k_clusters k_centroids]. split; [reflexivity|]. intros s1' s2' d1 d2 E1 E2. assert (Q : (s1', Ok d1) = (s2', Ok d2)) by (etransitivity; [symmetry; exact E1|exact E2]). congruence.
Qed.

(*EX
Example C59_ex : forall s, result (kmeans_Z pars ex vecs (Some 2%Z)) s = Ok [(A, 0); (B, 1); (C, 0); (E, 0)]%Z.
Proof. intro s. transitivity (result (kmeans_Z pars ex vecs (Some 2%Z)) (fresh_kmeans Z)); [apply C59_kmeans_no_memory|vm_compute; reflexivity]. Qed.
EX*)

(*PROP C60: the number of clusters KMeans returns is feasible for the constraints, and is at most the number of connected components. *)
Lemma C60_kmeans_number_of_clusters_proof :
  forall vec D (eqD : EqB D) pairwise ltb dzero dsum mean shuffle set_order model it tol p m vectors nb s d comps,
    valid_set_order set_order -> valid_shuffle shuffle -> reachable m ->
    make_kmeans D ltb dzero model it tol = Ok p ->
    result (cluster vec D pairwise ltb dsum mean shuffle set_order p m vectors nb) s = Ok d ->
    ask get_connected_components m = Ok comps ->
    feasible m (nb_clusters_of d) /\ nb_clusters_of d <= length comps.
Proof.
  intros vec D eqD pairwise ltb dzero dsum mean shuffle set_order model it tol p m vectors nb s d cs SO SH R MK E EC.
  apply reachable_inv in R. apply make_kmeans_max in MK.
  destruct (returned_run pairwise ltb dsum mean shuffle set_order SO SH p MK m vectors nb s d R E)
    as (n & raw & fc & c0 & _ & _ & _ & _ & So & _ & Can & SP & _).
  destruct (sound_facts m raw d R So SP) as [Co Re].
  rewrite ask_components in EC by auto. injection EC as <-.
  split; [apply respects_feasible; auto|apply respects_at_most_components; auto].
Qed.

(*EX
Example C60_ex : nb_clusters_of [(A, 0); (B, 1); (C, 0); (E, 0)]%Z = 2 /\ ask get_connected_components ex = Ok [[A; C]; [B]; [E]].
Proof. split; vm_compute; reflexivity. Qed.
EX*)
