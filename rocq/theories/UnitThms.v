(** * What depends on the unit of the distances, and what on their order only (C120, C121). *)

From Coq Require Import String List Bool Arith ZArith QArith Lia.
(*HEADER
From Coq Require Import String List Bool Arith ZArith QArith Permutation Lia.
From Verif Require Import Base Manager Spec ManagerThms SamplingSpec ClusterSpec Sampling KMeans Hierarchical Dbscan UnitSpec UnitThms.
Import ListNotations.
Open Scope nat_scope.

(** An instance for the examples: points on a line, natural numbers as distances; the other
    unit is the square, or thousandths. *)
Definition far (x y : Z) : nat := Z.abs_nat (x - y).
Definition pw (X : list Z) (i j : nat) : nat := far (nth i X 0%Z) (nth j X 0%Z).
Definition square (d : nat) : nat := d * d.
Definition milli (d : nat) : nat := 1000 * d.
Definition first (l : list Z) : Z := nth 0 l 0%Z.
Definition hier (unit : nat -> nat) := Hierarchical.cluster Z nat (fun X i j => unit (pw X i j)) (fun x y => unit (far x y))
  Nat.ltb (fold_right Nat.add 0) Nat.div (unit 1000) first.
Definition A := str "a". Definition B := str "b". Definition C := str "c". Definition E := str "d".
Definition four : mgr := init [A; B; C; E].
Definition places : dict pystr Z := [(A, 0); (B, 4); (C, 14); (E, 27)]%Z.
Lemma square_increasing : increasing Nat.ltb Nat.ltb square.
Proof. exact square_increasing. Qed.
Lemma milli_increasing : increasing Nat.ltb Nat.ltb milli.
Proof. exact milli_increasing. Qed.
HEADER*)
From Verif Require Import Base Manager Spec Closure ManagerProofs ManagerInv ManagerQueries ManagerThms SamplingSpec ClusterSpec
  Sampling Rename KMeans Hierarchical Dbscan UnitSpec UnitProofs.
Import ListNotations.
Open Scope nat_scope.
Open Scope py_scope.

Lemma square_increasing : increasing Nat.ltb Nat.ltb (fun d => d * d).
Proof.
  split; intros a b.
  - destruct (Nat.ltb_spec a b), (Nat.ltb_spec (a * a) (b * b)); auto; nia.
  - intro. nia.
Qed.
Lemma milli_increasing : increasing Nat.ltb Nat.ltb (Nat.mul 1000).
Proof.
  split; intros a b.
  - destruct (Nat.ltb_spec a b), (Nat.ltb_spec (1000 * a) (1000 * b)); auto; lia.
  - intro. lia.
Qed.

Lemma hier_f {vec D D'} `{EqB D} `{EqB D'} (f : D -> D') ltb ltb' pw pw' cd cd' dsum dsum' ddiv ddiv' inf (mean : list vec -> vec)
    linkage m vectors nb s : increasing ltb ltb' f ->
  (forall rows i j, pw' rows i j = f (pw rows i j)) -> (forall u v, cd' u v = f (cd u v)) ->
  In linkage [str "average"; str "complete"; str "single"] \/
    (forall l, dsum' (map f l) = f (dsum l)) /\ (forall d n, ddiv' (f d) n = f (ddiv d n)) ->
  Hierarchical.cluster vec D' pw' cd' ltb' dsum' ddiv' (f inf) mean linkage m vectors nb s =
  Hierarchical.cluster vec D pw cd ltb dsum ddiv inf mean linkage m vectors nb s.
Proof.
  intros F P C L. unfold Hierarchical.cluster. unfold bind at 1. unfold bind at 7. unfold lift.
  destruct (ask get_list_of_managed_data_IDs m) as [ids|]; auto. unfold bind, modify. cbn beta iota. destruct nb as [nb|]; auto.
  destruct (nb <? 2)%Z; auto. rewrite (pairwise_table_f vec D D' f pw pw' P).
  destruct (pairwise_table vec D pw m vectors) as [t|]; cbn [rok]; auto.
  rewrite (build_tree_f vec D D' f ltb ltb' F cd cd' C dsum dsum' ddiv ddiv' inf mean m linkage L t vectors). reflexivity.
Qed.

(*PROP C120 (hierarchical clustering): with average, complete or single linkage, two distances that compare alike lead to the same tree, the same clusters and the same errors, whatever the object did before. *)
Lemma C120_hierarchical_order_proof :
  forall (vec D D' : Type) (eqD : EqB D) (eqD' : EqB D') (f : D -> D') ltb ltb' pairwise pairwise' cdistance cdistance' dsum dsum' ddiv ddiv' inf
    (mean : list vec -> vec) linkage m vectors nb s,
    increasing ltb ltb' f ->
    (forall rows i j, pairwise' rows i j = f (pairwise rows i j)) -> (forall u v, cdistance' u v = f (cdistance u v)) ->
    In linkage [str "average"; str "complete"; str "single"] ->
    Hierarchical.cluster vec D' pairwise' cdistance' ltb' dsum' ddiv' (f inf) mean linkage m vectors nb s =
    Hierarchical.cluster vec D pairwise cdistance ltb dsum ddiv inf mean linkage m vectors nb s.
Proof. intros. apply hier_f; auto. Qed.

(*EX
(** Complete linkage does not see the difference between distances and their squares; "ward" does. *)
Example C120_hierarchical_order_ex :
  result (hier (fun d => d) (str "complete") four places (Some 2%Z)) (fresh_hier Z) = Ok [(A, 0); (B, 0); (C, 1); (E, 1)]%Z /\
  result (hier square (str "complete") four places (Some 2%Z)) (fresh_hier Z) = Ok [(A, 0); (B, 0); (C, 1); (E, 1)]%Z /\
  result (hier (fun d => d) (str "ward") four places (Some 2%Z)) (fresh_hier Z) = Ok [(A, 0); (B, 0); (C, 1); (E, 1)]%Z /\
  result (hier square (str "ward") four places (Some 2%Z)) (fresh_hier Z) = Ok [(A, 0); (B, 0); (C, 0); (E, 1)]%Z.
Proof. vm_compute. auto. Qed.
EX*)

(*PROP C120 (sampling): two distances that compare alike lead to the same sample, the same errors and the same objects, up to the distances that the sampler remembers. *)
Lemma C120_sampling_order_proof :
  forall (vec D D' : Type) (f : D -> D') ltb ltb' pairwise pairwise' draw o nb clustering (vectors : option (dict pystr vec)) s m,
    increasing ltb ltb' f -> (forall rows i j, pairwise' rows i j = f (pairwise rows i j)) ->
    let run := sample vec D pairwise ltb draw o nb clustering vectors (s, m) in
    sample vec D' pairwise' ltb' draw o nb clustering vectors (sampler_in_unit f s, m) =
      ((sampler_in_unit f (fst (fst run)), snd (fst run)), snd run).
Proof.
  intros vec D D' f ltb ltb' pairwise pairwise' draw o nb clustering vectors s m F P run.
  assert (Q := same_sample vec D D' f ltb ltb' F pairwise pairwise' P draw o nb clustering vectors (s, m)).
  unfold fw in Q. cbn [fst snd] in Q. rewrite Q. unfold run. rewrite rok_id. reflexivity.
Qed.

(*EX
(** The two farthest pairs, by distance and by square. *)
Example C120_sampling_order_ex :
  let o := mkOptions None (Some FARTHEST) false false in
  snd (sample Z nat pw Nat.ltb (fun l _ => l) o 2%Z None (Some places) (fresh_sampler Z nat, four)) = Ok [(A, E); (B, E)] /\
  snd (sample Z nat (fun X i j => square (pw X i j)) Nat.ltb (fun l _ => l) o 2%Z None (Some places) (fresh_sampler Z nat, four)) = Ok [(A, E); (B, E)].
Proof. vm_compute. auto. Qed.
EX*)

(*PROP C120 (units): when the other unit also agrees with sums and divisions, as thousandths do, every linkage and, with its tolerance in that unit, KMeans give the same results. *)
Lemma C120_units_proof :
  forall (vec D D' : Type) (eqD : EqB D) (eqD' : EqB D') (f : D -> D') ltb ltb' dsum dsum' ddiv ddiv' (mean : list vec -> vec),
    increasing ltb ltb' f -> (forall l, dsum' (map f l) = f (dsum l)) -> (forall d n, ddiv' (f d) n = f (ddiv d n)) ->
    (forall pairwise pairwise' cdistance cdistance' inf linkage m vectors nb s,
       (forall rows i j, pairwise' rows i j = f (pairwise rows i j)) -> (forall u v, cdistance' u v = f (cdistance u v)) ->
       Hierarchical.cluster vec D' pairwise' cdistance' ltb' dsum' ddiv' (f inf) mean linkage m vectors nb s =
       Hierarchical.cluster vec D pairwise cdistance ltb dsum ddiv inf mean linkage m vectors nb s) /\
    (forall pairwise pairwise' shuffle set_order rounds tolerance m vectors nb s,
       (forall rows rows' i j, pairwise' rows rows' i j = f (pairwise rows rows' i j)) ->
       KMeans.cluster vec D' pairwise' ltb' dsum' mean shuffle set_order (mkKParams D' rounds (f tolerance)) m vectors nb s =
       KMeans.cluster vec D pairwise ltb dsum mean shuffle set_order (mkKParams D rounds tolerance) m vectors nb s).
Proof.
  intros vec D D' eqD eqD' f ltb ltb' dsum dsum' ddiv ddiv' mean F Sm Dv. split.
  - intros. apply hier_f; auto.
  - intros pairwise pairwise' shuffle set_order rounds tolerance m vectors nb s P.
    unfold KMeans.cluster. unfold bind at 1. unfold bind at 4. unfold lift.
    destruct (ask get_list_of_managed_data_IDs m) as [ids|]; auto. destruct nb as [nb|]; auto.
    destruct (nb <? 2)%Z; auto. unfold bind, modify. cbn beta iota.
    rewrite (clustering_COP_f vec D D' f ltb ltb' F pairwise pairwise' P dsum dsum' Sm). reflexivity.
Qed.

(*EX
(** Thousandths agree with sums and with exact divisions; squares do not agree with sums. *)
Example C120_units_ex :
  (forall l, fold_right Nat.add 0 (map milli l) = milli (fold_right Nat.add 0 l)) /\
  ~ (forall l, fold_right Nat.add 0 (map square l) = square (fold_right Nat.add 0 l)) /\
  result (hier milli (str "ward") four places (Some 2%Z)) (fresh_hier Z) =
  result (hier (fun d => d) (str "ward") four places (Some 2%Z)) (fresh_hier Z) /\
  let km (unit : nat -> nat) := result (KMeans.cluster Z nat (fun X Y i j => unit (far (nth i X 0%Z) (nth j Y 0%Z))) Nat.ltb (fold_right Nat.add 0) first
         (fun l => l) (nodup Z.eq_dec) (mkKParams nat 5 (unit 1)) four places (Some 2%Z)) (fresh_kmeans Z) in
  km (fun d => d) = Ok [(A, 0); (B, 1); (C, 1); (E, 1)]%Z /\ km milli = km (fun d => d).
Proof.
  split; [|split; [|split; [vm_compute; auto|vm_compute; auto]]].
  - intro l. induction l as [|x l IH]; cbn [map fold_right]; [reflexivity|]. rewrite IH. unfold milli. lia.
  - intro Q. specialize (Q [1; 1]). vm_compute in Q. discriminate.
Qed.
EX*)

(** ** DBScan. *)
Lemma rfilter_length {A} (k : A -> res bool) : forall l r, rfilter k l = Ok r -> length r <= length l.
Proof.
  induction l as [|x l IH]; simpl; intros r E; [injection E as <-; auto|]. destruct (k x) as [b|]; [|discriminate].
  cbn [rbind] in E. destruct (rfilter k l) as [r0|]; [|discriminate]. cbn [rbind] in E. specialize (IH r0 eq_refl).
  destruct b; injection E as <-; simpl; lia.
Qed.
Definition small {A} (b : nat) (d : dict pystr (list A)) : Prop := Forall (fun c => length c <= b) (vals d).
Lemma small_dset {A} b k (v : list A) d : length v <= b -> small b d -> small b (dset k v d).
Proof.
  intros V. unfold small. induction d as [|[k' v'] d IH]; simpl; intro S; [constructor; auto|].
  inversion S; subst. destruct (eqb k k'); simpl; constructor; auto.
Qed.
Lemma small_dpop {A} b k (d : dict pystr (list A)) : small b d -> small b (dpop k d).
Proof.
  unfold small. induction d as [|[k' v'] d IH]; simpl; intro S; auto. inversion S; subst. destruct (eqb k k'); simpl; auto.
Qed.

Section Sizes.
  Context {D : Type}.
  Variables leb ltb : D -> D -> bool.
  Variable setlist : list pystr -> list pystr.
  Variable p : db_params D.
  Variable m : mgr.
  Variable table : dict pystr (dict pystr D).
  Variable l : list pystr.

  Lemma local_step_small s x s' : local_step D leb p m table l s x = Ok s' -> small (length l) (snd s) -> small (length l) (snd s').
  Proof.
    destruct s as [labels local]. unfold local_step. intros E S. destruct (dlookup x labels) as [lab|]; [|discriminate]. cbn [rbind] in E.
    destruct (is_single lab); [injection E as <-; auto|].
    destruct (rfilter (fun y => lab <-- dlookup y labels ;;; Ok (negb (is_single lab))) l) as [possible|] eqn:Ep; [|discriminate]. cbn [rbind] in E.
    destruct (rfilter (fun y => d <-- table_get D table (x, y) ;;; Ok (leb d (db_eps D p))) possible) as [ns|] eqn:En; [|discriminate]. cbn [rbind] in E.
    destruct (conflict m ns ns) as [c|]; [|discriminate]. cbn [rbind] in E.
    assert (LN : length ns <= length l) by (apply rfilter_length in Ep, En; lia).
    destruct (length ns <? db_min_samples D p); [injection E as <-; auto|]. destruct c; injection E as <-; cbn [snd] in *.
    - clear Ep En. revert local S LN. generalize (length l) as b. intros b local S LN.
      assert (G : forall us lc, incl us ns -> small b lc -> small b (fold_left (fun d y => dset y [y] d) us lc)).
      { induction us as [|u us IH]; simpl; intros lc I Sl; auto. apply IH; [intros z Z; apply I; right; auto|]. apply small_dset; auto.
        destruct ns; [exfalso; apply (I u); left; auto|simpl in *; lia]. }
      apply G; auto. apply incl_refl.
    - apply small_dset; auto.
  Qed.
  Lemma local_clusters_small s : local_clusters D leb p m table l = Ok s -> small (length l) (snd s).
  Proof.
    unfold local_clusters. assert (G : forall us s0, small (length l) (snd s0) -> rfold (local_step D leb p m table l) us s0 = Ok s -> small (length l) (snd s)).
    { induction us as [|u us IH]; simpl; intros s0 S E; [injection E as <-; auto|].
      destruct (local_step D leb p m table l s0 u) as [s1|] eqn:E1; [|discriminate]. apply (IH s1); auto. apply (local_step_small s0 u); auto. }
    apply G. constructor.
  Qed.
  Lemma absorb_small b : forall fuel core local r, absorb D ltb setlist p m table fuel core local = Ok r -> small b local -> small b (snd r).
  Proof.
    induction fuel as [|fuel IH]; intros core local r E S; [discriminate|]. cbn [absorb] in E. destruct local as [|e0 local0] eqn:El; [injection E as <-; auto|].
    rewrite <- El in *. clear El. destruct (rmap _ local) as [ds|]; [|discriminate]. cbn [rbind] in E.
    destruct (py_min str_ltb (keys ds)) as [k|]; [|discriminate]. cbn [rbind] in E.
    destruct (dlookup k ds) as [d|]; [|discriminate]. cbn [rbind] in E. destruct (ltb (db_eps D p) d); [injection E as <-; auto|].
    destruct (dlookup k local) as [pts|]; [|discriminate]. cbn [rbind] in E.
    destruct (conflict m core pts) as [[|]|]; [| |discriminate]; cbn [rbind] in E; [injection E as <-; auto|].
    apply (IH _ _ _ E). apply small_dpop; auto.
  Qed.
  Lemma merge_cannot_links_small b : forall core local r, merge_cannot_links D ltb setlist p m table core local = Ok r -> small b local -> small b (snd r).
  Proof.
    induction core as [|[k pts] core IH]; intros local r E S; cbn [merge_cannot_links] in E; [injection E as <-; auto|].
    destruct (absorb D ltb setlist p m table _ pts local) as [r1|] eqn:E1; [|discriminate]. cbn [rbind] in E.
    destruct (merge_cannot_links D ltb setlist p m table core (snd r1)) as [r2|] eqn:E2; [|discriminate]. cbn [rbind] in E.
    injection E as <-. cbn [snd]. apply (IH _ _ E2). apply (absorb_small b _ _ _ _ E1 S).
  Qed.
End Sizes.

(*PROP C121 (refuted): the same data, with distances and eps in metres and then in millimetres: two data share a cluster in the first case and are ignored in the second, because eps is compared with a number of data. *)
Lemma C121_unit_refuted_proof :
  exists (pairwise : list Z -> nat -> nat -> Z) m vectors p p' d d' x y,
    reachable m /\ make_dbscan Z Z.leb Z.of_nat 1%Z 2%Z = Ok p /\ make_dbscan Z Z.leb Z.of_nat 1000%Z 2%Z = Ok p' /\
    result (cluster Z Z pairwise Z.leb Z.ltb Z.of_nat dedup p m vectors None) fresh_dbscan = Ok d /\
    result (cluster Z Z (fun X i j => 1000 * pairwise X i j)%Z Z.leb Z.ltb Z.of_nat dedup p' m vectors None) fresh_dbscan = Ok d' /\
    dget x d = Some 2%Z /\ dget y d = Some 2%Z /\ dget x d' = Some (-1)%Z /\ dget y d' = Some (-2)%Z.
Proof.
  exists (fun X i j => Z.abs (nth i X 0 - nth j X 0)%Z), (init [str "b"; str "c"; str "d"; str "e"; str "a"; str "aa"]).
  exists [(str "b", 5); (str "c", 6); (str "d", 7); (str "e", 7); (str "a", 0); (str "aa", 1)]%Z.
  exists (mkDBParams Z 1%Z 2), (mkDBParams Z 1000%Z 2). do 2 eexists. exists (str "d"), (str "e"). split; [exact (run_reachable _ [])|].
  do 2 (split; [reflexivity|]). do 2 (split; [vm_compute; reflexivity|]). repeat split; reflexivity.
Qed.

(*PROP C121 (partial): in the other unit the results, the errors and the object are the same, provided eps compares with the numbers up to that of the data as it did before (for instance when it is at most 1 in both units).  Missing: any other eps. *)
Lemma C121_unit_partial_proof :
  forall (vec D D' : Type) (f : D -> D') ltb ltb' leb leb' of_nat of_nat' pairwise pairwise' setlist eps min_samples m (vectors : dict pystr vec) nb s l,
    increasing ltb ltb' f -> (forall a b, leb' (f a) (f b) = leb a b) ->
    (forall rows i j, pairwise' rows i j = f (pairwise rows i j)) ->
    ask get_list_of_managed_data_IDs m = Ok l ->
    (forall n, n <= length l -> leb' (f eps) (of_nat' n) = leb eps (of_nat n)) ->
    cluster vec D' pairwise' leb' ltb' of_nat' setlist (mkDBParams D' (f eps) min_samples) m vectors nb s =
    cluster vec D pairwise leb ltb of_nat setlist (mkDBParams D eps min_samples) m vectors nb s.
Proof.
  intros vec D D' f ltb ltb' leb leb' of_nat of_nat' pairwise pairwise' setlist eps ms m vectors nb s l F Le P El N.
  unfold cluster. unfold bind, lift, modify, ret, raise. rewrite El. destruct nb as [nb|]; auto.
  rewrite (pairwise_table_f vec D D' f pairwise pairwise' P). destruct (pairwise_table vec D pairwise m vectors) as [t|]; cbn [rok]; auto.
  rewrite (local_clusters_f D D' f leb leb' Le). destruct (local_clusters D leb (mkDBParams D eps ms) m t l) as [lc|] eqn:El1; auto.
  destruct (merge_must_links setlist m l lc) as [mg|]; auto. destruct (clean l mg) as [core|]; auto.
  rewrite (merge_cannot_links_f D D' f ltb ltb' F setlist eps ms m t). destruct (merge_cannot_links D ltb setlist (mkDBParams D eps ms) m t core (snd lc)) as [r|] eqn:E; auto.
  rewrite (final_local_f D D' f leb leb' of_nat of_nat' eps ms (length l) N); [reflexivity|].
  apply (merge_cannot_links_small ltb setlist _ m t (length l) core (snd lc) r E). apply (local_clusters_small leb _ m t l lc El1).
Qed.

(*EX
(** Six data, eps 1, distances and their squares: eps is 1 in both. *)
Example C121_unit_partial_ex :
  let names := [B; C; E; str "e"; A; str "aa"] in
  let near := combine names [5; 6; 7; 7; 0; 1]%Z in
  let found := Ok [(A, 0); (str "aa", 0); (B, 1); (C, 1); (E, 2); (str "e", 2)]%Z in
  (forall n, n <= 6 -> Nat.leb (square 1) n = Nat.leb 1 n) /\
  result (cluster Z nat pw Nat.leb Nat.ltb (fun n => n) dedup (mkDBParams nat 1 2) (init names) near None) fresh_dbscan = found /\
  result (cluster Z nat (fun X i j => square (pw X i j)) Nat.leb Nat.ltb (fun n => n) dedup (mkDBParams nat (square 1) 2) (init names) near None) fresh_dbscan = found.
Proof. split; [intros n _; reflexivity|]. split; vm_compute; reflexivity. Qed.
EX*)
