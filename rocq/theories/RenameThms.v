(** * Properties of [rename_clusters_by_order]. *)

From Coq Require Import String List Bool Arith ZArith Lia Permutation Sorted.
From Verif Require Import Base Manager Spec Sampling SamplingSpec SamplingProofs SamplingThms Rename ClusterSpec.
Import ListNotations.
Open Scope py_scope.

(*HEADER
From Coq Require Import String List Bool Arith ZArith Permutation.
From Verif Require Import Base Manager Spec Rename ClusterSpec RenameThms.
Import ListNotations.
Open Scope Z_scope.

HEADER*)

Lemma str_neg_trans x y z : str_ltb x z = true -> str_ltb x y = true \/ str_ltb y z = true.
Proof.
  intro H. destruct (str_ltb x y) eqn:E; auto. right. rewrite str_ltb_negb in *.
  apply negb_true_iff. apply negb_true_iff in H. apply negb_false_iff in E.
  destruct (str_leb z y) eqn:F; auto. rewrite (str_leb_trans _ _ _ F E) in H. discriminate.
Qed.

Lemma sorted_strings_perm l : Permutation l (sorted_strings l).
Proof. apply sorted_perm. Qed.

Lemma StronglySorted_before {A} (R : A -> A -> Prop) l : (forall x y, before l x y -> R x y) -> StronglySorted R l.
Proof.
  induction l as [|x l IH]; intro H; constructor.
  - apply IH. intros. apply H, before_cons; auto.
  - apply Forall_forall. intros y I. apply H, before_head; auto.
Qed.

Lemma sorted_strings_sorted l : NoDup l -> StronglySorted (fun x y => str_ltb x y = true) (sorted_strings l).
Proof.
  intro ND. destruct (sorted_before str_ltb str_neg_trans str_ltb_irrefl str_ltb_trans l ND) as [H1 H2].
  assert (ND' : NoDup (sorted_strings l)) by (apply (Permutation_NoDup (sorted_strings_perm l)); auto).
  apply StronglySorted_before. intros x y B. assert (F := H2 x y B).
  assert (N : x <> y) by (intros ->; exact (before_asym _ ND' _ _ B B)).
  rewrite str_ltb_negb in *. apply negb_false_iff in F. destruct (str_leb y x) eqn:E; auto.
  destruct (N (str_leb_antisym _ _ F E)).
Qed.

(** Strictly sorted lists with the same elements are equal. *)
Lemma sorted_unique l1 : forall l2, StronglySorted (fun x y => str_ltb x y = true) l1 ->
  StronglySorted (fun x y => str_ltb x y = true) l2 -> (forall x : pystr, In x l1 <-> In x l2) -> l1 = l2.
Proof.
  induction l1 as [|x l1 IH]; intros l2 S1 S2 E.
  - destruct l2 as [|y l2]; auto. destruct (proj2 (E y)); simpl; auto.
  - destruct l2 as [|y l2]; [destruct (proj1 (E x)); simpl; auto|].
    inversion S1 as [|? ? S1' F1]; inversion S2 as [|? ? S2' F2]; subst.
    rewrite Forall_forall in F1, F2.
    assert (X : x = y).
    { destruct (proj1 (E x) (or_introl eq_refl)) as [H|H]; auto.
      destruct (proj2 (E y) (or_introl eq_refl)) as [K|K]; auto.
      assert (A := F1 _ K). assert (B := F2 _ H). assert (C := str_ltb_trans _ _ _ A B). rewrite str_ltb_irrefl in C. discriminate. }
    subst y. f_equal. apply IH; auto. intro z. split; intro I.
    + destruct (proj1 (E z) (or_intror I)) as [->|]; auto. apply F1 in I. rewrite str_ltb_irrefl in I. discriminate.
    + destruct (proj2 (E z) (or_intror I)) as [->|]; auto. apply F2 in I. rewrite str_ltb_irrefl in I. discriminate.
Qed.

Lemma sorted_NoDup l : StronglySorted (fun x y : pystr => str_ltb x y = true) l -> NoDup l.
Proof.
  induction 1 as [|x l S IH F]; constructor; auto. intro I. rewrite Forall_forall in F. apply F in I.
  rewrite str_ltb_irrefl in I. discriminate.
Qed.

(** ** The loop. *)
Definition rank (mapping : dict Z Z) (c : Z) : Z := match dget c mapping with Some n => n | None => 0%Z end.

(** The labels of a list of IDs, already renamed by a mapping, that goes on with [new_ID]. *)
Definition good_mapping (mp : dict Z Z) (n : Z) : Prop :=
  (0 <= n)%Z /\ (forall c k, dget c mp = Some k -> (0 <= k < n)%Z) /\
  (forall c c' k, dget c mp = Some k -> dget c' mp = Some k -> c = c').

Lemma mapping_loop_run d : forall l mp n, (forall x, In x l -> In x (keys d)) -> good_mapping mp n ->
  exists mp', mapping_loop d l mp n = Ok mp' /\
    (forall c k, dget c mp = Some k -> dget c mp' = Some k) /\
    (forall c c' k, dget c mp' = Some k -> dget c' mp' = Some k -> c = c') /\
    (forall x, In x l -> exists c k, dget x d = Some c /\ dget c mp' = Some k) /\
    first_appearance n (map (fun x => match dget x d with Some c => rank mp' c | None => 0%Z end) l).
Proof.
  induction l as [|x l IH]; intros mp n K (N0 & G1 & G2).
  - exists mp. simpl. repeat split; auto. tauto.
  - simpl. destruct (dget_In_key _ _ (K x (or_introl eq_refl))) as [c Ec]. unfold dlookup. rewrite Ec. cbn [rbind].
    destruct (mem c (keys mp)) eqn:M.
    + destruct (IH mp n) as (mp' & E & P1 & P2 & P3 & P4); [intros; apply K; right; auto|repeat split; auto; eapply G1; eauto|].
      exists mp'. split; auto. split; auto. split; auto.
      apply mem_In in M. destruct (dget_In_key _ _ M) as [k Ek]. split.
      * intros y [<-|I]; auto. exists c, k. auto.
      * assert (B := G1 _ _ Ek). assert (RK : rank mp' c = k) by (unfold rank; rewrite (P1 _ _ Ek); auto). rewrite RK.
        split; [lia|].
        destruct (Z.eqb_spec k n); [lia|]. exact P4.
    + apply mem_nIn in M. rewrite <- dget_None in M.
      destruct (IH (dset c n mp) (n + 1)%Z) as (mp' & E & P1 & P2 & P3 & P4); [intros; apply K; right; auto| |].
      { split; [lia|]. split.
        - intros c' k. rewrite dget_dset. destruct (eqb_spec c' c); [intro X; injection X; intros; lia|]. intro X. apply G1 in X. lia.
        - intros c1 c2 k. rewrite !dget_dset. destruct (eqb_spec c1 c), (eqb_spec c2 c); try congruence.
          + intros X Y. apply G1 in Y. injection X; intros; lia.
          + intros X Y. apply G1 in X. injection Y; intros; lia.
          + apply G2. }
      exists mp'. split; auto.
      assert (Ec' : dget c mp' = Some n) by (apply P1; rewrite dget_dset, eqb_refl; auto).
      split; [|split; [|split]]; auto.
      * intros c' k X. apply P1. rewrite dget_dset. destruct (eqb_spec c' c); subst; congruence.
      * intros y [<-|I]; auto. exists c, n. auto.
      * assert (RK : rank mp' c = n) by (unfold rank; rewrite Ec'; auto). rewrite RK. split; [lia|]. rewrite Z.eqb_refl. exact P4.
Qed.

Lemma rfold_dset (f : pystr -> res Z) (g : pystr -> Z) l : forall d0,
  (forall x, In x l -> f x = Ok (g x)) -> NoDup l -> (forall x, In x l -> ~ In x (keys d0)) ->
  rfold (fun d x => new <-- f x ;;; Ok (dset x new d)) l d0 = Ok (d0 ++ map (fun x => (x, g x)) l).
Proof.
  induction l as [|x l IH]; intros d0 F ND N; simpl; [rewrite app_nil_r; auto|].
  rewrite F by (left; auto). cbn [rbind]. inversion ND; subst.
  assert (E : dset x (g x) d0 = d0 ++ [(x, g x)]).
  { specialize (N x (or_introl eq_refl)). clear -N. induction d0 as [|[k v] d0 IH]; simpl; auto.
    destruct (eqb_spec x k). { subst. simpl in N. tauto. } f_equal. apply IH. simpl in N. tauto. }
  rewrite E, IH; auto.
  - rewrite <- app_assoc. auto.
  - intros. apply F. right; auto.
  - intros y I. unfold keys. rewrite map_app, in_app_iff. intros [J|[J|[]]].
    + apply (N y); [right; auto|auto].
    + simpl in J. subst. tauto.
Qed.

Lemma rfold_ext {A B} (f g : B -> A -> res B) l : (forall b a, f b a = g b a) -> forall b, rfold f l b = rfold g l b.
Proof. intros E. induction l as [|x l IH]; intro b; simpl; auto. rewrite E. destruct (g b x); simpl; auto. Qed.

Lemma dget_map_fun (g : pystr -> Z) l x : In x l -> dget x (map (fun x => (x, g x)) l) = Some (g x).
Proof.
  induction l as [|y l IH]; simpl; [tauto|]. intros I. destruct (eqb_spec x y); subst; auto.
  destruct I; [congruence|auto].
Qed.

Lemma keys_map_fun (g : pystr -> Z) l : keys (map (fun x => (x, g x)) l) = l.
Proof. unfold keys. rewrite map_map. simpl. apply map_id. Qed.
Lemma vals_map_fun (g : pystr -> Z) l : vals (map (fun x => (x, g x)) l) = map g l.
Proof. unfold vals. rewrite map_map. auto. Qed.

(** ** What renaming computes. *)
Lemma rename_run d : NoDup (keys d) -> exists d', rename_clusters_by_order d = Ok d' /\
  keys d' = sorted_strings (keys d) /\ canonical d' /\ same_partition d d'.
Proof.
  intro ND. unfold rename_clusters_by_order. set (l := sorted_strings (keys d)).
  assert (IL : forall x, In x l <-> In x (keys d)).
  { intro x. split; apply Permutation_in; [apply Permutation_sym|]; apply sorted_strings_perm. }
  assert (NDl : NoDup l) by (apply (Permutation_NoDup (sorted_strings_perm _)); auto).
  destruct (mapping_loop_run d l [] 0%Z) as (mp & E & _ & INJ & T & FA).
  { intros x I. apply IL; auto. }
  { split; [lia|]. split; simpl; discriminate. }
  rewrite E. cbn [rbind].
  set (g := fun x => match dget x d with Some c => rank mp c | None => 0%Z end).
  exists (map (fun x => (x, g x)) l).
  split; [|split; [|split]].
  - rewrite rfold_ext with (g := fun d0 x => new <-- (old <-- dlookup x d ;;; dlookup old mp) ;;; Ok (dset x new d0)).
    + rewrite (rfold_dset _ g); auto. intros x I. destruct (T x I) as (c & k & Ec & Ek). unfold dlookup, g, rank.
      rewrite Ec. cbn [rbind]. rewrite Ek. auto.
    + intros b x. destruct (dlookup x d); auto.
  - apply keys_map_fun.
  - unfold canonical. rewrite keys_map_fun, vals_map_fun. split; [apply sorted_strings_sorted; auto|exact FA].
  - unfold same_partition. rewrite keys_map_fun. split.
    + intro x. rewrite IL. tauto.
    + intros x y Ix Iy. apply IL in Ix. apply IL in Iy. rewrite !dget_map_fun by auto.
      destruct (T x Ix) as (c & k & Ec & Ek). destruct (T y Iy) as (c' & k' & Ec' & Ek').
      unfold g, rank. rewrite Ec, Ec', Ek, Ek'. split; [congruence|]. intro X. injection X; intros; subst.
      f_equal. eapply INJ; eauto.
Qed.

(** Canonical dictionaries with the same partition are equal. *)
Lemma first_appearance_unique (l1 l2 : list Z) : forall n (seen : list (Z * Z)),
  length l1 = length l2 -> first_appearance n l1 -> first_appearance n l2 ->
  (forall v, (0 <= v < n)%Z -> In (v, v) seen) -> (forall v w, In (v, w) seen -> v = w /\ (v < n)%Z) ->
  (forall v1 v2 w1 w2, In (v1, v2) (seen ++ combine l1 l2) -> In (w1, w2) (seen ++ combine l1 l2) -> (v1 = w1 <-> v2 = w2)) ->
  l1 = l2.
Proof.
  revert l2. induction l1 as [|v1 l1 IH]; intros [|v2 l2] n seen L F1 F2 SA SB EQ; try discriminate; auto.
  simpl in F1, F2. destruct F1 as [B1 F1], F2 as [B2 F2]. injection L; intro L'.
  assert (X : v1 = v2).
  { assert (In0 : In (v1, v2) (seen ++ combine (v1 :: l1) (v2 :: l2))) by (apply in_or_app; right; left; auto).
    destruct (Z.eq_dec v1 n) as [E1|N1], (Z.eq_dec v2 n) as [E2|N2]; try congruence.
    - exfalso. assert (I : In (v2, v2) seen) by (apply SA; lia).
      assert (K := proj2 (EQ v1 v2 v2 v2 In0 (in_or_app _ _ _ (or_introl I))) eq_refl). lia.
    - exfalso. assert (I : In (v1, v1) seen) by (apply SA; lia).
      assert (K := proj1 (EQ v1 v2 v1 v1 In0 (in_or_app _ _ _ (or_introl I))) eq_refl). lia.
    - assert (I : In (v1, v1) seen) by (apply SA; lia).
      symmetry. apply (EQ v1 v2 v1 v1 In0 (in_or_app _ _ _ (or_introl I))); auto. }
  subst v2. f_equal.
  apply (IH l2 (if Z.eqb v1 n then n + 1 else n)%Z (seen ++ [(v1, v1)])); auto.
  - intros v H. apply in_or_app. destruct (Z.eqb_spec v1 n).
    + destruct (Z.eq_dec v v1); [right; subst; left; auto|]. left. apply SA. lia.
    + left. apply SA. lia.
  - intros v w I. apply in_app_or in I. destruct I as [I|[I|[]]].
    + destruct (SB _ _ I). split; auto. destruct (Z.eqb_spec v1 n); lia.
    + injection I; intros; subst. split; auto. destruct (Z.eqb_spec v n); lia.
  - intros a1 a2 b1 b2. rewrite <- app_assoc. simpl. apply EQ.
Qed.

Lemma combine_In_nth {A B} (l1 : list A) : forall (l2 : list B) a b, In (a, b) (combine l1 l2) ->
  exists i, nth_error l1 i = Some a /\ nth_error l2 i = Some b.
Proof.
  induction l1 as [|x l1 IH]; intros [|y l2] a b I; simpl in I; try tauto.
  destruct I as [E|I]. { injection E; intros; subst. exists 0. auto. }
  destruct (IH _ _ _ I) as [i H]. exists (S i). auto.
Qed.

Lemma dget_nth (d : dict pystr Z) : forall i v, NoDup (keys d) -> nth_error (vals d) i = Some v ->
  exists x, nth_error (keys d) i = Some x /\ dget x d = Some v.
Proof.
  induction d as [|[k w] d IH]; intros [|i] v ND E; simpl in *; try discriminate.
  - injection E; intros; subst. exists k. rewrite eqb_refl. auto.
  - inversion ND; subst. destruct (IH i v H2 E) as (x & E1 & E2). exists x. split; auto.
    destruct (eqb_spec x k); auto. subst. apply nth_error_In in E1. tauto.
Qed.

Lemma canonical_unique d1 d2 : canonical d1 -> canonical d2 -> same_partition d1 d2 -> d1 = d2.
Proof.
  intros [S1 F1] [S2 F2] [K P].
  assert (EK : keys d1 = keys d2) by (apply sorted_unique; auto).
  assert (N1 := sorted_NoDup _ S1). assert (N2 := sorted_NoDup _ S2).
  assert (EV : vals d1 = vals d2).
  { apply (first_appearance_unique _ _ 0%Z []); auto; try (simpl; tauto).
    - unfold vals. rewrite !map_length. apply (f_equal (@length _)) in EK. unfold keys in EK. rewrite !map_length in EK. auto.
    - intros. lia.
    - simpl. intros v1 v2 w1 w2 I J. apply combine_In_nth in I. apply combine_In_nth in J.
      destruct I as (i & Ia & Ib), J as (j & Ja & Jb).
      apply dget_nth in Ia; auto. apply dget_nth in Ib; auto. apply dget_nth in Ja; auto. apply dget_nth in Jb; auto.
      destruct Ia as (x & X1 & X2), Ib as (x' & X1' & X2'), Ja as (y & Y1 & Y2), Jb as (y' & Y1' & Y2').
      rewrite <- EK in X1', Y1'. assert (x' = x) by congruence. assert (y' = y) by congruence. subst x' y'.
      assert (Q := P x y (nth_error_In _ _ X1) (nth_error_In _ _ Y1)). rewrite X2, Y2, X2', Y2' in Q.
      split; intros ->; [assert (Some v2 = Some w2) by (apply Q; auto)|assert (Some v1 = Some w1) by (apply Q; auto)]; congruence. }
  clear -EK EV. revert d2 EK EV. induction d1 as [|[a b] d1 IH]; intros [|[a' b'] d2] EK EV; simpl in *; try discriminate; auto.
  injection EK; injection EV; intros; subst. f_equal. apply IH; auto.
Qed.

Lemma same_partition_sym d1 d2 : same_partition d1 d2 -> same_partition d2 d1.
Proof.
  intros [K P]. split; [intro; symmetry; auto|]. intros x y Ix Iy. symmetry. apply P; apply K; auto.
Qed.
Lemma same_partition_trans d1 d2 d3 : same_partition d1 d2 -> same_partition d2 d3 -> same_partition d1 d3.
Proof.
  intros [K1 P1] [K2 P2]. split; [intro; rewrite K1; auto|].
  intros x y Ix Iy. rewrite (P1 x y) by auto. apply P2; apply K1; auto.
Qed.
Lemma same_partition_refl d : same_partition d d.
Proof. split; [tauto|]. intros; tauto. Qed.

(*PROP C33: renaming never fails, keeps the IDs and the partition, sorts the IDs and numbers the clusters 0, 1, ... in order of first appearance. *)
Lemma C33_rename_canonical_proof :
  forall d, NoDup (keys d) -> exists d', rename_clusters_by_order d = Ok d' /\
    canonical d' /\ same_partition d d' /\ Permutation (keys d) (keys d').
Proof.
  intros d ND. destruct (rename_run d ND) as (d' & E & K & C & P). exists d'. split; auto. split; auto. split; auto.
  rewrite K. apply sorted_strings_perm.
Qed.

(*EX
Definition C33_clusters : dict pystr Z := [(str "b", 7); (str "c", -1); (str "a", -1); (str "d", 7); (str "e", 3)].
Example C33_ex : rename_clusters_by_order C33_clusters =
  Ok [(str "a", 0); (str "b", 1); (str "c", 0); (str "d", 1); (str "e", 2)].
Proof. reflexivity. Qed.
EX*)

(*PROP C33: renaming is idempotent, and gives equal dictionaries exactly on equal partitions of the same IDs. *)
Lemma C33_rename_canonicity_proof :
  forall d1 d2, NoDup (keys d1) -> NoDup (keys d2) ->
    (rename_clusters_by_order d1 = rename_clusters_by_order d2 <-> same_partition d1 d2) /\
    (forall d', rename_clusters_by_order d1 = Ok d' -> rename_clusters_by_order d' = Ok d') /\
    (rename_clusters_by_order d1 = Ok d1 <-> canonical d1).
Proof.
  intros d1 d2 N1 N2. destruct (rename_run d1 N1) as (r1 & E1 & K1 & C1 & P1). destruct (rename_run d2 N2) as (r2 & E2 & K2 & C2 & P2).
  rewrite E1, E2. split; [|split].
  - split.
    + intro X. injection X; intros; subst r2. eapply same_partition_trans; eauto. apply same_partition_sym; auto.
    + intro S. f_equal. apply canonical_unique; auto. eapply same_partition_trans; [apply same_partition_sym; eauto|].
      eapply same_partition_trans; eauto.
  - intros d' X. injection X; intros; subst d'. assert (NR : NoDup (keys r1)) by (apply sorted_NoDup, C1).
    destruct (rename_run r1 NR) as (r & E & _ & C & P). rewrite E. f_equal. symmetry. apply canonical_unique; auto.
  - split; [intro X; injection X; intros; subst; auto|]. intro C. f_equal. apply canonical_unique; auto. apply same_partition_sym; auto.
Qed.

(*EX
Example C33_ex2 : same_partition C33_clusters [(str "a", 5); (str "e", 0); (str "c", 5); (str "d", 2); (str "b", 2)].
Proof.
  refine (proj1 (proj1 (C33_rename_canonicity _ [(str "a", 5); (str "e", 0); (str "c", 5); (str "d", 2); (str "b", 2)] _ _)) _);
    [| |reflexivity]; repeat (constructor; [simpl; intros H; repeat destruct H as [H|H]; discriminate || exact H|]); constructor.
Qed.
EX*)
