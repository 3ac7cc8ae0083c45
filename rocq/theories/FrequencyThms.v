(** * Frequencies of clusters (C52). *)

From Coq Require Import String List Bool Arith NArith Nnat ZArith QArith Lia Permutation Sorted SpecFloat.
From Verif Require Import Base Sampling SamplingProofs ClusterSpec ClusterProofs KMeansSpec KMeansProofs DbscanProofs Frequency.
Import ListNotations.
Open Scope nat_scope.
Open Scope py_scope.

(*HEADER
From Coq Require Import String List Bool Arith ZArith QArith Permutation Sorted SpecFloat Lia.
From Verif Require Import Base KMeansSpec ClusterSpec Frequency FrequencyThms.
Import ListNotations.
Open Scope nat_scope.

Lemma id_set_order : valid_set_order (nodup Z.eq_dec).
Proof. intro l. split; [apply NoDup_nodup|intro x; apply nodup_In]. Qed.
Definition ex : dict pystr Z := [(str "a", 4); (str "b", 1); (str "c", 4); (str "d", 4)]%Z.
HEADER*)

Lemma sorted_Z l : NoDup l -> StronglySorted Z.lt (sorted_by Z.ltb l).
Proof.
  assert (G : forall x l, StronglySorted Z.lt l -> ~ In x l -> StronglySorted Z.lt (insert_before Z.ltb x l)).
  { intros x l0 SS. induction SS as [|y l0 SS IH F]; intro N; cbn [insert_before]; [repeat constructor|]. destruct (Z.ltb_spec y x).
    - constructor; [apply IH; simpl in N; tauto|]. apply Forall_forall. intros z J. apply (Permutation_in _ (Permutation_sym (insert_perm Z.ltb x l0))) in J as [<-|J]; auto. rewrite Forall_forall in F. auto.
    - assert (x < y)%Z by (simpl in N; lia). constructor; [constructor; auto|]. constructor; auto. eapply Forall_impl; [|exact F]. intros z Lz. simpl in Lz. lia. }
  induction 1 as [|x l N ND IH]; cbn [sorted_by fold_right]; [constructor|]. apply G; auto. intro J. apply N. eapply Permutation_in; [apply Permutation_sym, (sorted_perm Z.ltb)|exact J].
Qed.

Section Run.
  Variable D : Type.
  Variable div : nat -> nat -> D.
  Variable set_order : list Z -> list Z.
  Hypothesis SO : valid_set_order set_order.
  Variable r : dict pystr Z.
  Hypothesis ND : NoDup (keys r).

  Lemma lookup_own x c : In (x, c) r -> dlookup x r = Ok c.
  Proof. intro J. unfold dlookup. rewrite (In_dget x r c); auto. Qed.

  Lemma clusters_run : rmap (fun x => dlookup x r) (keys r) = Ok (vals r).
  Proof.
    assert (G : forall l : dict pystr Z, (forall x c, In (x, c) l -> In (x, c) r) -> rmap (fun x => dlookup x r) (keys l) = Ok (vals l)).
    { induction l as [|[x c] l IH]; intro H; cbn [keys vals map rmap fst snd]; auto. rewrite (lookup_own x c) by (apply H; left; auto). cbn [rbind].
      fold (keys l). fold (vals l). rewrite IH by (intros; apply H; right; auto). reflexivity. }
    apply G. auto.
  Qed.

  Lemma size_run c : size_of_cluster r c = Ok (count_occ Z.eq_dec (vals r) c).
  Proof.
    unfold size_of_cluster.
    assert (G : forall l : dict pystr Z, (forall x v, In (x, v) l -> In (x, v) r) ->
       exists q, rfilter (fun x => v <-- dlookup x r ;;; Ok (Z.eqb v c)) (keys l) = Ok q /\ length q = count_occ Z.eq_dec (vals l) c).
    { induction l as [|[x v] l IH]; intro H; cbn [keys vals map rfilter fst snd count_occ]; [eexists; split; reflexivity|].
      rewrite (lookup_own x v) by (apply H; left; auto). cbn [rbind]. fold (keys l). fold (vals l). destruct IH as (q & E & L); [intros; apply H; right; auto|]. rewrite E. cbn [rbind].
      destruct (Z.eqb_spec v c), (Z.eq_dec v c); try congruence; eexists; (split; [reflexivity|]); cbn [length]; congruence. }
    destruct (G r) as (q & E & L); auto. rewrite E. cbn [rbind]. congruence.
  Qed.

  Lemma frequency_run : r <> [] ->
    exists l, StronglySorted Z.lt l /\ (forall c, In c l <-> In c (vals r)) /\
      compute_clusters_frequency D div set_order r = Ok (map (fun c => (c, div (count_occ Z.eq_dec (vals r) c) (length r))) l).
  Proof.
    intro NE. exists (sorted_by Z.ltb (set_order (vals r))). destruct (SO (vals r)) as [NDs IS]. assert (SS := sorted_Z _ NDs). split; auto.
    assert (P := sorted_perm Z.ltb (set_order (vals r))). split; [intro c; rewrite <- IS; split; apply Permutation_in; auto using Permutation_sym|].
    unfold compute_clusters_frequency, possible_cluster_IDs. rewrite clusters_run. cbn [rbind].
    assert (EL : length (keys r) = length r) by apply map_length. rewrite EL. destruct (Nat.eqb_spec (length r) 0) as [Z0|_]; [destruct r; [congruence|discriminate]|].
    remember (sorted_by Z.ltb (set_order (vals r))) as l eqn:El. assert (NDl : NoDup l) by (eapply Permutation_NoDup; eauto). clear El P IS NDs SS.
    assert (G : forall l (acc : dict Z D), NoDup l -> (forall c, In c l -> ~ In c (keys acc)) ->
      rfold (fun d c => n <-- size_of_cluster r c ;;; Ok (dset c (div n (length r)) d)) l acc = Ok (acc ++ map (fun c => (c, div (count_occ Z.eq_dec (vals r) c) (length r))) l)).
    { clear l NDl. induction l as [|c l IH]; intros acc NDl H; cbn [rfold map]; [rewrite app_nil_r; auto|]. rewrite size_run. cbn [rbind]. apply NoDup_cons_iff in NDl as [N NDl].
      rewrite dset_out by (apply H; left; auto). rewrite IH; auto.
      - rewrite <- app_assoc. reflexivity.
      - intros c' J. unfold keys. rewrite map_app, in_app_iff. intros [K|[K|[]]]; [apply (H c'); auto; right; auto|simpl in K; congruence]. }
    apply (G l []); auto.
  Qed.
End Run.

Lemma keys_freq {D} (f : Z -> D) l : keys (map (fun c => (c, f c)) l) = l.
Proof. unfold keys. rewrite map_map. apply map_id. Qed.
Lemma get_freq {D} (f : Z -> D) l c : In c l -> dget c (map (fun c => (c, f c)) l) = Some (f c).
Proof.
  induction l as [|x l IH]; simpl; [tauto|]. intros [->|J]; [rewrite eqb_refl; auto|]. destruct (eqb_spec c x); [congruence|auto].
Qed.

(*PROP C52: the frequencies are about exactly the cluster numbers in use, in increasing order, and each is the number of IDs in the cluster divided by the number of IDs; no ID gives an empty dictionary.  [div] is any quotient. *)
Lemma C52_frequencies_proof :
  forall D div set_order r,
    valid_set_order set_order -> NoDup (keys r) ->
    exists f, compute_clusters_frequency D div set_order r = Ok f /\
      StronglySorted Z.lt (keys f) /\
      (forall c, In c (keys f) <-> exists x, dget x r = Some c) /\
      (forall c v, dget c f = Some v -> v = div (count_occ Z.eq_dec (vals r) c) (length r)).
Proof.
  intros D div so r SO ND. destruct r as [|e r'] eqn:Er.
  - exists []. split; [reflexivity|]. split; [constructor|]. split; [|discriminate]. intro c. split; [intros []|intros (x & Q0); discriminate].
  - rewrite <- Er in *. destruct (frequency_run D div so SO r ND) as (l & SS & IL & E); [congruence|]. eexists. split; [exact E|]. rewrite keys_freq. split; auto. split.
    + intro c. rewrite IL. unfold vals. rewrite in_map_iff. split.
      * intros ([x v] & <- & J). exists x. apply In_dget; auto.
      * intros (x & Q0). exists (x, c). split; auto. apply dget_In; auto.
    + intros c v Q0. assert (J : In c l). { apply dget_Some_key in Q0. rewrite keys_freq in Q0. auto. } rewrite (get_freq (fun c => div (count_occ Z.eq_dec (vals r) c) (length r))) in Q0 by auto. congruence.
Qed.

(*EX
Example C52_ex : compute_clusters_frequency (nat * nat) pair (nodup Z.eq_dec) ex = Ok [(1, (1, 4)%nat); (4, (3, 4)%nat)]%Z /\ NoDup (keys ex).
Proof. split; [vm_compute; reflexivity|]. repeat constructor; simpl; intuition (vm_compute in *; congruence). Qed.
EX*)

(** Exact quotient of two numbers. *)
Definition Qquot (a b : nat) : Q := inject_Z (Z.of_nat a) / inject_Z (Z.of_nat b).
Fixpoint Qsum (l : list Q) : Q := match l with [] => 0 | x :: l' => x + Qsum l' end.

Lemma counts_sum l : NoDup l -> forall vs : list Z, (forall v, In v vs -> In v l) -> list_sum (map (count_occ Z.eq_dec vs) l) = length vs.
Proof.
  intro ND. induction vs as [|v vs IH]; intro H; cbn [length].
  - clear H ND. induction l; simpl; auto.
  - rewrite <- IH by (intros; apply H; right; auto). assert (J : In v l) by (apply H; left; auto). clear IH H. revert J. induction ND as [|x l N ND IHl]; [intros []|].
    intros J. cbn [map list_sum fold_right count_occ]. assert (Ez : forall y, In y l -> y <> v -> (if Z.eq_dec v y then S (count_occ Z.eq_dec vs y) else count_occ Z.eq_dec vs y) = count_occ Z.eq_dec vs y) by (intros y _ Ny; destruct (Z.eq_dec v y); congruence).
    destruct (Z.eq_dec v x) as [->|Nx].
    + rewrite (map_ext_in _ (count_occ Z.eq_dec vs) l); [unfold list_sum; lia|]. intros y Jy. cbn [count_occ]. apply Ez; auto. intros ->; auto.
    + destruct J as [->|J]; [congruence|]. specialize (IHl J). unfold list_sum in IHl. unfold list_sum. cbn [count_occ map fold_right] in *. rewrite IHl. lia.
Qed.

(*PROP C52: in exact arithmetic the frequencies are positive, at most 1, and sum to 1. *)
Lemma C52_distribution_proof :
  forall set_order r f,
    valid_set_order set_order -> NoDup (keys r) ->
    compute_clusters_frequency Q Qquot set_order r = Ok f ->
    (forall c v, dget c f = Some v -> 0 < v <= 1)%Q /\ (r <> [] -> Qsum (vals f) == 1)%Q /\ (r = [] -> f = []).
Proof.
  intros so r f SO ND E. destruct r as [|e r'] eqn:Er.
  - cbn in E. injection E as <-. split; [discriminate|]. split; [congruence|auto].
  - rewrite <- Er in *. assert (NE : r <> []) by congruence. clear Er. destruct (frequency_run Q Qquot so SO r ND NE) as (l & SS & IL & E'). rewrite E in E'. injection E' as ->.
    assert (NZ : ~ inject_Z (Z.of_nat (length r)) == 0) by (destruct r; [congruence|]; unfold Qeq, inject_Z; cbn [Qnum Qden length]; lia).
    assert (PS : (0 < inject_Z (Z.of_nat (length r)))%Q) by (destruct r; [congruence|]; unfold Qlt, inject_Z; cbn [Qnum Qden length]; lia).
    split; [|split; [intros _|congruence]].
    + intros c v G. assert (J : In c l). { apply dget_Some_key in G. rewrite keys_freq in G. auto. } rewrite (get_freq (fun c => Qquot (count_occ Z.eq_dec (vals r) c) (length r))) in G by auto. injection G as <-.
      apply IL in J. assert (C1 : count_occ Z.eq_dec (vals r) c > 0) by (apply count_occ_In; auto). assert (C2 : count_occ Z.eq_dec (vals r) c <= length r).
      { unfold vals. clear. induction r as [|[x v] r IH]; cbn [map count_occ length snd]; auto. destruct (Z.eq_dec v c); lia. }
      unfold Qquot. split.
      * apply Qlt_shift_div_l; auto. rewrite Qmult_0_l. unfold Qlt, inject_Z. cbn [Qnum Qden]. lia.
      * apply Qle_shift_div_r; auto. rewrite Qmult_1_l. unfold Qle, inject_Z. cbn [Qnum Qden]. lia.
    + assert (LS : NoDup l). { clear -SS. induction SS as [|x l SS IH F]; constructor; auto. intro J. rewrite Forall_forall in F. apply F in J. lia. }
      assert (CS := counts_sum l LS (vals r) (fun v J => proj2 (IL v) J)). assert (EL : length (vals r) = length r) by apply map_length. rewrite EL in CS.
      assert (G : forall l', Qsum (vals (map (fun c => (c, Qquot (count_occ Z.eq_dec (vals r) c) (length r))) l')) == Qquot (list_sum (map (count_occ Z.eq_dec (vals r)) l')) (length r)).
      { induction l' as [|c l' IH]; [unfold Qquot; cbn; unfold Qdiv; rewrite Qmult_0_l; reflexivity|]. cbn [map vals snd Qsum list_sum fold_right]. unfold vals in IH. unfold vals at 1. rewrite IH. unfold Qquot, list_sum. cbn [fold_right]. rewrite Nat2Z.inj_add, inject_Z_plus. unfold Qdiv. rewrite Qmult_plus_distr_l. reflexivity. }
      rewrite G, CS. unfold Qquot. apply Qmult_inv_r. auto.
Qed.

(*EX
Example C52_distribution_ex : exists a b, compute_clusters_frequency Q Qquot (nodup Z.eq_dec) ex = Ok [(1%Z, a); (4%Z, b)] /\ (a == 1#4)%Q /\ (b == 3#4)%Q.
Proof. do 2 eexists. split; [vm_compute; reflexivity|]. split; vm_compute; reflexivity. Qed.
EX*)

(** binary64 numbers (Coq.Floats.SpecFloat, written in Gallina): quotient and sum as in Python. *)
Definition float_of_nat (n : nat) : spec_float := binary_normalize 53 1024 (Z.of_nat n) 0 false.
Definition float_quot (a b : nat) : spec_float := SFdiv 53 1024 (float_of_nat a) (float_of_nat b).
Definition float_sum (l : list spec_float) : spec_float := fold_left (SFadd 53 1024) l (float_of_nat 0).

Lemma frequency_vals D div so r f : valid_set_order so -> NoDup (keys r) -> r <> [] -> compute_clusters_frequency D div so r = Ok f ->
  exists l, StronglySorted Z.lt l /\ (forall c, In c l <-> In c (vals r)) /\ vals f = map (fun c => div (count_occ Z.eq_dec (vals r) c) (length r)) l.
Proof.
  intros SO ND NE E. destruct (frequency_run D div so SO r ND NE) as (l & SS & IL & E'). exists l. split; auto. split; auto.
  rewrite E in E'. injection E' as ->. unfold vals at 1. rewrite map_map. reflexivity.
Qed.

(** Ten IDs in ten clusters. *)
Definition ten : dict pystr Z :=
  [(str "0", 0); (str "1", 1); (str "2", 2); (str "3", 3); (str "4", 4); (str "5", 5); (str "6", 6); (str "7", 7); (str "8", 8); (str "9", 9)]%Z.
Lemma ten_NoDup : NoDup (keys ten).
Proof. change (keys ten) with (dedup (keys ten)). apply dedup_NoDup. Qed.
Lemma ten_sorted : StronglySorted Z.lt (vals ten).
Proof. vm_compute. repeat (constructor; auto). Qed.
Definition ten_frequencies (l : list Z) : list spec_float := map (fun c => float_quot (count_occ Z.eq_dec (vals ten) c) (length ten)) l.
Lemma ten_sum : SFeqb (float_sum (ten_frequencies (vals ten))) (float_of_nat 1) = false /\ SFltb (float_sum (ten_frequencies (vals ten))) (float_of_nat 1) = true.
Proof. split; vm_compute; reflexivity. Qed.
Lemma sorted_unique a b : StronglySorted Z.lt a -> StronglySorted Z.lt b -> (forall x, In x a <-> In x b) -> a = b.
Proof.
  intros Sa. revert b. induction Sa as [|x a Sa IH Fa]; intros b Sb H.
  - destruct b as [|y b]; auto. destruct (proj2 (H y)); left; auto.
  - destruct b as [|y b]; [destruct (proj1 (H x)); left; auto|]. apply StronglySorted_inv in Sb as [Sb Fb]. rewrite Forall_forall in Fa, Fb.
    assert (x = y). { destruct (proj1 (H x)) as [->|J1]; [left; auto|auto|]. destruct (proj2 (H y)) as [->|J2]; [left; auto|auto|]. apply Fa in J2. apply Fb in J1. lia. } subst y. f_equal. apply IH; auto.
    intro z. split; intro J; assert (Q0 := J).
    + destruct (proj1 (H z)) as [->|J']; [right; auto| |auto]. apply Fa in Q0. lia.
    + destruct (proj2 (H z)) as [->|J']; [right; auto| |auto]. apply Fb in Q0. lia.
Qed.

(*PROP C52 (refuted for floats): the sum of the frequencies, computed by Python, is not always 1: ten clusters of one ID give 0.9999999999999999. *)
Lemma C52_float_sum_refuted_proof :
  exists r, NoDup (keys r) /\
    forall set_order f, valid_set_order set_order ->
      compute_clusters_frequency spec_float float_quot set_order r = Ok f ->
      SFeqb (float_sum (vals f)) (float_of_nat 1) = false /\ SFltb (float_sum (vals f)) (float_of_nat 1) = true.
Proof.
  exists ten. split; [apply ten_NoDup|]. intros so f SO E. assert (NE : ten <> []) by discriminate.
  destruct (frequency_vals spec_float float_quot so ten f SO ten_NoDup NE E) as (l & SS & IL & EF). rewrite (sorted_unique l (vals ten) SS ten_sorted IL) in EF.
  rewrite EF. apply ten_sum.
Qed.
