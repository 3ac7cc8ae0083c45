(** * Facts shared by the proofs about the clustering algorithms. *)

From Coq Require Import String List Bool Arith ZArith Lia Permutation.
From Verif Require Import Base Manager Spec Closure ManagerProofs ManagerInv ManagerQueries ManagerThms
  Sampling SamplingSpec SamplingProofs SamplingThms Rename ClusterSpec RenameThms.
Import ListNotations.
Open Scope nat_scope.
Open Scope py_scope.

(** ** The inferred constraints as two boolean relations on the managed IDs. *)
Definition ml (m : mgr) (a b : pystr) : bool := opt_is (infer m a b) MUST_LINK.
Definition cl (m : mgr) (a b : pystr) : bool := opt_is (infer m a b) CANNOT_LINK.

Lemma opt_is_spec o t : opt_is o t = true <-> o = Some t.
Proof. destruct o as [u|]; simpl; [|split; discriminate]. rewrite eqb_eq. split; congruence. Qed.

Lemma ml_spec m a b : ml m a b = true <-> infer m a b = Some MUST_LINK.
Proof. apply opt_is_spec. Qed.
Lemma cl_spec m a b : cl m a b = true <-> infer m a b = Some CANNOT_LINK.
Proof. apply opt_is_spec. Qed.

Section Relations.
  Variable m : mgr.
  Hypothesis I : Inv m.
  Notation inI x := (In x (ids m)).

  Lemma ml_linked a b : inI a -> inI b -> ml m a b = true <-> linked (sml m) a b.
  Proof. intros. rewrite ml_spec. apply infer_ML; auto. Qed.
  Lemma cl_separated a b : inI a -> inI b -> cl m a b = true <-> separated (sml m) (scl m) a b.
  Proof. intros. rewrite cl_spec. apply infer_CL; auto. Qed.

  Lemma ml_refl a : inI a -> ml m a a = true.
  Proof. intro A. apply ml_linked; auto. apply linked_refl. Qed.
  Lemma ml_sym a b : inI a -> inI b -> ml m a b = ml m b a.
  Proof. intros. unfold ml. rewrite infer_sym; auto. Qed.
  Lemma cl_sym a b : inI a -> inI b -> cl m a b = cl m b a.
  Proof. intros. unfold cl. rewrite infer_sym; auto. Qed.
  Lemma ml_trans a b c : inI a -> inI b -> inI c -> ml m a b = true -> ml m b c = true -> ml m a c = true.
  Proof. intros A B C. rewrite !ml_linked; auto. apply linked_trans. Qed.
  Lemma ml_cl a b : ml m a b = true -> cl m a b = true -> False.
  Proof.
    rewrite ml_spec, cl_spec. intros -> E. apply (f_equal (fun o => opt_is o MUST_LINK)) in E. discriminate.
  Qed.
  Lemma cl_ml_r a b c : inI a -> inI b -> inI c -> cl m a b = true -> ml m b c = true -> cl m a c = true.
  Proof.
    intros A B C. rewrite !cl_separated, ml_linked; auto. intros S L. eapply separated_linked_r; eauto.
  Qed.
  Lemma cl_ml_l a b c : inI a -> inI b -> inI c -> ml m a b = true -> cl m b c = true -> cl m a c = true.
  Proof. intros A B C L S. rewrite cl_sym; auto. eapply (cl_ml_r c b a); auto. rewrite cl_sym; auto. rewrite ml_sym; auto. Qed.
  Lemma cl_irrefl a : inI a -> cl m a a = false.
  Proof. intro A. destruct (cl m a a) eqn:E; auto. exfalso. eapply ml_cl; eauto. apply ml_refl; auto. Qed.

  Lemma inferred_ml a b : inI a -> inI b -> inferred m a b (Some MUST_LINK) <-> ml m a b = true.
  Proof. intros. rewrite inferred_spec, ml_spec by auto. tauto. Qed.
  Lemma inferred_cl a b : inI a -> inI b -> inferred m a b (Some CANNOT_LINK) <-> cl m a b = true.
  Proof. intros. rewrite inferred_spec, cl_spec by auto. tauto. Qed.
  Lemma inferred_inI a b t : inferred m a b t -> inI a /\ inI b.
  Proof.
    unfold inferred, ask. rewrite run_inferred by auto. simpl. destruct (both m a b) eqn:B; [|discriminate].
    intros _. apply both_true; auto.
  Qed.

  Lemma ask_managed : ask get_list_of_managed_data_IDs m = Ok (ids m).
  Proof. reflexivity. Qed.
  Lemma ask_inferred a b : inI a -> inI b -> ask (get_inferred_constraint a b) m = Ok (infer m a b).
  Proof.
    intros A B. unfold ask. rewrite run_inferred by auto. assert (E : both m a b = true) by (apply both_true; auto).
    rewrite E. auto.
  Qed.
  Lemma ask_components : ask get_connected_components m = Ok (comps m).
  Proof. unfold ask. rewrite run_components; auto. Qed.
End Relations.

(** ** Respecting constraints carries over to renamed dictionaries. *)
Lemma respects_transfer m d d' : covers_exactly m d -> same_partition d d' -> respects m d -> respects m d'.
Proof.
  intros C [K P] [R1 R2]. split.
  - intros a b A B H. apply P; [apply C; auto|apply C; auto|apply R1; auto].
  - intros a b A B H E. apply (R2 a b A B H). apply P; [apply C; auto|apply C; auto|auto].
Qed.

Lemma covers_transfer m d d' : covers_exactly m d -> same_partition d d' -> covers_exactly m d'.
Proof. intros C [K _] x. rewrite <- K. apply C. Qed.

Lemma rfilter_pure {A} (f : A -> res bool) (g : A -> bool) l : (forall x, In x l -> f x = Ok (g x)) -> rfilter f l = Ok (filter g l).
Proof.
  induction l as [|x l IH]; simpl; intro E; auto. rewrite E by auto. cbn [rbind]. rewrite IH by auto. reflexivity.
Qed.
Lemma rmap_pure {A B} (f : A -> res B) (g : A -> B) l : (forall x, In x l -> f x = Ok (g x)) -> rmap f l = Ok (map g l).
Proof.
  induction l as [|x l IH]; simpl; intro E; auto. rewrite E by auto. cbn [rbind]. rewrite IH by auto. reflexivity.
Qed.

(** Dictionaries with all their keys. *)
Lemma dget_total {V} (d : dict pystr V) l x : keys d = l -> In x l -> exists v, dget x d = Some v.
Proof. intros <- I. apply dget_In_key; auto. Qed.

Lemma vals_In {K V} `{EqB K} (d : dict K V) v : In v (vals d) -> exists k, In (k, v) d.
Proof. unfold vals. rewrite in_map_iff. intros ([k v'] & E & I). simpl in E. subst. eauto. Qed.

Lemma dget_vals {K V} `{EqB K} (d : dict K V) k v : dget k d = Some v -> In v (vals d).
Proof. intro E. apply dget_In in E. unfold vals. apply in_map_iff. exists (k, v). auto. Qed.

Lemma vals_dget {K V} `{EqB K} (d : dict K V) v : NoDup (keys d) -> In v (vals d) -> exists k, dget k d = Some v.
Proof. intros N I. apply vals_In in I. destruct I as [k I]. exists k. apply In_dget; auto. Qed.

(** ** The number of clusters of a clustering that respects the constraints. *)
Lemma nodup_length_iff {A} (dec : forall x y : A, {x = y} + {x <> y}) l l' :
  (forall x, In x l <-> In x l') -> length (nodup dec l) = length (nodup dec l').
Proof.
  intro E. apply Permutation_length. apply NoDup_Permutation; auto using NoDup_nodup.
  intro x. rewrite !nodup_In. auto.
Qed.

Lemma nodup_map_inj {A B} (decA : forall x y : A, {x = y} + {x <> y}) (decB : forall x y : B, {x = y} + {x <> y}) (f : A -> B) l :
  (forall x y, In x l -> In y l -> f x = f y -> x = y) -> length (nodup decB (map f l)) = length (nodup decA l).
Proof.
  intro Inj. transitivity (length (map f (nodup decA l))); [|apply map_length].
  apply Permutation_length. apply NoDup_Permutation.
  - apply NoDup_nodup.
  - assert (G : forall l', (forall x, In x l' -> In x l) -> NoDup l' -> NoDup (map f l')).
    { induction l' as [|x l' IH]; intros S N; simpl; [constructor|]. inversion N; subst. constructor.
      - rewrite in_map_iff. intros (y & E & J). apply Inj in E; subst; auto; [apply S; right; auto|apply S; left; auto].
      - apply IH; auto. intros; apply S; right; auto. }
    apply G; [intros x X; apply nodup_In in X; auto|apply NoDup_nodup].
  - intro x. rewrite nodup_In, !in_map_iff. split; intros (y & E & J); exists y; split; auto; [apply nodup_In; auto|apply nodup_In in J; auto].
Qed.

Lemma first_appearance_pos n l : (0 <= n)%Z -> first_appearance n l -> forall v, In v l -> (0 <= v)%Z.
Proof.
  revert n. induction l as [|w l IH]; intros n N F v V; simpl in *; [tauto|]. destruct F as [F1 F2]. destruct V as [->|V]; [lia|].
  eapply IH; [|exact F2|exact V]. destruct (w =? n)%Z; lia.
Qed.

Section Count.
  Variable m : mgr.
  Hypothesis I : Inv m.
  Variable d : dict pystr Z.
  Hypothesis Can : canonical d.
  Hypothesis Cov : covers_exactly m d.
  Hypothesis Res : respects m d.

  Let ND : NoDup (keys d) := sorted_NoDup _ (proj1 Can).
  Let lab (x : pystr) : Z := match dget x d with Some c => c | None => 0%Z end.

  Lemma lab_get x : In x (ids m) -> dget x d = Some (lab x).
  Proof.
    intro X. apply managed_ids in X. apply Cov in X. destruct (dget_In_key _ _ X) as [c E]. unfold lab. rewrite E. auto.
  Qed.
  Lemma lab_pos x : In x (ids m) -> (0 <= lab x)%Z.
  Proof. intro X. apply (first_appearance_pos 0 (vals d)); [lia|apply Can|]. apply (dget_vals _ x). apply lab_get; auto. Qed.
  Lemma vals_lab v : In v (vals d) <-> In v (map lab (ids m)).
  Proof.
    rewrite in_map_iff. split.
    - intro V. apply vals_dget in V; auto. destruct V as [x E]. exists x.
      assert (X : In x (ids m)) by (apply managed_ids, Cov; eapply dget_Some_key; eauto).
      rewrite (lab_get x X) in E. injection E; auto.
    - intros (x & <- & X). apply (dget_vals _ x). apply lab_get; auto.
  Qed.

  Lemma respects_feasible : feasible m (nb_clusters_of d).
  Proof.
    exists (ids m), (fun x => if mem x (ids m) then Z.to_nat (lab x) else 0). split; [reflexivity|]. split.
    - split.
      + intros a b A. unfold added_must in A. assert (A' : addf m a b <> None /\ infer m a b = Some MUST_LINK /\ both m a b = true).
        { unfold added, ask in A. rewrite run_added in A by auto. simpl in A. destruct A as [v A].
          destruct (both m a b) eqn:B; [|discriminate]. injection A as A. split; [congruence|]. split; auto.
          rewrite (addf_infer m a b _ I B A). auto. }
        destruct A' as (_ & E & B). apply both_true in B. destruct B as [A1 B1].
        assert (MA := proj2 (mem_In a (ids m)) A1). assert (MB := proj2 (mem_In b (ids m)) B1). rewrite MA, MB.
        assert (L : dget a d = dget b d).
        { apply (proj1 Res); [apply managed_ids; auto|apply managed_ids; auto|]. apply inferred_spec; auto. }
        rewrite !lab_get in L by auto. injection L as ->. auto.
      + intros a b A. unfold added_cannot in A. assert (A' : infer m a b = Some CANNOT_LINK /\ both m a b = true).
        { unfold added, ask in A. rewrite run_added in A by auto. simpl in A. destruct A as [v A].
          destruct (both m a b) eqn:B; [|discriminate]. injection A as A. split; auto.
          rewrite (addf_infer m a b _ I B A). auto. }
        destruct A' as (E & B). apply both_true in B. destruct B as [A1 B1].
        assert (MA := proj2 (mem_In a (ids m)) A1). assert (MB := proj2 (mem_In b (ids m)) B1). rewrite MA, MB.
        intro L. assert (L2 : dget a d <> dget b d).
        { apply (proj2 Res); [apply managed_ids; auto|apply managed_ids; auto|]. apply inferred_spec; auto. }
        apply L2. rewrite !lab_get by auto. f_equal. apply Z2Nat.inj in L; auto using lab_pos.
    - unfold nb_of_clusters, nb_clusters_of.
      rewrite (nodup_length_iff Z.eq_dec (vals d) (map lab (ids m)) vals_lab).
      rewrite <- (nodup_map_inj Z.eq_dec Nat.eq_dec Z.to_nat (map lab (ids m))).
      + rewrite map_map. f_equal. f_equal. apply map_ext_in. intros x X. apply mem_In in X. rewrite X. auto.
      + intros x y X Y. rewrite in_map_iff in X, Y. destruct X as (x' & <- & X), Y as (y' & <- & Y).
        apply Z2Nat.inj; auto using lab_pos.
  Qed.

  Lemma respects_at_most_components : nb_clusters_of d <= length (comps m).
  Proof.
    set (f := fun c : list pystr => match c with x :: _ => lab x | [] => 0%Z end).
    rewrite <- (map_length f). unfold nb_clusters_of. apply NoDup_incl_length; [apply NoDup_nodup|].
    intros v V. apply nodup_In in V. apply vals_lab in V. apply in_map_iff in V. destruct V as (x & <- & X).
    apply in_map_iff. exists (comp_of m x). split; [|apply comps_In; eauto].
    assert (S := self_comp m x I X). destruct (comp_of m x) as [|y l] eqn:E; [destruct S|]. simpl.
    assert (Y : In y (comp_of m x)) by (rewrite E; left; auto). apply comp_of_In in Y; auto.
    assert (Y' : In y (ids m)) by (eapply linked_ids; eauto).
    assert (L : dget x d = dget y d).
    { apply (proj1 Res); [apply managed_ids; auto|apply managed_ids; auto|]. apply inferred_ml; auto. apply ml_linked; auto. }
    rewrite !lab_get in L by auto. congruence.
  Qed.
End Count.
