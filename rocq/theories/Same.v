(** * Clustering algorithms only read the IDs, the inferred constraints and the vectors of the
    managed IDs. *)

From Coq Require Import String List Bool Arith ZArith Permutation Lia.
From Verif Require Import Base Manager Spec Closure ManagerInv ManagerProofs ManagerSem ManagerQueries ManagerThms
  Sampling SamplingSpec Rename KMeans KMeansSpec Hierarchical Spectral Dbscan Mpckmeans SameSpec.
Import ListNotations.
Open Scope nat_scope.
Open Scope py_scope.

(** ** Extensionality *)
Lemma rbind_ext {A B} (r : res A) (f g : A -> res B) : (forall a, r = Ok a -> f a = g a) -> rbind r f = rbind r g.
Proof. destruct r; simpl; auto. Qed.
Lemma rmap_ext {A B} (f g : A -> res B) l : (forall x, In x l -> f x = g x) -> rmap f l = rmap g l.
Proof.
  induction l as [|x l IH]; intro E; auto. simpl. rewrite E by (left; auto). rewrite IH; auto. intros; apply E; right; auto.
Qed.
Lemma rfilter_ext {A} (f g : A -> res bool) l : (forall x, In x l -> f x = g x) -> rfilter f l = rfilter g l.
Proof.
  induction l as [|x l IH]; intro E; auto. simpl. rewrite E by (left; auto). rewrite IH; auto. intros; apply E; right; auto.
Qed.
Lemma rfold_ext {A B} (f g : B -> A -> res B) l : (forall b x, In x l -> f b x = g b x) -> forall b, rfold f l b = rfold g l b.
Proof.
  induction l as [|x l IH]; intros E b; auto. simpl. rewrite E by (left; auto). destruct (g b x); simpl; auto.
  apply IH. intros; apply E; right; auto.
Qed.
Lemma rexists_ext {A} (f g : A -> res bool) l : (forall x, In x l -> f x = g x) -> rexists f l = rexists g l.
Proof.
  induction l as [|x l IH]; intro E; auto. simpl. rewrite E by (left; auto). rewrite IH; auto. intros; apply E; right; auto.
Qed.
Lemma bind_ext {S A B} (f g : M S A) (h k : A -> M S B) s :
  f s = g s -> (forall a s', g s = (s', Ok a) -> h a s' = k a s') -> bind f h s = bind g k s.
Proof. unfold bind. intros E E'. rewrite E. destruct (g s) as [s' [a|e]]; auto. Qed.
Lemma rfilter_incl {A} (f : A -> res bool) l l' : rfilter f l = Ok l' -> incl l' l.
Proof.
  revert l'. induction l as [|x l IH]; simpl; intros l' E; [injection E as <-; intros z []|].
  destruct (f x) as [y|]; simpl in E; [|discriminate]. destruct (rfilter f l) as [ys|]; simpl in E; [|discriminate].
  injection E as <-. specialize (IH _ eq_refl). destruct y; intros z Z; [destruct Z as [->|Z]; [left; auto|right; auto]|right; auto].
Qed.
Lemma dlookup_dget {K V} `{EqB K} (k : K) (d1 d2 : dict K V) : dget k d1 = dget k d2 -> dlookup k d1 = dlookup k d2.
Proof. unfold dlookup. intros ->. auto. Qed.

Section Same.
  Variables m1 m2 : mgr.
  Hypothesis SK : same_knowledge m1 m2.

  Lemma same_ids : ask get_list_of_managed_data_IDs m1 = ask get_list_of_managed_data_IDs m2.
  Proof. apply SK. Qed.
  Lemma same_inferred_is a b t : inferred_is m1 a b t = inferred_is m2 a b t.
  Proof. unfold inferred_is. rewrite (proj2 SK). auto. Qed.

  Section Vectors.
    Context {vec : Type}.
    Variables v1 v2 : dict pystr vec.
    Hypothesis SV : same_vectors m1 v1 v2.
    Lemma same_rows l : (forall x, In x l -> managed m1 x) -> rmap (fun x => dlookup x v1) l = rmap (fun x => dlookup x v2) l.
    Proof. intro J. apply rmap_ext. intros x X. apply dlookup_dget, SV; auto. Qed.
    Lemma same_managed_rows ids : ask get_list_of_managed_data_IDs m1 = Ok ids ->
      forall l, incl l ids -> rmap (fun x => dlookup x v1) l = rmap (fun x => dlookup x v2) l.
    Proof. intros E l I. apply same_rows. intros x X. exists ids. auto. Qed.
  End Vectors.

  (** ** KMeans *)
  Section KMeans.
    Variables vec D : Type.
    Context `{EqB D}.
    Variable pairwise : list vec -> list vec -> nat -> nat -> D.
    Variable ltb : D -> D -> bool.
    Variable dsum : list D -> D.
    Variable mean : list vec -> vec.
    Variable shuffle : list pystr -> list pystr.
    Variable set_order : list Z -> list Z.
    Hypothesis VS : valid_shuffle shuffle.
    Variables v1 v2 : dict pystr vec.
    Hypothesis SV : same_vectors m1 v1 v2.
    Variable p : kparams D.
    Variable ids : list pystr.
    Hypothesis E : ask get_list_of_managed_data_IDs m1 = Ok ids.
    Variable nb : nat.

    Lemma In_firstn {A} n (l : list A) x : In x (firstn n l) -> In x l.
    Proof. intro J. rewrite <- (firstn_skipn n l). apply in_or_app. auto. Qed.
    Lemma km_init : initialize_centroids vec shuffle ids v1 nb = initialize_centroids vec shuffle ids v2 nb.
    Proof.
      unfold initialize_centroids. apply rfold_ext. intros d i _. destruct (nth_error _ i) as [x|] eqn:N; simpl; auto.
      apply nth_error_In in N. rewrite (dlookup_dget x v1 v2); auto. apply SV. exists ids. split; auto.
      apply (Permutation_in _ (Permutation_sym (VS ids))). eapply In_firstn; eauto.
    Qed.
    Lemma km_centroids c : compute_centroids vec mean set_order m1 v1 c = compute_centroids vec mean set_order m2 v2 c.
    Proof.
      unfold compute_centroids. apply rfold_ext. intros d k _. rewrite <- same_ids, E. simpl. apply rbind_ext. intros l L.
      rewrite (same_managed_rows v1 v2 SV ids); auto. eapply rfilter_incl; eauto.
    Qed.
    Lemma km_table c : distance_table vec D pairwise m1 v1 c = distance_table vec D pairwise m2 v2 c.
    Proof.
      unfold distance_table. rewrite <- same_ids, E. simpl. rewrite (same_managed_rows v1 v2 SV ids); auto. apply incl_refl.
    Qed.
    Lemma km_choose c t nc x : choose_cluster vec D ltb m1 ids nb c t nc x = choose_cluster vec D ltb m2 ids nb c t nc x.
    Proof.
      unfold choose_cluster, not_compatible. f_equal. f_equal. apply rfilter_ext. intros y _. apply rbind_ext. intros z _.
      rewrite same_inferred_is. auto.
    Qed.
    Lemma km_propagate x todo nc : propagate m1 ids x todo nc = propagate m2 ids x todo nc.
    Proof. unfold propagate. apply rfold_ext. intros st y _. rewrite same_inferred_is. auto. Qed.
    Lemma km_loop fuel c t : forall todo nc,
      assign_loop vec D ltb m1 ids nb fuel c t todo nc = assign_loop vec D ltb m2 ids nb fuel c t todo nc.
    Proof.
      induction fuel as [|fuel IH]; intros todo nc; simpl; destruct (pop_last todo) as [[todo' x]|]; auto.
      rewrite km_choose. apply rbind_ext. intros k _. rewrite km_propagate. apply rbind_ext. intros st _. apply IH.
    Qed.
    Lemma km_assign c : KMeans.assign vec D pairwise ltb m1 ids v1 nb c = KMeans.assign vec D pairwise ltb m2 ids v2 nb c.
    Proof. unfold KMeans.assign. rewrite km_table. apply rbind_ext. intros t _. apply km_loop. Qed.
    Lemma km_iterate rounds : forall nc conv s,
      KMeans.iterate vec D pairwise ltb dsum mean set_order p m1 ids v1 nb rounds nc conv s =
      KMeans.iterate vec D pairwise ltb dsum mean set_order p m2 ids v2 nb rounds nc conv s.
    Proof.
      induction rounds as [|rounds IH]; intros nc conv s; simpl; destruct conv; auto.
      apply bind_ext; auto. intros c s1 _. apply bind_ext; auto. intros k s2 _. apply bind_ext; [unfold lift; rewrite km_assign; auto|].
      intros n s3 _. apply bind_ext; [unfold lift; rewrite km_centroids; auto|]. intros ncs s4 _. apply bind_ext; auto.
      intros b s5 _. apply bind_ext; auto. intros u s6 _. apply bind_ext; auto.
    Qed.
    Lemma km_cop s :
      clustering_COP vec D pairwise ltb dsum mean shuffle set_order p m1 ids v1 nb s =
      clustering_COP vec D pairwise ltb dsum mean shuffle set_order p m2 ids v2 nb s.
    Proof.
      unfold clustering_COP. apply bind_ext; [unfold lift; rewrite km_init; auto|]. intros c s1 _. apply bind_ext; auto. intros u s2 _.
      apply bind_ext; auto. intros u' s3 _. apply bind_ext; [apply km_iterate|]. intros nc s4 _. apply bind_ext; auto. intros cl s5 _.
      apply bind_ext; auto. intros cl' s6 _. apply bind_ext; auto. intros u'' s7 _. apply bind_ext; auto. intros n s8 _.
      apply bind_ext; auto. unfold lift. rewrite km_centroids. auto.
    Qed.
  End KMeans.

  Lemma same_kmeans vec D (eqD : EqB D) pairwise ltb dsum mean shuffle set_order p v1 v2 nb s :
    valid_shuffle shuffle -> same_vectors m1 v1 v2 ->
    KMeans.cluster vec D pairwise ltb dsum mean shuffle set_order p m1 v1 nb s =
    KMeans.cluster vec D pairwise ltb dsum mean shuffle set_order p m2 v2 nb s.
  Proof.
    intros VS SV. unfold KMeans.cluster. apply bind_ext; [unfold lift; rewrite same_ids; auto|]. intros ids s' E.
    assert (E' : ask get_list_of_managed_data_IDs m1 = Ok ids) by (rewrite same_ids; unfold lift in E; congruence).
    destruct nb as [nb|]; auto. destruct (nb <? 2)%Z; auto. apply bind_ext; auto. intros u s1 _.
    apply bind_ext; [apply km_cop; auto|]. auto.
  Qed.

  (** ** Spectral clustering *)
  Lemma same_constrain D (zero one : D) ids W : constrain_matrix D zero one m1 ids W = constrain_matrix D zero one m2 ids W.
  Proof.
    unfold constrain_matrix. apply rfold_ext. intros M e _. apply rfold_ext. intros M' e' _. destruct (_ <? _); auto.
    rewrite !same_inferred_is. apply rbind_ext. intros b _. destruct b; auto.
  Qed.
  Lemma same_spectral vec D kernel zero one solver v1 v2 nb s : same_vectors m1 v1 v2 ->
    Spectral.cluster vec D kernel zero one solver m1 v1 nb s = Spectral.cluster vec D kernel zero one solver m2 v2 nb s.
  Proof.
    intro SV. unfold Spectral.cluster. apply bind_ext; [unfold lift; rewrite same_ids; auto|]. intros ids s' E.
    assert (E' : ask get_list_of_managed_data_IDs m1 = Ok ids) by (rewrite same_ids; unfold lift in E; congruence).
    destruct nb as [nb|]; auto. destruct (nb <? 2)%Z; auto. apply bind_ext.
    { unfold lift, similarity_matrix. rewrite <- same_ids, E'. simpl. rewrite (same_managed_rows v1 v2 SV ids); auto. apply incl_refl. }
    intros W s1 _. apply bind_ext; auto. intros u s2 _. apply bind_ext; auto. intros u' s3 _. apply bind_ext; auto.
    unfold clustering_SPEC. apply bind_ext; auto. unfold lift. rewrite same_constrain. auto.
  Qed.

  (** ** MPCKMeans *)
  Lemma same_mpckmeans vec D o flatten limit order first sample shuffle p v nb s :
    Mpckmeans.cluster vec D o flatten limit order first sample shuffle p m1 v nb s =
    Mpckmeans.cluster vec D o flatten limit order first sample shuffle p m2 v nb s.
  Proof.
    unfold Mpckmeans.cluster. apply bind_ext; [unfold lift; rewrite same_ids; auto|]. intros ids s' E.
    destruct nb as [nb|]; auto. destruct (nb <? 2)%Z; auto. apply bind_ext; auto. unfold lift, constraint_graphs.
    assert (I : forall t, index_pairs m1 ids t = index_pairs m2 ids t).
    { intro t. unfold index_pairs. f_equal. apply rfilter_ext. intros e _. apply same_inferred_is. }
    rewrite !I. auto.
  Qed.

  (** ** DBScan *)
  Lemma same_table vec D pairwise v1 v2 : same_vectors m1 v1 v2 ->
    pairwise_table vec D pairwise m1 v1 = pairwise_table vec D pairwise m2 v2.
  Proof.
    intro SV. unfold pairwise_table. rewrite <- same_ids. destruct (ask get_list_of_managed_data_IDs m1) as [ids|] eqn:E; auto. simpl.
    rewrite (same_managed_rows v1 v2 SV ids); auto. apply incl_refl.
  Qed.
  Lemma same_conflict xs ys : conflict m1 xs ys = conflict m2 xs ys.
  Proof.
    unfold conflict. f_equal. apply rmap_ext. intros j _. apply rfilter_ext. intros i _. apply same_inferred_is.
  Qed.
  Lemma same_absorb D ltb setlist p table fuel : forall core local,
    absorb D ltb setlist p m1 table fuel core local = absorb D ltb setlist p m2 table fuel core local.
  Proof.
    induction fuel as [|fuel IH]; intros core local; simpl; auto. destruct local as [|e local]; auto.
    apply rbind_ext. intros ds _. apply rbind_ext. intros c _. apply rbind_ext. intros d _. destruct (ltb _ _); auto.
    apply rbind_ext. intros pts _. rewrite same_conflict. apply rbind_ext. intros b _. destruct b; auto.
  Qed.
  Lemma same_dbscan vec D pairwise leb ltb of_nat setlist p v1 v2 nb s : same_vectors m1 v1 v2 ->
    Dbscan.cluster vec D pairwise leb ltb of_nat setlist p m1 v1 nb s = Dbscan.cluster vec D pairwise leb ltb of_nat setlist p m2 v2 nb s.
  Proof.
    intro SV. unfold Dbscan.cluster. apply bind_ext; [unfold lift; rewrite same_ids; auto|]. intros ids s' E.
    destruct nb as [nb|]; auto. apply bind_ext; [unfold lift; rewrite (same_table _ _ _ v1 v2); auto|]. intros table s1 _.
    apply bind_ext; auto. intros u s2 _. apply bind_ext.
    { unfold lift, local_clusters. f_equal. apply rfold_ext. intros [labels local] x _. unfold local_step. apply rbind_ext. intros lab _.
      destruct (is_single lab); auto. apply rbind_ext. intros possible _. apply rbind_ext. intros nei _. rewrite same_conflict. auto. }
    intros st s3 _. apply bind_ext.
    { unfold lift, merge_must_links. f_equal. destruct st as [labels local]. f_equal. apply rmap_ext. intros j _. f_equal.
      apply rfilter_ext. intros i _. apply same_inferred_is. }
    intros mg s4 _. apply bind_ext; auto. intros core s5 _. apply bind_ext; auto. unfold lift. f_equal.
    generalize (snd st). induction core as [|[k pts] core IH]; intro local; cbn [merge_cannot_links]; auto. rewrite same_absorb; auto.
    apply rbind_ext. intros r _. rewrite IH. auto.
  Qed.
End Same.
