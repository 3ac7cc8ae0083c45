(** * The factories (C53). *)

From Coq Require Import String List Bool Arith ZArith Lia.
From Verif Require Import Base Manager Sampling Affinity Dbscan Hierarchical KMeans Spectral Mpckmeans Factories FactoriesSpec.
Import ListNotations.
Open Scope py_scope.

(*HEADER
From Coq Require Import String List Bool Arith ZArith QArith Lia.
From Verif Require Import Base Manager Sampling Affinity Dbscan KMeans Mpckmeans MpckThms Factories FactoriesSpec FactoriesThms.
Import ListNotations.
Open Scope py_scope.

(** Rational numbers for the examples. *)
Definition factory_Q := clustering_factory Q Qle_bool Qltb 0%Q (1#2)%Q (1#10000)%Q 1%Q Qops.
HEADER*)

(*PROP C53: managing_factory accepts exactly "binary", its default, and then gives a manager of the IDs without constraint. *)
Lemma C53_managing_factory_proof :
  forall ids name m, managing_factory ids name = Ok m <-> (name = None \/ name = Some (str "binary")) /\ m = init ids.
Proof.
  intros ids name m. unfold managing_factory. destruct name as [s|].
  - destruct (eqb_spec s (str "binary")) as [->|N]; cbn [negb].
    + split; [intro E; injection E as <-; auto|intros [_ ->]; auto].
    + split; [discriminate|]. intros [[Q|Q] _]; congruence.
  - cbn. split; [intro E; injection E as <-; auto|intros [_ ->]; auto].
Qed.

(*PROP C53: every other name of a manager raises ValueError. *)
Lemma C53_managing_factory_errors_proof :
  forall ids name e, managing_factory ids name = Raise e -> e = ValueError.
Proof. intros ids name e. unfold managing_factory. destruct (negb _); congruence. Qed.

(*EX
Example C53_managing_ex : managing_factory [str "a"] (Some (str "binary")) = Ok (init [str "a"]) /\ managing_factory [str "a"] (Some (str "unary")) = Raise ValueError.
Proof. split; reflexivity. Qed.
EX*)

Lemma table_cases name c d : In (name, c, d) sampling_table ->
  (name = str "random" /\ c = None /\ d = None) \/ (name = str "random_in_same_cluster" /\ c = Some (str "same_cluster") /\ d = None) \/
  (name = str "farthest_in_same_cluster" /\ c = Some (str "same_cluster") /\ d = Some (str "farthest_neighbors")) \/
  (name = str "closest_in_different_clusters" /\ c = Some (str "different_clusters") /\ d = Some (str "closest_neighbors")).
Proof. unfold sampling_table. intros [Q|[Q|[Q|[Q|[]]]]]; inversion Q; subst; auto 8. Qed.

(*PROP C53: sampling_factory maps each documented name to its restrictions; the other options are those of the call, true by default. *)
Lemma C53_sampling_factory_proof :
  forall name c d k, In (name, c, d) sampling_table -> sk_clusters_restriction k = None -> sk_distance_restriction k = None ->
    exists o, sampling_factory name k = Ok o /\
      o_clusters o = c /\ o_distance o = d /\
      o_without_added o = match sk_without_added_constraints k with Some b => b | None => true end /\
      o_without_inferred o = match sk_without_inferred_constraints k with Some b => b | None => true end.
Proof.
  intros name c d [cr dr wa wi] J E1 E2. cbn in E1, E2. subst cr dr. apply table_cases in J as [(-> & -> & ->)|[(-> & -> & ->)|[(-> & -> & ->)|(-> & -> & ->)]]];
    (eexists; split; [vm_compute; reflexivity|]); auto.
Qed.

(*EX
Example C53_sampling_ex : In (str "random_in_same_cluster", Some (str "same_cluster"), None) sampling_table /\
  sampling_factory (str "random_in_same_cluster") (mkSamplingKargs None None (Some false) None) = Ok (mkOptions (Some (str "same_cluster")) None false true).
Proof. split; [right; left; reflexivity|reflexivity]. Qed.
EX*)

(*PROP C53: every other name of a sampler raises ValueError, whatever the keywords. *)
Lemma C53_sampling_factory_unknown_proof :
  forall name k, (forall c d, ~ In (name, c, d) sampling_table) -> sampling_factory name k = Raise ValueError.
Proof.
  intros name k H. unfold sampling_factory. destruct (mem name _) eqn:M; [|reflexivity]. exfalso. apply mem_In in M. destruct M as [<-|[<-|[<-|[<-|[]]]]].
  - apply (H None None). left. reflexivity.
  - apply (H (Some (str "same_cluster")) None). right. left. reflexivity.
  - apply (H (Some (str "same_cluster")) (Some (str "farthest_neighbors"))). right. right. left. reflexivity.
  - apply (H (Some (str "different_clusters")) (Some (str "closest_neighbors"))). right. right. right. left. reflexivity.
Qed.

(*EX
Example C53_unknown_ex : sampling_factory (str "Random") no_sampling_kargs = Raise ValueError.
Proof. reflexivity. Qed.
EX*)

(*PROP C53: a keyword the name already fixes raises TypeError; with "random" the restrictions of the call are used, and must be documented ones. *)
Lemma C53_sampling_factory_keywords_proof :
  forall name c d k,
    In (name, c, d) sampling_table ->
    ((c <> None /\ sk_clusters_restriction k <> None) \/ (d <> None /\ sk_distance_restriction k <> None) ->
       sampling_factory name k = Raise TypeError) /\
    (forall o, sampling_factory name k = Ok o ->
       (forall r, sk_clusters_restriction k = Some r -> o_clusters o = r /\ In r [None; Some (str "same_cluster"); Some (str "different_clusters")]) /\
       (forall r, sk_distance_restriction k = Some r -> o_distance o = r /\ In r [None; Some (str "closest_neighbors"); Some (str "farthest_neighbors")])).
Proof.
  assert (MO : forall c d a b o, make_options c d a b = Ok o -> o_clusters o = c /\ o_distance o = d /\
    In c [None; Some (str "same_cluster"); Some (str "different_clusters")] /\ In d [None; Some (str "closest_neighbors"); Some (str "farthest_neighbors")]).
  { intros c d a b o. unfold make_options. destruct (opt_in c _) eqn:E1; [|discriminate]. destruct (opt_in d _) eqn:E2; [|discriminate]. cbn [negb]. intro E. injection E as <-. split; auto. split; auto. split.
    - destruct c as [s|]; [|left; auto]. apply mem_In in E1 as [<-|[<-|[]]]; simpl; auto.
    - destruct d as [s|]; [|left; auto]. apply mem_In in E2 as [<-|[<-|[]]]; simpl; auto. }
  intros name c d [cr dr wa wi] J. cbn [sk_clusters_restriction sk_distance_restriction].
  assert (EF : sampling_factory name (mkSamplingKargs cr dr wa wi) = new_sampler (match c with None => None | s => Some s end) (match d with None => None | s => Some s end) (mkSamplingKargs cr dr wa wi)).
  { apply table_cases in J as [(-> & -> & ->)|[(-> & -> & ->)|[(-> & -> & ->)|(-> & -> & ->)]]]; reflexivity. }
  assert (CD : d <> None -> c <> None). { intros. apply table_cases in J as [(-> & -> & ->)|[(-> & -> & ->)|[(-> & -> & ->)|(-> & -> & ->)]]]; congruence. }
  rewrite EF. clear EF J. unfold new_sampler. cbn [sk_clusters_restriction sk_distance_restriction sk_without_added_constraints sk_without_inferred_constraints]. split.
  - intros [[N1 N2]|[N1 N2]].
    + destruct c as [s|]; [|congruence]. destruct cr as [r|]; [|congruence]. reflexivity.
    + specialize (CD N1). destruct d as [s|]; [|congruence]. destruct dr as [r|]; [|congruence]. destruct c as [s'|]; [|congruence]. destruct cr; reflexivity.
  - intros o E. destruct (keyword _ cr) as [c'|e1] eqn:Ec; [|discriminate]. cbn [rbind] in E. destruct (keyword _ dr) as [d'|e2] eqn:Ed; [|discriminate]. cbn [rbind] in E.
    apply MO in E as (E1 & E2 & E3 & E4). split.
    + intros r ->. assert (c' = Some r). { destruct c; cbn in Ec; congruence. } subst c'. cbn [default] in *. split; congruence.
    + intros r ->. assert (d' = Some r). { destruct d; cbn in Ed; congruence. } subst d'. cbn [default] in *. split; congruence.
Qed.

(*EX
Example C53_keywords_ex :
  sampling_factory (str "random_in_same_cluster") (mkSamplingKargs (Some (Some (str "different_clusters"))) None None None) = Raise TypeError /\
  sampling_factory (str "random") (mkSamplingKargs (Some (Some (str "different_clusters"))) None None None) = Ok (mkOptions (Some (str "different_clusters")) None true true) /\
  sampling_factory (str "random") (mkSamplingKargs (Some (Some (str "different"))) None None None) = Raise ValueError.
Proof. repeat split; reflexivity. Qed.
EX*)

(*PROP C53: a sampler is made exactly from documented restrictions; any others raise ValueError. *)
Lemma C53_sampler_options_proof :
  forall c d wa wi,
    let documented := In c [None; Some (str "same_cluster"); Some (str "different_clusters")] /\
                      In d [None; Some (str "closest_neighbors"); Some (str "farthest_neighbors")] in
    (documented -> make_options c d wa wi = Ok (mkOptions c d wa wi)) /\
    (~ documented -> make_options c d wa wi = Raise ValueError).
Proof.
  intros c d wa wi documented. unfold make_options.
  assert (E1 : opt_in c [SAME_CLUSTER; DIFFERENT_CLUSTERS] = true <-> In c [None; Some (str "same_cluster"); Some (str "different_clusters")]).
  { unfold opt_in. destruct c as [s|]; [|simpl; tauto]. rewrite mem_In. unfold SAME_CLUSTER, DIFFERENT_CLUSTERS. cbn [In]. intuition congruence. }
  assert (E2 : opt_in d [CLOSEST; FARTHEST] = true <-> In d [None; Some (str "closest_neighbors"); Some (str "farthest_neighbors")]).
  { unfold opt_in. destruct d as [s|]; [|simpl; tauto]. rewrite mem_In. unfold CLOSEST, FARTHEST. cbn [In]. intuition congruence. }
  unfold documented. rewrite <- E1, <- E2. destruct (opt_in c _), (opt_in d _); cbn [negb]; split; auto; intuition discriminate.
Qed.

(*EX
Example C53_options_ex : make_options (Some (str "same_cluster")) (Some (str "closest_neighbors")) true false = Ok (mkOptions (Some (str "same_cluster")) (Some (str "closest_neighbors")) true false) /\
  make_options None (Some (str "closest")) true true = Raise ValueError.
Proof. split; reflexivity. Qed.
EX*)

(*PROP C53: so sampling_factory raises TypeError for a keyword that the name already fixes and ValueError otherwise, and nothing else. *)
Lemma C53_sampling_factory_errors_proof :
  forall name k e, sampling_factory name k = Raise e ->
    (e = TypeError /\ exists c d, In (name, c, d) sampling_table /\ ((c <> None /\ sk_clusters_restriction k <> None) \/ (d <> None /\ sk_distance_restriction k <> None))) \/
    e = ValueError.
Proof.
  assert (MO : forall c d a b e, make_options c d a b = Raise e -> e = ValueError).
  { intros c d a b e. unfold make_options. destruct (opt_in c _), (opt_in d _); cbn [negb]; congruence. }
  intros name [cr dr wa wi] e. cbn [sk_clusters_restriction sk_distance_restriction].
  destruct (mem name [str "random"; str "random_in_same_cluster"; str "farthest_in_same_cluster"; str "closest_in_different_clusters"]) eqn:M.
  - apply mem_In in M. intro E.
    assert (T : exists c d, In (name, c, d) sampling_table /\
      new_sampler (match c with None => None | s => Some s end) (match d with None => None | s => Some s end) (mkSamplingKargs cr dr wa wi) = Raise e).
    { destruct M as [<-|[<-|[<-|[<-|[]]]]].
      - exists None, None. split; [left; reflexivity|exact E].
      - exists (Some (str "same_cluster")), None. split; [right; left; reflexivity|exact E].
      - exists (Some (str "same_cluster")), (Some (str "farthest_neighbors")). split; [right; right; left; reflexivity|exact E].
      - exists (Some (str "different_clusters")), (Some (str "closest_neighbors")). split; [right; right; right; left; reflexivity|exact E]. }
    clear E M. destruct T as (c & d & J & E). unfold new_sampler in E.
    cbn [sk_clusters_restriction sk_distance_restriction sk_without_added_constraints sk_without_inferred_constraints] in E.
    destruct c as [s|], cr as [r|]; cbn [keyword rbind] in E;
      try (injection E as <-; left; split; [reflexivity|]; exists (Some s), d; split; [exact J|left; split; discriminate]);
      destruct d as [s'|], dr as [r'|]; cbn [keyword rbind] in E; try (right; eapply MO; exact E);
      injection E as <-; left; split; try reflexivity; eexists _, (Some s'); (split; [exact J|right; split; discriminate]).
  - intro E. right. unfold sampling_factory in E. rewrite M in E. cbn [negb] in E. congruence.
Qed.

(*EX
Example C53_sampling_errors_ex : sampling_factory (str "farthest_in_same_cluster") (mkSamplingKargs None (Some None) None None) = Raise TypeError /\
  sampling_factory (str "random") (mkSamplingKargs None (Some (Some (str "far"))) None None) = Raise ValueError.
Proof. split; reflexivity. Qed.
EX*)

Ltac hp := cbn [has_parameters ck_model ck_max_iteration ck_convergence_iteration ck_absolute_must_links ck_eps ck_min_samples ck_linkage ck_tolerance ck_w ck_nb_components
  ap_max_iteration ap_convergence_iteration ap_absolute db_eps db_min_samples kp_max_iteration kp_tolerance mp_max_iteration mp_w class_name] in *.

Section Clustering.
  Variable D : Type.
  Variables leb ltb : D -> D -> bool.
  Variables zero half tol one : D.
  Variable o : Mpckmeans.ops D.
  Hypothesis OZ : o_of_nat D o 0 = zero.
  Hypothesis OL : o_ltb D o = ltb.
  Notation factory := (clustering_factory D leb ltb zero half tol one o).

  Lemma built_iff k M : 
    (new_affinity_propagation D k = Ok M <-> class_name M = str "affinity_propagation" /\ has_parameters leb ltb zero half tol one k M) /\
    (new_dbscan D leb zero half k = Ok M <-> class_name M = str "dbscan" /\ has_parameters leb ltb zero half tol one k M) /\
    (new_hierarchical D k = Ok M <-> class_name M = str "hierarchical" /\ has_parameters leb ltb zero half tol one k M) /\
    (new_kmeans D ltb zero tol k = Ok M <-> class_name M = str "kmeans" /\ has_parameters leb ltb zero half tol one k M) /\
    (new_mpckmeans D one o k = Ok M <-> class_name M = str "mpckmeans" /\ has_parameters leb ltb zero half tol one k M) /\
    (new_spectral D k = Ok M <-> class_name M = str "spectral" /\ has_parameters leb ltb zero half tol one k M).
  Proof using OZ OL.
    assert (ZN : forall z, (1 <= z)%Z -> Z.of_nat (Z.to_nat z) = z) by (intros; apply Z2Nat.id; lia).
    assert (DV : forall A (d : A) x, default d x = value x d) by reflexivity.
    destruct k as [km ki kc ka ke ks kl kt kw kn]. refine (conj _ (conj _ (conj _ (conj _ (conj _ _))))).
    - unfold new_affinity_propagation, make_affinity. cbn [ck_max_iteration ck_convergence_iteration ck_absolute_must_links]; rewrite ?DV. destruct (Z.ltb_spec (value ki 150%Z) 1) as [H1|H1]; [|destruct (Z.ltb_spec (value kc 10%Z) 1) as [H2|H2]].
      + split; [discriminate|]. intros [C P]. destruct M; try discriminate. hp. lia.
      + split; [discriminate|]. intros [C P]. destruct M; try discriminate. hp. lia.
      + split; [intro E; injection E as <-; hp; rewrite !ZN by auto; auto 6|]. intros [C P]. destruct M as [[a b c]| | | | |]; try discriminate. hp. destruct P as (P1 & P2 & P3 & P4 & P5). cbn [rbind].
        rewrite <- P1, <- P2, !Nat2Z.id, <- P3. reflexivity.
    - unfold new_dbscan, make_dbscan. cbn [ck_eps ck_min_samples]; rewrite ?DV. destruct (leb (value ke half) zero) eqn:H1; [|destruct (Z.leb_spec (value ks 5%Z) 0) as [H2|H2]].
      + split; [discriminate|]. intros [C P]. destruct M; try discriminate. hp. destruct P as (P1 & P2 & P3 & P4). congruence.
      + split; [discriminate|]. intros [C P]. destruct M; try discriminate. hp. lia.
      + split; [intro E; injection E as <-; hp; rewrite ZN by lia; split; auto; split; auto; split; auto; split; [auto|lia]|]. intros [C P]. destruct M as [|[a b]| | | |]; try discriminate. hp. destruct P as (P1 & P2 & P3 & P4).
        cbn [rbind]. rewrite <- P1, <- P2, Nat2Z.id. reflexivity.
    - unfold new_hierarchical, make_hierarchical. cbn [ck_linkage]; rewrite ?DV. destruct (mem (value kl (str "ward")) _) eqn:H1.
      + split; [intro E; injection E as <-; hp; split; auto; split; auto; apply mem_In in H1; auto|]. intros [C P]. destruct M; try discriminate. hp. destruct P as [-> _]. reflexivity.
      + split; [discriminate|]. intros [C P]. destruct M; try discriminate. hp. destruct P as [-> P]. apply mem_In in P. congruence.
    - unfold new_kmeans, make_kmeans. cbn [ck_model ck_max_iteration ck_tolerance]; rewrite ?DV. destruct (eqb_spec (value km (str "COP")) (str "COP")) as [H0|H0]; cbn [negb]; [|split; [discriminate|]; intros [C P]; destruct M; try discriminate; hp; tauto].
      destruct (Z.ltb_spec (value ki 150%Z) 1) as [H1|H1]; [|destruct (ltb (value kt tol) zero) eqn:H2].
      + split; [discriminate|]. intros [C P]. destruct M; try discriminate. hp. lia.
      + split; [discriminate|]. intros [C P]. destruct M; try discriminate. hp. destruct P as (P0 & P1 & P2 & P3 & P4). congruence.
      + split; [intro E; injection E as <-; hp; rewrite ZN by lia; auto 6|]. intros [C P]. destruct M as [| | |[a b]| |]; try discriminate. hp. destruct P as (P0 & P1 & P2 & P3 & P4).
        cbn [rbind]. rewrite <- P1, <- P2, Nat2Z.id. reflexivity.
    - unfold new_mpckmeans, make_mpckmeans. rewrite OZ, OL. cbn [ck_model ck_max_iteration ck_w]; rewrite ?DV. destruct (eqb_spec (value km (str "MPC")) (str "MPC")) as [H0|H0]; cbn [negb]; [|split; [discriminate|]; intros [C P]; destruct M; try discriminate; hp; tauto].
      destruct (Z.ltb_spec (value ki 150%Z) 1) as [H1|H1]; [|destruct (ltb (value kw one) zero) eqn:H2].
      + split; [discriminate|]. intros [C P]. destruct M; try discriminate. hp. lia.
      + split; [discriminate|]. intros [C P]. destruct M; try discriminate. hp. destruct P as (P0 & P1 & P2 & P3 & P4). congruence.
      + split; [intro E; injection E as <-; hp; rewrite ZN by lia; auto 6|]. intros [C P]. destruct M as [| | | |[a b]|]; try discriminate. hp. destruct P as (P0 & P1 & P2 & P3 & P4).
        cbn [rbind]. rewrite <- P1, <- P2, Nat2Z.id. reflexivity.
    - unfold new_spectral, make_spectral. cbn [ck_model ck_nb_components]; rewrite ?DV. destruct (eqb_spec (value km (str "SPEC")) (str "SPEC")) as [H0|H0]; cbn [negb]; [|split; [discriminate|]; intros [C P]; destruct M; try discriminate; hp; tauto].
      destruct (value kn None) as [n|] eqn:En; [destruct (Z.ltb_spec n 2) as [H1|H1]|].
      + split; [discriminate|]. intros [C P]. destruct M as [| | | | |nb]; try discriminate. hp. destruct P as (P0 & P1 & P2). rewrite En in P1. specialize (P2 n P1). lia.
      + cbn [rbind]. split; [intro E; injection E as <-; hp; rewrite En; split; auto; split; auto; split; auto; intros n' Q; injection Q as <-; auto|].
        intros [C P]. destruct M as [| | | | |nb]; try discriminate. hp. destruct P as (P0 & P1 & P2). congruence.
      + cbn [rbind]. split; [intro E; injection E as <-; hp; rewrite En; split; auto; split; auto; split; auto; discriminate|].
        intros [C P]. destruct M as [| | | | |nb]; try discriminate. hp. destruct P as (P0 & P1 & P2). congruence.
  Qed.
End Clustering.

(*PROP C53: clustering_factory gives exactly an instance of the class with the documented name ("kmeans" by default) whose parameters are those of the call or the documented defaults, all within the documented bounds. *)
Lemma C53_clustering_factory_proof :
  forall D leb ltb (zero half tol one : D) o name k M,
    o_of_nat D o 0 = zero -> o_ltb D o = ltb ->
    (clustering_factory D leb ltb zero half tol one o name k = Ok M <->
     class_name M = match name with Some s => s | None => str "kmeans" end /\ has_parameters leb ltb zero half tol one k M).
Proof.
  intros D leb ltb zero half tol one o name k M OZ OL. destruct (built_iff D leb ltb zero half tol one o OZ OL k M) as (I1 & I2 & I3 & I4 & I5 & I6).
  unfold clustering_factory. fold (default (str "kmeans") name). set (a := default (str "kmeans") name). destruct (mem a _) eqn:Mm; cbn [negb].
  - apply mem_In in Mm. destruct Mm as [<-|[<-|[<-|[<-|[<-|[<-|[]]]]]]]; assumption.
  - split; [discriminate|]. intros [C _]. exfalso. assert (J : In a [str "affinity_propagation"; str "dbscan"; str "hierarchical"; str "kmeans"; str "mpckmeans"; str "spectral"]).
    { rewrite <- C. destruct M; simpl; auto 8. } apply mem_In in J. congruence.
Qed.

(*EX
Example C53_clustering_ex :
  factory_Q None (no_clustering_kargs Q) = Ok (KMeansModel Q (mkKParams Q 150 (1#10000)%Q)) /\
  factory_Q (Some (str "hierarchical")) (no_clustering_kargs Q) = Ok (HierarchicalModel Q (str "ward")) /\
  factory_Q (Some (str "mpckmeans")) (no_clustering_kargs Q) = Ok (MPCKMeansModel Q (mkMPParams Q 150 1%Q)) /\
  factory_Q (Some (str "dbscan")) (no_clustering_kargs Q) = Ok (DBScanModel Q (mkDBParams Q (1#2)%Q 5)) /\
  factory_Q (Some (str "affinity_propagation")) (no_clustering_kargs Q) = Ok (AffinityPropagationModel Q (mkAPParams 150 10 true)) /\
  factory_Q (Some (str "spectral")) (no_clustering_kargs Q) = Ok (SpectralModel Q None) /\
  factory_Q (Some (str "KMeans")) (no_clustering_kargs Q) = Raise ValueError.
Proof. vm_compute. repeat split. Qed.
EX*)

(*PROP C53: clustering_factory raises nothing but ValueError. *)
Lemma C53_clustering_factory_errors_proof :
  forall D leb ltb (zero half tol one : D) o name k e,
    clustering_factory D leb ltb zero half tol one o name k = Raise e -> e = ValueError.
Proof.
  intros D leb ltb zero half tol one o name k e. unfold clustering_factory, new_affinity_propagation, new_dbscan, new_hierarchical, new_kmeans, new_mpckmeans, new_spectral, make_affinity, make_dbscan, make_hierarchical, make_kmeans, make_mpckmeans, make_spectral, rbind.
  repeat match goal with |- context [match ?x with _ => _ end] => lazymatch x with context [match _ with _ => _ end] => fail | _ => destruct x end end; congruence.
Qed.

(*EX
Example C53_errors_ex : factory_Q (Some (str "kmeans")) (mkClusteringKargs Q (Some (str "MPC")) None None None None None None None None None) = Raise ValueError.
Proof. reflexivity. Qed.
EX*)
