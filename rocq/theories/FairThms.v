(** * Random choices of the sampler and of KMeans are fair. *)

From Coq Require Import String List Bool Arith ZArith QArith Lia Permutation.
From Verif Require Import Base Manager Spec Closure ManagerProofs ManagerInv ManagerQueries ManagerSem ManagerThms
  Sampling SamplingSpec SamplingProofs SamplingThms KMeans KMeansSpec FairSpec FairProofs.
Import ListNotations.
Open Scope nat_scope.
Open Scope py_scope.

(*HEADER
From Coq Require Import String List Bool Arith ZArith QArith Permutation Lia.
From Verif Require Import Base Manager Spec ManagerInv ManagerQueries ManagerThms Sampling SamplingSpec SamplingThms KMeans KMeansSpec FairSpec FairThms.
Import ListNotations.
Open Scope nat_scope.
Definition a : pystr := str "a".
Definition b : pystr := str "b".
Definition c : pystr := str "c".
Definition d : pystr := str "d".
(** a must-link b, b cannot-link c; (a, d), (b, d), (c, d) are eligible. *)
Definition ex : mgr :=
  run [CallAddConstraint a b MUST_LINK 1%Q; CallAddConstraint c b CANNOT_LINK 1%Q] (init [d; a; b; c]).
Definition any := mkOptions None None true true.
Definition vecs : dict pystr nat := [(a, 1); (b, 4); (c, 3); (d, 10)].
Definition drawn (pool : bool) (js : list nat) :=
  result (sample nat nat (fun _ _ _ => 0) Nat.ltb (random_sample pool js) any 2 None None) (fresh_sampler nat nat, ex).
HEADER*)

Section Sampler.
  Variables vec D : Type.
  Variable pw : list vec -> nat -> nat -> D.
  Variable ltb : D -> D -> bool.

  Lemma sample_random o nb cr vs m : Inv m -> (0 <= nb)%Z -> (o_clusters o <> None -> covers cr m) -> o_distance o = None ->
    exists pairs, eligible_pairs vec D o m cr = Ok pairs /\
      forall draw s, result (sample vec D pw ltb draw o nb cr vs) (s, m) =
        Ok (if (nb =? 0)%Z then [] else draw pairs (Nat.min (Z.to_nat nb) (length pairs))).
  Proof.
    intros R N C U. destruct (eligible_pairs_total vec D o m cr R C) as [pairs E]. exists pairs. split; auto.
    intros draw s. rewrite ask_sample by auto. unfold SamplingProofs.psample. destruct (Z.ltb_spec nb 0); [lia|].
    destruct (nb =? 0)%Z; auto. unfold eligible_pairs in E. rewrite E. cbn [rbind]. rewrite U.
    assert (NC : o_clusters o <> None -> cr <> None) by (intros X; destruct (C X) as (c & -> & _); discriminate).
    destruct (o_clusters o) eqn:OC, cr; unfold select; rewrite ?U; destruct vs; try reflexivity; destruct NC; congruence.
  Qed.

  Lemma sample_runs_answers pool o nb cr vs s m all : reachable m -> valid_arguments (vec := vec) o m nb cr vs -> o_distance o = None ->
    NoDup all -> (forall p, In p all <-> eligible o m cr p) ->
    exists f, (forall js, In js (sample_runs pool (length all) (Nat.min (Z.to_nat nb) (length all))) ->
        result (sample vec D pw ltb (random_sample pool js) o nb cr vs) (s, m) = Ok (f js)) /\
      arranges all (Nat.min (Z.to_nat nb) (length all)) (map f (sample_runs pool (length all) (Nat.min (Z.to_nat nb) (length all)))).
  Proof.
    intros R (N & C & _) U ND EL. apply reachable_inv in R.
    destruct (sample_random o nb cr vs m R N C U) as (pairs & E & H). apply eligible_pairs_spec in E; auto.
    destruct E as (ND' & EL' & _).
    assert (Pm : Permutation pairs all). { apply NoDup_Permutation; auto. intro p. rewrite EL, EL'. tauto. }
    rewrite <- (Permutation_length Pm). set (k := Nat.min (Z.to_nat nb) (length pairs)).
    exists (fun js => random_sample pool js pairs k). split.
    - intros js J. rewrite H. destruct (Z.eqb_spec nb 0) as [->|]; auto. subst k. simpl in *.
      assert (js = []) by (destruct pool; simpl in J; destruct J as [<-|[]]; auto). subst js. destruct pool; auto.
    - assert (A := sample_arranges pool k pairs (Nat.le_min_r _ _) ND'). destruct A as [A1 A2]. split; auto.
      intro r. rewrite A2. split; intros (X1 & X2 & X3); split; auto; split; auto; intros y Y.
      + apply (Permutation_in y Pm); auto.
      + apply (Permutation_in y (Permutation_sym Pm)); auto.
  Qed.
End Sampler.

(*PROP C136: a sampler without distance restriction can answer every list of the requested number of eligible pairs, and each of them for exactly one run of the random generator. *)
Lemma C136_every_sample_once_proof :
  forall vec D pairwise ltb pool o nb clustering vectors s m all, reachable m ->
    valid_arguments (vec := vec) o m nb clustering vectors -> o_distance o = None ->
    NoDup all -> (forall p, In p all <-> eligible o m clustering p) ->
    let k := Nat.min (Z.to_nat nb) (length all) in
    forall l, (NoDup l /\ length l = k /\ forall p, In p l -> eligible o m clustering p) <->
      exists! js, In js (sample_runs pool (length all) k) /\
        result (sample vec D pairwise ltb (random_sample pool js) o nb clustering vectors) (s, m) = Ok l.
Proof.
  intros vec D pw ltb pool o nb cr vs s m all R V U ND EL k l.
  destruct (sample_runs_answers vec D pw ltb pool o nb cr vs s m all R V U ND EL) as (f & F & N & M). fold k in F, N, M. split.
  - intros (Nl & Ll & El). destruct (map_unique f (sample_runs pool (length all) k) l N) as (js & (J & E) & Q).
    { apply M. split; auto. split; auto. intros p P. apply EL. auto. }
    exists js. split.
    + split; auto. rewrite F, E by auto. auto.
    + intros js' [J' E']. apply Q. split; auto. rewrite F in E' by auto. congruence.
  - intros (js & (J & E) & _). rewrite F in E by auto. injection E as <-.
    assert (I : In (f js) (map f (sample_runs pool (length all) k))) by (apply in_map; auto).
    apply M in I. destruct I as (I1 & I2 & I3). split; auto. split; auto. intros p P. apply EL. auto.
Qed.
(*EX
Example C136_ex_runs : sample_runs true 3 2 = [[0; 0]; [0; 1]; [1; 0]; [1; 1]; [2; 0]; [2; 1]] /\
  sample_runs false 3 2 = [[0; 1]; [0; 2]; [1; 0]; [1; 2]; [2; 0]; [2; 1]].
Proof. split; reflexivity. Qed.
Example C136_ex_eligible : reachable ex /\ valid_arguments (vec := nat) any ex 2 None None /\ NoDup [(a, d); (b, d); (c, d)] /\
  (forall p, In p [(a, d); (b, d); (c, d)] <-> eligible any ex None p).
Proof.
  assert (R : reachable ex) by apply run_reachable. split; auto.
  split; [split; [easy|]; split; intro X; elim X; reflexivity|].
  destruct (eligible_pairs_spec nat nat any ex None [(a, d); (b, d); (c, d)]) as (N & E & _); auto.
  apply reachable_inv; auto.
Qed.
Example C136_ex_answers : map (drawn true) (sample_runs true 3 2) =
  [Ok [(a, d); (c, d)]; Ok [(a, d); (b, d)]; Ok [(b, d); (a, d)]; Ok [(b, d); (c, d)]; Ok [(c, d); (a, d)]; Ok [(c, d); (b, d)]].
Proof. reflexivity. Qed.
EX*)

(*PROP C136 (rate): every eligible pair is among the selected ones for the same share of the runs: number selected over number of eligible pairs. *)
Lemma C136_pair_rate_proof :
  forall vec D pairwise ltb pool o nb clustering vectors s m all p, reachable m ->
    valid_arguments (vec := vec) o m nb clustering vectors -> o_distance o = None ->
    NoDup all -> (forall p, In p all <-> eligible o m clustering p) -> eligible o m clustering p ->
    let k := Nat.min (Z.to_nat nb) (length all) in
    let runs := sample_runs pool (length all) k in
    runs <> [] /\
    how_many (fun js => match result (sample vec D pairwise ltb (random_sample pool js) o nb clustering vectors) (s, m) with
                        | Ok l => mem p l | Raise _ => false end) runs * length all = k * length runs.
Proof.
  intros vec D pw ltb pool o nb cr vs s m all p R V U ND EL P k runs.
  destruct (sample_runs_answers vec D pw ltb pool o nb cr vs s m all R V U ND EL) as (f & F & A). fold k in F, A. fold runs in F, A.
  split.
  - intro E. rewrite E in A. destruct A as [_ M]. apply (in_nil (a := firstn k all)). apply M.
    assert (N := ND). rewrite <- (firstn_skipn k all) in N. split; [|split].
    + clear - N. induction (firstn k all) as [|x l IH]; [constructor|]. inversion N; subst. constructor; auto.
      intro X. apply H1, in_or_app; auto.
    + intros x X. rewrite <- (firstn_skipn k all). apply in_or_app; auto.
    + rewrite firstn_length. unfold k. lia.
  - unfold how_many. rewrite (filter_ext_in _ (fun js => mem p (f js))) by (intros js J; rewrite F; auto).
    assert (E : forall l : list (list nat), length (filter (fun js => mem p (f js)) l) = length (filter (fun r => mem p r) (map f l))).
    { induction l as [|x l IH]; simpl; auto. destruct (mem p (f x)); simpl; auto. }
    rewrite E, (arranges_fair all k (map f runs) p); auto.
    + rewrite map_length. auto.
    + apply EL; auto.
Qed.
(*EX
Example C136_ex_rate : how_many (fun js => match drawn true js with Ok l => mem (b, d) l | _ => false end) (sample_runs true 3 2) = 4 /\
  length (sample_runs true 3 2) = 6.
Proof. split; reflexivity. Qed.
EX*)

(*PROP C136 (shuffle): random.shuffle gives every order of a list of distinct values, each for exactly one run of the random generator. *)
Lemma C136_every_order_once_proof :
  forall A (l : list A), NoDup l ->
    forall r, Permutation l r <-> exists! js, In js (shuffle_runs (length l)) /\ random_shuffle js l = r.
Proof.
  intros A l N r. destruct (random_shuffle_orders l N) as [NR M]. split.
  - intro P. apply (map_unique (fun js => random_shuffle js l)); auto. apply M; auto.
  - intros (js & (J & E) & _). apply M. apply in_map_iff. exists js. auto.
Qed.
(*EX
Example C136_ex_shuffle : map (fun js => random_shuffle js [a; b; c]) (shuffle_runs 3) =
  [[b; c; a]; [c; b; a]; [c; a; b]; [a; c; b]; [b; a; c]; [a; b; c]].
Proof. reflexivity. Qed.
EX*)

Lemma initialize_chosen {vec} shuffle l (vectors : dict pystr vec) nb :
  nb <= length (shuffle l) -> (forall x, In x (shuffle l) -> In x (keys vectors)) ->
  exists centroids, initialize_centroids vec shuffle l vectors nb = Ok centroids /\
    vectors_are vectors (firstn nb (shuffle l)) (vals centroids).
Proof.
  intros LE IC. unfold initialize_centroids. set (chosen := firstn nb (shuffle l)).
  assert (LC : length chosen = nb) by (unfold chosen; rewrite firstn_length; lia).
  assert (IC' : forall x, In x chosen -> In x (keys vectors)).
  { intros x X. apply IC. rewrite <- (firstn_skipn nb (shuffle l)). apply in_or_app; auto. }
  assert (Go : forall n k d0, k + n <= length chosen -> keys d0 = map Z.of_nat (seq 0 k) ->
      exists d, rfold (fun d i =>
               x <-- (match nth_error chosen i with Some x => Ok x | None => Raise IndexError end) ;;;
               v <-- dlookup x vectors ;;;
               Ok (dset (Z.of_nat i) v d)) (seq k n) d0 = Ok d /\
        (vectors_are vectors (firstn k chosen) (vals d0) -> vectors_are vectors (firstn (k + n) chosen) (vals d))).
  { clear - IC'. induction n as [|n IH]; intros k d0 L K; simpl.
    - exists d0. rewrite Nat.add_0_r. auto.
    - destruct (nth_error chosen k) as [x|] eqn:E; [|apply nth_error_None in E; lia]. cbn [rbind].
      assert (X : In x (keys vectors)) by (apply IC'; eapply nth_error_In; eauto).
      destruct (dget_In_key _ _ X) as [v Ev]. unfold dlookup at 1. rewrite Ev. cbn [rbind].
      assert (Out : ~ In (Z.of_nat k) (keys d0)).
      { rewrite K, in_map_iff. intros (j & Ej & J). apply in_seq in J. lia. }
      destruct (IH (S k) (dset (Z.of_nat k) v d0)) as (d & R & Vd); [lia| |].
      + rewrite keys_dset_out, K by auto. rewrite seq_S, map_app. auto.
      + exists d. rewrite <- Nat.add_succ_comm. split; auto. intro V. apply Vd.
        assert (EF : firstn (S k) chosen = firstn k chosen ++ [x]).
        { clear - E. revert k E. induction chosen as [|y l0 IHl]; intros [|k] E; simpl in *; try discriminate.
          - congruence.
          - f_equal. apply IHl; auto. }
        rewrite EF, dset_out by auto. unfold vectors_are, vals in *. rewrite !map_app, V. simpl. rewrite Ev. auto. }
  destruct (Go nb 0 []) as (d & R & V); [lia|reflexivity|]. exists d. split; auto.
  change (0 + nb) with nb in V. rewrite (firstn_all2 (n := nb) chosen) in V by lia. apply V. reflexivity.
Qed.

(*PROP C136 (centroids): with distinct vectors, the vector of every data ID is a first centroid of KMeans for the same share of the runs: number of clusters over number of data. *)
Lemma C136_centroid_rate_proof :
  forall vec `{EqB vec} ids (vectors : dict pystr vec) nb x v,
    NoDup ids -> (forall y, In y ids -> In y (keys vectors)) ->
    (forall y z, In y ids -> In z ids -> dget y vectors = dget z vectors -> y = z) ->
    nb <= length ids -> In x ids -> dget x vectors = Some v ->
    let runs := shuffle_runs (length ids) in
    runs <> [] /\
    how_many (fun js => match initialize_centroids vec (random_shuffle js) ids vectors nb with
                        | Ok centroids => mem v (vals centroids) | Raise _ => false end) runs * length ids = nb * length runs.
Proof.
  intros vec EV ids vectors nb x v N COV DIST LE X EX runs. destruct (random_shuffle_orders ids N) as [NR M]. fold runs in NR, M. split.
  - intro E. rewrite E in M. apply (in_nil (a := ids)). apply (M ids). auto.
  - rewrite <- (map_length (fun js => random_shuffle js ids) runs).
    rewrite <- (orders_fair ids nb (map (fun js => random_shuffle js ids) runs) x) by auto.
    f_equal. unfold how_many.
    assert (G : forall js, In js runs ->
      match initialize_centroids vec (random_shuffle js) ids vectors nb with Ok centroids => mem v (vals centroids) | Raise _ => false end =
      mem x (firstn nb (random_shuffle js ids))).
    { intros js J. assert (P : Permutation ids (random_shuffle js ids)) by (apply M; apply in_map_iff; eauto).
      destruct (initialize_chosen (random_shuffle js) ids vectors nb) as (cs & E & VA).
      { rewrite <- (Permutation_length P). auto. }
      { intros y Y. apply COV. apply (Permutation_in y (Permutation_sym P) Y). }
      rewrite E. unfold vectors_are in VA. apply Bool.eq_iff_eq_true. rewrite !mem_In.
      assert (IN : incl (firstn nb (random_shuffle js ids)) ids).
      { intros y Y. apply (Permutation_in y (Permutation_sym P)). rewrite <- (firstn_skipn nb). apply in_or_app; auto. }
      split; intro I.
      - assert (I' : In (Some v) (map Some (vals cs))) by (apply in_map; auto). rewrite <- VA in I'.
        apply in_map_iff in I'. destruct I' as (y & Ey & Y). rewrite (DIST x y); auto. congruence.
      - assert (I' : In (Some v) (map (fun y => dget y vectors) (firstn nb (random_shuffle js ids)))) by (apply in_map_iff; eauto).
        rewrite VA in I'. apply in_map_iff in I'. destruct I' as (w & Ew & W). congruence. }
    rewrite (filter_ext_in _ _ _ G). clear. induction runs as [|js l IH]; simpl; auto.
    destruct (mem x (firstn nb (random_shuffle js ids))); simpl; auto.
Qed.
(*EX
Example C136_ex_centroids : how_many (fun js => match initialize_centroids nat (random_shuffle js) [a; b; c] vecs 2 with
  | Ok cs => mem 3 (vals cs) | _ => false end) (shuffle_runs 3) = 4 /\ length (shuffle_runs 3) = 6.
Proof. split; reflexivity. Qed.
EX*)
