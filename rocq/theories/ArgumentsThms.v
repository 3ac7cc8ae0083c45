(** * Arguments of any type (C116). *)

From Coq Require Import String List Bool Arith ZArith QArith Lia.
From Verif Require Import Base Manager Spec Closure ManagerProofs ManagerInv ManagerQueries ManagerThms
  Sampling SamplingSpec Affinity Dbscan Hierarchical KMeans Spectral Mpckmeans Factories Arguments ArgumentsSpec.
Import ListNotations.
Open Scope nat_scope.
Open Scope py_scope.

(*HEADER
From Coq Require Import String List Bool Arith ZArith QArith Lia.
From Verif Require Import Base Manager Spec ManagerThms Sampling SamplingSpec Affinity Dbscan Hierarchical KMeans Spectral Mpckmeans Factories
  Arguments ArgumentsSpec ArgumentsThms.
Import ListNotations.
Open Scope nat_scope.
Open Scope py_scope.

Definition A := str "a". Definition B := str "b".
Definition m0 : mgr := run [] (init [A; B]).
HEADER*)

Lemma ask_ids m : ask get_list_of_managed_data_IDs m = Ok (ids m).
Proof. reflexivity. Qed.

Section Checks.
  Context {vec D : Type}.
  Variable flt : D -> Z -> bool.
  Context {S : Type}.
  Variable same : S -> S -> Prop.
  Variable enter : mgr -> M S unit.
  Variable call : mgr -> dict pystr vec -> option Z -> M S (dict pystr Z).
  Hypothesis ENTER : forall m s, exists s', enter m s = (s', Ok tt) /\ same s s'.
  Hypothesis AGAIN : forall m d nb s s' r, enter m s = (s', r) -> call m d nb s' = call m d nb s.

  Lemma with_number_checks :
    (forall m d z s s' r, enter m s = (s', r) -> (z < 2)%Z -> call m d (Some z) s = (s', Raise ValueError)) ->
    (forall m d s s' r, enter m s = (s', r) -> call m d None s = (s', Raise ValueError)) ->
    checks_number flt same (with_number vec D flt enter call) call.
  Proof using ENTER AGAIN.
    intros LOW NO. unfold checks_number, with_number, checked, raised. split; [|split; [|split; [|split; [|split]]]].
    - intros m d nb z s I. destruct (ENTER m s) as (s' & E & _). assert (AG := AGAIN m d (Some z) s s' _ E). assert (LO := LOW m d z s s' _ E). rewrite E. cbn [is_dict].
      assert (K : forall z', z' = z -> (if (z' <? 2)%Z then Some (s', Raise ValueError) else Some (call m d (Some z') s')) = Some (call m d (Some z) s)).
      { intros z' ->. destruct (Z.ltb_spec z 2); [rewrite LO by auto; auto|]. rewrite AG. auto. }
      destruct I as [->|[[-> ->]|[-> ->]]]; cbn [lt_int as_int Z.b2z].
      + specialize (K z eq_refl). destruct (z <? 2)%Z; exact K.
      + apply (K 1%Z); auto.
      + apply (K 0%Z); auto.
    - intros m d s. destruct (ENTER m s) as (s' & E & _). assert (N := NO m d s s' _ E). rewrite E. cbn [is_dict]. rewrite N. auto.
    - intros cm d nb s N. destruct cm; auto. exfalso. apply N. eexists; eauto.
    - intros cm d nb s [m ->] N. destruct (ENTER m s) as (s' & E & SM). rewrite E. exists s'. split; auto. destruct d; auto; exfalso; apply N; [left|right]; eexists; eauto.
    - intros cm d nb s [m ->] DI NN NB. destruct (ENTER m s) as (s' & E & SM). rewrite E. exists s'. split; auto.
      replace (is_dict vec D d) with true by (destruct DI as [[? ->]|[? ->]]; auto).
      destruct nb; auto; exfalso; [apply NN; auto| | |]; apply NB.
      + left. exists (Z.b2z b). right. destruct b; auto.
      + left. exists z. left. auto.
      + right. eexists; eauto.
    - intros cm d x s [m ->] DI. destruct (ENTER m s) as (s' & E & SM). rewrite E. replace (is_dict vec D d) with true by (destruct DI as [[? ->]|[? ->]]; auto).
      cbn [lt_int as_int]. destruct (flt x 2); [eauto|]. destruct d; auto.
  Qed.
  Lemma without_number_checks : checks_none same (without_number vec D enter call) call.
  Proof using ENTER AGAIN.
    unfold checks_none, without_number, checked, raised. split; [|split].
    - intros m d s. destruct (ENTER m s) as (s' & E & _). assert (AG := AGAIN m d None s s' _ E). rewrite E. cbn [is_dict]. rewrite AG. auto.
    - intros cm d nb s N. destruct cm; auto. exfalso. apply N. eexists; eauto.
    - intros cm d nb s [m ->] H. destruct (ENTER m s) as (s' & E & SM). rewrite E. exists s'. split; auto.
      destruct H as [N|N]; [destruct d; auto; exfalso; apply N; [left|right]; eexists; eauto|].
      destruct (is_dict vec D d); auto. destruct nb; auto. congruence.
  Qed.
End Checks.

Lemma nothing_enter {S} (m : mgr) (s : S) : exists s', nothing m s = (s', Ok tt) /\ s = s'.
Proof. exists s. auto. Qed.

(*PROP C116, the calls of cluster: a manager that is none, vectors that are no dictionary raise ValueError; a number of clusters that is no number raises TypeError; a float is let through; arguments of the documented types give the typed call. *)
Lemma C116_cluster_checks_partial_proof :
  forall (vec D : Type) (flt : D -> Z -> bool),
  (forall `(EqB D) pairwise ltb dsum mean shuffle set_order p,
     let call := KMeans.cluster vec D pairwise ltb dsum mean shuffle set_order p in
     checks_number flt eq (with_number vec D flt nothing call) call) /\
  (forall `(EqB D) pairwise cdistance ltb dsum ddiv inf mean linkage,
     let call := Hierarchical.cluster vec D pairwise cdistance ltb dsum ddiv inf mean linkage in
     checks_number flt (fun s s' => h_root vec s = h_root vec s' /\ h_predicted vec s = h_predicted vec s')
       (with_number vec D flt (keep_ids vec) call) call) /\
  (forall o flatten limit order first sample shuffle p,
     let call := Mpckmeans.cluster vec D o flatten limit order first sample shuffle p in
     checks_number flt eq (with_number vec D flt nothing call) call) /\
  (forall kernel zero one solver,
     let call := Spectral.cluster vec D kernel zero one solver in
     checks_number flt eq (with_number vec D flt nothing call) call) /\
  (forall o similarity p,
     let call := Affinity.cluster vec D o similarity p in
     checks_none eq (without_number vec D nothing call) call) /\
  (forall pairwise leb ltb of_nat setlist p,
     let call := Dbscan.cluster vec D pairwise leb ltb of_nat setlist p in
     checks_none eq (without_number vec D nothing call) call).
Proof.
  intros vec D flt.
  assert (LOWZ : forall z, (z < 2)%Z -> (z <? 2)%Z = true) by (intros; apply Z.ltb_lt; auto).
  split; [|split; [|split; [|split; [|split]]]]; cbv zeta; intros.
  - apply with_number_checks; [apply nothing_enter|intros; injection H0 as <- _; auto| |]; intros; injection H0 as <- _; unfold KMeans.cluster, bind, lift; rewrite ask_ids; auto.
    rewrite LOWZ by auto. auto.
  - apply with_number_checks.
    + intros m s. eexists. split; [reflexivity|]. auto.
    + intros m d nb s s' r E. injection E as <- _. unfold Hierarchical.cluster, bind, lift, modify. rewrite ask_ids. reflexivity.
    + intros m d z s s' r E L. injection E as <- _. unfold Hierarchical.cluster, bind, lift, modify. rewrite ask_ids, LOWZ by auto. reflexivity.
    + intros m d s s' r E. injection E as <- _. unfold Hierarchical.cluster, bind, lift, modify. rewrite ask_ids. reflexivity.
  - apply with_number_checks; [apply nothing_enter|intros; injection H as <- _; auto| |]; intros; injection H as <- _; unfold Mpckmeans.cluster, bind, lift; rewrite ask_ids; auto.
    rewrite LOWZ by auto. auto.
  - apply with_number_checks; [apply nothing_enter|intros; injection H as <- _; auto| |]; intros; injection H as <- _; unfold Spectral.cluster, bind, lift; rewrite ask_ids; auto.
    rewrite LOWZ by auto. auto.
  - apply without_number_checks; [apply nothing_enter|intros; injection H as <- _; auto].
  - apply without_number_checks; [apply nothing_enter|intros; injection H as <- _; auto].
Qed.

(*EX
(** With two clusters asked for, the vectors in the place of the manager, the manager in the place of the vectors, and the text "2". *)
Example C116_cluster_checks_ex :
  let call := fun (m : mgr) (d : dict pystr Z) (nb : option Z) (s : unit) => (s, Ok (map (fun x => (x, 0%Z)) (keys d))) in
  let any := with_number Z Z Z.ltb nothing call in
  let m := VManager Z Z m0 in let d := VVectors Z Z [(A, 1); (B, 2)]%Z in
  any m d (VInt _ _ 2%Z) tt = Some (tt, Ok [(A, 0); (B, 0)]%Z) /\
  any d m (VInt _ _ 2%Z) tt = Some (tt, Raise ValueError) /\
  any m m (VInt _ _ 2%Z) tt = Some (tt, Raise ValueError) /\
  any m d (VBool _ _ true) tt = Some (tt, Raise ValueError) /\
  any m d (VStr _ _ (str "2")) tt = Some (tt, Raise TypeError) /\
  any m d (VFloat _ _ 3%Z) tt = None.
Proof. vm_compute. repeat split; reflexivity. Qed.
EX*)

(** ** Constructors *)
Definition given {A} (r : res A) : res (option A) := a <-- r ;;; Ok (Some a).

Lemma lt_int_integer vec D flt (v : value vec D) z n : integer v z -> lt_int vec D flt v n = Ok (z <? n)%Z.
Proof. intros [->|[[-> ->]|[-> ->]]]; reflexivity. Qed.
Lemma le_int_integer vec D fle (v : value vec D) z n : integer v z -> le_int vec D fle v n = Ok (z <=? n)%Z.
Proof. intros [->|[[-> ->]|[-> ->]]]; reflexivity. Qed.
Lemma as_int_integer vec D (v : value vec D) z : integer v z -> as_int vec D v = Some z.
Proof. intros [->|[[-> ->]|[-> ->]]]; reflexivity. Qed.
Lemma lt_int_error vec D flt (v : value vec D) n e : lt_int vec D flt v n = Raise e -> e = TypeError /\ ~ number v.
Proof.
  destruct v; cbn; try discriminate; intro E; injection E as <-; split; auto;
    (intros [(z & [H|[[H _]|[H _]]])|[z H]]; discriminate).
Qed.
Lemma le_int_error vec D fle (v : value vec D) n e : le_int vec D fle v n = Raise e -> e = TypeError /\ ~ number v.
Proof. intro E. apply (lt_int_error vec D fle v n e). destruct v; auto; cbn in *; discriminate. Qed.
Lemma refuse_error b e : refuse b = Raise e -> e = ValueError.
Proof. destruct b; cbn; intro E; [injection E as <-; auto|discriminate]. Qed.

Ltac crack E :=
  match type of E with
  | rbind ?x _ = Raise _ => let H := fresh "H" in destruct x eqn:H; cbn [rbind] in E;
      [crack E|injection E as <-; first [apply refuse_error in H|apply lt_int_error in H as [-> H]|apply le_int_error in H as [-> H]]; subst; tauto]
  | _ => try discriminate
  end.

(*PROP C116, the constructors: arguments of the documented types give the typed constructor; the only exceptions are ValueError, and TypeError when an argument that is compared with a number is none. *)
Lemma C116_constructor_checks_partial_proof :
  forall (vec D : Type) (flt fle : D -> Z -> bool) (of_Z : Z -> D) (leb ltb : D -> D -> bool) (zero : D) (o : Mpckmeans.ops D),
    (forall d, flt d 0%Z = ltb d zero) -> (forall d, fle d 0%Z = leb d zero) ->
    o_ltb D o = ltb -> o_of_nat D o 0 = zero ->
    (forall model i z t, integer i z -> any_kmeans vec D flt of_Z (VStr _ _ model) i (VFloat _ _ t) = given (make_kmeans D ltb zero model z t)) /\
    (forall model i z w, integer i z -> any_mpckmeans vec D flt of_Z (VStr _ _ model) i (VFloat _ _ w) = given (make_mpckmeans D o model z w)) /\
    (forall i z c z' b, integer i z -> integer c z' -> any_affinity vec D flt i c (VBool _ _ b) = given (make_affinity z z' b)) /\
    (forall eps n z, integer n z -> any_dbscan vec D fle of_Z (VFloat _ _ eps) n = given (make_dbscan D leb (fun _ => zero) eps z)) /\
    (forall l, any_hierarchical vec D (VStr _ _ l) = given (make_hierarchical l)) /\
    (forall model n z, integer n z -> any_spectral vec D flt (VStr _ _ model) n = (_ <-- make_spectral model (Some z) ;;; Ok (Some (Some z)))) /\
    (forall model, any_spectral vec D flt (VStr _ _ model) (VNone _ _) = (_ <-- make_spectral model None ;;; Ok (Some None))) /\
    (forall model i t e, any_kmeans vec D flt of_Z model i t = Raise e -> e = ValueError \/ (e = TypeError /\ (~ number i \/ ~ number t))) /\
    (forall model i w e, any_mpckmeans vec D flt of_Z model i w = Raise e -> e = ValueError \/ (e = TypeError /\ (~ number i \/ ~ number w))) /\
    (forall i c b e, any_affinity vec D flt i c b = Raise e -> e = ValueError \/ (e = TypeError /\ (~ number i \/ ~ number c))) /\
    (forall eps n e, any_dbscan vec D fle of_Z eps n = Raise e -> e = ValueError \/ (e = TypeError /\ (~ number eps \/ ~ number n))) /\
    (forall l, ~ string l -> any_hierarchical vec D l = Raise ValueError /\ ~ no_key l \/ any_hierarchical vec D l = Raise TypeError /\ no_key l) /\
    (forall model n e, any_spectral vec D flt model n = Raise e -> e = ValueError \/ (e = TypeError /\ ~ number n)) /\
    (forall model i t, ~ string model -> any_kmeans vec D flt of_Z model i t = Raise ValueError /\ any_mpckmeans vec D flt of_Z model i t = Raise ValueError /\ any_spectral vec D flt model i = Raise ValueError).
Proof.
  intros vec D flt fle of_Z leb ltb zero o LT LE OL OZ.
  split; [|split; [|split; [|split; [|split; [|split; [|split; [|split; [|split; [|split; [|split; [|split; [|split]]]]]]]]]]]].
  - intros model i z t I. unfold any_kmeans, make_kmeans. cbn [equals]. destruct (eqb model (str "COP")); cbn [negb refuse rbind]; auto.
    rewrite (lt_int_integer _ _ _ _ _ _ I), (as_int_integer _ _ _ _ I). cbn [rbind]. destruct (z <? 1)%Z; cbn [refuse rbind]; auto. cbn [lt_int as_float]. rewrite LT. cbn [rbind]. destruct (ltb t zero); auto.
  - intros model i z w I. unfold any_mpckmeans, make_mpckmeans. cbn [equals]. destruct (eqb model (str "MPC")); cbn [negb refuse rbind]; auto.
    rewrite (lt_int_integer _ _ _ _ _ _ I), (as_int_integer _ _ _ _ I). cbn [rbind]. destruct (z <? 1)%Z; cbn [refuse rbind]; auto. cbn [lt_int as_float]. rewrite LT, OL, OZ. cbn [rbind]. destruct (ltb w zero); auto.
  - intros i z c z' b I J. unfold any_affinity, make_affinity. rewrite (lt_int_integer _ _ _ _ _ _ I), (as_int_integer _ _ _ _ I). cbn [rbind]. destruct (z <? 1)%Z; cbn [refuse rbind]; auto.
    rewrite (lt_int_integer _ _ _ _ _ _ J), (as_int_integer _ _ _ _ J). cbn [rbind]. destruct (z' <? 1)%Z; cbn [refuse rbind]; auto.
  - intros eps n z I. unfold any_dbscan, make_dbscan. cbn [le_int as_float]. rewrite LE. cbn [rbind]. destruct (leb eps zero); cbn [refuse rbind]; auto.
    rewrite (le_int_integer _ _ _ _ _ _ I), (as_int_integer _ _ _ _ I). cbn [rbind]. destruct (z <=? 0)%Z; cbn [refuse rbind]; auto.
  - intro l. unfold any_hierarchical, make_hierarchical. cbn [in_set hashable rbind]. destruct (mem l _); auto.
  - intros model n z I. unfold any_spectral, make_spectral. cbn [equals]. destruct (eqb model (str "SPEC")); cbn [negb refuse rbind]; auto.
    destruct I as [->|[[-> ->]|[-> ->]]]; cbn [lt_int as_int rbind]; auto.
  - intro model. unfold any_spectral, make_spectral. cbn [equals]. destruct (eqb model (str "SPEC")); cbn [negb refuse rbind]; auto.
  - intros model i t e E. unfold any_kmeans in E. crack E.
  - intros model i t e E. unfold any_mpckmeans in E. crack E.
  - intros i c b e E. unfold any_affinity in E. crack E.
  - intros eps n e E. unfold any_dbscan in E. crack E.
  - intros l NS. unfold any_hierarchical, in_set, no_key, dictionary.
    destruct l; cbn [hashable rbind negb refuse];
      try (left; split; [reflexivity|intros [[[? Q]|[? Q]]|Q]; discriminate]);
      try (right; split; [reflexivity|left; left; eexists; reflexivity]); try (right; split; [reflexivity|left; right; eexists; reflexivity]); try (right; split; [reflexivity|right; reflexivity]).
    exfalso. apply NS. eexists; eauto.
  - intros model n e E. unfold any_spectral in E. destruct (refuse _) eqn:R; cbn [rbind] in E; [|injection E as <-; apply refuse_error in R; auto].
    assert (K : (b <-- lt_int vec D flt n 2;;; _ <-- refuse b;;; Ok (option_map Some (as_int vec D n))) = Raise e -> e = ValueError \/ (e = TypeError /\ ~ number n)) by (clear; intro E; crack E).
    destruct n; auto; discriminate.
  - intros model i t NS. assert (Q : forall s, equals vec D model s = false) by (intro s; destruct model; auto; exfalso; apply NS; eexists; eauto).
    unfold any_kmeans, any_mpckmeans, any_spectral. rewrite !Q. auto.
Qed.

(*EX
Example C116_constructor_checks_ex :
  any_kmeans Z Z Z.ltb id (VStr _ _ (str "COP")) (VBool _ _ true) (VFloat _ _ 0%Z) = Ok (Some (mkKParams Z 1 0%Z)) /\
  any_kmeans Z Z Z.ltb id (VStr _ _ (str "COP")) (VNone _ _) (VFloat _ _ 0%Z) = Raise TypeError /\
  any_kmeans Z Z Z.ltb id (VList _ _) (VNone _ _) (VFloat _ _ 0%Z) = Raise ValueError /\
  any_hierarchical Z Z (VNone _ _) = Raise ValueError /\ any_hierarchical Z Z (VList _ _) = Raise TypeError /\
  any_affinity Z Z Z.ltb (VInt _ _ 3%Z) (VFloat _ _ 2%Z) (VBool _ _ true) = Ok None.
Proof. vm_compute. repeat split; reflexivity. Qed.
EX*)

(** ** Sampler *)
Lemma hash_dec vec D (v : value vec D) : hashable vec D v = false <-> no_key v.
Proof.
  unfold no_key, dictionary. destruct v; cbn; split; intro H; try discriminate; auto; try (destruct H as [[[? Q]|[? Q]]|Q]; discriminate); eauto.
Qed.

(*PROP C116, the sampler: its constructor gives options of the right types or raises, TypeError only for a restriction that cannot be hashed; sample raises ValueError for a manager or a number of a wrong type, and is the typed call for the documented types. *)
Lemma C116_sampler_checks_partial_proof :
  forall (vec D : Type) pairwise ltb draw,
    let opt := fun o => match o with Some s => VStr vec D s | None => VNone vec D end in
    let clusters := fun o => match o with Some d => VClusters vec D d | None => VNone vec D end in
    let vectors := fun o => match o with Some d => VVectors vec D d | None => VNone vec D end in
    (forall c d a i, any_sampler vec D (opt c) (opt d) (VBool _ _ a) (VBool _ _ i) = make_options c d a i) /\
    (forall c d a i e, any_sampler vec D c d a i = Raise e -> e = ValueError \/ (e = TypeError /\ (no_key c \/ no_key d))) /\
    (forall c d a i, ~ boolean a \/ ~ boolean i -> forall r, any_sampler vec D c d a i <> Ok r) /\
    (forall m nb z c v o s, integer nb z ->
       any_sample vec D pairwise ltb draw o (VManager _ _ m) nb (clusters c) (vectors v) s =
       Some (let (w, r) := sample vec D pairwise ltb draw o z c v (s, m) in (fst w, r))) /\
    (forall cm nb c v o s, (~ manager cm \/ ~ exists z, integer nb z) -> any_sample vec D pairwise ltb draw o cm nb c v s = Some (s, Raise ValueError)).
Proof.
  intros vec D pairwise ltb draw opt clusters vectors. split; [|split; [|split; [|split]]].
  - intros c d a i. unfold any_sampler, make_options, restriction.
    destruct c as [c|]; cbn [opt opt_in]; [cbn [in_set hashable rbind]; destruct (mem c _); cbn [negb refuse rbind]; auto|cbn [negb rbind]];
      (destruct d as [d|]; cbn [opt opt_in]; [cbn [in_set hashable rbind]; destruct (mem d _); cbn [negb refuse rbind]; auto|cbn [negb rbind]; auto]).
  - assert (RE : forall v l e, restriction vec D v l = Raise e -> e = ValueError \/ (e = TypeError /\ no_key v)).
    { intros v l e E. unfold restriction in E. assert (K : (b <-- in_set vec D v l;;; _ <-- refuse (negb b);;; Ok (match v with VStr _ _ s => Some s | _ => None end)) = Raise e -> e = ValueError \/ (e = TypeError /\ no_key v)).
      { unfold in_set. destruct (hashable vec D v) eqn:H; cbn [rbind]; [|intro Q; injection Q as <-; right; split; auto; apply hash_dec; auto].
        destruct (refuse _) eqn:R; cbn [rbind]; [discriminate|]. intro Q. injection Q as <-. apply refuse_error in R. auto. }
      destruct v; auto; discriminate. }
    intros c d a i e. unfold any_sampler. destruct (restriction vec D c _) eqn:E1; cbn [rbind]; [|intro Q; injection Q as <-; destruct (RE _ _ _ E1); tauto].
    destruct (restriction vec D d _) eqn:E2; cbn [rbind]; [|intro Q; injection Q as <-; destruct (RE _ _ _ E2); tauto].
    destruct a; cbn [Arguments.boolean rbind]; try (intro Q; injection Q as <-; auto; fail). destruct i; cbn [Arguments.boolean rbind]; try (intro Q; injection Q as <-; auto; fail). discriminate.
  - intros c d a i NB r. unfold any_sampler. destruct (restriction vec D c _); cbn [rbind]; [|discriminate]. destruct (restriction vec D d _); cbn [rbind]; [|discriminate].
    destruct a; cbn [Arguments.boolean rbind]; try discriminate. destruct i; cbn [Arguments.boolean rbind]; try discriminate. exfalso. destruct NB as [N|N]; apply N; eexists; eauto.
  - intros m nb z c v o s I. unfold any_sample. rewrite (as_int_integer _ _ _ _ I).
    assert (Q : ((0 <? z)%Z && (is_set (o_clusters o) && match clusters c with VVectors _ _ _ => true | _ => false end || is_set (o_distance o) && match vectors v with VClusters _ _ _ => true | _ => false end)) = false)
      by (destruct c, v; cbn; rewrite !andb_false_r; auto).
    rewrite Q. replace (as_clusters vec D (clusters c)) with c by (destruct c; auto). replace (as_vectors vec D (vectors v)) with v by (destruct v; auto).
    destruct (sample _ _ _ _ _ _ _ _ _ _). auto.
  - intros cm nb c v o s H. unfold any_sample. destruct cm; auto. destruct (as_int vec D nb) as [z|] eqn:E; auto. exfalso. destruct H as [H|H]; apply H; [eexists; eauto|].
    exists z. destruct nb; cbn in E; try discriminate; injection E as <-; [|left; auto]. destruct b; [right; left|right; right]; auto.
Qed.

(*EX
Example C116_sampler_checks_ex :
  any_sampler Z Z (VNone _ _) (VStr _ _ CLOSEST) (VBool _ _ true) (VInt _ _ 0%Z) = Raise ValueError /\
  any_sampler Z Z (VList _ _) (VStr _ _ CLOSEST) (VBool _ _ true) (VInt _ _ 0%Z) = Raise TypeError /\
  any_sample Z Z (fun _ _ _ => 0%Z) Z.ltb (fun l n => firstn n l) (mkOptions None None true true) (VManager _ _ m0) (VBool _ _ true) (VNone _ _) (VNone _ _) (fresh_sampler Z Z) = Some (fresh_sampler Z Z, Ok [(A, B)]) /\
  any_sample Z Z (fun _ _ _ => 0%Z) Z.ltb (fun l n => firstn n l) (mkOptions None None true true) (VManager _ _ m0) (VFloat _ _ 1%Z) (VNone _ _) (VNone _ _) (fresh_sampler Z Z) = Some (fresh_sampler Z Z, Raise ValueError).
Proof. vm_compute. repeat split; reflexivity. Qed.
EX*)

(** ** Manager *)
Ltac go E := unfold bind, in_dict, in_trans, gets, require, ret, raise; cbn beta iota; rewrite E; cbn beta iota; try reflexivity.

(*PROP C116, the manager: on strings the calls are the typed calls; a value of another type in place of a managed ID or a type of constraint raises, and nothing changes: TypeError when it cannot be hashed, ValueError otherwise. *)
Lemma C116_manager_checks_partial_proof :
  forall (vec D : Type) m, reachable m ->
    (forall a, any_delete_data_ID vec D (VStr _ _ a) m = delete_data_ID a m) /\
    (forall a b t, any_add_constraint vec D (VStr _ _ a) (VStr _ _ b) (VStr _ _ t) m = add_constraint a b t 1%Q m) /\
    (forall a b, any_delete_constraint vec D (VStr _ _ a) (VStr _ _ b) m = delete_constraint a b m) /\
    (forall a b, any_get_added vec D (VStr _ _ a) (VStr _ _ b) m = get_added_constraint a b m) /\
    (forall a b, any_get_inferred vec D (VStr _ _ a) (VStr _ _ b) m = get_inferred_constraint a b m) /\
    (forall a b t, any_conflict vec D (VStr _ _ a) (VStr _ _ b) (VStr _ _ t) m = get_list_of_involved_data_IDs_in_a_constraint_conflict a b t m) /\
    (forall v, ~ string v -> exists e, (e = TypeError <-> no_key v) /\ (e = ValueError <-> ~ no_key v) /\
       any_delete_data_ID vec D v m = (m, Raise e) /\
       (forall w, any_delete_constraint vec D v w m = (m, Raise e) /\ any_get_added vec D v w m = (m, Raise e) /\ any_get_inferred vec D v w m = (m, Raise e)) /\
       (forall w t, any_add_constraint vec D v w t m = (m, Raise e) /\ any_conflict vec D v w t m = (m, Raise e)) /\
       (forall a, managed m a ->
          any_delete_constraint vec D (VStr _ _ a) v m = (m, Raise e) /\ any_get_added vec D (VStr _ _ a) v m = (m, Raise e) /\ any_get_inferred vec D (VStr _ _ a) v m = (m, Raise e)) /\
       (forall a b, managed m a -> managed m b ->
          any_add_constraint vec D (VStr _ _ a) (VStr _ _ b) v m = (m, Raise e) /\ any_conflict vec D (VStr _ _ a) (VStr _ _ b) v m = (m, Raise e))).
Proof.
  intros vec D m R. apply reachable_inv in R.
  assert (KN : forall a, managed m a -> known_ID vec D (VStr _ _ a) m = (m, Ok a)).
  { intros a M. apply managed_ids in M. unfold known_ID, bind, in_dict, gets, require. cbn [hashable]. change (In a (keys (cdict m))) in M. apply mem_In in M. rewrite M. reflexivity. }
  assert (KS : forall a, known_ID vec D (VStr _ _ a) m = (m, if mem a (keys (cdict m)) then Ok a else Raise ValueError)).
  { intro a. unfold known_ID, bind, in_dict, gets, require. cbn [hashable]. destruct (mem a (keys (cdict m))); reflexivity. }
  assert (KT : forall t, known_type vec D (VStr _ _ t) m = (m, if mem t allowed_types then Ok t else Raise ValueError)).
  { intro t. unfold known_type, bind, lift, require. cbn [in_set hashable]. destruct (mem t allowed_types); reflexivity. }
  assert (IT : forall a, mem a (keys (ctrans m)) = mem a (keys (cdict m))).
  { intro a. rewrite (inv_keys m R). reflexivity. }
  split; [|split; [|split; [|split; [|split; [|split]]]]].
  - intro a. unfold any_delete_data_ID, bind at 1. rewrite KS. destruct (mem a (keys (cdict m))) eqn:E; [reflexivity|]. symmetry. unfold delete_data_ID. go E.
  - intros a b t. unfold any_add_constraint, bind at 1. rewrite KS. destruct (mem a (keys (cdict m))) eqn:E; [|symmetry; unfold add_constraint; go E].
    unfold bind at 1. rewrite KS. destruct (mem b (keys (cdict m))) eqn:E'; [|symmetry; unfold add_constraint; go E; go E'].
    unfold bind at 1. rewrite KT. destruct (mem t allowed_types) eqn:ET; [reflexivity|]. symmetry; unfold add_constraint; go E; go E'; go ET.
  - intros a b. unfold any_delete_constraint, bind at 1. rewrite KS. destruct (mem a (keys (cdict m))) eqn:E; [|symmetry; unfold delete_constraint; go E].
    unfold bind at 1. rewrite KS. destruct (mem b (keys (cdict m))) eqn:E'; [reflexivity|]. symmetry; unfold delete_constraint; go E; go E'.
  - intros a b. unfold any_get_added, bind at 1. rewrite KS. destruct (mem a (keys (cdict m))) eqn:E; [|symmetry; unfold get_added_constraint; go E].
    unfold bind at 1. rewrite KS. destruct (mem b (keys (cdict m))) eqn:E'; [reflexivity|]. symmetry; unfold get_added_constraint; go E; go E'.
  - intros a b. unfold any_get_inferred, bind at 1. rewrite KS. destruct (mem a (keys (cdict m))) eqn:E; [|symmetry; unfold get_inferred_constraint; rewrite <- IT in E; go E].
    unfold bind at 1. rewrite KS. destruct (mem b (keys (cdict m))) eqn:E'; [reflexivity|]. symmetry; unfold get_inferred_constraint; rewrite <- IT in E, E'; go E; go E'.
  - intros a b t. unfold any_conflict, bind at 1. rewrite KS. destruct (mem a (keys (cdict m))) eqn:E; [|symmetry; unfold get_list_of_involved_data_IDs_in_a_constraint_conflict; go E].
    unfold bind at 1. rewrite KS. destruct (mem b (keys (cdict m))) eqn:E'; [|symmetry; unfold get_list_of_involved_data_IDs_in_a_constraint_conflict; go E; go E'].
    unfold bind at 1. rewrite KT. destruct (mem t allowed_types) eqn:ET; [reflexivity|]. symmetry; unfold get_list_of_involved_data_IDs_in_a_constraint_conflict; go E; go E'; go ET.
  - intros v NS. exists (if hashable vec D v then ValueError else TypeError).
    assert (KI : known_ID vec D v m = (m, Raise (if hashable vec D v then ValueError else TypeError))).
    { unfold known_ID. destruct v; auto. exfalso. apply NS. eexists; eauto. }
    assert (KY : known_type vec D v m = (m, Raise (if hashable vec D v then ValueError else TypeError))).
    { unfold known_type, bind, lift, in_set. destruct v; auto. exfalso. apply NS. eexists; eauto. }
    split; [rewrite <- hash_dec; destruct (hashable vec D v); split; intro; congruence|].
    split; [rewrite <- hash_dec; destruct (hashable vec D v); split; intro; congruence|].
    unfold any_delete_data_ID, any_delete_constraint, any_get_added, any_get_inferred, any_add_constraint, any_conflict, bind.
    split; [rewrite KI; auto|]. split; [intro w; rewrite KI; auto|]. split; [intros w t; rewrite KI; auto|].
    split; [intros a M; rewrite (KN a M), KI; auto|]. intros a b M M'. rewrite (KN a M), (KN b M'), KY. auto.
Qed.

(*EX
Example C116_manager_checks_ex : reachable m0 /\ managed m0 A /\
  any_add_constraint Z Z (VStr _ _ A) (VInt _ _ 1%Z) (VStr _ _ MUST_LINK) m0 = (m0, Raise ValueError) /\
  any_add_constraint Z Z (VStr _ _ A) (VStr _ _ B) (VList _ _) m0 = (m0, Raise TypeError).
Proof. split; [apply run_reachable|]. split; [eexists; split; [reflexivity|simpl; auto]|]. split; reflexivity. Qed.
EX*)

(** ** Factories *)

(*PROP C116, the factories: a name is looked up as in the typed model; another value raises ValueError, or TypeError when it cannot be hashed (for managing_factory always ValueError). *)
Lemma C116_factory_checks_partial_proof :
  forall (vec D : Type) leb ltb zero half tolerance one o,
    (forall l n, any_managing_factory vec D l (VStr _ _ n) = managing_factory l (Some n)) /\
    (forall n k, any_sampling_factory vec D (VStr _ _ n) k = sampling_factory n k) /\
    (forall n k, any_clustering_factory vec D leb ltb zero half tolerance one o (VStr _ _ n) k = clustering_factory D leb ltb zero half tolerance one o (Some n) k) /\
    (forall v, ~ string v -> (forall l, any_managing_factory vec D l v = Raise ValueError) /\
       exists e, (e = TypeError <-> no_key v) /\ (e = ValueError <-> ~ no_key v) /\
         (forall k, any_sampling_factory vec D v k = Raise e) /\
         (forall k, any_clustering_factory vec D leb ltb zero half tolerance one o v k = Raise e)).
Proof.
  intros vec D leb ltb zero half tolerance one o. split; [|split; [|split]].
  - intros l n. unfold any_managing_factory, managing_factory. cbn [equals]. destruct (eqb n _); auto.
  - intros n k. unfold any_sampling_factory, any_name, in_set. cbn [hashable rbind]. destruct (mem n _) eqn:E; cbn [negb refuse rbind]; auto. unfold sampling_factory. rewrite E. auto.
  - intros n k. unfold any_clustering_factory, any_name, in_set. cbn [hashable rbind]. destruct (mem n _) eqn:E; cbn [negb refuse rbind]; auto. unfold clustering_factory, default. rewrite E. auto.
  - intros v NS. split; [intro l; destruct v; auto; exfalso; apply NS; eexists; eauto|].
    exists (if hashable vec D v then ValueError else TypeError). split; [rewrite <- hash_dec; destruct (hashable vec D v); split; intro; congruence|].
    split; [rewrite <- hash_dec; destruct (hashable vec D v); split; intro; congruence|].
    unfold any_sampling_factory, any_clustering_factory, any_name, in_set. split; intro k; destruct v; auto; exfalso; apply NS; eexists; eauto.
Qed.

(*EX
Example C116_factory_checks_ex : any_sampling_factory Z Z (VNone _ _) no_sampling_kargs = Raise ValueError /\ any_sampling_factory Z Z (VList _ _) no_sampling_kargs = Raise TypeError.
Proof. split; reflexivity. Qed.
EX*)

(*PROP C116, refuted for numbers: each of the four classes that need a number of clusters raises TypeError, not the documented ValueError, for every text in place of the number, even the text of a number; and lets floats through. *)
Lemma C116_text_number_refuted_proof :
  forall (vec D : Type) (flt : D -> Z -> bool) m d t,
    (forall `(EqB D) pairwise ltb dsum mean shuffle set_order p s,
       exists s', with_number vec D flt nothing (KMeans.cluster vec D pairwise ltb dsum mean shuffle set_order p) (VManager _ _ m) (VVectors _ _ d) (VStr _ _ t) s = Some (s', Raise TypeError)) /\
    (forall `(EqB D) pairwise cdistance ltb dsum ddiv inf mean linkage s,
       exists s', with_number vec D flt (keep_ids vec) (Hierarchical.cluster vec D pairwise cdistance ltb dsum ddiv inf mean linkage) (VManager _ _ m) (VVectors _ _ d) (VStr _ _ t) s = Some (s', Raise TypeError)) /\
    (forall o flatten limit order first sample shuffle p s,
       exists s', with_number vec D flt nothing (Mpckmeans.cluster vec D o flatten limit order first sample shuffle p) (VManager _ _ m) (VVectors _ _ d) (VStr _ _ t) s = Some (s', Raise TypeError)) /\
    (forall kernel zero one solver s,
       exists s', with_number vec D flt nothing (Spectral.cluster vec D kernel zero one solver) (VManager _ _ m) (VVectors _ _ d) (VStr _ _ t) s = Some (s', Raise TypeError)).
Proof. intros vec D flt m d t. repeat split; intros; eexists; reflexivity. Qed.

(*PROP C116, refuted for data IDs: adding a value that is no string to a manager of strings raises TypeError and leaves the value behind among the managed IDs. *)
Lemma C116_half_added_refuted_proof :
  forall (vec D : Type) m x v, managed m x -> ~ string v -> ~ no_key v ->
    exists m' left_behind e, any_add_data_ID vec D v m = Some (m', left_behind, Raise e) /\ e = TypeError /\
      any_managed_IDs vec D m None <> any_managed_IDs vec D m' left_behind /\ In v (any_managed_IDs vec D m' left_behind).
Proof.
  intros vec D m x v M NS NK. apply managed_ids in M. exists m, (Some v), TypeError. unfold any_managed_IDs.
  assert (H : hashable vec D v = true) by (destruct (hashable vec D v) eqn:E; auto; exfalso; apply NK, hash_dec; auto).
  split; [|split; [auto|split; [|apply in_or_app; simpl; auto]]].
  - unfold any_add_data_ID. rewrite H. change (In x (keys (cdict m))) in M. destruct (keys (cdict m)) as [|y l]; [destruct M|]. destruct v; auto. exfalso. apply NS. eexists; eauto.
  - rewrite app_nil_r. intro Q. apply (f_equal (@length _)) in Q. rewrite app_length, map_length in Q. cbn in Q. lia.
Qed.

(*EX
Example C116_half_added_ex : any_add_data_ID Z Z (VInt _ _ 5%Z) m0 = Some (m0, Some (VInt _ _ 5%Z), Raise TypeError).
Proof. reflexivity. Qed.
EX*)
