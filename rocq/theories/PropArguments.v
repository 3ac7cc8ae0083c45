(** Generated from ArgumentsThms.v by tools/gen_props.py: theorem statements,
    each closed by the lemma of the same name proved there. *)

From Coq Require Import String List Bool Arith ZArith QArith Lia.
From Verif Require Import Base Manager Spec ManagerThms Sampling SamplingSpec Affinity Dbscan Hierarchical KMeans Spectral Mpckmeans Factories
  Arguments ArgumentsSpec ArgumentsThms.
Import ListNotations.
Open Scope nat_scope.
Open Scope py_scope.

Definition A := str "a". Definition B := str "b".
Definition m0 : mgr := run [] (init [A; B]).

(** C116, the calls of cluster: a manager that is none, vectors that are no dictionary raise ValueError; a number of clusters that is no number raises TypeError; a float is let through; arguments of the documented types give the typed call. *)
Theorem C116_cluster_checks_partial :
  forall (vec D : Type) (flt : D -> Z -> bool),
  (forall `(EqB D) pairwise ltb dsum mean shuffle set_order p,
     let call := KMeans.cluster vec D pairwise ltb dsum mean shuffle set_order p in
     checks_number flt eq (with_number vec D flt nothing call) call) /\
  (forall `(EqB D) pairwise cdistance ltb dsum ddiv inf mean linkage,
     let call := Hierarchical.cluster vec D pairwise cdistance ltb dsum ddiv inf mean linkage in
     checks_number flt (fun s s' => h_root vec s = h_root vec s' /\ h_predicted vec s = h_predicted vec s')
       (with_number vec D flt (keep_ids vec) call) call) /\
  (forall o flatten limit order first sample shuffle p,
     let call := Mpckmeans.cluster vec D o flatten limit order first sample shuffle p in
     checks_number flt eq (with_number vec D flt nothing call) call) /\
  (forall kernel zero one solver,
     let call := Spectral.cluster vec D kernel zero one solver in
     checks_number flt eq (with_number vec D flt nothing call) call) /\
  (forall o similarity p,
     let call := Affinity.cluster vec D o similarity p in
     checks_none eq (without_number vec D nothing call) call) /\
  (forall pairwise leb ltb of_nat setlist p,
     let call := Dbscan.cluster vec D pairwise leb ltb of_nat setlist p in
     checks_none eq (without_number vec D nothing call) call).
Proof. exact C116_cluster_checks_partial_proof. Qed.
Print Assumptions C116_cluster_checks_partial.

(** With two clusters asked for, the vectors in the place of the manager, the manager in the place of the vectors, and the text "2". *)
Example C116_cluster_checks_ex :
  let call := fun (m : mgr) (d : dict pystr Z) (nb : option Z) (s : unit) => (s, Ok (map (fun x => (x, 0%Z)) (keys d))) in
  let any := with_number Z Z Z.ltb nothing call in
  let m := VManager Z Z m0 in let d := VVectors Z Z [(A, 1); (B, 2)]%Z in
  any m d (VInt _ _ 2%Z) tt = Some (tt, Ok [(A, 0); (B, 0)]%Z) /\
  any d m (VInt _ _ 2%Z) tt = Some (tt, Raise ValueError) /\
  any m m (VInt _ _ 2%Z) tt = Some (tt, Raise ValueError) /\
  any m d (VBool _ _ true) tt = Some (tt, Raise ValueError) /\
  any m d (VStr _ _ (str "2")) tt = Some (tt, Raise TypeError) /\
  any m d (VFloat _ _ 3%Z) tt = None.
Proof. vm_compute. repeat split; reflexivity. Qed.

(** C116, the constructors: arguments of the documented types give the typed constructor; the only exceptions are ValueError, and TypeError when an argument that is compared with a number is none. *)
Theorem C116_constructor_checks_partial :
  forall (vec D : Type) (flt fle : D -> Z -> bool) (of_Z : Z -> D) (leb ltb : D -> D -> bool) (zero : D) (o : Mpckmeans.ops D),
    (forall d, flt d 0%Z = ltb d zero) -> (forall d, fle d 0%Z = leb d zero) ->
    o_ltb D o = ltb -> o_of_nat D o 0 = zero ->
    (forall model i z t, integer i z -> any_kmeans vec D flt of_Z (VStr _ _ model) i (VFloat _ _ t) = given (make_kmeans D ltb zero model z t)) /\
    (forall model i z w, integer i z -> any_mpckmeans vec D flt of_Z (VStr _ _ model) i (VFloat _ _ w) = given (make_mpckmeans D o model z w)) /\
    (forall i z c z' b, integer i z -> integer c z' -> any_affinity vec D flt i c (VBool _ _ b) = given (make_affinity z z' b)) /\
    (forall eps n z, integer n z -> any_dbscan vec D fle of_Z (VFloat _ _ eps) n = given (make_dbscan D leb (fun _ => zero) eps z)) /\
    (forall l, any_hierarchical vec D (VStr _ _ l) = given (make_hierarchical l)) /\
    (forall model n z, integer n z -> any_spectral vec D flt (VStr _ _ model) n = (_ <-- make_spectral model (Some z) ;;; Ok (Some (Some z)))) /\
    (forall model, any_spectral vec D flt (VStr _ _ model) (VNone _ _) = (_ <-- make_spectral model None ;;; Ok (Some None))) /\
    (forall model i t e, any_kmeans vec D flt of_Z model i t = Raise e -> e = ValueError \/ (e = TypeError /\ (~ number i \/ ~ number t))) /\
    (forall model i w e, any_mpckmeans vec D flt of_Z model i w = Raise e -> e = ValueError \/ (e = TypeError /\ (~ number i \/ ~ number w))) /\
    (forall i c b e, any_affinity vec D flt i c b = Raise e -> e = ValueError \/ (e = TypeError /\ (~ number i \/ ~ number c))) /\
    (forall eps n e, any_dbscan vec D fle of_Z eps n = Raise e -> e = ValueError \/ (e = TypeError /\ (~ number eps \/ ~ number n))) /\
    (forall l, ~ string l -> any_hierarchical vec D l = Raise ValueError /\ ~ no_key l \/ any_hierarchical vec D l = Raise TypeError /\ no_key l) /\
    (forall model n e, any_spectral vec D flt model n = Raise e -> e = ValueError \/ (e = TypeError /\ ~ number n)) /\
    (forall model i t, ~ string model -> any_kmeans vec D flt of_Z model i t = Raise ValueError /\ any_mpckmeans vec D flt of_Z model i t = Raise ValueError /\ any_spectral vec D flt model i = Raise ValueError).
Proof. exact C116_constructor_checks_partial_proof. Qed.
Print Assumptions C116_constructor_checks_partial.

Example C116_constructor_checks_ex :
  any_kmeans Z Z Z.ltb id (VStr _ _ (str "COP")) (VBool _ _ true) (VFloat _ _ 0%Z) = Ok (Some (mkKParams Z 1 0%Z)) /\
  any_kmeans Z Z Z.ltb id (VStr _ _ (str "COP")) (VNone _ _) (VFloat _ _ 0%Z) = Raise TypeError /\
  any_kmeans Z Z Z.ltb id (VList _ _) (VNone _ _) (VFloat _ _ 0%Z) = Raise ValueError /\
  any_hierarchical Z Z (VNone _ _) = Raise ValueError /\ any_hierarchical Z Z (VList _ _) = Raise TypeError /\
  any_affinity Z Z Z.ltb (VInt _ _ 3%Z) (VFloat _ _ 2%Z) (VBool _ _ true) = Ok None.
Proof. vm_compute. repeat split; reflexivity. Qed.

(** C116, the sampler: its constructor gives options of the right types or raises, TypeError only for a restriction that cannot be hashed; sample raises ValueError for a manager or a number of a wrong type, and is the typed call for the documented types. *)
Theorem C116_sampler_checks_partial :
  forall (vec D : Type) pairwise ltb draw,
    let opt := fun o => match o with Some s => VStr vec D s | None => VNone vec D end in
    let clusters := fun o => match o with Some d => VClusters vec D d | None => VNone vec D end in
    let vectors := fun o => match o with Some d => VVectors vec D d | None => VNone vec D end in
    (forall c d a i, any_sampler vec D (opt c) (opt d) (VBool _ _ a) (VBool _ _ i) = make_options c d a i) /\
    (forall c d a i e, any_sampler vec D c d a i = Raise e -> e = ValueError \/ (e = TypeError /\ (no_key c \/ no_key d))) /\
    (forall c d a i, ~ boolean a \/ ~ boolean i -> forall r, any_sampler vec D c d a i <> Ok r) /\
    (forall m nb z c v o s, integer nb z ->
       any_sample vec D pairwise ltb draw o (VManager _ _ m) nb (clusters c) (vectors v) s =
       Some (let (w, r) := sample vec D pairwise ltb draw o z c v (s, m) in (fst w, r))) /\
    (forall cm nb c v o s, (~ manager cm \/ ~ exists z, integer nb z) -> any_sample vec D pairwise ltb draw o cm nb c v s = Some (s, Raise ValueError)).
Proof. exact C116_sampler_checks_partial_proof. Qed.
Print Assumptions C116_sampler_checks_partial.

Example C116_sampler_checks_ex :
  any_sampler Z Z (VNone _ _) (VStr _ _ CLOSEST) (VBool _ _ true) (VInt _ _ 0%Z) = Raise ValueError /\
  any_sampler Z Z (VList _ _) (VStr _ _ CLOSEST) (VBool _ _ true) (VInt _ _ 0%Z) = Raise TypeError /\
  any_sample Z Z (fun _ _ _ => 0%Z) Z.ltb (fun l n => firstn n l) (mkOptions None None true true) (VManager _ _ m0) (VBool _ _ true) (VNone _ _) (VNone _ _) (fresh_sampler Z Z) = Some (fresh_sampler Z Z, Ok [(A, B)]) /\
  any_sample Z Z (fun _ _ _ => 0%Z) Z.ltb (fun l n => firstn n l) (mkOptions None None true true) (VManager _ _ m0) (VFloat _ _ 1%Z) (VNone _ _) (VNone _ _) (fresh_sampler Z Z) = Some (fresh_sampler Z Z, Raise ValueError).
Proof. vm_compute. repeat split; reflexivity. Qed.

(** C116, the manager: on strings the calls are the typed calls; a value of another type in place of a managed ID or a type of constraint raises, and nothing changes: TypeError when it cannot be hashed, ValueError otherwise. *)
Theorem C116_manager_checks_partial :
  forall (vec D : Type) m, reachable m ->
    (forall a, any_delete_data_ID vec D (VStr _ _ a) m = delete_data_ID a m) /\
    (forall a b t, any_add_constraint vec D (VStr _ _ a) (VStr _ _ b) (VStr _ _ t) m = add_constraint a b t 1%Q m) /\
    (forall a b, any_delete_constraint vec D (VStr _ _ a) (VStr _ _ b) m = delete_constraint a b m) /\
    (forall a b, any_get_added vec D (VStr _ _ a) (VStr _ _ b) m = get_added_constraint a b m) /\
    (forall a b, any_get_inferred vec D (VStr _ _ a) (VStr _ _ b) m = get_inferred_constraint a b m) /\
    (forall a b t, any_conflict vec D (VStr _ _ a) (VStr _ _ b) (VStr _ _ t) m = get_list_of_involved_data_IDs_in_a_constraint_conflict a b t m) /\
    (forall v, ~ string v -> exists e, (e = TypeError <-> no_key v) /\ (e = ValueError <-> ~ no_key v) /\
       any_delete_data_ID vec D v m = (m, Raise e) /\
       (forall w, any_delete_constraint vec D v w m = (m, Raise e) /\ any_get_added vec D v w m = (m, Raise e) /\ any_get_inferred vec D v w m = (m, Raise e)) /\
       (forall w t, any_add_constraint vec D v w t m = (m, Raise e) /\ any_conflict vec D v w t m = (m, Raise e)) /\
       (forall a, managed m a ->
          any_delete_constraint vec D (VStr _ _ a) v m = (m, Raise e) /\ any_get_added vec D (VStr _ _ a) v m = (m, Raise e) /\ any_get_inferred vec D (VStr _ _ a) v m = (m, Raise e)) /\
       (forall a b, managed m a -> managed m b ->
          any_add_constraint vec D (VStr _ _ a) (VStr _ _ b) v m = (m, Raise e) /\ any_conflict vec D (VStr _ _ a) (VStr _ _ b) v m = (m, Raise e))).
Proof. exact C116_manager_checks_partial_proof. Qed.
Print Assumptions C116_manager_checks_partial.

Example C116_manager_checks_ex : reachable m0 /\ managed m0 A /\
  any_add_constraint Z Z (VStr _ _ A) (VInt _ _ 1%Z) (VStr _ _ MUST_LINK) m0 = (m0, Raise ValueError) /\
  any_add_constraint Z Z (VStr _ _ A) (VStr _ _ B) (VList _ _) m0 = (m0, Raise TypeError).
Proof. split; [apply run_reachable|]. split; [eexists; split; [reflexivity|simpl; auto]|]. split; reflexivity. Qed.

(** C116, the factories: a name is looked up as in the typed model; another value raises ValueError, or TypeError when it cannot be hashed (for managing_factory always ValueError). *)
Theorem C116_factory_checks_partial :
  forall (vec D : Type) leb ltb zero half tolerance one o,
    (forall l n, any_managing_factory vec D l (VStr _ _ n) = managing_factory l (Some n)) /\
    (forall n k, any_sampling_factory vec D (VStr _ _ n) k = sampling_factory n k) /\
    (forall n k, any_clustering_factory vec D leb ltb zero half tolerance one o (VStr _ _ n) k = clustering_factory D leb ltb zero half tolerance one o (Some n) k) /\
    (forall v, ~ string v -> (forall l, any_managing_factory vec D l v = Raise ValueError) /\
       exists e, (e = TypeError <-> no_key v) /\ (e = ValueError <-> ~ no_key v) /\
         (forall k, any_sampling_factory vec D v k = Raise e) /\
         (forall k, any_clustering_factory vec D leb ltb zero half tolerance one o v k = Raise e)).
Proof. exact C116_factory_checks_partial_proof. Qed.
Print Assumptions C116_factory_checks_partial.

Example C116_factory_checks_ex : any_sampling_factory Z Z (VNone _ _) no_sampling_kargs = Raise ValueError /\ any_sampling_factory Z Z (VList _ _) no_sampling_kargs = Raise TypeError.
Proof. split; reflexivity. Qed.

(** C116, refuted for numbers: each of the four classes that need a number of clusters raises TypeError, not the documented ValueError, for every text in place of the number, even the text of a number; and lets floats through. *)
Theorem C116_text_number_refuted :
  forall (vec D : Type) (flt : D -> Z -> bool) m d t,
    (forall `(EqB D) pairwise ltb dsum mean shuffle set_order p s,
       exists s', with_number vec D flt nothing (KMeans.cluster vec D pairwise ltb dsum mean shuffle set_order p) (VManager _ _ m) (VVectors _ _ d) (VStr _ _ t) s = Some (s', Raise TypeError)) /\
    (forall `(EqB D) pairwise cdistance ltb dsum ddiv inf mean linkage s,
       exists s', with_number vec D flt (keep_ids vec) (Hierarchical.cluster vec D pairwise cdistance ltb dsum ddiv inf mean linkage) (VManager _ _ m) (VVectors _ _ d) (VStr _ _ t) s = Some (s', Raise TypeError)) /\
    (forall o flatten limit order first sample shuffle p s,
       exists s', with_number vec D flt nothing (Mpckmeans.cluster vec D o flatten limit order first sample shuffle p) (VManager _ _ m) (VVectors _ _ d) (VStr _ _ t) s = Some (s', Raise TypeError)) /\
    (forall kernel zero one solver s,
       exists s', with_number vec D flt nothing (Spectral.cluster vec D kernel zero one solver) (VManager _ _ m) (VVectors _ _ d) (VStr _ _ t) s = Some (s', Raise TypeError)).
Proof. exact C116_text_number_refuted_proof. Qed.
Print Assumptions C116_text_number_refuted.

(** C116, refuted for data IDs: adding a value that is no string to a manager of strings raises TypeError and leaves the value behind among the managed IDs. *)
Theorem C116_half_added_refuted :
  forall (vec D : Type) m x v, managed m x -> ~ string v -> ~ no_key v ->
    exists m' left_behind e, any_add_data_ID vec D v m = Some (m', left_behind, Raise e) /\ e = TypeError /\
      any_managed_IDs vec D m None <> any_managed_IDs vec D m' left_behind /\ In v (any_managed_IDs vec D m' left_behind).
Proof. exact C116_half_added_refuted_proof. Qed.
Print Assumptions C116_half_added_refuted.

Example C116_half_added_ex : any_add_data_ID Z Z (VInt _ _ 5%Z) m0 = Some (m0, Some (VInt _ _ 5%Z), Raise TypeError).
Proof. reflexivity. Qed.
