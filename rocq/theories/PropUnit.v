(** Generated from UnitThms.v by tools/gen_props.py: theorem statements,
    each closed by the lemma of the same name proved there. *)

From Coq Require Import String List Bool Arith ZArith QArith Permutation Lia.
From Verif Require Import Base Manager Spec ManagerThms SamplingSpec ClusterSpec Sampling KMeans Hierarchical Dbscan UnitSpec UnitThms.
Import ListNotations.
Open Scope nat_scope.

(** An instance for the examples: points on a line, natural numbers as distances; the other
    unit is the square, or thousandths. *)
Definition far (x y : Z) : nat := Z.abs_nat (x - y).
Definition pw (X : list Z) (i j : nat) : nat := far (nth i X 0%Z) (nth j X 0%Z).
Definition square (d : nat) : nat := d * d.
Definition milli (d : nat) : nat := 1000 * d.
Definition first (l : list Z) : Z := nth 0 l 0%Z.
Definition hier (unit : nat -> nat) := Hierarchical.cluster Z nat (fun X i j => unit (pw X i j)) (fun x y => unit (far x y))
  Nat.ltb (fold_right Nat.add 0) Nat.div (unit 1000) first.
Definition A := str "a". Definition B := str "b". Definition C := str "c". Definition E := str "d".
Definition four : mgr := init [A; B; C; E].
Definition places : dict pystr Z := [(A, 0); (B, 4); (C, 14); (E, 27)]%Z.
Lemma square_increasing : increasing Nat.ltb Nat.ltb square.
Proof. exact square_increasing. Qed.
Lemma milli_increasing : increasing Nat.ltb Nat.ltb milli.
Proof. exact milli_increasing. Qed.

(** C120 (hierarchical clustering): with average, complete or single linkage, two distances that compare alike lead to the same tree, the same clusters and the same errors, whatever the object did before. *)
Theorem C120_hierarchical_order :
  forall (vec D D' : Type) (eqD : EqB D) (eqD' : EqB D') (f : D -> D') ltb ltb' pairwise pairwise' cdistance cdistance' dsum dsum' ddiv ddiv' inf
    (mean : list vec -> vec) linkage m vectors nb s,
    increasing ltb ltb' f ->
    (forall rows i j, pairwise' rows i j = f (pairwise rows i j)) -> (forall u v, cdistance' u v = f (cdistance u v)) ->
    In linkage [str "average"; str "complete"; str "single"] ->
    Hierarchical.cluster vec D' pairwise' cdistance' ltb' dsum' ddiv' (f inf) mean linkage m vectors nb s =
    Hierarchical.cluster vec D pairwise cdistance ltb dsum ddiv inf mean linkage m vectors nb s.
Proof. exact C120_hierarchical_order_proof. Qed.
Print Assumptions C120_hierarchical_order.

(** Complete linkage does not see the difference between distances and their squares; "ward" does. *)
Example C120_hierarchical_order_ex :
  result (hier (fun d => d) (str "complete") four places (Some 2%Z)) (fresh_hier Z) = Ok [(A, 0); (B, 0); (C, 1); (E, 1)]%Z /\
  result (hier square (str "complete") four places (Some 2%Z)) (fresh_hier Z) = Ok [(A, 0); (B, 0); (C, 1); (E, 1)]%Z /\
  result (hier (fun d => d) (str "ward") four places (Some 2%Z)) (fresh_hier Z) = Ok [(A, 0); (B, 0); (C, 1); (E, 1)]%Z /\
  result (hier square (str "ward") four places (Some 2%Z)) (fresh_hier Z) = Ok [(A, 0); (B, 0); (C, 0); (E, 1)]%Z.
Proof. vm_compute. auto. Qed.

(** C120 (sampling): two distances that compare alike lead to the same sample, the same errors and the same objects, up to the distances that the sampler remembers. *)
Theorem C120_sampling_order :
  forall (vec D D' : Type) (f : D -> D') ltb ltb' pairwise pairwise' draw o nb clustering (vectors : option (dict pystr vec)) s m,
    increasing ltb ltb' f -> (forall rows i j, pairwise' rows i j = f (pairwise rows i j)) ->
    let run := sample vec D pairwise ltb draw o nb clustering vectors (s, m) in
    sample vec D' pairwise' ltb' draw o nb clustering vectors (sampler_in_unit f s, m) =
      ((sampler_in_unit f (fst (fst run)), snd (fst run)), snd run).
Proof. exact C120_sampling_order_proof. Qed.
Print Assumptions C120_sampling_order.

(** The two farthest pairs, by distance and by square. *)
Example C120_sampling_order_ex :
  let o := mkOptions None (Some FARTHEST) false false in
  snd (sample Z nat pw Nat.ltb (fun l _ => l) o 2%Z None (Some places) (fresh_sampler Z nat, four)) = Ok [(A, E); (B, E)] /\
  snd (sample Z nat (fun X i j => square (pw X i j)) Nat.ltb (fun l _ => l) o 2%Z None (Some places) (fresh_sampler Z nat, four)) = Ok [(A, E); (B, E)].
Proof. vm_compute. auto. Qed.

(** C120 (units): when the other unit also agrees with sums and divisions, as thousandths do, every linkage and, with its tolerance in that unit, KMeans give the same results. *)
Theorem C120_units :
  forall (vec D D' : Type) (eqD : EqB D) (eqD' : EqB D') (f : D -> D') ltb ltb' dsum dsum' ddiv ddiv' (mean : list vec -> vec),
    increasing ltb ltb' f -> (forall l, dsum' (map f l) = f (dsum l)) -> (forall d n, ddiv' (f d) n = f (ddiv d n)) ->
    (forall pairwise pairwise' cdistance cdistance' inf linkage m vectors nb s,
       (forall rows i j, pairwise' rows i j = f (pairwise rows i j)) -> (forall u v, cdistance' u v = f (cdistance u v)) ->
       Hierarchical.cluster vec D' pairwise' cdistance' ltb' dsum' ddiv' (f inf) mean linkage m vectors nb s =
       Hierarchical.cluster vec D pairwise cdistance ltb dsum ddiv inf mean linkage m vectors nb s) /\
    (forall pairwise pairwise' shuffle set_order rounds tolerance m vectors nb s,
       (forall rows rows' i j, pairwise' rows rows' i j = f (pairwise rows rows' i j)) ->
       KMeans.cluster vec D' pairwise' ltb' dsum' mean shuffle set_order (mkKParams D' rounds (f tolerance)) m vectors nb s =
       KMeans.cluster vec D pairwise ltb dsum mean shuffle set_order (mkKParams D rounds tolerance) m vectors nb s).
Proof. exact C120_units_proof. Qed.
Print Assumptions C120_units.

(** Thousandths agree with sums and with exact divisions; squares do not agree with sums. *)
Example C120_units_ex :
  (forall l, fold_right Nat.add 0 (map milli l) = milli (fold_right Nat.add 0 l)) /\
  ~ (forall l, fold_right Nat.add 0 (map square l) = square (fold_right Nat.add 0 l)) /\
  result (hier milli (str "ward") four places (Some 2%Z)) (fresh_hier Z) =
  result (hier (fun d => d) (str "ward") four places (Some 2%Z)) (fresh_hier Z) /\
  let km (unit : nat -> nat) := result (KMeans.cluster Z nat (fun X Y i j => unit (far (nth i X 0%Z) (nth j Y 0%Z))) Nat.ltb (fold_right Nat.add 0) first
         (fun l => l) (nodup Z.eq_dec) (mkKParams nat 5 (unit 1)) four places (Some 2%Z)) (fresh_kmeans Z) in
  km (fun d => d) = Ok [(A, 0); (B, 1); (C, 1); (E, 1)]%Z /\ km milli = km (fun d => d).
Proof.
  split; [|split; [|split; [vm_compute; auto|vm_compute; auto]]].
  - intro l. induction l as [|x l IH]; cbn [map fold_right]; [reflexivity|]. rewrite IH. unfold milli. lia.
  - intro Q. specialize (Q [1; 1]). vm_compute in Q. discriminate.
Qed.

(** C121 (refuted): the same data, with distances and eps in metres and then in millimetres: two data share a cluster in the first case and are ignored in the second, because eps is compared with a number of data. *)
Theorem C121_unit_refuted :
  exists (pairwise : list Z -> nat -> nat -> Z) m vectors p p' d d' x y,
    reachable m /\ make_dbscan Z Z.leb Z.of_nat 1%Z 2%Z = Ok p /\ make_dbscan Z Z.leb Z.of_nat 1000%Z 2%Z = Ok p' /\
    result (cluster Z Z pairwise Z.leb Z.ltb Z.of_nat dedup p m vectors None) fresh_dbscan = Ok d /\
    result (cluster Z Z (fun X i j => 1000 * pairwise X i j)%Z Z.leb Z.ltb Z.of_nat dedup p' m vectors None) fresh_dbscan = Ok d' /\
    dget x d = Some 2%Z /\ dget y d = Some 2%Z /\ dget x d' = Some (-1)%Z /\ dget y d' = Some (-2)%Z.
Proof. exact C121_unit_refuted_proof. Qed.
Print Assumptions C121_unit_refuted.

(** C121 (partial): in the other unit the results, the errors and the object are the same, provided eps compares with the numbers up to that of the data as it did before (for instance when it is at most 1 in both units).  Missing: any other eps. *)
Theorem C121_unit_partial :
  forall (vec D D' : Type) (f : D -> D') ltb ltb' leb leb' of_nat of_nat' pairwise pairwise' setlist eps min_samples m (vectors : dict pystr vec) nb s l,
    increasing ltb ltb' f -> (forall a b, leb' (f a) (f b) = leb a b) ->
    (forall rows i j, pairwise' rows i j = f (pairwise rows i j)) ->
    ask get_list_of_managed_data_IDs m = Ok l ->
    (forall n, n <= length l -> leb' (f eps) (of_nat' n) = leb eps (of_nat n)) ->
    cluster vec D' pairwise' leb' ltb' of_nat' setlist (mkDBParams D' (f eps) min_samples) m vectors nb s =
    cluster vec D pairwise leb ltb of_nat setlist (mkDBParams D eps min_samples) m vectors nb s.
Proof. exact C121_unit_partial_proof. Qed.
Print Assumptions C121_unit_partial.

(** Six data, eps 1, distances and their squares: eps is 1 in both. *)
Example C121_unit_partial_ex :
  let names := [B; C; E; str "e"; A; str "aa"] in
  let near := combine names [5; 6; 7; 7; 0; 1]%Z in
  let found := Ok [(A, 0); (str "aa", 0); (B, 1); (C, 1); (E, 2); (str "e", 2)]%Z in
  (forall n, n <= 6 -> Nat.leb (square 1) n = Nat.leb 1 n) /\
  result (cluster Z nat pw Nat.leb Nat.ltb (fun n => n) dedup (mkDBParams nat 1 2) (init names) near None) fresh_dbscan = found /\
  result (cluster Z nat (fun X i j => square (pw X i j)) Nat.leb Nat.ltb (fun n => n) dedup (mkDBParams nat (square 1) 2) (init names) near None) fresh_dbscan = found.
Proof. split; [intros n _; reflexivity|]. split; vm_compute; reflexivity. Qed.
