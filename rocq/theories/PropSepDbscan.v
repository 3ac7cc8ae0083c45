(** Generated from SepDbscanThms.v by tools/gen_props.py: theorem statements,
    each closed by the lemma of the same name proved there. *)

From Coq Require Import String List Bool Arith ZArith QArith Permutation Lia Relations.
From Verif Require Import Base Manager Spec ManagerThms ManagerInv ManagerQueries SamplingSpec ClusterSpec ClusterProofs KMeansSpec Dbscan DbscanSpec DbscanThms SepDbscanThms.
Import ListNotations.
Open Scope nat_scope.
Open Scope py_scope.

(** DBScan finds the true clusters when eps separates them (two data are within eps of each other exactly when they are of one cluster), each has at
    least two data and at least min_samples, and the constraints are right. *)
Theorem C142_dbscan :
  forall vec D pairwise leb ltb of_nat setlist eps ms p m vectors nb s d e,
    valid_setlist setlist -> make_dbscan D leb of_nat eps ms = Ok p -> strict_weak_order ltb -> (forall x y, leb x y = negb (ltb y x)) ->
    (forall rows i, leb (pairwise rows i i) eps = true) -> reachable m -> ~ managed m (str "NONE") ->
    covers_exactly m e -> respects m e ->
    (forall x y, managed m x -> managed m y -> (within pairwise leb eps m vectors x y <-> dget x e = dget y e)) ->
    (forall x, managed m x -> exists ns, NoDup ns /\ 2 <= length ns /\ Z.to_nat ms <= length ns /\ forall z, In z ns -> managed m z /\ dget z e = dget x e) ->
    result (cluster vec D pairwise leb ltb of_nat setlist p m vectors nb) s = Ok d ->
    same_partition d e /\ forall x c, dget x d = Some c -> (0 <= c)%Z.
Proof. exact C142_dbscan_proof. Qed.
Print Assumptions C142_dbscan.

(** eps 2 on a line: two clusters, one of three data; "a" and "c" are told to be together and "a" and "e" apart. *)
Definition pw (X : list Z) (i j : nat) : Z := Z.abs (nth i X 0 - nth j X 0)%Z.
Definition A := str "a". Definition B := str "b". Definition C := str "c". Definition E := str "d". Definition F := str "e".
Definition told : mgr := run [CallAddConstraint A C MUST_LINK 1%Q; CallAddConstraint A F CANNOT_LINK 1%Q] (init [A; B; C; E; F]).
Definition points : dict pystr Z := [(A, 0); (B, 5); (C, 2); (E, 6); (F, 7)]%Z.
Definition truth : dict pystr Z := [(A, 4); (B, 9); (C, 4); (E, 9); (F, 9)]%Z.
Example C142_dbscan_ex :
  make_dbscan Z Z.leb Z.of_nat 2%Z 2%Z = Ok (mkDBParams Z 2%Z 2) /\ strict_weak_order Z.ltb /\ (forall x y, Z.leb x y = negb (Z.ltb y x)) /\
  (forall rows i, Z.leb (pw rows i i) 2 = true) /\ reachable told /\ ~ managed told (str "NONE") /\ covers_exactly told truth /\ respects told truth /\
  (forall x y, managed told x -> managed told y -> (within pw Z.leb 2%Z told points x y <-> dget x truth = dget y truth)) /\
  (forall x, managed told x -> exists ns, NoDup ns /\ 2 <= length ns /\ Z.to_nat 2 <= length ns /\ forall z, In z ns -> managed told z /\ dget z truth = dget x truth) /\
  result (cluster Z Z pw Z.leb Z.ltb Z.of_nat dedup (mkDBParams Z 2%Z 2) told points None) fresh_dbscan = Ok [(A, 0); (B, 1); (C, 0); (E, 1); (F, 1)]%Z.
Proof.
  split; [reflexivity|]. split; [split; [|split]; intros; rewrite ?Z.ltb_lt, ?Z.ltb_ge, ?Z.ltb_irrefl in *; try lia; auto|].
  split; [intros; rewrite Z.leb_antisym; auto|]. split; [intros; unfold pw; apply Z.leb_le; lia|]. split; [apply run_reachable|].
  assert (In5 : forall x, managed told x <-> In x [A; B; C; E; F]) by (intro x; rewrite managed_ids; reflexivity).
  split; [rewrite In5; simpl; intuition discriminate|]. split; [intro x; rewrite In5; reflexivity|]. split.
  { split; intros a b Ma Mb Q; apply In5 in Ma, Mb; simpl in Ma, Mb; repeat destruct Ma as [<-|Ma]; try tauto; repeat destruct Mb as [<-|Mb]; try tauto;
    vm_compute in Q; try discriminate; vm_compute; congruence. }
  split; [|split; [|vm_compute; reflexivity]].
  - assert (W : forall a b, In a [A; B; C; E; F] -> In b [A; B; C; E; F] -> within pw Z.leb 2%Z told points a b ->
      exists i j, nth_error [A; B; C; E; F] i = Some a /\ nth_error [A; B; C; E; F] j = Some b /\ (pw [0; 5; 2; 6; 7]%Z i j <= 2)%Z).
    { intros a b _ _ (l & (l1 & rows & i & j & El & Er & Ni & Nj & ->) & Hl). apply Z.leb_le in Hl. vm_compute in El. injection El as <-.
      assert (RW : forall r, map (fun x => dget x points) [A; B; C; E; F] = map Some r -> r = [0; 5; 2; 6; 7]%Z).
      { intros r Q. vm_compute in Q. repeat (destruct r as [|? r]; try discriminate Q). cbn in Q. injection Q. intros; subst; auto. }
      apply RW in Er as ->. exists i, j. auto. }
    assert (W' : forall i j a b, nth_error [A; B; C; E; F] i = Some a -> nth_error [A; B; C; E; F] j = Some b -> Z.leb (pw [0; 5; 2; 6; 7]%Z i j) 2 = true -> within pw Z.leb 2%Z told points a b).
    { intros i j a b Ni Nj L. eexists. split; [|exact L]. exists [A; B; C; E; F], [0; 5; 2; 6; 7]%Z, i, j. repeat split; auto. }
    intros x y Mx My. apply In5 in Mx, My. split.
    + intro Q. destruct (W x y Mx My Q) as (i & j & Ni & Nj & L).
      destruct i as [|[|[|[|[|i]]]]]; [injection Ni as <-|injection Ni as <-|injection Ni as <-|injection Ni as <-|injection Ni as <-|destruct i; discriminate Ni];
      (destruct j as [|[|[|[|[|j]]]]]; [injection Nj as <-|injection Nj as <-|injection Nj as <-|injection Nj as <-|injection Nj as <-|destruct j; discriminate Nj]);
      vm_compute in L; try (destruct L; reflexivity); reflexivity.
    + intro Q. destruct (In_nth_error _ _ Mx) as [i Ni], (In_nth_error _ _ My) as [j Nj]. apply (W' i j); auto.
      destruct i as [|[|[|[|[|i]]]]]; [injection Ni as <-|injection Ni as <-|injection Ni as <-|injection Ni as <-|injection Ni as <-|destruct i; discriminate Ni];
      (destruct j as [|[|[|[|[|j]]]]]; [injection Nj as <-|injection Nj as <-|injection Nj as <-|injection Nj as <-|injection Nj as <-|destruct j; discriminate Nj]);
      vm_compute in Q; try discriminate Q; reflexivity.
  - assert (L2 : forall a b, a <> b -> managed told a -> managed told b -> dget a truth = dget b truth -> exists ns, NoDup ns /\ 2 <= length ns /\ Z.to_nat 2 <= length ns /\ forall z, In z ns -> managed told z /\ dget z truth = dget a truth).
    { intros a b NE Ma Mb Q. exists [a; b]. split; [constructor; [simpl; intuition congruence|constructor; [simpl; tauto|constructor]]|]. split; [simpl; lia|]. split; [simpl; lia|].
      intros z [<-|[<-|[]]]; auto. }
    intros x Mx. apply In5 in Mx. simpl in Mx. destruct Mx as [<-|[<-|[<-|[<-|[<-|[]]]]]];
      [apply (L2 A C)|apply (L2 B E)|apply (L2 C A)|apply (L2 E F)|apply (L2 F E)]; try discriminate; try reflexivity; apply In5; simpl; tauto.
Qed.
