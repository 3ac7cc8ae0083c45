(** * Exact numbers for the examples: integers and minus infinity. *)

From Coq Require Import String List Bool Arith ZArith QArith Lia.
From Verif Require Import Base Manager Spec ManagerThms SamplingSpec Affinity AffinitySpec.
Import ListNotations.
Open Scope nat_scope.
Open Scope py_scope.

Definition num := option Z.                                  (* None is minus infinity *)
Definition nle (x y : num) : Prop := match x, y with None, _ => True | Some x, Some y => (x <= y)%Z | Some _, None => False end.
Definition nleb (x y : num) : bool := match x, y with None, _ => true | Some x, Some y => (x <=? y)%Z | Some _, None => false end.
Definition nfin (x : num) : Prop := x <> None.
Definition nadd (x y : num) : num := match x, y with Some x, Some y => Some (x + y)%Z | _, _ => None end.
Definition nneg (x : num) : num := option_map Z.opp x.
Definition nmax2 (x y : num) : num := if nleb x y then y else x.
Fixpoint nmax (l : list num) : num := match l with [] => None | [x] => x | x :: l => nmax2 x (nmax l) end.
Fixpoint nargmax_from (best k : nat) (v : num) (l : list num) : nat :=
  match l with [] => best | x :: l => if nleb x v then nargmax_from best (S k) v l else nargmax_from k (S k) x l end.
Definition nargmax (l : list num) : nat := match l with [] => 0 | x :: l => nargmax_from 0 1 x l end.
Definition ints (l : list num) : list Z := flat_map (fun x => match x with Some z => [z] | None => [] end) l.
Fixpoint insert (x : Z) (l : list Z) : list Z := match l with [] => [x] | y :: l' => if (x <=? y)%Z then x :: l else y :: insert x l' end.
Definition nmedian (l : list num) : num :=
  let s := fold_right insert [] (ints l) in Some ((nth ((length s - 1) / 2) s 0 + nth (length s / 2) s 0) / 2)%Z.
Definition nmin (l : list num) : num := Some (fold_right Z.min 0%Z (ints l)).
Definition half (x : num) : num := option_map (fun z => Z.quot z 2) x.

Definition exact_ops : ops num := mkOps num (Some 0%Z) None nadd (fun x y => nadd x (nneg y)) nneg nmax2 nmax nmax nmin nargmax (fold_right nadd (Some 0%Z))
  (fun x => match x with Some z => (0 <? z)%Z | None => false end) (fun x y => nleb y x)
  (fun x y => nleb x y && nleb y x) nmedian (option_map (Z.mul 2)) half half (fun i j x => nadd x (Some (Z.of_nat (7 * i + 3 * j)))).

Lemma nleb_spec x y : nleb x y = true <-> nle x y.
Proof. destruct x as [x|], y as [y|]; cbn; try apply Z.leb_le; split; auto; discriminate || tauto. Qed.
Lemma nle_total x y : nleb x y = false -> nle y x.
Proof. destruct x as [x|], y as [y|]; cbn; auto; try discriminate. rewrite Z.leb_gt. lia. Qed.
Lemma nle_trans x y z : nle x y -> nle y z -> nle x z.
Proof. destruct x, y, z; cbn; auto; try tauto. lia. Qed.
Lemma nle_refl x : nle x x.
Proof. destruct x; cbn; auto. lia. Qed.
Lemma nle_antisym x y : nle x y -> nle y x -> x = y.
Proof. destruct x as [x|], y as [y|]; cbn; auto; try tauto. intros. f_equal. lia. Qed.

Lemma nmax2_spec x y : (nmax2 x y = x \/ nmax2 x y = y) /\ nle x (nmax2 x y) /\ nle y (nmax2 x y).
Proof.
  unfold nmax2. destruct (nleb x y) eqn:E.
  - apply nleb_spec in E. split; auto. split; auto. apply nle_refl.
  - apply nle_total in E. split; auto. split; auto. apply nle_refl.
Qed.
Lemma nmax_spec l : l <> [] -> In (nmax l) l /\ forall x, In x l -> nle x (nmax l).
Proof.
  induction l as [|x l IH]; intro NE; [congruence|]. destruct l as [|y l].
  - cbn. split; auto. intros z [->|[]]. apply nle_refl.
  - change (nmax (x :: y :: l)) with (nmax2 x (nmax (y :: l))). destruct (IH ltac:(discriminate)) as [J M].
    destruct (nmax2_spec x (nmax (y :: l))) as (Q & L1 & L2). split.
    + destruct Q as [-> | ->]; [left; auto|right; auto].
    + intros z [->|Z0]; auto. eapply nle_trans; eauto.
Qed.
Lemma nargmax_from_spec l : forall pre best v, nth_error pre best = Some v -> (forall y, In y pre -> nle y v) ->
  (forall i, i < best -> nth_error pre i <> Some v) ->
  exists x, nth_error (pre ++ l) (nargmax_from best (length pre) v l) = Some x /\ (forall y, In y (pre ++ l) -> nle y x) /\
    forall i, i < nargmax_from best (length pre) v l -> nth_error (pre ++ l) i <> Some x.
Proof.
  induction l as [|x l IH]; intros pre best v E B F; cbn [nargmax_from].
  - rewrite app_nil_r. eauto.
  - assert (Lb : best < length pre) by (apply nth_error_Some; congruence).
    destruct (nleb x v) eqn:L.
    + apply nleb_spec in L. specialize (IH (pre ++ [x]) best v). rewrite app_length, <- app_assoc in IH. cbn [app length] in IH.
      replace (length pre + 1) with (S (length pre)) in IH by lia. apply IH.
      * rewrite nth_error_app1; auto.
      * intros y Y. apply in_app_or in Y as [Y|[<-|[]]]; auto.
      * intros i I. rewrite nth_error_app1 by lia. auto.
    + specialize (IH (pre ++ [x]) (length pre) x). rewrite app_length, <- app_assoc in IH. cbn [app length] in IH.
      replace (length pre + 1) with (S (length pre)) in IH by lia. apply IH.
      * rewrite nth_error_app2, Nat.sub_diag; auto.
      * intros y Y. apply in_app_or in Y as [Y|[<-|[]]]; [|apply nle_refl]. eapply nle_trans; [apply B; auto|]. apply nle_total; auto.
      * intros i I Q. rewrite nth_error_app1 in Q by lia. apply nth_error_In in Q. apply B in Q. apply nleb_spec in Q. congruence.
Qed.

Theorem exact_ops_exact : exact exact_ops nfin nle.
Proof.
  constructor; cbn [exact_ops o_zero o_ninf o_add o_sub o_neg o_max2 o_pymax o_max o_min o_argmax o_sum o_median o_double o_keep o_new].
  - discriminate.
  - intros [x|] [y|]; cbn; unfold nfin; congruence.
  - intros [x|]; cbn; unfold nfin; congruence.
  - auto.
  - intros [x|] [y|]; cbn; auto. f_equal. lia.
  - intros [x|] [y|] [z|]; cbn; auto. intros. f_equal. lia.
  - intros [x|]; cbn; auto. f_equal. lia.
  - intros [x|] F; [cbn; f_equal; lia|]. exfalso. apply F. auto.
  - apply nle_refl.
  - apply nle_trans.
  - apply nle_antisym.
  - intro; exact Logic.I.
  - intro F. apply F. auto.
  - intros [x|] [y|] [z|]; cbn; auto. intros. lia.
  - apply nmax2_spec.
  - apply nmax_spec.
  - intros l NE. destruct l as [|x l]; [congruence|]. unfold nargmax. apply (nargmax_from_spec l [x] 0 x).
    + auto.
    + intros y [<-|[]]. apply nle_refl.
    + intros; lia.
  - apply nmax_spec.
  - discriminate.
  - discriminate.
  - auto.
  - auto.
  - intros [x|] F; cbn; [discriminate|]. exfalso. apply F; auto.
  - intros [x|] F; cbn; [discriminate|]. exfalso. apply F; auto.
  - intros [x|] F; cbn; auto. f_equal. apply Z.quot_opp_l. lia.
Qed.

(** Points on a line; similarities are fixed-point numbers. *)
Definition line (X : list Z) (i j : nat) : num := Some (- 1000000 * Z.abs (nth i X 0 - nth j X 0))%Z.
Definition A := str "a". Definition B := str "b". Definition C := str "c". Definition E := str "d". Definition F := str "e".
Definition ex : mgr := run [CallAddConstraint A C MUST_LINK 1%Q; CallAddConstraint A B CANNOT_LINK 1%Q] (init [A; B; C; E; F]).
Definition vecs : dict pystr Z := [(E, 112); (A, 0); (B, 1); (C, 3); (F, 110)]%Z.
Definition affinity_Z p m v nb := result (cluster Z num exact_ops line p m v nb) None.
Definition params absolute := mkAPParams 150 10 absolute.
