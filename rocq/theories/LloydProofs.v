(** * Sums of squared distances. *)

From Coq Require Import String List Bool Arith ZArith QArith Lia Lqa.
From Verif Require Import Base LloydSpec.
Import ListNotations.
Open Scope nat_scope.

Lemma sumQ_app a b : (sumQ (a ++ b) == sumQ a + sumQ b)%Q.
Proof. induction a as [|x a IH]; simpl; [ring|]. rewrite IH. ring. Qed.

Lemma sumQ_le {A} (f g : A -> Q) l : (forall x, In x l -> (f x <= g x)%Q) -> (sumQ (map f l) <= sumQ (map g l))%Q.
Proof.
  induction l as [|x l IH]; intro L; simpl; [apply Qle_refl|].
  apply Qplus_le_compat; [apply L; left; auto|apply IH; intros; apply L; right; auto].
Qed.
Lemma sumQ_ext {A} (f g : A -> Q) l : (forall x, In x l -> (f x == g x)%Q) -> (sumQ (map f l) == sumQ (map g l))%Q.
Proof.
  intro L. apply Qle_antisym; apply sumQ_le; intros x X; rewrite (L x X); apply Qle_refl.
Qed.
Lemma sumQ_plus {A} (f g : A -> Q) l : (sumQ (map (fun x => f x + g x) l) == sumQ (map f l) + sumQ (map g l))%Q.
Proof. induction l as [|x l IH]; simpl; [ring|]. rewrite IH. ring. Qed.
Lemma sumQ_zero {A} (l : list A) : (sumQ (map (fun _ => 0) l) == 0)%Q.
Proof. induction l as [|x l IH]; simpl; [ring|]. rewrite IH. ring. Qed.
Lemma sumQ_swap {A B} (f : A -> B -> Q) la lb :
  (sumQ (map (fun a => sumQ (map (f a) lb)) la) == sumQ (map (fun b => sumQ (map (fun a => f a b) la)) lb))%Q.
Proof.
  induction la as [|a la IH]; simpl; [rewrite sumQ_zero; reflexivity|].
  rewrite IH, <- sumQ_plus. reflexivity.
Qed.
Lemma sumQ_split {A} (f : A -> Q) (t : A -> bool) l :
  (sumQ (map f l) == sumQ (map f (filter t l)) + sumQ (map f (filter (fun x => negb (t x)) l)))%Q.
Proof. induction l as [|x l IH]; simpl; [ring|]. destruct (t x); simpl; rewrite IH; ring. Qed.

(** Comparing group by group. *)
Lemma sumQ_groups {A} (lab : A -> Z) (f g : A -> Q) : forall k l, length l <= k ->
  (forall c, sumQ (map f (filter (fun x => Z.eqb (lab x) c) l)) <= sumQ (map g (filter (fun x => Z.eqb (lab x) c) l)))%Q ->
  (sumQ (map f l) <= sumQ (map g l))%Q.
Proof.
  induction k as [|k IH]; intros l Lk G.
  { destruct l; [apply Qle_refl|simpl in Lk; lia]. }
  destruct l as [|x l]; [apply Qle_refl|]. set (t := fun y => Z.eqb (lab y) (lab x)).
  rewrite (sumQ_split f t (x :: l)), (sumQ_split g t (x :: l)). apply Qplus_le_compat; [apply G|].
  apply IH.
  - simpl. unfold t at 1. rewrite Z.eqb_refl. simpl. assert (Z : forall (q : A -> bool) l0, length (filter q l0) <= length l0).
    { clear. intros q l0. induction l0 as [|y l0 IHl]; simpl; auto. destruct (q y); simpl; lia. }
    specialize (Z (fun y => negb (t y)) l). simpl in Lk. lia.
  - intro c. assert (FF : forall (p q : A -> bool) l, filter p (filter q l) = filter (fun x => q x && p x) l).
    { clear. intros p q l. induction l as [|y l IH]; simpl; auto. destruct (q y); simpl; [destruct (p y); rewrite IH; auto|auto]. }
    rewrite !FF. destruct (Z.eqb_spec c (lab x)) as [->|N].
    + assert (E : filter (fun x0 => negb (t x0) && (lab x0 =? lab x)%Z) (x :: l) = []).
      { generalize (x :: l) as l0. induction l0 as [|y l0 IHl]; simpl; auto. unfold t at 1. destruct (Z.eqb_spec (lab y) (lab x)); simpl; auto. }
      rewrite E. apply Qle_refl.
    + assert (E : filter (fun x0 => negb (t x0) && (lab x0 =? c)%Z) (x :: l) = filter (fun x0 => (lab x0 =? c)%Z) (x :: l)).
      { apply filter_ext. intro y. unfold t. destruct (Z.eqb_spec (lab y) c), (Z.eqb_spec (lab y) (lab x)); simpl; auto; congruence. }
      rewrite E. apply G.
Qed.

(** ** The centre minimises the sum of squared distances. *)
Lemma squares w : forall l : list Q,
  (sumQ (map (fun x => (x - w) * (x - w)) l) ==
   sumQ (map (fun x => x * x) l) - (2#1) * w * sumQ l + inject_Z (Z.of_nat (length l)) * (w * w))%Q.
Proof.
  induction l as [|x l IH]; [simpl; ring|]. simpl length. rewrite Nat2Z.inj_succ. unfold Z.succ. rewrite inject_Z_plus.
  simpl map. simpl sumQ. rewrite IH. change (inject_Z 1) with 1%Q. ring.
Qed.

Lemma mean_best w l mu : l <> [] -> (mu == sumQ l / inject_Z (Z.of_nat (length l)))%Q ->
  (sumQ (map (fun x => (x - mu) * (x - mu)) l) <= sumQ (map (fun x => (x - w) * (x - w)) l))%Q.
Proof.
  intros NE E. rewrite !squares. set (k := inject_Z (Z.of_nat (length l))) in *.
  assert (K : (0 < k)%Q).
  { unfold k. change 0%Q with (inject_Z 0). rewrite <- Zlt_Qlt. destruct l; [congruence|simpl; lia]. }
  assert (S : (sumQ l == k * mu)%Q).
  { rewrite E. field. intro X. rewrite X in K. apply Qlt_irrefl in K. auto. }
  rewrite S. apply Qle_minus_iff.
  setoid_replace (sumQ (map (fun x => x * x) l) - (2 # 1) * w * (k * mu) + k * (w * w) +
     - (sumQ (map (fun x => x * x) l) - (2 # 1) * mu * (k * mu) + k * (mu * mu)))%Q with (k * ((w - mu) * (w - mu)))%Q by ring.
  apply Qmult_le_0_compat; [apply Qlt_le_weak; auto|].
  generalize (w - mu)%Q as x. intro x. destruct (Qlt_le_dec x 0) as [L|L].
  - setoid_replace (x * x)%Q with ((- x) * (- x))%Q by ring. apply Qmult_le_0_compat; lra.
  - apply Qmult_le_0_compat; auto.
Qed.

Lemma coord_centre n l i : i < n -> coord (centre n l) i = (sumQ (map (fun v => coord v i) l) / inject_Z (Z.of_nat (length l)))%Q.
Proof.
  intro L. unfold coord, centre. set (f := fun j => (sumQ (map (fun v => nth j v 0%Q) l) / inject_Z (Z.of_nat (length l)))%Q).
  rewrite (nth_indep _ 0%Q (f 0)) by (rewrite map_length, seq_length; auto). rewrite map_nth, seq_nth by auto. reflexivity.
Qed.

Lemma centre_best n l w : (sumQ (map (fun u => sqdist n u (centre n l)) l) <= sumQ (map (fun u => sqdist n u w) l))%Q.
Proof.
  destruct l as [|u0 l0] eqn:El; [apply Qle_refl|]. rewrite <- El. assert (NE : l <> []) by (subst; discriminate). clear El.
  assert (SW : forall w, (sumQ (map (fun u => sqdist n u w) l) ==
     sumQ (map (fun i => sumQ (map (fun u => (coord u i - coord w i) * (coord u i - coord w i)) l)) (seq 0 n)))%Q).
  { intro w0. unfold sqdist. apply (sumQ_swap (fun u i => (coord u i - coord w0 i) * (coord u i - coord w0 i))%Q). }
  rewrite (SW (centre n l)), (SW w). apply sumQ_le. intros i Hi. apply in_seq in Hi.
  assert (M := mean_best (coord w i) (map (fun v => coord v i) l) (coord (centre n l) i)). rewrite !map_map in M. apply M.
  - destruct l; [congruence|discriminate].
  - rewrite coord_centre by lia. rewrite map_length. reflexivity.
Qed.

Lemma sqdist_same n u u' v v' : same_point n u u' -> same_point n v v' -> (sqdist n u v == sqdist n u' v')%Q.
Proof. intros A B. apply sumQ_ext. intros i Hi. apply in_seq in Hi. rewrite (A i), (B i) by lia. reflexivity. Qed.
