(** * Base: the fragment of Python used by the modelled code.

    Strings, exceptions as values, a state-and-exception monad, insertion-ordered
    dictionaries.  Nothing here is specific to /repo; every later file models
    functions of /repo on top of it. *)

From Coq Require Import List Bool Arith NArith ZArith Lia String Ascii Permutation.
Import ListNotations.
Set Implicit Arguments.

(** ** Python strings: sequences of Unicode code points, compared
    lexicographically by code point. *)
Definition pystr := list N.

Fixpoint str (s : string) : pystr :=
  match s with
  | EmptyString => []
  | String c s' => N_of_ascii c :: str s'
  end.

(** ** Decidable equality, used for dictionary keys. *)
Class EqB (K : Type) := { eqb : K -> K -> bool; eqb_eq : forall x y, eqb x y = true <-> x = y }.

Arguments eqb : simpl never.

Fixpoint list_eqb {A} `{EqB A} (a b : list A) : bool :=
  match a, b with
  | [], [] => true
  | x :: a', y :: b' => eqb x y && list_eqb a' b'
  | _, _ => false
  end.

Lemma list_eqb_eq {A} `{EqB A} : forall a b : list A, list_eqb a b = true <-> a = b.
Proof.
  induction a as [|x a IH]; destruct b as [|y b]; simpl; split; intro E; try discriminate; auto.
  - apply andb_true_iff in E. destruct E as [E1 E2].
    apply eqb_eq in E1. apply IH in E2. congruence.
  - inversion E; subst. apply andb_true_iff. split. apply eqb_eq; auto. apply IH; auto.
Qed.

#[global] Instance EqB_N : EqB N := { eqb := N.eqb; eqb_eq := N.eqb_eq }.
#[global] Instance EqB_Z : EqB Z := { eqb := Z.eqb; eqb_eq := Z.eqb_eq }.
#[global] Instance EqB_nat : EqB nat := { eqb := Nat.eqb; eqb_eq := Nat.eqb_eq }.
#[global] Instance EqB_list {A} `{EqB A} : EqB (list A) := { eqb := list_eqb; eqb_eq := list_eqb_eq }.
#[global] Instance EqB_pystr : EqB pystr := @EqB_list N _.

Lemma eqb_refl {K} `{EqB K} (x : K) : eqb x x = true.
Proof. apply eqb_eq; reflexivity. Qed.

Lemma eqb_neq {K} `{EqB K} (x y : K) : eqb x y = false <-> x <> y.
Proof.
  split.
  - intros E N. apply eqb_eq in N. congruence.
  - intro N. destruct (eqb x y) eqn:E; auto. apply eqb_eq in E. contradiction.
Qed.

Lemma eqb_sym {K} `{EqB K} (x y : K) : eqb x y = eqb y x.
Proof.
  destruct (eqb x y) eqn:E.
  - apply eqb_eq in E; subst; symmetry; apply eqb_refl.
  - symmetry. apply eqb_neq. apply eqb_neq in E. congruence.
Qed.

Lemma eqb_spec {K} `{EqB K} (x y : K) : reflect (x = y) (eqb x y).
Proof. apply iff_reflect. symmetry. apply eqb_eq. Qed.

Lemma eq_dec_of {K} `{EqB K} (x y : K) : {x = y} + {x <> y}.
Proof. destruct (eqb_spec x y); auto. Qed.

(** ** Order on strings: Python's [<=] and [<] on [str]. *)
Fixpoint str_leb (a b : pystr) : bool :=
  match a, b with
  | [], _ => true
  | _ :: _, [] => false
  | x :: a', y :: b' =>
      if N.eqb x y then str_leb a' b' else N.ltb x y
  end.

Definition str_ltb (a b : pystr) : bool := str_leb a b && negb (eqb a b).

Lemma str_leb_refl a : str_leb a a = true.
Proof. induction a; simpl; auto. rewrite N.eqb_refl; auto. Qed.

Lemma str_leb_total a : forall b, str_leb a b = true \/ str_leb b a = true.
Proof.
  induction a as [|x a IH]; destruct b as [|y b]; simpl; auto.
  destruct (N.eqb_spec x y); subst.
  - rewrite N.eqb_refl; auto.
  - destruct (N.eqb_spec y x); [congruence|].
    rewrite !N.ltb_lt. lia.
Qed.

Lemma str_leb_antisym a : forall b, str_leb a b = true -> str_leb b a = true -> a = b.
Proof.
  induction a as [|x a IH]; destruct b as [|y b]; simpl; auto; try discriminate.
  destruct (N.eqb_spec x y); subst.
  - rewrite N.eqb_refl. intros; f_equal; auto.
  - destruct (N.eqb_spec y x); [congruence|]. rewrite !N.ltb_lt. lia.
Qed.

Lemma str_leb_trans a : forall b c, str_leb a b = true -> str_leb b c = true -> str_leb a c = true.
Proof.
  induction a as [|x a IH]; destruct b as [|y b]; destruct c as [|z c]; simpl; auto; try discriminate.
  destruct (N.eqb_spec x y); subst.
  - destruct (N.eqb_spec y z); eauto.
  - destruct (N.eqb_spec y z); subst.
    + destruct (N.eqb_spec x z); [congruence|auto].
    + rewrite !N.ltb_lt. intros. destruct (N.eqb_spec x z); subst; [lia|]. apply N.ltb_lt. lia.
Qed.

Lemma str_leb_false a b : str_leb a b = false -> str_leb b a = true.
Proof. destruct (str_leb_total a b); congruence. Qed.

Lemma str_ltb_irrefl a : str_ltb a a = false.
Proof. unfold str_ltb. rewrite str_leb_refl, eqb_refl. auto. Qed.

Lemma str_ltb_spec a b : str_ltb a b = true <-> str_leb a b = true /\ a <> b.
Proof. unfold str_ltb. rewrite andb_true_iff, negb_true_iff, eqb_neq. tauto. Qed.

Lemma str_ltb_trans a b c : str_ltb a b = true -> str_ltb b c = true -> str_ltb a c = true.
Proof.
  rewrite !str_ltb_spec. intros [L1 N1] [L2 N2]. split. eapply str_leb_trans; eauto.
  intro; subst. apply N1. apply str_leb_antisym; auto.
Qed.

Lemma str_ltb_negb a b : str_ltb a b = negb (str_leb b a).
Proof.
  unfold str_ltb. destruct (str_leb a b) eqn:L1, (str_leb b a) eqn:L2; simpl; auto.
  - pose proof (str_leb_antisym _ _ L1 L2); subst. rewrite eqb_refl; auto.
  - apply negb_true_iff, eqb_neq. intro; subst. congruence.
  - apply str_leb_false in L1. congruence.
Qed.

(** ** Exceptions as values. *)
Inductive exn :=
| ValueError | KeyError | IndexError | TypeError | AssertionError
| ZeroDivisionError | JSONDecodeError | AttributeError | FileNotFoundError | UnboundLocalError | RecursionError | RuntimeError
| OutOfFuel  (** not a Python exception: the recursion measure of the model ran out; proved unreachable wherever it could occur *).

Inductive res (A : Type) :=
| Ok (a : A)
| Raise (e : exn).
Arguments Ok {A}. Arguments Raise {A}.

Definition rbind {A B} (m : res A) (f : A -> res B) : res B :=
  match m with Ok a => f a | Raise e => Raise e end.

(** ** State-and-exception monad: a method call takes the object state and
    returns the state it leaves behind {e together with} a value or an
    exception, so updates made before an exception is raised stay visible. *)
Definition M (S A : Type) := S -> S * res A.

Definition ret {S A} (a : A) : M S A := fun s => (s, Ok a).
Definition raise {S A} (e : exn) : M S A := fun s => (s, Raise e).
Definition bind {S A B} (m : M S A) (f : A -> M S B) : M S B :=
  fun s => match m s with
           | (s', Ok a) => f a s'
           | (s', Raise e) => (s', Raise e)
           end.
Definition gets {S A} (f : S -> A) : M S A := fun s => (s, Ok (f s)).
Definition modify {S} (f : S -> S) : M S unit := fun s => (f s, Ok tt).
(** Lift a computation that does not touch the state. *)
Definition lift {S A} (r : res A) : M S A := fun s => (s, r).

Declare Scope py_scope.
Delimit Scope py_scope with py.
Notation "x <- m ;; k" := (bind m (fun x => k)) (at level 61, m at next level, right associativity) : py_scope.
Notation "m ;; k" := (bind m (fun _ => k)) (at level 61, right associativity) : py_scope.
Notation "x <-- m ;;; k" := (rbind m (fun x => k)) (at level 61, m at next level, right associativity) : py_scope.

(** [for x in l: f x] *)
Fixpoint for_ {S A} (l : list A) (f : A -> M S unit) : M S unit :=
  match l with
  | [] => ret tt
  | x :: l' => bind (f x) (fun _ => for_ l' f)
  end.

(** The same loops for stateless computations. *)
Fixpoint rmap {A B} (f : A -> res B) (l : list A) : res (list B) :=
  match l with
  | [] => Ok []
  | x :: l' => rbind (f x) (fun y => rbind (rmap f l') (fun ys => Ok (y :: ys)))
  end.

Fixpoint rfilter {A} (f : A -> res bool) (l : list A) : res (list A) :=
  match l with
  | [] => Ok []
  | x :: l' => rbind (f x) (fun y => rbind (rfilter f l') (fun ys => Ok (if y then x :: ys else ys)))
  end.

Fixpoint rfold {A B} (f : B -> A -> res B) (l : list A) (b : B) : res B :=
  match l with
  | [] => Ok b
  | x :: l' => rbind (f b x) (fun b' => rfold f l' b')
  end.

(** ** Membership tests on lists. *)
Fixpoint mem {K} `{EqB K} (x : K) (l : list K) : bool :=
  match l with [] => false | y :: l' => eqb x y || mem x l' end.

Lemma mem_In {K} `{EqB K} (x : K) l : mem x l = true <-> In x l.
Proof.
  induction l; simpl. split; [discriminate|tauto].
  rewrite orb_true_iff, eqb_eq, IHl. split; intros [E|E]; auto.
Qed.

Lemma mem_nIn {K} `{EqB K} (x : K) l : mem x l = false <-> ~ In x l.
Proof. rewrite <- mem_In. destruct (mem x l); split; intro; congruence. Qed.

Lemma mem_iff {K} `{EqB K} (x y : K) l l' : (In x l <-> In y l') -> mem x l = mem y l'.
Proof.
  intro E. destruct (mem x l) eqn:A, (mem y l') eqn:B; auto.
  - apply mem_In in A. apply mem_nIn in B. tauto.
  - apply mem_nIn in A. apply mem_In in B. tauto.
Qed.

(** ** [Dict[str, None]] used as an ordered set: the list of its keys.
    [{**a, **b}] keeps the keys of [a] in place and appends the new keys of [b]. *)
Definition ounion {K} `{EqB K} (a b : list K) : list K :=
  a ++ filter (fun x => negb (mem x a)) b.

Lemma ounion_In {K} `{EqB K} (x : K) a b : In x (ounion a b) <-> In x a \/ In x b.
Proof.
  unfold ounion. rewrite in_app_iff, filter_In, negb_true_iff, mem_nIn.
  destruct (mem x a) eqn:E; [apply mem_In in E | apply mem_nIn in E]; tauto.
Qed.

Lemma NoDup_app_intro {A} (a b : list A) :
  NoDup a -> NoDup b -> (forall x, In x a -> In x b -> False) -> NoDup (a ++ b).
Proof.
  induction a; simpl; auto. intros Ha Hb D. inversion Ha; subst. constructor.
  - rewrite in_app_iff. intros [I|I]; eauto.
  - apply IHa; eauto.
Qed.

Lemma NoDup_app_inv {A} (a b : list A) :
  NoDup (a ++ b) -> NoDup a /\ NoDup b /\ (forall x, In x a -> In x b -> False).
Proof.
  induction a; simpl; intro N.
  - split; [constructor|]. split; auto.
  - inversion N; subst. destruct (IHa H2) as (A1 & A2 & A3).
    rewrite in_app_iff in H1. split; [constructor; tauto|]. split; auto.
    intros x [E|I] J; subst; eauto.
Qed.

Lemma NoDup_filter_list {A} (f : A -> bool) l : NoDup l -> NoDup (filter f l).
Proof.
  induction 1; simpl. constructor. destruct (f x); auto. constructor; auto.
  rewrite filter_In. tauto.
Qed.

Lemma ounion_NoDup {K} `{EqB K} (a b : list K) : NoDup a -> NoDup b -> NoDup (ounion a b).
Proof.
  intros. unfold ounion. apply NoDup_app_intro; auto using NoDup_filter_list.
  intros x I J. apply filter_In in J. destruct J as [_ J].
  apply negb_true_iff, mem_nIn in J. tauto.
Qed.

(** Keys of a dictionary comprehension [{x: _ for x in l}]: first occurrences. *)
Fixpoint dedup {K} `{EqB K} (l : list K) : list K :=
  match l with
  | [] => []
  | x :: l' => x :: filter (fun y => negb (eqb x y)) (dedup l')
  end.

Lemma dedup_In {K} `{EqB K} (x : K) l : In x (dedup l) <-> In x l.
Proof.
  induction l as [|y l IH]; simpl; [tauto|].
  rewrite filter_In, negb_true_iff, eqb_neq, IH.
  destruct (eq_dec_of y x); subst; tauto.
Qed.

Lemma dedup_NoDup {K} `{EqB K} (l : list K) : NoDup (dedup l).
Proof.
  induction l as [|y l IH]; simpl; constructor.
  - rewrite filter_In, negb_true_iff, eqb_neq. tauto.
  - apply NoDup_filter_list; auto.
Qed.

Lemma dedup_id {K} `{EqB K} (l : list K) : NoDup l -> dedup l = l.
Proof.
  induction 1 as [|y l N ND IH]; simpl; auto. rewrite IH. f_equal.
  clear IH. induction l as [|z l IH2]; simpl; auto.
  assert (eqb y z = false) as E by (apply eqb_neq; intro; subst; apply N; left; auto).
  rewrite E. simpl. f_equal. apply IH2.
  - simpl in N. tauto.
  - inversion ND; auto.
Qed.

(** ** Dictionaries: association lists in insertion order. *)
Definition dict (K V : Type) := list (K * V).

Definition keys {K V} (d : dict K V) : list K := map fst d.
Definition vals {K V} (d : dict K V) : list V := map snd d.

Fixpoint dget {K V} `{EqB K} (k : K) (d : dict K V) : option V :=
  match d with
  | [] => None
  | (k', v) :: d' => if eqb k k' then Some v else dget k d'
  end.

(** [d[k] = v]: in place when [k] is a key, appended otherwise. *)
Fixpoint dset {K V} `{EqB K} (k : K) (v : V) (d : dict K V) : dict K V :=
  match d with
  | [] => [(k, v)]
  | (k', v') :: d' => if eqb k k' then (k', v) :: d' else (k', v') :: dset k v d'
  end.

(** [d.pop(k, None)] *)
Fixpoint dpop {K V} `{EqB K} (k : K) (d : dict K V) : dict K V :=
  match d with
  | [] => []
  | (k', v') :: d' => if eqb k k' then d' else (k', v') :: dpop k d'
  end.

(** [d[k]] as an expression: raises [KeyError] when absent. *)
Definition dlookup {K V} `{EqB K} (k : K) (d : dict K V) : res V :=
  match dget k d with Some v => Ok v | None => Raise KeyError end.

(** [{k: f k for k in l}] *)
Definition dcomp {K V} `{EqB K} (f : K -> V) (l : list K) : dict K V :=
  map (fun k => (k, f k)) (dedup l).

Section DictFacts.
  Context {K V : Type} `{EqB K}.
  Implicit Types (d : dict K V) (k : K) (v : V).

  Lemma dget_None k d : dget k d = None <-> ~ In k (keys d).
  Proof.
    induction d as [|[k' v'] d IH]; simpl. tauto.
    destruct (eqb_spec k k') as [->|N].
    - split; [discriminate|tauto].
    - rewrite IH. split; [intros E [F|F]; [congruence|tauto]|tauto].
  Qed.

  Lemma dget_Some_key k d v : dget k d = Some v -> In k (keys d).
  Proof.
    intro E. destruct (mem k (keys d)) eqn:M0; [apply mem_In; auto|].
    apply mem_nIn in M0. apply dget_None in M0. congruence.
  Qed.

  Lemma dget_In_key k d : In k (keys d) -> exists v, dget k d = Some v.
  Proof.
    intro I. destruct (dget k d) eqn:E; eauto. apply dget_None in E. tauto.
  Qed.

  Lemma dget_In k d v : dget k d = Some v -> In (k, v) d.
  Proof.
    induction d as [|[k' v'] d IH]; simpl; try discriminate.
    destruct (eqb_spec k k'); subst; intro E. left; congruence. auto.
  Qed.

  Lemma In_dget k d v : NoDup (keys d) -> In (k, v) d -> dget k d = Some v.
  Proof.
    induction d as [|[k' v'] d IH]; simpl; [tauto|]. intros N [E|I].
    - inversion E; subst. rewrite eqb_refl; auto.
    - inversion N; subst. destruct (eqb_spec k k'); subst; auto.
      exfalso. apply H2. apply in_map_iff. exists (k', v); auto.
  Qed.

  Lemma dget_dset_same k v d : dget k (dset k v d) = Some v.
  Proof.
    induction d as [|[k' v'] d IH]; simpl. rewrite eqb_refl; auto.
    destruct (eqb_spec k k'); subst; simpl. rewrite eqb_refl; auto.
    destruct (eqb_spec k k'); congruence.
  Qed.

  Lemma dget_dset_other k k' v d : k <> k' -> dget k (dset k' v d) = dget k d.
  Proof.
    intro N. induction d as [|[k2 v2] d IH]; simpl.
    - destruct (eqb_spec k k'); congruence.
    - destruct (eqb_spec k' k2); subst; simpl.
      + destruct (eqb_spec k k2); congruence.
      + destruct (eqb_spec k k2); auto.
  Qed.

  Lemma dget_dset k k' v d : dget k (dset k' v d) = if eqb k k' then Some v else dget k d.
  Proof.
    destruct (eqb_spec k k'); subst. apply dget_dset_same. apply dget_dset_other; auto.
  Qed.

  Lemma keys_dset_in k v d : In k (keys d) -> keys (dset k v d) = keys d.
  Proof.
    induction d as [|[k' v'] d IH]; simpl; [tauto|]. intro I.
    destruct (eqb_spec k k'); subst; simpl; auto. f_equal. apply IH. destruct I; congruence.
  Qed.

  Lemma keys_dset_out k v d : ~ In k (keys d) -> keys (dset k v d) = keys d ++ [k].
  Proof.
    induction d as [|[k' v'] d IH]; simpl; auto. intro I.
    destruct (eqb_spec k k'); subst; simpl. tauto. f_equal. apply IH. tauto.
  Qed.

  Lemma In_keys_dset x k v d : In x (keys (dset k v d)) <-> x = k \/ In x (keys d).
  Proof.
    destruct (mem k (keys d)) eqn:E.
    - apply mem_In in E. rewrite keys_dset_in; auto. split; auto. intros [F|F]; subst; auto.
    - apply mem_nIn in E. rewrite keys_dset_out; auto. rewrite in_app_iff. simpl. intuition.
  Qed.

  Lemma NoDup_keys_dset k v d : NoDup (keys d) -> NoDup (keys (dset k v d)).
  Proof.
    intro N. destruct (mem k (keys d)) eqn:E.
    - apply mem_In in E. rewrite keys_dset_in; auto.
    - apply mem_nIn in E. rewrite keys_dset_out; auto. apply NoDup_app_intro; auto.
      + constructor; auto. constructor.
      + simpl. intros x I [F|[]]; subst; tauto.
  Qed.

  Lemma dset_out k v d : ~ In k (keys d) -> dset k v d = d ++ [(k, v)].
  Proof.
    induction d as [|[k' v'] d IH]; simpl; auto. intro I.
    destruct (eqb_spec k k'); subst; simpl. tauto. f_equal. apply IH. tauto.
  Qed.

  Lemma dset_same_id k v d : dget k d = Some v -> dset k v d = d.
  Proof.
    induction d as [|[k' v'] d IH]; simpl; try discriminate.
    destruct (eqb_spec k k'); subst; intro E. congruence. f_equal; auto.
  Qed.

  Lemma dget_dpop_other k k' d : k <> k' -> dget k (dpop k' d) = dget k d.
  Proof.
    intro N. induction d as [|[k2 v2] d IH]; simpl; auto.
    destruct (eqb_spec k' k2); subst.
    - destruct (eqb_spec k k2); congruence.
    - simpl. destruct (eqb_spec k k2); auto.
  Qed.

  Lemma keys_dpop k d : NoDup (keys d) -> keys (dpop k d) = filter (fun x => negb (eqb k x)) (keys d).
  Proof.
    induction d as [|[k' v'] d IH]; simpl; auto. intro N. inversion N; subst.
    destruct (eqb_spec k k'); subst; simpl.
    - symmetry. clear - H2. induction (keys d) as [|y l IHl]; simpl; auto.
      destruct (eqb_spec k' y); subst; simpl in *; [tauto|]. f_equal. apply IHl. tauto.
    - f_equal. auto.
  Qed.

  Lemma dget_dpop_same k d : NoDup (keys d) -> dget k (dpop k d) = None.
  Proof.
    intro N. apply dget_None. rewrite keys_dpop; auto.
    rewrite filter_In, negb_true_iff, eqb_neq. tauto.
  Qed.

  Lemma keys_dcomp f (l : list K) : keys (@dcomp K V _ f l) = dedup l.
  Proof. unfold keys, dcomp. rewrite map_map. simpl. apply map_id. Qed.

  Lemma dget_dcomp (f : K -> V) k (l : list K) : dget k (dcomp f l) = if mem k l then Some (f k) else None.
  Proof.
    destruct (mem k l) eqn:E.
    - apply mem_In in E. apply In_dget. rewrite keys_dcomp; apply dedup_NoDup.
      unfold dcomp. apply in_map_iff. exists k. rewrite dedup_In. auto.
    - apply mem_nIn in E. apply dget_None. rewrite keys_dcomp, dedup_In. auto.
  Qed.
End DictFacts.

Lemma dlookup_Some {K V} `{EqB K} k (d : dict K V) v : dget k d = Some v -> dlookup k d = Ok v.
Proof. unfold dlookup. intro E; rewrite E; auto. Qed.
