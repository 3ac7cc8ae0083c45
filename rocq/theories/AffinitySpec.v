(** * What affinity propagation is (Frey and Dueck, 2007), independent of how it is computed. *)

From Coq Require Import String List Bool Arith ZArith.
From Verif Require Import Base Manager Spec Affinity.
Import ListNotations.
Open Scope nat_scope.

(** [np.argmax] returns an index of the array. *)
Definition valid_argmax {D} (o : ops D) : Prop := forall l, l <> [] -> o_argmax D o l < length l.

(** All the values of a matrix of [n] rows, in order. *)
Definition all_values {D} (n : nat) (s : nat -> nat -> D) : list D := flat_map (fun i => map (s i) (seq 0 n)) (seq 0 n).

(** Similarities for which the message passing is skipped: one datum, or all similarities
    between different data equal. *)
Definition degenerate {D} (o : ops D) (n : nat) (s : nat -> nat -> D) : Prop :=
  n = 1 \/
  (let preference := o_median D o (all_values n s) in
   o_eq D o preference preference = true /\ forall i j, i < n -> j < n -> i <> j -> o_eq D o (s i j) (s 0 1) = true).

(** Exact arithmetic: the operations on finite numbers are those of an ordered group, the
    aggregates are what their names say, the damping maps are compatible with signs. *)
Record exact {D} (o : ops D) (fin : D -> Prop) (le : D -> D -> Prop) : Prop := {
  ex_zero : fin (o_zero D o);
  ex_add : forall x y, fin x -> fin y -> fin (o_add D o x y);
  ex_neg : forall x, fin x -> fin (o_neg D o x);
  ex_sub : forall x y, o_sub D o x y = o_add D o x (o_neg D o y);
  ex_comm : forall x y, o_add D o x y = o_add D o y x;
  ex_assoc : forall x y z, fin x -> fin y -> fin z -> o_add D o x (o_add D o y z) = o_add D o (o_add D o x y) z;
  ex_zero_r : forall x, o_add D o x (o_zero D o) = x;
  ex_opp : forall x, fin x -> o_add D o x (o_neg D o x) = o_zero D o;
  ex_refl : forall x, le x x;
  ex_trans : forall x y z, le x y -> le y z -> le x z;
  ex_antisym : forall x y, le x y -> le y x -> x = y;
  ex_ninf : forall x, le (o_ninf D o) x;
  ex_ninf_fin : ~ fin (o_ninf D o);
  ex_le_add : forall x y z, fin x -> fin y -> fin z -> le x y -> le (o_add D o x z) (o_add D o y z);
  ex_max2 : forall x y, (o_max2 D o x y = x \/ o_max2 D o x y = y) /\ le x (o_max2 D o x y) /\ le y (o_max2 D o x y);
  ex_max : forall l, l <> [] -> In (o_max D o l) l /\ forall x, In x l -> le x (o_max D o l);
  ex_argmax : forall l, l <> [] -> exists x, nth_error l (o_argmax D o l) = Some x /\
    (forall y, In y l -> le y x) /\ forall i, i < o_argmax D o l -> nth_error l i <> Some x;
  ex_pymax : forall l, l <> [] -> In (o_pymax D o l) l /\ forall x, In x l -> le x (o_pymax D o l);
  ex_median : forall l, (forall x, In x l -> fin x) -> fin (o_median D o l);
  ex_low : forall l, (forall x, In x l -> fin x) -> fin (o_double D o (o_min D o l));
  ex_sum_nil : o_sum D o [] = o_zero D o;
  ex_sum_cons : forall x l, o_sum D o (x :: l) = o_add D o x (o_sum D o l);
  ex_keep : forall x, fin x -> fin (o_keep D o x);
  ex_new : forall x, fin x -> fin (o_new D o x);
  ex_new_neg : forall x, fin x -> o_new D o (o_neg D o x) = o_neg D o (o_new D o x) }.

Section Run.
  Context {D : Type}.
  Variable o : ops D.
  Variable le : D -> D -> Prop.
  Variable n : nat.
  Variable s : nat -> nat -> D.        (* similarities, preferences on the diagonal *)

  Notation zero := (o_zero D o).
  Notation add := (o_add D o).
  Notation sub := (o_sub D o).
  Notation pos_part x := (o_max2 D o x (o_zero D o)).

  Definition indices_but (excluded : list nat) : list nat :=
    filter (fun i => negb (existsb (Nat.eqb i) excluded)) (seq 0 n).

  (** [r(i,k) <- s(i,k) - max over k' <> k of a(i,k') + s(i,k')], damped. *)
  Definition responsibility_update (a r r' : nat -> nat -> D) : Prop :=
    forall i k, i < n -> k < n -> exists k0, k0 < n /\ k0 <> k /\
      (forall k', k' < n -> k' <> k -> le (add (a i k') (s i k')) (add (a i k0) (s i k0))) /\
      r' i k = add (o_keep D o (r i k)) (o_new D o (sub (s i k) (add (a i k0) (s i k0)))).

  (** [a(k,k) <- sum over i' <> k of max(0, r(i',k))] and, for [i <> k],
      [a(i,k) <- min(0, r(k,k) + sum over i' not in {i,k} of max(0, r(i',k)))], damped. *)
  Definition availability_update (r a a' : nat -> nat -> D) : Prop :=
    (forall k, k < n ->
       a' k k = add (o_keep D o (a k k)) (o_new D o (o_sum D o (map (fun i' => pos_part (r i' k)) (indices_but [k]))))) /\
    (forall i k, i < n -> k < n -> i <> k -> exists v,
       let total := add (r k k) (o_sum D o (map (fun i' => pos_part (r i' k)) (indices_but [i; k]))) in
       (v = zero \/ v = total) /\ le v zero /\ le v total /\
       a' i k = add (o_keep D o (a i k)) (o_new D o v)).

  (** Messages after 0, 1, 2, ... iterations. *)
  Definition messages (a r : nat -> nat -> nat -> D) (iterations : nat) : Prop :=
    (forall i k, i < n -> k < n -> a 0 i k = zero /\ r 0 i k = zero) /\
    forall t, t < iterations -> responsibility_update (a t) (r t) (r (S t)) /\ availability_update (r (S t)) (a t) (a (S t)).

  (** Point [k] is an exemplar after the iteration number [t] (from 0). *)
  Definition is_exemplar (a r : nat -> nat -> nat -> D) (t k : nat) : bool := o_pos D o (add (a (S t) k k) (r (S t) k k)).

  (** The run stops at iteration [t]: the exemplars have not changed for
      [window] iterations, and there is one. *)
  Definition converged (a r : nat -> nat -> nat -> D) (window t : nat) : Prop :=
    window <= t /\ (exists k, k < n /\ is_exemplar a r t k = true) /\
    forall k t', k < n -> t - window < t' <= t -> is_exemplar a r t' k = is_exemplar a r t k.

  (** Each exemplar represents itself, another point is represented by the most similar
      exemplar (the first one in the list). *)
  Definition represented (ex : list nat) (c : nat -> nat) : Prop :=
    forall i, i < n -> exists k, nth_error ex k = Some (c i) /\
      (In i ex -> c i = i) /\
      (~ In i ex -> forall k' e, nth_error ex k' = Some e -> le (s i e) (s i (c i)) /\ (k' < k -> s i e <> s i (c i))).

  (** Within each group the best exemplar has the highest total similarity to the group (the
      first one in case of equality). *)
  Definition refined (ex : list nat) (c : nat -> nat) (ex' : list nat) : Prop :=
    length ex' = length ex /\
    forall k e e', nth_error ex k = Some e -> nth_error ex' k = Some e' ->
      let group := filter (fun i => Nat.eqb (c i) e) (seq 0 n) in
      let total b := o_sum D o (map (fun a => s a b) group) in
      In e' group /\ forall b, In b group -> le (total b) (total e') /\ (b < e' -> total b <> total e').

  (** The labels of a run: exemplars found at the first convergence, groups, better
      exemplars, groups again; no label without convergence. *)
  Definition ap_result (window max_iteration : nat) (labels : option (list nat)) : Prop :=
    exists a r, messages a r max_iteration /\
      match labels with
      | None => forall t, t < max_iteration -> ~ converged a r window t
      | Some labels => exists t ex c ex' c',
          t < max_iteration /\ converged a r window t /\ (forall t', t' < t -> ~ converged a r window t') /\
          (ex = filter (is_exemplar a r t) (seq 0 n)) /\
          represented ex c /\ refined ex c ex' /\ represented ex' c' /\ labels = map c' (seq 0 n)
      end.
End Run.

(** [x] is the largest element of [l]. *)
Definition largest {D} (le : D -> D -> Prop) (x : D) (l : list D) : Prop := In x l /\ forall y, In y l -> le y x.

(** Similarities between groups of points: the largest similarity between members; the
    preference is the median of all these values. *)
Definition group_similarities {D} (o : ops D) (le : D -> D -> Prop) (s : nat -> nat -> D) (groups : list (list nat)) (s' : nat -> nat -> D) : Prop :=
  let k := length groups in
  exists top,
    (forall p q gp gq, nth_error groups p = Some gp -> nth_error groups q = Some gq ->
       largest le (top p q) (map (fun ij => s (fst ij) (snd ij)) (list_prod gp gq))) /\
    forall p q, p < k -> q < k -> s' p q = if Nat.eqb p q then o_median D o (all_values k top) else top p q.

(** Similarities between [n] points and the groups, which come after them: between points the
    given ones, between a point and its group zero, between a point and another group the largest
    similarity to a member, between groups twice the lowest similarity.  *)
Definition mixed_with_groups {D} (o : ops D) (le : D -> D -> Prop) (n : nat) (s : nat -> nat -> D) (groups : list (list nat)) (preference : D)
    (s' : nat -> nat -> D) : Prop :=
  let k := length groups in
  (forall i, i < n + k -> s' i i = preference) /\
  (forall i j, i < n -> j < n -> i <> j -> s' i j = s i j) /\
  (forall i p g, i < n -> nth_error groups p = Some g ->
     s' i (n + p) = s' (n + p) i /\ (In i g -> s' i (n + p) = o_zero D o) /\ (~ In i g -> largest le (s' i (n + p)) (map (s i) g))) /\
  (forall p q, p < k -> q < k -> p <> q -> s' (n + p) (n + q) = o_double D o (o_min D o (all_values n s))).
