(** * Vocabulary about calls from several threads *)
From Coq Require Import List Bool Arith.
From Verif Require Import Base Manager Threads.
Import ListNotations.

(** The data a call is about. *)
Definition about (c : tcall) (x : pystr) : Prop :=
  match c with TAdd a b _ _ | TGetAdded a b | TGetInferred a b => x = a \/ x = b end.

(** The data that an addition can change: those it is about, and those that have an inferred constraint with
    one of them.  The getters change nothing. *)
Definition changes (m : mgr) (c : tcall) (x : pystr) : Prop :=
  match c with
  | TAdd a b _ _ => x = a \/ x = b \/ exists t, ask (get_inferred_constraint x a) m = Ok (Some t) \/ ask (get_inferred_constraint x b) m = Ok (Some t)
  | _ => False
  end.

(** Two calls that do not concern the same data: what one can change, the other can neither change nor be about. *)
Definition apart (m : mgr) (c c' : tcall) : Prop :=
  forall x, (changes m c x -> ~ changes m c' x /\ ~ about c' x) /\ (changes m c' x -> ~ about c x).

(** The same calls, one after the other, as one thread makes them. *)
Fixpoint one_by_one (cs : list call) (m : mgr) : mgr * list (res value) :=
  match cs with
  | [] => (m, [])
  | c :: cs' => let '(m1, r) := exec c m in let '(m2, rs) := one_by_one cs' m1 in (m2, r :: rs)
  end.

(** A part of the data that no inferred constraint leaves; calls that stay in it. *)
Definition closed_part (m : mgr) (part : list pystr) : Prop :=
  forall x y t, In x part -> ask (get_inferred_constraint y x) m = Ok (Some t) -> In y part.
Definition stays_in (part : list pystr) (cs : list tcall) : Prop := forall c x, In c cs -> about c x -> In x part.
Definition disjoint (l l' : list pystr) : Prop := forall x, In x l -> ~ In x l'.

(** The same sessions, one after the other. *)
Fixpoint in_order (css : list (list call)) (m : mgr) : mgr * list (list (res value)) :=
  match css with
  | [] => (m, [])
  | cs :: css' => let '(m1, rs) := one_by_one cs m in let '(m2, rss) := in_order css' m1 in (m2, rs :: rss)
  end.
