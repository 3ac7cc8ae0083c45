(** * Specification vocabulary, independent of how the manager is implemented.

    The first part speaks only about two relations on data IDs (the known
    MUST_LINK and CANNOT_LINK annotations) and about labellings.  The second part
    reads those relations off a manager through its public getters. *)

From Coq Require Import List Bool QArith.
From Verif Require Import Base Manager.
Import ListNotations.

Section Annotations.
  Variables must cannot : pystr -> pystr -> Prop.

  (** Joined by a chain of MUST_LINK annotations, in either direction. *)
  Inductive linked : pystr -> pystr -> Prop :=
  | linked_refl : forall x, linked x x
  | linked_step : forall x y z, linked x y -> must y z \/ must z y -> linked x z.

  (** Some CANNOT_LINK annotation joins the two chains. *)
  Definition separated (a b : pystr) : Prop :=
    exists x y, linked a x /\ linked b y /\ (cannot x y \/ cannot y x).

  (** A labelling of the data respects the annotations. *)
  Definition satisfies (label : pystr -> nat) : Prop :=
    (forall a b, must a b -> label a = label b) /\
    (forall a b, cannot a b -> label a <> label b).

  Definition satisfiable : Prop := exists label, satisfies label.
End Annotations.

(** Adding one annotation to a relation. *)
Definition plus (r : pystr -> pystr -> Prop) (x y : pystr) : pystr -> pystr -> Prop :=
  fun a b => r a b \/ (a = x /\ b = y).

(** ** What a manager knows, through its public getters. *)
Definition managed (m : mgr) (x : pystr) : Prop :=
  exists l, ask get_list_of_managed_data_IDs m = Ok l /\ In x l.

Definition added (m : mgr) (t a b : pystr) : Prop :=
  exists v, ask (get_added_constraint a b) m = Ok (Some (t, v)).

Definition added_must (m : mgr) : pystr -> pystr -> Prop := added m MUST_LINK.
Definition added_cannot (m : mgr) : pystr -> pystr -> Prop := added m CANNOT_LINK.

Definition inferred (m : mgr) (a b : pystr) (t : option pystr) : Prop :=
  ask (get_inferred_constraint a b) m = Ok t.

(** The added constraints together with one more. *)
Definition must_with (m : mgr) (t a b : pystr) : pystr -> pystr -> Prop :=
  fun x y => added_must m x y \/ (t = MUST_LINK /\ x = a /\ y = b).
Definition cannot_with (m : mgr) (t a b : pystr) : pystr -> pystr -> Prop :=
  fun x y => added_cannot m x y \/ (t = CANNOT_LINK /\ x = a /\ y = b).

Definition allowed (t : pystr) : Prop := t = MUST_LINK \/ t = CANNOT_LINK.

(** The unordered pair {p,q} is the unordered pair {a,b}. *)
Definition same_unordered (a b p q : pystr) : Prop := (p = a /\ q = b) \/ (p = b /\ q = a).

(** ** When each call is documented to raise. *)
Definition documented_error (m : mgr) (c : call) : Prop :=
  match c with
  | CallAddDataID x => managed m x
  | CallDeleteDataID x => ~ managed m x
  | CallManagedIDs | CallComponents | CallCompletude => False
  | CallAddConstraint a b t _ =>
      ~ managed m a \/ ~ managed m b \/ ~ allowed t \/
      (exists u, inferred m a b (Some u) /\ u <> t)
  | CallDeleteConstraint a b | CallGetAdded a b | CallGetInferred a b => ~ managed m a \/ ~ managed m b
  | CallConflict a b t => ~ managed m a \/ ~ managed m b \/ ~ allowed t
  end.

(** ** Histories. *)
Definition run (l : list call) (m : mgr) : mgr := fold_left (fun m c => fst (exec c m)) l m.

(** ** An abstract machine for the manager: a list of IDs and a map from
    unordered pairs to constraint types. *)
Record amap := mkAmap { a_ids : list pystr; a_con : pystr -> pystr -> option pystr }.

Definition a_init (l : list pystr) : amap :=
  mkAmap (dedup l) (fun a b => if mem a l && eqb a b then Some MUST_LINK else None).

(** Whether the call is accepted. *)
Definition a_ok (s : amap) (c : call) : Prop :=
  match c with
  | CallAddDataID x => ~ In x (a_ids s)
  | CallDeleteDataID x => In x (a_ids s)
  | CallManagedIDs | CallComponents | CallCompletude => True
  | CallAddConstraint a b t _ =>
      In a (a_ids s) /\ In b (a_ids s) /\ allowed t /\
      satisfiable (fun x y => a_con s x y = Some MUST_LINK \/ (t = MUST_LINK /\ x = a /\ y = b))
                  (fun x y => a_con s x y = Some CANNOT_LINK \/ (t = CANNOT_LINK /\ x = a /\ y = b))
  | CallDeleteConstraint a b | CallGetAdded a b | CallGetInferred a b => In a (a_ids s) /\ In b (a_ids s)
  | CallConflict a b t => In a (a_ids s) /\ In b (a_ids s) /\ allowed t
  end.

Definition pair_eqb (a b p q : pystr) : bool := (eqb p a && eqb q b) || (eqb p b && eqb q a).

(** Effect of an accepted call. *)
Definition a_effect (s : amap) (c : call) : amap :=
  match c with
  | CallAddDataID x =>
      mkAmap (a_ids s ++ [x])
             (fun p q => if eqb p x && eqb q x then Some MUST_LINK
                         else if eqb p x || eqb q x then None else a_con s p q)
  | CallDeleteDataID x =>
      mkAmap (filter (fun y => negb (eqb x y)) (a_ids s))
             (fun p q => if eqb p x || eqb q x then None else a_con s p q)
  | CallAddConstraint a b t _ =>
      mkAmap (a_ids s)
             (fun p q => match a_con s p q with
                         | Some u => Some u
                         | None => if pair_eqb a b p q then Some t else None
                         end)
  | CallDeleteConstraint a b =>
      mkAmap (a_ids s) (fun p q => if pair_eqb a b p q then None else a_con s p q)
  | _ => s
  end.

Definition a_step (s : amap) (c : call) (s' : amap) : Prop :=
  (a_ok s c /\ s' = a_effect s c) \/ (~ a_ok s c /\ s' = s).

Inductive a_run : amap -> list call -> amap -> Prop :=
| a_run_nil : forall s, a_run s [] s
| a_run_cons : forall s c s1 l s2, a_step s c s1 -> a_run s1 l s2 -> a_run s (c :: l) s2.

(** What the API shows of a manager is the abstract state. *)
Definition shows (m : mgr) (s : amap) : Prop :=
  ask get_list_of_managed_data_IDs m = Ok (a_ids s) /\
  forall p q, ask (get_added_constraint p q) m =
    if mem p (a_ids s) && mem q (a_ids s)
    then Ok (match a_con s p q with Some t => Some (t, 1%Q) | None => None end)
    else Raise ValueError.

(** In the abstract state only managed IDs carry constraints. *)
Definition a_closed (s : amap) : Prop := forall p q, a_con s p q <> None -> In p (a_ids s) /\ In q (a_ids s).

(** Membership of an ID as a function of the history alone. *)
Definition present_after (x : pystr) (l : list call) (p : Prop) : Prop :=
  fold_left (fun p c => match c with
                        | CallAddDataID y => p \/ y = x
                        | CallDeleteDataID y => p /\ y <> x
                        | _ => p
                        end) l p.

(** Batches of annotations. *)
Definition add_all (l : list (pystr * pystr * pystr)) : M mgr unit :=
  for_ l (fun c => bind (add_constraint (fst (fst c)) (snd (fst c)) (snd c) 1%Q) (fun _ => ret tt)).

(** All queries but the ordering of components agree. *)
Definition same_answers (m1 m2 : mgr) : Prop :=
  (forall a b, ask (get_inferred_constraint a b) m1 = ask (get_inferred_constraint a b) m2) /\
  ask check_completude_of_constraints m1 = ask check_completude_of_constraints m2 /\
  (forall l1 l2, ask get_connected_components m1 = Ok l1 -> ask get_connected_components m2 = Ok l2 ->
     (forall a b, (exists c, In c l1 /\ In a c /\ In b c) <-> (exists c, In c l2 /\ In a c /\ In b c)) /\
     length l1 = length l2) /\
  (forall a b t, allowed t ->
     match ask (get_list_of_involved_data_IDs_in_a_constraint_conflict a b t) m1,
           ask (get_list_of_involved_data_IDs_in_a_constraint_conflict a b t) m2 with
     | Ok None, Ok None => True
     | Ok (Some l1), Ok (Some l2) => forall x, In x l1 <-> In x l2
     | Raise e1, Raise e2 => e1 = e2
     | _, _ => False
     end).

(** ** Counting clusters. *)
(** Number of non-empty clusters of a labelling of a list of IDs. *)
Definition nb_of_clusters (ids : list pystr) (label : pystr -> nat) : nat :=
  length (nodup Nat.eq_dec (map label ids)).

(** Some clustering of the managed IDs into exactly k non-empty clusters respects all
    added constraints. *)
Definition feasible (m : mgr) (k : nat) : Prop :=
  exists ids label, ask get_list_of_managed_data_IDs m = Ok ids /\
    satisfies (added_must m) (added_cannot m) label /\ nb_of_clusters ids label = k.

(** ** Some states of a manager. *)
Definition has_ids (m : mgr) : Prop := exists x, managed m x.
Definition nb_components (m : mgr) (n : nat) : Prop := exists l, ask get_connected_components m = Ok l /\ length l = n.
Definition complete (m : mgr) : Prop := ask check_completude_of_constraints m = Ok true.
