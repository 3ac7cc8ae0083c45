(** * Taking changes back *)

From Coq Require Import List QArith.
From Verif Require Import Base Manager Spec ResumeSpec.
Import ListNotations.

(** What takes back a call on [m]: nothing if the call is refused or changes nothing. *)
Definition undo_call (m : mgr) (c : call) : list call :=
  match c, snd (exec c m) with
  | CallAddDataID x, Ok _ => [CallDeleteDataID x]
  | CallAddConstraint a b _ _, Ok _ =>
      match ask (get_added_constraint a b) m with Ok None => [CallDeleteConstraint a b] | _ => [] end
  | CallDeleteConstraint a b, Ok _ =>
      match ask (get_added_constraint a b) m with Ok (Some (t, v)) => [CallAddConstraint a b t v] | _ => [] end
  | _, _ => []
  end.

(** What takes back a history, the last call first. *)
Fixpoint undo (l : list call) (m : mgr) : list call :=
  match l with
  | [] => []
  | c :: l' => undo l' (fst (exec c m)) ++ undo_call m c
  end.

(** The history deletes no ID. *)
Definition keeps_IDs (l : list call) : Prop := forall x, ~ In (CallDeleteDataID x) l.

Definition succeeds (r : res value) : Prop := exists v, r = Ok v.

(** [l] lists the constraints added between [x] and other IDs, in any order and either way round. *)
Definition lists_constraints_of (m : mgr) (x : pystr) (l : list (pystr * pystr * pystr)) : Prop :=
  (forall a b t, In (a, b, t) l -> added m t a b /\ (a = x \/ b = x)) /\
  (forall y t, y <> x -> added m t x y -> In (x, y, t) l \/ In (y, x, t) l).
