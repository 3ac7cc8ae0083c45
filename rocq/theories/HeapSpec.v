(** * Programs with several managers *)

From Coq Require Import List Bool Arith.
From Verif Require Import Base Manager Spec Heap.
Import ListNotations.

(** The managers are numbered as they are made; the IDs that the program gives to each. *)
Fixpoint created (prog : list action) : list (list pystr) :=
  match prog with
  | [] => []
  | New ids :: prog' => ids :: created prog'
  | Call _ _ :: prog' => created prog'
  end.

(** A call addresses a manager that has already been made. *)
Fixpoint well_addressed (made : nat) (prog : list action) : Prop :=
  match prog with
  | [] => True
  | New _ :: prog' => well_addressed (S made) prog'
  | Call a _ :: prog' => a < made /\ well_addressed made prog'
  end.

(** The calls to one manager, and its answers. *)
Definition own_calls (a : nat) (prog : list action) : list call :=
  flat_map (fun s => match s with Call a' c => if Nat.eqb a' a then [c] else [] | New _ => [] end) prog.
Definition own_answers (a : nat) (l : list (nat * res value)) : list (res value) :=
  flat_map (fun e => if Nat.eqb (fst e) a then [snd e] else []) l.

(** The memory after a program. *)
Fixpoint memory (prog : list action) (h : heap) : heap :=
  match prog with
  | [] => h
  | New ids :: prog' => memory prog' (fst (h_init ids h))
  | Call a c :: prog' => memory prog' (fst (h_exec a c h))
  end.

(** The address of the dictionary of the MUST_LINK (or CANNOT_LINK) component of [x] in manager [a]. *)
Definition address (part : nat * nat -> nat) (h : heap) (a : nat) (x : pystr) : option nat :=
  match nth_error (h_managers h) a with
  | Some mg => match nth_error (h_tables h) (snd mg) with
               | Some T => match dget x T with
                           | Some p => option_map part (nth_error (h_pairs h) p)
                           | None => None
                           end
               | None => None
               end
  | None => None
  end.
