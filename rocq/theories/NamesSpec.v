(** * Renaming the data *)

From Coq Require Import List Bool QArith.
From Verif Require Import Base Manager.
Import ListNotations.

Definition injective (f : pystr -> pystr) : Prop := forall x y, f x = f y -> x = y.

(** The same call, the same answer, with the new names; constraint types are not names. *)
Definition rename_call (f : pystr -> pystr) (c : call) : call :=
  match c with
  | CallAddDataID x => CallAddDataID (f x)
  | CallDeleteDataID x => CallDeleteDataID (f x)
  | CallManagedIDs => CallManagedIDs
  | CallAddConstraint a b t v => CallAddConstraint (f a) (f b) t v
  | CallDeleteConstraint a b => CallDeleteConstraint (f a) (f b)
  | CallGetAdded a b => CallGetAdded (f a) (f b)
  | CallGetInferred a b => CallGetInferred (f a) (f b)
  | CallComponents => CallComponents
  | CallCompletude => CallCompletude
  | CallConflict a b t => CallConflict (f a) (f b) t
  end.

Definition rename_value (f : pystr -> pystr) (v : value) : value :=
  match v with
  | VIds l => VIds (map f l)
  | VComponents l => VComponents (map (map f) l)
  | VConflict l => VConflict (option_map (map f) l)
  | VBool _ | VAdded _ | VInferred _ => v
  end.

Definition rename_result (f : pystr -> pystr) (r : res value) : res value :=
  match r with Ok v => Ok (rename_value f v) | Raise e => Raise e end.
