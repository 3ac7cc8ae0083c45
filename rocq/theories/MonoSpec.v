(** * Renaming the data while keeping the alphabetical order of the names *)

From Coq Require Import List Bool.
From Verif Require Import Base Manager.
Import ListNotations.

(** The new names of [used] are in the same alphabetical order as the old ones. *)
Definition keeps_order (used : list pystr) (f : pystr -> pystr) : Prop :=
  forall x y, In x used -> In y used -> str_leb (f x) (f y) = str_leb x y.

(** The data IDs which a call of the manager mentions. *)
Definition call_names (c : call) : list pystr :=
  match c with
  | CallAddDataID x | CallDeleteDataID x => [x]
  | CallManagedIDs | CallComponents | CallCompletude => []
  | CallAddConstraint a b _ _ | CallDeleteConstraint a b | CallGetAdded a b | CallGetInferred a b | CallConflict a b _ => [a; b]
  end.

(** The same dictionary with the new names as keys. *)
Definition rename_dict {V} (f : pystr -> pystr) (d : dict pystr V) : dict pystr V := map (fun e => (f (fst e), snd e)) d.
Definition rename_answer {A B} (g : A -> B) (r : res A) : res B := match r with Ok a => Ok (g a) | Raise e => Raise e end.

(** A generator that chooses positions: [random.shuffle] and [random.sample] look at the length
    of the list, not at its elements. *)
Definition by_position {A} (g : list A -> list A) : Prop :=
  exists choice : nat -> list nat, forall l, map Some (g l) = map (nth_error l) (choice (length l)).

Definition optional_keys {V} (d : option (dict pystr V)) : list pystr := match d with Some d => keys d | None => [] end.
(** The names known to a manager with a history, and to the vectors. *)
Definition names {V} (ids : list pystr) (history : list call) (vectors : dict pystr V) : list pystr :=
  ids ++ flat_map call_names history ++ keys vectors.
