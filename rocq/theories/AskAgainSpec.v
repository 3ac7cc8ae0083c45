(** * Asking again: what the theorems are about. *)

From Coq Require Import List.
Import ListNotations.
From Verif Require Import Base Manager AskAgain.

(** The second answer to the same question does not go back on the first: an inferred constraint is the same one again, complete constraints are complete again,
    data that were in one component are in one component again, and a conflict is a conflict again, that involves at least the same data. *)
Definition still (q : qcall) (before after : res value) : Prop :=
  match q with
  | QInferred _ _ => forall t, before = Ok (VInferred (Some t)) -> after = Ok (VInferred (Some t))
  | QCompletude => before = Ok (VBool true) -> after = Ok (VBool true)
  | QComponents => forall l, before = Ok (VComponents l) -> exists l', after = Ok (VComponents l') /\ forall c, In c l -> exists d, In d l' /\ incl c d
  | QConflict _ _ _ => forall l, before = Ok (VConflict (Some l)) -> exists l', after = Ok (VConflict (Some l')) /\ incl l l'
  end.
