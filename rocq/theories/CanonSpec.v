(** * What the file of a manager should contain *)

From Coq Require Import List.
From Verif Require Import Base Manager Json.
Import ListNotations.

(** The constraints among the IDs [l]: for every ID in turn, the IDs that follow it in alphabetical order (itself
    included), in the order of [l], and the type of the constraint added between them, if there is one. *)
Definition records (m : mgr) (l : list pystr) : list (pystr * pystr * pystr) :=
  flat_map (fun a => flat_map (fun b =>
    if str_leb a b then
      match ask (get_added_constraint a b) m with
      | Ok (Some (t, _)) => [(a, b, t)]
      | _ => []
      end
    else []) l) l.
