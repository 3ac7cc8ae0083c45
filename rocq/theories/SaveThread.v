(** * A thread that saves the manager while another thread changes it
    (/repo/src/cognitivefactory/interactive_clustering/constraints/binary.py).

    [to_json] as a program that gives way to the other threads before each read of an entry of the dictionaries of the manager, as
    in [Threads.v].  The whole document is built before the first character is written, so writing it, as in [Json.v], reads
    nothing more of the manager.

    Line numbers refer to binary.py.  Simplifications: those of [Json.v] and [Threads.v].  The loops over the keys of a dictionary read
    the keys once, when they start: this is so when no other thread adds or deletes data (Python raises RuntimeError when a loop
    goes on after that), so the program describes the method only when the other threads add or delete no data.  A step of the loop
    over [items()] reads the value of the key as it is at that step. *)

From Coq Require Import List Bool.
From Verif Require Import Base Manager Json Threads Readers.
Import ListNotations.
Open Scope t_scope.

(** [for data_ID2, constraint in self._constraints_dictionary[data_ID1].items()] (781), with its filter (782) *)
Fixpoint p_row_records (data_ID1 : pystr) (l : list pystr) : prog (list (pystr * pystr * pystr)) :=
  match l with
  | [] => Done (Ok [])
  | data_ID2 :: l' =>
      constraint <~ p_get_constraint data_ID1 data_ID2 ;;
      rest <~ p_row_records data_ID1 l' ;;
      Done (Ok (match constraint with Some c => (data_ID1, data_ID2, fst c) :: rest | None => rest end))   (* 774-779 *)
  end.

(** [for data_ID1 in self._constraints_dictionary.keys()] (780) *)
Fixpoint p_records (l : list pystr) : prog (list (pystr * pystr * pystr)) :=
  match l with
  | [] => Done (Ok [])
  | data_ID1 :: l' =>
      row <~ p_row data_ID1 ;;
      first <~ p_row_records data_ID1 (keys row) ;;
      rest <~ p_records l' ;;
      Done (Ok (first ++ rest))
  end.

(** [to_json] (754-790): the text that is written *)
Definition p_to_json : prog pystr :=
  ids <~ p_ids ;;                                                          (* 772 *)
  l <~ p_ids ;;                                                            (* 780 *)
  records <~ p_records l ;;
  Done (Ok (dump 0 (document ids records))).
