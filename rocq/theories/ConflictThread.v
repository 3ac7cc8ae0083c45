(** * A thread that asks which data are involved in a conflict while another thread changes the manager
    (/repo/src/cognitivefactory/interactive_clustering/constraints/binary.py).

    [get_list_of_involved_data_IDs_in_a_constraint_conflict] (698-749) as a program that gives way to the other threads before each read of an
    entry of the dictionaries of the manager, as in [Threads.v].  The inferred constraint is read twice (738-740), as the code does; alone the two
    reads agree, so that [Manager.v] reads it once.

    Line numbers refer to binary.py.  Simplifications: those of [Threads.v] and [Listing.v]; the program describes the method only
    when the other threads add or delete no data. *)

From Coq Require Import List Bool.
From Verif Require Import Base Manager Threads Listing.
Import ListNotations.
Open Scope t_scope.

Definition p_conflict (data_ID1 data_ID2 constraint_type : pystr) : prog (option (list pystr)) :=
  known1 <~ p_in_dict data_ID1 ;; prequire known1 ;;                       (* 720 *)
  known2 <~ p_in_dict data_ID2 ;; prequire known2 ;;                       (* 724 *)
  prequire (mem constraint_type allowed_types) ;;                          (* 728 *)
  first <~ p_get_inferred_constraint data_ID1 data_ID2 ;;                  (* 738 *)
  match first with
  | None => Done (Ok None)                                                 (* 749 *)
  | Some _ =>
      second <~ p_get_inferred_constraint data_ID1 data_ID2 ;;             (* 740 *)
      if match second with Some t => negb (eqb constraint_type t) | None => true end then
        components <~ p_get_connected_components ;;                        (* 743 *)
        Done (Ok (Some (flat_map (fun c => if mem data_ID1 c || mem data_ID2 c then c else []) components)))   (* 741-746 *)
      else Done (Ok None)                                                  (* 749 *)
  end.
