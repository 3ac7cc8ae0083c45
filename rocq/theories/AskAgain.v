(** * A thread that asks several questions, one after the other, while another thread changes the manager
    (/repo/src/cognitivefactory/interactive_clustering/constraints/binary.py).

    The getters [get_inferred_constraint] (391-430), [get_connected_components] (435-465), [check_completude_of_constraints] (470-496) and
    [get_list_of_involved_data_IDs_in_a_constraint_conflict] (698-749), as in [Threads.v], [Listing.v] and [ConflictThread.v], in any order and any number.  Simplifications: as there. *)

From Coq Require Import List.
From Verif Require Import Base Manager Threads Listing ConflictThread.
Import ListNotations.
Open Scope t_scope.

Inductive qcall := QInferred (a b : pystr) | QComponents | QCompletude | QConflict (a b t : pystr).
Definition p_qexec (q : qcall) : prog value :=
  match q with
  | QInferred a b => r <~ p_get_inferred_constraint a b ;; Done (Ok (VInferred r))
  | QComponents => r <~ p_get_connected_components ;; Done (Ok (VComponents r))
  | QCompletude => r <~ p_check_completude_of_constraints ;; Done (Ok (VBool r))
  | QConflict a b t => r <~ p_conflict a b t ;; Done (Ok (VConflict r))
  end.
Definition as_qcall (q : qcall) : call := match q with QInferred a b => CallGetInferred a b | QComponents => CallComponents | QCompletude => CallCompletude | QConflict a b t => CallConflict a b t end.
Fixpoint p_qsession (qs : list qcall) : prog (list (res value)) :=
  match qs with
  | [] => Done (Ok [])
  | q :: qs' => r <~ pcatch (p_qexec q) ;; rs <~ p_qsession qs' ;; Done (Ok (r :: rs))
  end.
