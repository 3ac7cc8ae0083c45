(** * Threads that list the connected components, or check that the constraints are complete
    (/repo/src/cognitivefactory/interactive_clustering/constraints/binary.py).

    The two methods of the manager that go through all the data, as programs that give way to the other threads before each
    read of an entry of the dictionaries of the manager, as in [Threads.v].

    Line numbers refer to binary.py.  Simplifications: as in [Threads.v].  The loop over [self._constraints_transitivity.keys()] reads the
    keys once, when it starts: this is so when no other thread adds or deletes data (Python raises
    RuntimeError when the loop goes on after that), so these programs describe the methods only
    when the other threads add or delete no data. *)

From Coq Require Import List Bool Arith.
From Verif Require Import Base Manager Threads.
Import ListNotations.
Open Scope nat_scope.
Open Scope t_scope.

(** [self._constraints_transitivity.keys()] *)
Definition p_trans_keys : prog (list pystr) := pread (fun m => Ok (keys (ctrans m))).

(** [get_connected_components] (435-465): the loop (455-462), from the list found up to now *)
Fixpoint p_collect_components (l : list pystr) (found : list (list pystr)) : prog (list (list pystr)) :=
  match l with
  | [] => Done (Ok found)                                                  (* 465 *)
  | data_ID :: l' =>
      component <~ p_ml data_ID ;;                                         (* 457 *)
      p_collect_components l' (if mem component found then found else found ++ [component])   (* 460-462 *)
  end.
Definition p_get_connected_components : prog (list (list pystr)) :=
  l <~ p_trans_keys ;;                                                     (* 455 *)
  p_collect_components l [].                                               (* 452 *)

(** [check_completude_of_constraints] (470-496): the loop (486-493) *)
Fixpoint p_all_complete (l : list pystr) : prog bool :=
  match l with
  | [] => Done (Ok true)                                                   (* 496 *)
  | data_ID :: l' =>
      ml <~ p_ml data_ID ;;                                                (* 489 *)
      cl <~ p_cl data_ID ;;                                                (* 490 *)
      all <~ p_trans_keys ;;                                               (* 491 *)
      if Nat.eqb (List.length ml + List.length cl) (List.length all) then p_all_complete l'
      else Done (Ok false)                                                 (* 493 *)
  end.
Definition p_check_completude_of_constraints : prog bool :=
  l <~ p_trans_keys ;;                                                     (* 486 *)
  p_all_complete l.

(** The calls of the threads that go through the data. *)
Inductive lcall := LComponents | LCompletude.
Definition p_lexec (q : lcall) : prog value :=
  match q with
  | LComponents => r <~ p_get_connected_components ;; Done (Ok (VComponents r))
  | LCompletude => r <~ p_check_completude_of_constraints ;; Done (Ok (VBool r))
  end.
Definition as_lcall (q : lcall) : call := match q with LComponents => CallComponents | LCompletude => CallCompletude end.
Fixpoint p_lsession (qs : list lcall) : prog (list (res value)) :=
  match qs with
  | [] => Done (Ok [])
  | q :: qs' => r <~ pcatch (p_lexec q) ;; rs <~ p_lsession qs' ;; Done (Ok (r :: rs))
  end.
