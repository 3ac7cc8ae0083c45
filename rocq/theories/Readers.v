(** * One thread changes a manager, other threads ask about it
    (/repo/src/cognitivefactory/interactive_clustering/constraints/binary.py).

    [Threads.v] describes [add_constraint] and the two getters of constraints as programs that give way to the
    other threads before each test, read or assignment of an entry of the dictionaries of the manager.  Here
    are the three other methods that change the manager.

    Line numbers refer to binary.py.  Simplifications: as in [Threads.v].  The loops and comprehensions over the keys of a
    dictionary read the keys once, when they start: this is so when no other thread adds or deletes keys,
    so these programs describe the methods only when a single thread changes the manager. *)

From Coq Require Import List Bool Arith QArith.
From Verif Require Import Base Manager Threads.
Import ListNotations.
Open Scope nat_scope.
Open Scope t_scope.

(** [self._constraints_dictionary = ...], [self._constraints_transitivity = ...], or an assignment or removal of an entry of them *)
Definition p_update (f : mgr -> mgr) : prog unit := pwrite (fun m => Ok (f m)).
Definition p_row (a : pystr) : prog (dict pystr (option constr)) := pread (fun m => dlookup a (cdict m)).
Definition p_ids : prog (list pystr) := pread (fun m => Ok (keys (cdict m))).

(** [add_data_ID] (121-162) *)
Definition p_add_data_ID (data_ID : pystr) : prog bool :=
  known <~ p_in_dict data_ID ;; prequire (negb known) ;;                   (* 139 *)
  p_update (fun m => mkMgr (dset data_ID [] (cdict m)) (ctrans m)) ;;       (* 143 *)
  others <~ p_ids ;;
  pfor others (fun other_data_ID =>                                        (* 146-152 *)
    if eqb data_ID other_data_ID then p_set_constraint data_ID data_ID (Some (MUST_LINK, 1%Q))
    else if str_ltb data_ID other_data_ID then p_set_constraint data_ID other_data_ID None
    else p_set_constraint other_data_ID data_ID None) ;;
  p_update (fun m => mkMgr (cdict m) (dset data_ID (fresh_trans data_ID) (ctrans m))) ;; (* 156-159 *)
  Done (Ok true).

(** [_generate_constraints_transitivity] (580-609) *)
Definition p_generate_constraints_transitivity : prog unit :=
  p_update (fun m => mkMgr (cdict m) (dcomp fresh_trans (keys (cdict m)))) ;;  (* 590-596 *)
  ids <~ p_ids ;;
  pfor ids (fun data_ID1 =>                                                (* 598 *)
    row <~ p_row data_ID1 ;;
    pfor (keys row) (fun data_ID2 =>                                       (* 599 *)
      constraint <~ p_get_constraint data_ID1 data_ID2 ;;                  (* 601 *)
      match constraint with                                                (* 604-609 *)
      | Some c => p_add_constraint_transitivity data_ID1 data_ID2 (fst c)
      | None => Done (Ok tt)
      end)).

(** [delete_data_ID] (167-199) *)
Definition p_delete_data_ID (data_ID : pystr) : prog bool :=
  known <~ p_in_dict data_ID ;; prequire known ;;                          (* 185 *)
  p_update (fun m => mkMgr (dpop data_ID (cdict m)) (ctrans m)) ;;          (* 189 *)
  others <~ p_ids ;;
  pfor others (fun other_data_ID =>                                        (* 192-193 *)
    pwrite (fun m => rbind (dlookup other_data_ID (cdict m)) (fun row => Ok (mkMgr (dset other_data_ID (dpop data_ID row) (cdict m)) (ctrans m))))) ;;
  p_generate_constraints_transitivity ;;                                   (* 196 *)
  Done (Ok true).

(** [delete_constraint] (311-348) *)
Definition p_delete_constraint (data_ID1 data_ID2 : pystr) : prog bool :=
  known1 <~ p_in_dict data_ID1 ;; prequire known1 ;;                       (* 331 *)
  known2 <~ p_in_dict data_ID2 ;; prequire known2 ;;                       (* 335 *)
  (if str_leb data_ID1 data_ID2                                            (* 339-342 *)
   then p_set_constraint data_ID1 data_ID2 None
   else p_set_constraint data_ID2 data_ID1 None) ;;
  p_generate_constraints_transitivity ;;                                   (* 345 *)
  Done (Ok true).

(** The calls of the thread that changes the manager. *)
Inductive wcall :=
| WAddID (x : pystr)
| WDeleteID (x : pystr)
| WAdd (a b t : pystr) (v : Q)
| WDelete (a b : pystr).

Definition p_wexec (c : wcall) : prog value :=
  match c with
  | WAddID x => r <~ p_add_data_ID x ;; Done (Ok (VBool r))
  | WDeleteID x => r <~ p_delete_data_ID x ;; Done (Ok (VBool r))
  | WAdd a b t v => r <~ p_add_constraint a b t v ;; Done (Ok (VBool r))
  | WDelete a b => r <~ p_delete_constraint a b ;; Done (Ok (VBool r))
  end.
Definition as_wcall (c : wcall) : call :=
  match c with
  | WAddID x => CallAddDataID x
  | WDeleteID x => CallDeleteDataID x
  | WAdd a b t v => CallAddConstraint a b t v
  | WDelete a b => CallDeleteConstraint a b
  end.

(** The thread makes the calls one after the other, whatever they return or raise. *)
Fixpoint p_wsession (cs : list wcall) : prog (list (res value)) :=
  match cs with
  | [] => Done (Ok [])
  | c :: cs' => r <~ pcatch (p_wexec c) ;; rs <~ p_wsession cs' ;; Done (Ok (r :: rs))
  end.
