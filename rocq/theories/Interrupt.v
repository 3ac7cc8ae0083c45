(** * Changes of a manager that are interrupted half way
    (/repo/src/cognitivefactory/interactive_clustering/constraints/binary.py).

    [Manager.v] describes the methods by the manager they end with.  Here they also list the
    managers they pass through: one after each assignment to an attribute or to an entry of a
    dictionary, and after each removal of an entry.  An exception from outside, as
    [KeyboardInterrupt] when the user presses Ctrl-C or [MemoryError], can leave the manager in
    any of them; so can another thread see it.

    Line numbers refer to binary.py.  Simplifications: as in [Manager.v].  Assignments and removals of
    one entry are atomic, as they are in CPython for keys that are strings. *)

From Coq Require Import List Bool Arith QArith.
From Verif Require Import Base Manager.
Import ListNotations.
Open Scope nat_scope.

(** The managers after each write, the last manager and the result. *)
Definition W (A : Type) := mgr -> list mgr * (mgr * res A).

Definition quiet {A} (p : M mgr A) : W A := fun m => ([], p m).
Definition write (f : mgr -> mgr) : W unit := fun m => ([f m], (f m, Ok tt)).
Definition wbind {A B} (p : W A) (k : A -> W B) : W B := fun m =>
  let '(l, (m1, r)) := p m in
  match r with
  | Ok a => let '(l', e) := k a m1 in (l ++ l', e)
  | Raise e => (l, (m1, Raise e))
  end.
Declare Scope w_scope.
Notation "x <~ p ;; k" := (wbind p (fun x => k)) (at level 61, p at next level, right associativity) : w_scope.
Notation "p ;; k" := (wbind p (fun _ => k)) (at level 61, right associativity) : w_scope.
Open Scope w_scope.

Fixpoint wfor {A} (l : list A) (f : A -> W unit) : W unit :=
  match l with
  | [] => quiet (ret tt)
  | x :: l' => f x ;; wfor l' f
  end.

(** [self._constraints_dictionary[a][b] = v] *)
Definition w_set_constraint (a b : pystr) (v : option constr) : W unit :=
  row <~ quiet (bind (gets (fun m => dlookup a (cdict m))) lift) ;;
  write (fun m => mkMgr (dset a (dset b v row) (cdict m)) (ctrans m)).

(** [self._constraints_transitivity[a]["MUST_LINK"] = l], [... ["CANNOT_LINK"] = l] *)
Definition w_set_ml (a : pystr) (l : list pystr) : W unit :=
  t <~ quiet (get_trans a) ;;
  write (fun m => mkMgr (cdict m) (dset a (mkTrans l (t_cl t)) (ctrans m))).
Definition w_set_cl (a : pystr) (l : list pystr) : W unit :=
  t <~ quiet (get_trans a) ;;
  write (fun m => mkMgr (cdict m) (dset a (mkTrans (t_ml t) l) (ctrans m))).

(** [add_data_ID] (121-162) *)
Definition w_add_data_ID (data_ID : pystr) : W bool :=
  known <~ quiet (in_dict data_ID) ;;                                      (* 139 *)
  quiet (require (negb known)) ;;
  write (fun m => mkMgr (dset data_ID [] (cdict m)) (ctrans m)) ;;          (* 143 *)
  others <~ quiet (gets (fun m => keys (cdict m))) ;;
  wfor others (fun other_data_ID =>                                        (* 146-152 *)
    if eqb data_ID other_data_ID then w_set_constraint data_ID data_ID (Some (MUST_LINK, 1%Q))
    else if str_ltb data_ID other_data_ID then w_set_constraint data_ID other_data_ID None
    else w_set_constraint other_data_ID data_ID None) ;;
  write (fun m => mkMgr (cdict m) (dset data_ID (fresh_trans data_ID) (ctrans m))) ;; (* 156-159 *)
  quiet (ret true).

(** [_add_constraint_transitivity] (614-693) *)
Definition w_add_constraint_transitivity (data_ID1 data_ID2 constraint_type : pystr) : W bool :=
  (if eqb constraint_type MUST_LINK then
     t1 <~ quiet (get_trans data_ID1) ;;
     t2 <~ quiet (get_trans data_ID2) ;;
     let new_ml := ounion (t_ml t1) (t_ml t2) in                           (* 639-642 *)
     let new_cl := ounion (t_cl t1) (t_cl t2) in                           (* 646-649 *)
     wfor new_ml (fun x => w_set_ml x new_ml ;; w_set_cl x new_cl) ;;       (* 652-656 *)
     wfor new_cl (fun x =>                                                 (* 659-664 *)
       t <~ quiet (get_trans x) ;;
       w_set_cl x (ounion (t_cl t) new_ml))
   else
     t1 <~ quiet (get_trans data_ID1) ;;
     t2 <~ quiet (get_trans data_ID2) ;;
     let new_cl1 := ounion (t_cl t1) (t_ml t2) in                          (* 671-674 *)
     let new_cl2 := ounion (t_cl t2) (t_ml t1) in                          (* 677-680 *)
     t1 <~ quiet (get_trans data_ID1) ;;
     wfor (t_ml t1) (fun x => w_set_cl x new_cl1) ;;                       (* 683-685 *)
     t2 <~ quiet (get_trans data_ID2) ;;
     wfor (t_ml t2) (fun x => w_set_cl x new_cl2)) ;;                      (* 688-690 *)
  quiet (ret true).

(** [_generate_constraints_transitivity] (580-609): the new attribute is made before it is assigned *)
Definition w_generate_constraints_transitivity : W unit :=
  write (fun m => mkMgr (cdict m) (dcomp fresh_trans (keys (cdict m)))) ;;  (* 590-596 *)
  ids <~ quiet (gets (fun m => keys (cdict m))) ;;
  wfor ids (fun data_ID1 =>                                                (* 598 *)
    row <~ quiet (bind (gets (fun m => dlookup data_ID1 (cdict m))) lift) ;;
    wfor (keys row) (fun data_ID2 =>                                       (* 599 *)
      constraint <~ quiet (get_constraint data_ID1 data_ID2) ;;            (* 601 *)
      match constraint with                                                (* 604-609 *)
      | Some c => w_add_constraint_transitivity data_ID1 data_ID2 (fst c) ;; quiet (ret tt)
      | None => quiet (ret tt)
      end)).

(** [delete_data_ID] (167-199) *)
Definition w_delete_data_ID (data_ID : pystr) : W bool :=
  known <~ quiet (in_dict data_ID) ;;                                      (* 185 *)
  quiet (require known) ;;
  write (fun m => mkMgr (dpop data_ID (cdict m)) (ctrans m)) ;;             (* 189 *)
  others <~ quiet (gets (fun m => keys (cdict m))) ;;
  wfor others (fun other_data_ID =>                                        (* 192-193 *)
    row <~ quiet (bind (gets (fun m => dlookup other_data_ID (cdict m))) lift) ;;
    write (fun m => mkMgr (dset other_data_ID (dpop data_ID row) (cdict m)) (ctrans m))) ;;
  w_generate_constraints_transitivity ;;                                   (* 196 *)
  quiet (ret true).

(** [add_constraint] (220-306) *)
Definition w_add_constraint (data_ID1 data_ID2 constraint_type : pystr) (constraint_value : Q) : W bool :=
  known1 <~ quiet (in_dict data_ID1) ;;                                    (* 244 *)
  quiet (require known1) ;;
  known2 <~ quiet (in_dict data_ID2) ;;                                    (* 248 *)
  quiet (require known2) ;;
  quiet (require (mem constraint_type allowed_types)) ;;                   (* 252 *)
  inferred <~ quiet (get_inferred_constraint data_ID1 data_ID2) ;;         (* 262 *)
  quiet match inferred with                                                (* 268 *)
        | Some t => require (eqb t constraint_type)
        | None => ret tt
        end ;;
  added <~ quiet (get_added_constraint data_ID1 data_ID2) ;;               (* 282 *)
  match added with
  | Some _ => quiet (ret true)                                             (* 288-290 *)
  | None =>
      (if str_leb data_ID1 data_ID2                                        (* 294-297 *)
       then w_set_constraint data_ID1 data_ID2 (Some (constraint_type, 1%Q))
       else w_set_constraint data_ID2 data_ID1 (Some (constraint_type, 1%Q))) ;;
      w_add_constraint_transitivity data_ID1 data_ID2 constraint_type ;;   (* 300 *)
      quiet (ret true)
  end.

(** [delete_constraint] (311-348) *)
Definition w_delete_constraint (data_ID1 data_ID2 : pystr) : W bool :=
  known1 <~ quiet (in_dict data_ID1) ;;                                    (* 331 *)
  quiet (require known1) ;;
  known2 <~ quiet (in_dict data_ID2) ;;                                    (* 335 *)
  quiet (require known2) ;;
  (if str_leb data_ID1 data_ID2                                            (* 339-342 *)
   then w_set_constraint data_ID1 data_ID2 None
   else w_set_constraint data_ID2 data_ID1 None) ;;
  w_generate_constraints_transitivity ;;                                   (* 345 *)
  quiet (ret true).

(** The other methods write nothing. *)
Definition w_exec (c : call) : W value :=
  match c with
  | CallAddDataID x => r <~ w_add_data_ID x ;; quiet (ret (VBool r))
  | CallDeleteDataID x => r <~ w_delete_data_ID x ;; quiet (ret (VBool r))
  | CallAddConstraint a b t v => r <~ w_add_constraint a b t v ;; quiet (ret (VBool r))
  | CallDeleteConstraint a b => r <~ w_delete_constraint a b ;; quiet (ret (VBool r))
  | c => quiet (exec c)
  end.

(** A call on [m] that is interrupted, before or after any of its writes, can leave [m']. *)
Definition interrupted (c : call) (m m' : mgr) : Prop := In m' (m :: fst (w_exec c m)).
