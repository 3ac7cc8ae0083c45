(** * Calls on one manager from several threads
    (/repo/src/cognitivefactory/interactive_clustering/constraints/binary.py).

    [Manager.v] describes a method by its whole effect.  Here [add_constraint] and the two getters of
    constraints are programs that give way to the other threads before each test, read or assignment of an
    entry of the dictionaries of the manager.

    Line numbers refer to binary.py.  Simplifications: as in [Manager.v].  One test, read or assignment of an
    entry is atomic, as it is in CPython for keys that are strings; [{**d, **d'}] copies two dictionaries, each
    copy being atomic.  A dictionary that is the value of "MUST_LINK" or "CANNOT_LINK" is never changed
    in place by these methods (they assign new ones), so a loop over its keys is a loop over the keys it had
    when the loop started. *)

From Coq Require Import List Bool Arith QArith.
From Verif Require Import Base Manager.
Import ListNotations.
Open Scope nat_scope.

(** What remains to be done: nothing, or one atomic action, which changes the manager to [f m] when it finds [m], and goes
    on as [k m]. *)
Inductive prog (A : Type) :=
| Done (r : res A)
| Step (f : mgr -> mgr) (k : mgr -> prog A).
Arguments Done {A}. Arguments Step {A}.

Fixpoint pbind {A B} (p : prog A) (k : A -> prog B) : prog B :=
  match p with
  | Done (Ok a) => k a
  | Done (Raise e) => Done (Raise e)
  | Step f g => Step f (fun m => pbind (g m) k)
  end.
Declare Scope t_scope.
Notation "x <~ p ;; k" := (pbind p (fun x => k)) (at level 61, p at next level, right associativity) : t_scope.
Notation "p ;; k" := (pbind p (fun _ => k)) (at level 61, right associativity) : t_scope.
Open Scope t_scope.

Fixpoint pfor {A} (l : list A) (f : A -> prog unit) : prog unit :=
  match l with
  | [] => Done (Ok tt)
  | x :: l' => f x ;; pfor l' f
  end.

(** One read, one assignment. *)
Definition pread {A} (q : mgr -> res A) : prog A := Step (fun m => m) (fun m => Done (q m)).
Definition pwrite (q : mgr -> res mgr) : prog unit :=
  Step (fun m => match q m with Ok m' => m' | Raise _ => m end) (fun m => Done (match q m with Ok _ => Ok tt | Raise e => Raise e end)).
Definition prequire (b : bool) : prog unit := Done (if b then Ok tt else Raise ValueError).

(** [x in self._constraints_dictionary.keys()], [x in self._constraints_transitivity.keys()] *)
Definition p_in_dict (x : pystr) : prog bool := pread (fun m => Ok (mem x (keys (cdict m)))).
Definition p_in_trans (x : pystr) : prog bool := pread (fun m => Ok (mem x (keys (ctrans m)))).

(** [self._constraints_dictionary[a][b]], [self._constraints_dictionary[a][b] = v] *)
Definition p_get_constraint (a b : pystr) : prog (option constr) :=
  pread (fun m => rbind (dlookup a (cdict m)) (fun row => dlookup b row)).
Definition p_set_constraint (a b : pystr) (v : option constr) : prog unit :=
  pwrite (fun m => rbind (dlookup a (cdict m)) (fun row => Ok (mkMgr (dset a (dset b v row) (cdict m)) (ctrans m)))).

(** [self._constraints_transitivity[a]["MUST_LINK"]] and its assignment, the same for "CANNOT_LINK" *)
Definition p_ml (a : pystr) : prog (list pystr) := pread (fun m => rbind (dlookup a (ctrans m)) (fun t => Ok (t_ml t))).
Definition p_cl (a : pystr) : prog (list pystr) := pread (fun m => rbind (dlookup a (ctrans m)) (fun t => Ok (t_cl t))).
Definition p_set_ml (a : pystr) (l : list pystr) : prog unit :=
  pwrite (fun m => rbind (dlookup a (ctrans m)) (fun t => Ok (mkMgr (cdict m) (dset a (mkTrans l (t_cl t)) (ctrans m))))).
Definition p_set_cl (a : pystr) (l : list pystr) : prog unit :=
  pwrite (fun m => rbind (dlookup a (ctrans m)) (fun t => Ok (mkMgr (cdict m) (dset a (mkTrans (t_ml t) l) (ctrans m))))).

(** [get_inferred_constraint] (391-430) *)
Definition p_get_inferred_constraint (data_ID1 data_ID2 : pystr) : prog (option pystr) :=
  known1 <~ p_in_trans data_ID1 ;; prequire known1 ;;                      (* 414 *)
  known2 <~ p_in_trans data_ID2 ;; prequire known2 ;;                      (* 418 *)
  ml <~ p_ml data_ID2 ;;
  if mem data_ID1 ml then Done (Ok (Some MUST_LINK))                       (* 422 *)
  else
    cl <~ p_cl data_ID2 ;;
    if mem data_ID1 cl then Done (Ok (Some CANNOT_LINK))                   (* 426 *)
    else Done (Ok None).                                                   (* 430 *)

(** [get_added_constraint] (353-386) *)
Definition p_get_added_constraint (data_ID1 data_ID2 : pystr) : prog (option constr) :=
  known1 <~ p_in_dict data_ID1 ;; prequire known1 ;;                       (* 374 *)
  known2 <~ p_in_dict data_ID2 ;; prequire known2 ;;                       (* 378 *)
  if str_leb data_ID1 data_ID2 then p_get_constraint data_ID1 data_ID2     (* 382-386 *)
  else p_get_constraint data_ID2 data_ID1.

(** [_add_constraint_transitivity] (614-693) *)
Definition p_add_constraint_transitivity (data_ID1 data_ID2 constraint_type : pystr) : prog unit :=
  if eqb constraint_type MUST_LINK then
    ml1 <~ p_ml data_ID1 ;; ml2 <~ p_ml data_ID2 ;;                        (* 639-642 *)
    let new_ml := ounion ml1 ml2 in
    cl1 <~ p_cl data_ID1 ;; cl2 <~ p_cl data_ID2 ;;                        (* 646-649 *)
    let new_cl := ounion cl1 cl2 in
    pfor new_ml (fun x => p_set_ml x new_ml ;; p_set_cl x new_cl) ;;        (* 652-656 *)
    pfor new_cl (fun x =>                                                  (* 659-664 *)
      cl <~ p_cl x ;;
      p_set_cl x (ounion cl new_ml))
  else
    cl1 <~ p_cl data_ID1 ;; ml2 <~ p_ml data_ID2 ;;                        (* 671-674 *)
    let new_cl1 := ounion cl1 ml2 in
    cl2 <~ p_cl data_ID2 ;; ml1 <~ p_ml data_ID1 ;;                        (* 677-680 *)
    let new_cl2 := ounion cl2 ml1 in
    ml1 <~ p_ml data_ID1 ;;
    pfor ml1 (fun x => p_set_cl x new_cl1) ;;                              (* 683-685 *)
    ml2 <~ p_ml data_ID2 ;;
    pfor ml2 (fun x => p_set_cl x new_cl2).                                (* 688-690 *)

(** [add_constraint] (220-306) *)
Definition p_add_constraint (data_ID1 data_ID2 constraint_type : pystr) (constraint_value : Q) : prog bool :=
  known1 <~ p_in_dict data_ID1 ;; prequire known1 ;;                       (* 244 *)
  known2 <~ p_in_dict data_ID2 ;; prequire known2 ;;                       (* 248 *)
  prequire (mem constraint_type allowed_types) ;;                          (* 252 *)
  inferred <~ p_get_inferred_constraint data_ID1 data_ID2 ;;               (* 262 *)
  prequire (match inferred with Some t => eqb t constraint_type | None => true end) ;;  (* 268 *)
  added <~ p_get_added_constraint data_ID1 data_ID2 ;;                     (* 282 *)
  match added with
  | Some _ => Done (Ok true)                                               (* 288-290 *)
  | None =>
      (if str_leb data_ID1 data_ID2                                        (* 294-297 *)
       then p_set_constraint data_ID1 data_ID2 (Some (constraint_type, 1%Q))
       else p_set_constraint data_ID2 data_ID1 (Some (constraint_type, 1%Q))) ;;
      p_add_constraint_transitivity data_ID1 data_ID2 constraint_type ;;   (* 300 *)
      Done (Ok true)
  end.

(** The calls that threads make here. *)
Inductive tcall :=
| TAdd (a b t : pystr) (v : Q)
| TGetAdded (a b : pystr)
| TGetInferred (a b : pystr).

Definition p_exec (c : tcall) : prog value :=
  match c with
  | TAdd a b t v => r <~ p_add_constraint a b t v ;; Done (Ok (VBool r))
  | TGetAdded a b => r <~ p_get_added_constraint a b ;; Done (Ok (VAdded r))
  | TGetInferred a b => r <~ p_get_inferred_constraint a b ;; Done (Ok (VInferred r))
  end.
Definition as_call (c : tcall) : call :=
  match c with
  | TAdd a b t v => CallAddConstraint a b t v
  | TGetAdded a b => CallGetAdded a b
  | TGetInferred a b => CallGetInferred a b
  end.

(** A call, its exception being caught. *)
Fixpoint pcatch {A} (p : prog A) : prog (res A) :=
  match p with
  | Done r => Done (Ok r)
  | Step f k => Step f (fun m => pcatch (k m))
  end.
(** A thread that makes calls one after the other, whatever they return or raise. *)
Fixpoint p_session (cs : list tcall) : prog (list (res value)) :=
  match cs with
  | [] => Done (Ok [])
  | c :: cs' => r <~ pcatch (p_exec c) ;; rs <~ p_session cs' ;; Done (Ok (r :: rs))
  end.

(** A program alone. *)
Fixpoint alone {A} (p : prog A) (m : mgr) : mgr * res A :=
  match p with
  | Done r => (m, r)
  | Step f k => alone (k m) (f m)
  end.

(** [interleaved m ps m' rs]: when the threads [ps] run on [m], one action of one of them after the other in
    some order, they can end with the results [rs] and leave [m']. *)
Inductive interleaved {A} : mgr -> list (prog A) -> mgr -> list (res A) -> Prop :=
| all_done : forall m rs, interleaved m (map Done rs) m rs
| one_step : forall m l1 f k l2 m' rs,
    interleaved (f m) (l1 ++ k m :: l2) m' rs -> interleaved m (l1 ++ Step f k :: l2) m' rs.
