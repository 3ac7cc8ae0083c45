(** * Model of [BinaryConstraintsManager]
    (/repo/src/cognitivefactory/interactive_clustering/constraints/binary.py).

    Line numbers below refer to that file.  Simplifications, for the whole file:
    - error messages are dropped, only the exception class is kept;
    - data IDs and constraint types are Python [str]; calls with arguments of
      another type are not modelled;
    - constraint values, always [1.0] in the stored data (98, 295, 297), are rationals;
    - a [Dict[str, None]] (ordered set) is the list of its keys;
    - dictionaries are values; in [Heap.v] they are objects that can be shared, and
      C98 shows that the answers are the same;
    - logging/doc strings are dropped. *)

From Coq Require Import List Bool Arith NArith ZArith QArith String.
From Verif Require Import Base.
Import ListNotations.
Open Scope py_scope.

Definition MUST_LINK : pystr := str "MUST_LINK".
Definition CANNOT_LINK : pystr := str "CANNOT_LINK".

(** A stored constraint [(constraint_type, constraint_value)]. *)
Definition constr := (pystr * Q)%type.

(** [self._constraints_transitivity[x]]: the dictionaries under the keys
    "MUST_LINK" and "CANNOT_LINK" (110-116). *)
Record trans := mkTrans { t_ml : list pystr; t_cl : list pystr }.

(** The object state: [self._constraints_dictionary] (95-106) and
    [self._constraints_transitivity] (110-116).  [self._allowed_constraint_types]
    (81-84) is the constant [allowed_types]; [self._allowed_constraint_value_range]
    and [self.kargs] (86-92) are never read by the modelled methods. *)
Record mgr := mkMgr {
  cdict : dict pystr (dict pystr (option constr));
  ctrans : dict pystr trans }.

Definition allowed_types : list pystr := [MUST_LINK; CANNOT_LINK].

(** [{"MUST_LINK": {data_ID: None}, "CANNOT_LINK": {}}] (111-114, 156-159, 591-594). *)
Definition fresh_trans (data_ID : pystr) : trans := mkTrans [data_ID] [].

(** [__init__] (70-116). *)
Definition init (list_of_data_IDs : list pystr) : mgr :=
  mkMgr
    (dcomp (fun data_ID1 =>
              dcomp (fun data_ID2 => if eqb data_ID1 data_ID2 then Some (MUST_LINK, 1%Q) else None)
                    (filter (fun data_ID2 => str_leb data_ID1 data_ID2) list_of_data_IDs))
           list_of_data_IDs)
    (dcomp fresh_trans list_of_data_IDs).

(** [self._constraints_dictionary[a][b] = v] *)
Definition set_constraint (a b : pystr) (v : option constr) : M mgr unit :=
  row <- gets (fun m => dlookup a (cdict m)) ;;
  row <- lift row ;;
  modify (fun m => mkMgr (dset a (dset b v row) (cdict m)) (ctrans m)).

(** [self._constraints_dictionary[a][b]] *)
Definition get_constraint (a b : pystr) : M mgr (option constr) :=
  row <- gets (fun m => dlookup a (cdict m)) ;;
  row <- lift row ;;
  lift (dlookup b row).

(** [self._constraints_transitivity[a]] *)
Definition get_trans (a : pystr) : M mgr trans :=
  t <- gets (fun m => dlookup a (ctrans m)) ;;
  lift t.

(** [self._constraints_transitivity[a]["MUST_LINK"] = l] *)
Definition set_ml (a : pystr) (l : list pystr) : M mgr unit :=
  t <- get_trans a ;;
  modify (fun m => mkMgr (cdict m) (dset a (mkTrans l (t_cl t)) (ctrans m))).

(** [self._constraints_transitivity[a]["CANNOT_LINK"] = l] *)
Definition set_cl (a : pystr) (l : list pystr) : M mgr unit :=
  t <- get_trans a ;;
  modify (fun m => mkMgr (cdict m) (dset a (mkTrans (t_ml t) l) (ctrans m))).

(** [x in self._constraints_dictionary.keys()] / [... _constraints_transitivity.keys()] *)
Definition in_dict (x : pystr) : M mgr bool := gets (fun m => mem x (keys (cdict m))).
Definition in_trans (x : pystr) : M mgr bool := gets (fun m => mem x (keys (ctrans m))).

(** [if not cond: raise ValueError(...)] *)
Definition require {S} (b : bool) : M S unit := if b then ret tt else raise ValueError.

(** [add_data_ID] (121-162). *)
Definition add_data_ID (data_ID : pystr) : M mgr bool :=
  known <- in_dict data_ID ;;                                            (* 139 *)
  require (negb known) ;;
  modify (fun m => mkMgr (dset data_ID [] (cdict m)) (ctrans m)) ;;       (* 143 *)
  others <- gets (fun m => keys (cdict m)) ;;
  for_ others (fun other_data_ID =>                                      (* 146-152 *)
    if eqb data_ID other_data_ID then set_constraint data_ID data_ID (Some (MUST_LINK, 1%Q))
    else if str_ltb data_ID other_data_ID then set_constraint data_ID other_data_ID None
    else set_constraint other_data_ID data_ID None) ;;
  modify (fun m => mkMgr (cdict m) (dset data_ID (fresh_trans data_ID) (ctrans m))) ;; (* 156-159 *)
  ret true.

(** [_add_constraint_transitivity] (614-693). *)
Definition add_constraint_transitivity (data_ID1 data_ID2 constraint_type : pystr) : M mgr bool :=
  (if eqb constraint_type MUST_LINK then
     t1 <- get_trans data_ID1 ;;
     t2 <- get_trans data_ID2 ;;
     let new_ml := ounion (t_ml t1) (t_ml t2) in                         (* 639-642 *)
     let new_cl := ounion (t_cl t1) (t_cl t2) in                         (* 646-649 *)
     for_ new_ml (fun x => set_ml x new_ml ;; set_cl x new_cl) ;;         (* 652-656 *)
     for_ new_cl (fun x =>                                               (* 659-664 *)
       t <- get_trans x ;;
       set_cl x (ounion (t_cl t) new_ml))
   else
     t1 <- get_trans data_ID1 ;;
     t2 <- get_trans data_ID2 ;;
     let new_cl1 := ounion (t_cl t1) (t_ml t2) in                        (* 671-674 *)
     let new_cl2 := ounion (t_cl t2) (t_ml t1) in                        (* 677-680 *)
     t1 <- get_trans data_ID1 ;;
     for_ (t_ml t1) (fun x => set_cl x new_cl1) ;;                       (* 683-685 *)
     t2 <- get_trans data_ID2 ;;
     for_ (t_ml t2) (fun x => set_cl x new_cl2)) ;;                      (* 688-690 *)
  ret true.

(** [_generate_constraints_transitivity] (580-609). *)
Definition generate_constraints_transitivity : M mgr unit :=
  modify (fun m => mkMgr (cdict m) (dcomp fresh_trans (keys (cdict m)))) ;;  (* 590-596 *)
  ids <- gets (fun m => keys (cdict m)) ;;
  for_ ids (fun data_ID1 =>                                              (* 598 *)
    row <- gets (fun m => dlookup data_ID1 (cdict m)) ;;
    row <- lift row ;;
    for_ (keys row) (fun data_ID2 =>                                     (* 599 *)
      constraint <- get_constraint data_ID1 data_ID2 ;;                  (* 601 *)
      match constraint with                                              (* 604-609 *)
      | Some c => add_constraint_transitivity data_ID1 data_ID2 (fst c) ;; ret tt
      | None => ret tt
      end)).

(** [delete_data_ID] (167-199). *)
Definition delete_data_ID (data_ID : pystr) : M mgr bool :=
  known <- in_dict data_ID ;;                                            (* 185 *)
  require known ;;
  modify (fun m => mkMgr (dpop data_ID (cdict m)) (ctrans m)) ;;          (* 189 *)
  others <- gets (fun m => keys (cdict m)) ;;
  for_ others (fun other_data_ID =>                                      (* 192-193 *)
    row <- gets (fun m => dlookup other_data_ID (cdict m)) ;;
    row <- lift row ;;
    modify (fun m => mkMgr (dset other_data_ID (dpop data_ID row) (cdict m)) (ctrans m))) ;;
  generate_constraints_transitivity ;;                                   (* 196 *)
  ret true.

(** [get_list_of_managed_data_IDs] (204-215). *)
Definition get_list_of_managed_data_IDs : M mgr (list pystr) :=
  gets (fun m => keys (cdict m)).

(** [get_inferred_constraint] (391-430); [threshold] is not read. *)
Definition get_inferred_constraint (data_ID1 data_ID2 : pystr) : M mgr (option pystr) :=
  known1 <- in_trans data_ID1 ;;                                         (* 414 *)
  require known1 ;;
  known2 <- in_trans data_ID2 ;;                                         (* 418 *)
  require known2 ;;
  t2 <- get_trans data_ID2 ;;
  if mem data_ID1 (t_ml t2) then ret (Some MUST_LINK)                    (* 422 *)
  else
    t2 <- get_trans data_ID2 ;;
    if mem data_ID1 (t_cl t2) then ret (Some CANNOT_LINK)                (* 426 *)
    else ret None.                                                       (* 430 *)

(** [get_added_constraint] (353-386). *)
Definition get_added_constraint (data_ID1 data_ID2 : pystr) : M mgr (option constr) :=
  known1 <- in_dict data_ID1 ;;                                          (* 374 *)
  require known1 ;;
  known2 <- in_dict data_ID2 ;;                                          (* 378 *)
  require known2 ;;
  if str_leb data_ID1 data_ID2 then get_constraint data_ID1 data_ID2     (* 382-386 *)
  else get_constraint data_ID2 data_ID1.

(** [add_constraint] (220-306); [constraint_value] is not read. *)
Definition add_constraint (data_ID1 data_ID2 constraint_type : pystr) (constraint_value : Q) : M mgr bool :=
  known1 <- in_dict data_ID1 ;;                                          (* 244 *)
  require known1 ;;
  known2 <- in_dict data_ID2 ;;                                          (* 248 *)
  require known2 ;;
  require (mem constraint_type allowed_types) ;;                         (* 252 *)
  inferred <- get_inferred_constraint data_ID1 data_ID2 ;;               (* 262 *)
  match inferred with                                                    (* 268 *)
  | Some t => require (eqb t constraint_type)
  | None => ret tt
  end ;;
  added <- get_added_constraint data_ID1 data_ID2 ;;                     (* 282 *)
  match added with
  | Some _ => ret true                                                   (* 288-290 *)
  | None =>
      (if str_leb data_ID1 data_ID2                                      (* 294-297 *)
       then set_constraint data_ID1 data_ID2 (Some (constraint_type, 1%Q))
       else set_constraint data_ID2 data_ID1 (Some (constraint_type, 1%Q))) ;;
      add_constraint_transitivity data_ID1 data_ID2 constraint_type ;;   (* 300 *)
      ret true
  end.

(** [delete_constraint] (311-348). *)
Definition delete_constraint (data_ID1 data_ID2 : pystr) : M mgr bool :=
  known1 <- in_dict data_ID1 ;;                                          (* 331 *)
  require known1 ;;
  known2 <- in_dict data_ID2 ;;                                          (* 335 *)
  require known2 ;;
  (if str_leb data_ID1 data_ID2                                          (* 339-342 *)
   then set_constraint data_ID1 data_ID2 None
   else set_constraint data_ID2 data_ID1 None) ;;
  generate_constraints_transitivity ;;                                   (* 345 *)
  ret true.

(** [get_connected_components] (435-465); [threshold] is not read.  The
    membership test compares components as ordered lists. *)
Fixpoint collect_components (T : dict pystr trans) (ids : list pystr) (acc : list (list pystr)) : res (list (list pystr)) :=
  match ids with
  | [] => Ok acc
  | x :: ids' =>
      t <-- dlookup x T ;;;
      collect_components T ids' (if mem (t_ml t) acc then acc else acc ++ [t_ml t])
  end.

Definition get_connected_components : M mgr (list (list pystr)) :=
  r <- gets (fun m => collect_components (ctrans m) (keys (ctrans m)) []) ;;
  lift r.

(** [check_completude_of_constraints] (470-496); [threshold] is not read. *)
Fixpoint all_complete (T : dict pystr trans) (ids : list pystr) : res bool :=
  match ids with
  | [] => Ok true
  | x :: ids' =>
      t <-- dlookup x T ;;;
      if Nat.eqb (List.length (t_ml t) + List.length (t_cl t)) (List.length (keys T))
      then all_complete T ids'
      else Ok false
  end.

Definition check_completude_of_constraints : M mgr bool :=
  r <- gets (fun m => all_complete (ctrans m) (keys (ctrans m))) ;;
  lift r.

(** [get_list_of_involved_data_IDs_in_a_constraint_conflict] (698-749). *)
Definition get_list_of_involved_data_IDs_in_a_constraint_conflict
    (data_ID1 data_ID2 constraint_type : pystr) : M mgr (option (list pystr)) :=
  known1 <- in_dict data_ID1 ;;                                          (* 720 *)
  require known1 ;;
  known2 <- in_dict data_ID2 ;;                                          (* 724 *)
  require known2 ;;
  require (mem constraint_type allowed_types) ;;                         (* 728 *)
  inferred <- get_inferred_constraint data_ID1 data_ID2 ;;               (* 738-740 *)
  if match inferred with Some t => negb (eqb constraint_type t) | None => false end then
    comps <- get_connected_components ;;                                 (* 741-746 *)
    ret (Some (flat_map (fun c => if mem data_ID1 c || mem data_ID2 c then c else []) comps))
  else ret None.

(** ** The API as one type of calls, to quantify over histories. *)
Inductive call :=
| CallAddDataID (x : pystr)
| CallDeleteDataID (x : pystr)
| CallManagedIDs
| CallAddConstraint (a b t : pystr) (v : Q)
| CallDeleteConstraint (a b : pystr)
| CallGetAdded (a b : pystr)
| CallGetInferred (a b : pystr)
| CallComponents
| CallCompletude
| CallConflict (a b t : pystr).

(** Returned Python values. *)
Inductive value :=
| VBool (b : bool)
| VIds (l : list pystr)
| VAdded (c : option constr)
| VInferred (t : option pystr)
| VComponents (l : list (list pystr))
| VConflict (l : option (list pystr)).

Definition exec (c : call) : M mgr value :=
  match c with
  | CallAddDataID x => r <- add_data_ID x ;; ret (VBool r)
  | CallDeleteDataID x => r <- delete_data_ID x ;; ret (VBool r)
  | CallManagedIDs => r <- get_list_of_managed_data_IDs ;; ret (VIds r)
  | CallAddConstraint a b t v => r <- add_constraint a b t v ;; ret (VBool r)
  | CallDeleteConstraint a b => r <- delete_constraint a b ;; ret (VBool r)
  | CallGetAdded a b => r <- get_added_constraint a b ;; ret (VAdded r)
  | CallGetInferred a b => r <- get_inferred_constraint a b ;; ret (VInferred r)
  | CallComponents => r <- get_connected_components ;; ret (VComponents r)
  | CallCompletude => r <- check_completude_of_constraints ;; ret (VBool r)
  | CallConflict a b t => r <- get_list_of_involved_data_IDs_in_a_constraint_conflict a b t ;; ret (VConflict r)
  end.

(** Managers a user can hold: constructed, then any finite history of calls,
    including calls that raise (the caller may catch and go on). *)
Inductive reachable : mgr -> Prop :=
| reach_init : forall ids, reachable (init ids)
| reach_call : forall m c, reachable m -> reachable (fst (exec c m)).

(** Query answers in a state (the state part is shown unchanged elsewhere). *)
Definition ask {A} (q : M mgr A) (m : mgr) : res A := snd (q m).
