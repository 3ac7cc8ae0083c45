(** * The managers of a program, with their dictionaries as objects in memory
    (/repo/src/cognitivefactory/interactive_clustering/constraints/binary.py).

    [Manager.v] treats dictionaries as values.  Here they are objects with an address: an
    assignment changes an object in place, two names can stand for the same object, and several
    managers live in the same memory.  After a MUST_LINK constraint the data of a component do
    share their dictionaries (652-656).  A loop over a dictionary reads the object again in each
    round and raises [RuntimeError] when its size has changed, as Python does.

    Line numbers refer to binary.py.  Simplifications: as in [Manager.v], except those about
    sharing; one store for each kind of object, as no object ever changes its kind; lists are
    values, the code makes new ones for its callers; reading a dangling address, which Python does
    not have, raises [AttributeError]; loops that only read do not check the size again. *)

From Coq Require Import List Bool Arith QArith.
From Verif Require Import Base Manager.
Import ListNotations.
Open Scope py_scope.
Open Scope nat_scope.

Record heap := mkHeap {
  h_sets : list (list pystr);                     (* [Dict[str, None]] *)
  h_rows : list (dict pystr (option constr));     (* [self._constraints_dictionary[x]] *)
  h_pairs : list (nat * nat);                     (* [self._constraints_transitivity[x]]: two addresses of sets *)
  h_tables : list (dict pystr nat);               (* the two attributes: addresses of rows, of pairs *)
  h_managers : list (nat * nat) }.                (* [_constraints_dictionary], [_constraints_transitivity] *)

Definition empty_heap : heap := mkHeap [] [] [] [] [].

(** ** Objects *)
Fixpoint put {A} (n : nat) (v : A) (l : list A) : list A :=
  match l, n with
  | [], _ => []
  | _ :: l', 0 => v :: l'
  | x :: l', S n' => x :: put n' v l'
  end.

Definition deref {A} (store : heap -> list A) (a : nat) : M heap A :=
  fun h => match nth_error (store h) a with Some x => (h, Ok x) | None => (h, Raise AttributeError) end.

Definition new_set (l : list pystr) : M heap nat := fun h =>
  (mkHeap (h_sets h ++ [l]) (h_rows h) (h_pairs h) (h_tables h) (h_managers h), Ok (length (h_sets h))).
Definition new_row (r : dict pystr (option constr)) : M heap nat := fun h =>
  (mkHeap (h_sets h) (h_rows h ++ [r]) (h_pairs h) (h_tables h) (h_managers h), Ok (length (h_rows h))).
Definition new_pair (p : nat * nat) : M heap nat := fun h =>
  (mkHeap (h_sets h) (h_rows h) (h_pairs h ++ [p]) (h_tables h) (h_managers h), Ok (length (h_pairs h))).
Definition new_table (t : dict pystr nat) : M heap nat := fun h =>
  (mkHeap (h_sets h) (h_rows h) (h_pairs h) (h_tables h ++ [t]) (h_managers h), Ok (length (h_tables h))).
Definition new_manager (m : nat * nat) : M heap nat := fun h =>
  (mkHeap (h_sets h) (h_rows h) (h_pairs h) (h_tables h) (h_managers h ++ [m]), Ok (length (h_managers h))).

Definition put_row (a : nat) (r : dict pystr (option constr)) : M heap unit :=
  modify (fun h => mkHeap (h_sets h) (put a r (h_rows h)) (h_pairs h) (h_tables h) (h_managers h)).
Definition put_pair (a : nat) (p : nat * nat) : M heap unit :=
  modify (fun h => mkHeap (h_sets h) (h_rows h) (put a p (h_pairs h)) (h_tables h) (h_managers h)).
Definition put_table (a : nat) (t : dict pystr nat) : M heap unit :=
  modify (fun h => mkHeap (h_sets h) (h_rows h) (h_pairs h) (put a t (h_tables h)) (h_managers h)).
Definition put_manager (a : nat) (m : nat * nat) : M heap unit :=
  modify (fun h => mkHeap (h_sets h) (h_rows h) (h_pairs h) (h_tables h) (put a m (h_managers h))).

(** [for x in d.keys(): body x] where [current] reads the keys of the object [d]. *)
Fixpoint live_loop (fuel size i : nat) (current : M heap (list pystr)) (body : pystr -> M heap unit) : M heap unit :=
  ks <- current ;;
  if Nat.eqb (length ks) size then
    match nth_error ks i with
    | None => ret tt
    | Some x =>
        match fuel with
        | 0 => raise OutOfFuel
        | S fuel => body x ;; live_loop fuel size (S i) current body
        end
    end
  else raise RuntimeError.
Definition for_keys (current : M heap (list pystr)) (body : pystr -> M heap unit) : M heap unit :=
  ks <- current ;;
  live_loop (length ks) (length ks) 0 current body.

(** [{x: f(x) for x in l}]; the dictionary is not visible before it is complete. *)
Fixpoint comprehension (f : pystr -> M heap nat) (l : list pystr) (acc : dict pystr nat) : M heap (dict pystr nat) :=
  match l with
  | [] => ret acc
  | x :: l' => v <- f x ;; comprehension f l' (dset x v acc)
  end.

(** [self._constraints_dictionary], [self._constraints_dictionary[x]],
    [self._constraints_transitivity[x]] *)
Definition the_dictionary (self : nat) : M heap (dict pystr nat) :=
  mg <- deref h_managers self ;; deref h_tables (fst mg).
Definition the_transitivity (self : nat) : M heap (dict pystr nat) :=
  mg <- deref h_managers self ;; deref h_tables (snd mg).
Definition the_row (self : nat) (x : pystr) : M heap nat :=
  t <- the_dictionary self ;; lift (dlookup x t).
Definition the_pair (self : nat) (x : pystr) : M heap nat :=
  t <- the_transitivity self ;; lift (dlookup x t).

(** [self._constraints_dictionary[a][b] = v], [self._constraints_dictionary[a][b]] *)
Definition h_set_constraint (self : nat) (a b : pystr) (v : option constr) : M heap unit :=
  r <- the_row self a ;;
  row <- deref h_rows r ;;
  put_row r (dset b v row).
Definition h_get_constraint (self : nat) (a b : pystr) : M heap (option constr) :=
  r <- the_row self a ;;
  row <- deref h_rows r ;;
  lift (dlookup b row).

(** [self._constraints_transitivity[a]["MUST_LINK"]] and ["CANNOT_LINK"]: addresses *)
Definition ml_of (self : nat) (a : pystr) : M heap nat :=
  p <- the_pair self a ;; e <- deref h_pairs p ;; ret (fst e).
Definition cl_of (self : nat) (a : pystr) : M heap nat :=
  p <- the_pair self a ;; e <- deref h_pairs p ;; ret (snd e).
(** ... and their assignments *)
Definition h_set_ml (self : nat) (a : pystr) (s : nat) : M heap unit :=
  p <- the_pair self a ;; e <- deref h_pairs p ;; put_pair p (s, snd e).
Definition h_set_cl (self : nat) (a : pystr) (s : nat) : M heap unit :=
  p <- the_pair self a ;; e <- deref h_pairs p ;; put_pair p (fst e, s).

(** [{**s1, **s2}]: a new object *)
Definition merged (s1 s2 : nat) : M heap nat :=
  l1 <- deref h_sets s1 ;; l2 <- deref h_sets s2 ;; new_set (ounion l1 l2).

(** [{"MUST_LINK": {data_ID: None}, "CANNOT_LINK": {}}] (111-114, 156-159, 591-594) *)
Definition h_fresh_trans (data_ID : pystr) : M heap nat :=
  ml <- new_set [data_ID] ;; cl <- new_set [] ;; new_pair (ml, cl).

(** ** The methods *)

(** [__init__] (70-116) *)
Definition h_init (list_of_data_IDs : list pystr) : M heap nat :=
  d <- comprehension (fun data_ID1 =>
         new_row (dcomp (fun data_ID2 => if eqb data_ID1 data_ID2 then Some (MUST_LINK, 1%Q) else None)
                        (filter (fun data_ID2 => str_leb data_ID1 data_ID2) list_of_data_IDs)))
         list_of_data_IDs [] ;;
  d <- new_table d ;;
  t <- comprehension h_fresh_trans list_of_data_IDs [] ;;
  t <- new_table t ;;
  new_manager (d, t).

Definition h_in_dict (self : nat) (x : pystr) : M heap bool :=
  t <- the_dictionary self ;; ret (mem x (keys t)).
Definition h_in_trans (self : nat) (x : pystr) : M heap bool :=
  t <- the_transitivity self ;; ret (mem x (keys t)).
(** the keys of the object at [a] *)
Definition table_keys (a : nat) : M heap (list pystr) := t <- deref h_tables a ;; ret (keys t).
Definition row_keys (a : nat) : M heap (list pystr) := r <- deref h_rows a ;; ret (keys r).

(** [add_data_ID] (121-162) *)
Definition h_add_data_ID (self : nat) (data_ID : pystr) : M heap bool :=
  known <- h_in_dict self data_ID ;;
  require (negb known) ;;
  mg <- deref h_managers self ;;
  row <- new_row [] ;;
  t <- deref h_tables (fst mg) ;;
  put_table (fst mg) (dset data_ID row t) ;;
  for_keys (table_keys (fst mg)) (fun other_data_ID =>
    if eqb data_ID other_data_ID then h_set_constraint self data_ID data_ID (Some (MUST_LINK, 1%Q))
    else if str_ltb data_ID other_data_ID then h_set_constraint self data_ID other_data_ID None
    else h_set_constraint self other_data_ID data_ID None) ;;
  p <- h_fresh_trans data_ID ;;
  mg <- deref h_managers self ;;
  t <- deref h_tables (snd mg) ;;
  put_table (snd mg) (dset data_ID p t) ;;
  ret true.

(** [_add_constraint_transitivity] (614-693) *)
Definition h_add_constraint_transitivity (self : nat) (data_ID1 data_ID2 constraint_type : pystr) : M heap bool :=
  (if eqb constraint_type MUST_LINK then
     ml1 <- ml_of self data_ID1 ;; ml2 <- ml_of self data_ID2 ;;
     new_ml <- merged ml1 ml2 ;;
     cl1 <- cl_of self data_ID1 ;; cl2 <- cl_of self data_ID2 ;;
     new_cl <- merged cl1 cl2 ;;
     for_keys (deref h_sets new_ml) (fun x => h_set_ml self x new_ml ;; h_set_cl self x new_cl) ;;
     for_keys (deref h_sets new_cl) (fun x =>
       cl <- cl_of self x ;;
       s <- merged cl new_ml ;;
       h_set_cl self x s)
   else
     cl1 <- cl_of self data_ID1 ;; ml2 <- ml_of self data_ID2 ;;
     new_cl1 <- merged cl1 ml2 ;;
     cl2 <- cl_of self data_ID2 ;; ml1 <- ml_of self data_ID1 ;;
     new_cl2 <- merged cl2 ml1 ;;
     ml1 <- ml_of self data_ID1 ;;
     for_keys (deref h_sets ml1) (fun x => h_set_cl self x new_cl1) ;;
     ml2 <- ml_of self data_ID2 ;;
     for_keys (deref h_sets ml2) (fun x => h_set_cl self x new_cl2)) ;;
  ret true.

(** [_generate_constraints_transitivity] (580-609) *)
Definition h_generate_constraints_transitivity (self : nat) : M heap unit :=
  mg <- deref h_managers self ;;
  d <- deref h_tables (fst mg) ;;
  t <- comprehension h_fresh_trans (keys d) [] ;;
  t <- new_table t ;;
  put_manager self (fst mg, t) ;;
  for_keys (table_keys (fst mg)) (fun data_ID1 =>
    r <- the_row self data_ID1 ;;
    for_keys (row_keys r) (fun data_ID2 =>
      constraint <- h_get_constraint self data_ID1 data_ID2 ;;
      match constraint with
      | Some c => h_add_constraint_transitivity self data_ID1 data_ID2 (fst c) ;; ret tt
      | None => ret tt
      end)).

(** [delete_data_ID] (167-199) *)
Definition h_delete_data_ID (self : nat) (data_ID : pystr) : M heap bool :=
  known <- h_in_dict self data_ID ;;
  require known ;;
  mg <- deref h_managers self ;;
  d <- deref h_tables (fst mg) ;;
  put_table (fst mg) (dpop data_ID d) ;;
  for_keys (table_keys (fst mg)) (fun other_data_ID =>
    r <- the_row self other_data_ID ;;
    row <- deref h_rows r ;;
    put_row r (dpop data_ID row)) ;;
  h_generate_constraints_transitivity self ;;
  ret true.

(** [get_list_of_managed_data_IDs] (204-215) *)
Definition h_get_list_of_managed_data_IDs (self : nat) : M heap (list pystr) :=
  t <- the_dictionary self ;; ret (keys t).

(** [get_inferred_constraint] (391-430) *)
Definition h_get_inferred_constraint (self : nat) (data_ID1 data_ID2 : pystr) : M heap (option pystr) :=
  known1 <- h_in_trans self data_ID1 ;;
  require known1 ;;
  known2 <- h_in_trans self data_ID2 ;;
  require known2 ;;
  ml <- ml_of self data_ID2 ;;
  l <- deref h_sets ml ;;
  if mem data_ID1 l then ret (Some MUST_LINK)
  else
    cl <- cl_of self data_ID2 ;;
    l <- deref h_sets cl ;;
    if mem data_ID1 l then ret (Some CANNOT_LINK) else ret None.

(** [get_added_constraint] (353-386) *)
Definition h_get_added_constraint (self : nat) (data_ID1 data_ID2 : pystr) : M heap (option constr) :=
  known1 <- h_in_dict self data_ID1 ;;
  require known1 ;;
  known2 <- h_in_dict self data_ID2 ;;
  require known2 ;;
  if str_leb data_ID1 data_ID2 then h_get_constraint self data_ID1 data_ID2
  else h_get_constraint self data_ID2 data_ID1.

(** [add_constraint] (220-306) *)
Definition h_add_constraint (self : nat) (data_ID1 data_ID2 constraint_type : pystr) (constraint_value : Q) : M heap bool :=
  known1 <- h_in_dict self data_ID1 ;;
  require known1 ;;
  known2 <- h_in_dict self data_ID2 ;;
  require known2 ;;
  require (mem constraint_type allowed_types) ;;
  inferred <- h_get_inferred_constraint self data_ID1 data_ID2 ;;
  match inferred with
  | Some t => require (eqb t constraint_type)
  | None => ret tt
  end ;;
  added <- h_get_added_constraint self data_ID1 data_ID2 ;;
  match added with
  | Some _ => ret true
  | None =>
      (if str_leb data_ID1 data_ID2
       then h_set_constraint self data_ID1 data_ID2 (Some (constraint_type, 1%Q))
       else h_set_constraint self data_ID2 data_ID1 (Some (constraint_type, 1%Q))) ;;
      h_add_constraint_transitivity self data_ID1 data_ID2 constraint_type ;;
      ret true
  end.

(** [delete_constraint] (311-348) *)
Definition h_delete_constraint (self : nat) (data_ID1 data_ID2 : pystr) : M heap bool :=
  known1 <- h_in_dict self data_ID1 ;;
  require known1 ;;
  known2 <- h_in_dict self data_ID2 ;;
  require known2 ;;
  (if str_leb data_ID1 data_ID2
   then h_set_constraint self data_ID1 data_ID2 None
   else h_set_constraint self data_ID2 data_ID1 None) ;;
  h_generate_constraints_transitivity self ;;
  ret true.

(** [get_connected_components] (435-465): [list(...keys())] is a new list *)
Fixpoint h_collect_components (self : nat) (ids : list pystr) (acc : list (list pystr)) : M heap (list (list pystr)) :=
  match ids with
  | [] => ret acc
  | x :: ids' =>
      ml <- ml_of self x ;;
      l <- deref h_sets ml ;;
      h_collect_components self ids' (if mem l acc then acc else acc ++ [l])
  end.
Definition h_get_connected_components (self : nat) : M heap (list (list pystr)) :=
  t <- the_transitivity self ;; h_collect_components self (keys t) [].

(** [check_completude_of_constraints] (470-496) *)
Fixpoint h_all_complete (self : nat) (ids : list pystr) : M heap bool :=
  match ids with
  | [] => ret true
  | x :: ids' =>
      ml <- ml_of self x ;; l1 <- deref h_sets ml ;;
      cl <- cl_of self x ;; l2 <- deref h_sets cl ;;
      t <- the_transitivity self ;;
      if Nat.eqb (length l1 + length l2) (length (keys t)) then h_all_complete self ids' else ret false
  end.
Definition h_check_completude_of_constraints (self : nat) : M heap bool :=
  t <- the_transitivity self ;; h_all_complete self (keys t).

(** [get_list_of_involved_data_IDs_in_a_constraint_conflict] (698-749) *)
Definition h_conflict (self : nat) (data_ID1 data_ID2 constraint_type : pystr) : M heap (option (list pystr)) :=
  known1 <- h_in_dict self data_ID1 ;;
  require known1 ;;
  known2 <- h_in_dict self data_ID2 ;;
  require known2 ;;
  require (mem constraint_type allowed_types) ;;
  inferred <- h_get_inferred_constraint self data_ID1 data_ID2 ;;
  if match inferred with Some t => negb (eqb constraint_type t) | None => false end then
    comps <- h_get_connected_components self ;;
    ret (Some (flat_map (fun c => if mem data_ID1 c || mem data_ID2 c then c else []) comps))
  else ret None.

Definition h_exec (self : nat) (c : call) : M heap value :=
  match c with
  | CallAddDataID x => r <- h_add_data_ID self x ;; ret (VBool r)
  | CallDeleteDataID x => r <- h_delete_data_ID self x ;; ret (VBool r)
  | CallManagedIDs => r <- h_get_list_of_managed_data_IDs self ;; ret (VIds r)
  | CallAddConstraint a b t v => r <- h_add_constraint self a b t v ;; ret (VBool r)
  | CallDeleteConstraint a b => r <- h_delete_constraint self a b ;; ret (VBool r)
  | CallGetAdded a b => r <- h_get_added_constraint self a b ;; ret (VAdded r)
  | CallGetInferred a b => r <- h_get_inferred_constraint self a b ;; ret (VInferred r)
  | CallComponents => r <- h_get_connected_components self ;; ret (VComponents r)
  | CallCompletude => r <- h_check_completude_of_constraints self ;; ret (VBool r)
  | CallConflict a b t => r <- h_conflict self a b t ;; ret (VConflict r)
  end.

(** ** Programs that make managers and call them; managers are numbered as they are made.
    The answers, with the number of the manager that gave them. *)
Inductive action :=
| New (list_of_data_IDs : list pystr)
| Call (self : nat) (c : call).

Fixpoint answers (l : list action) (h : heap) : list (nat * res value) :=
  match l with
  | [] => []
  | New ids :: l' => answers l' (fst (h_init ids h))
  | Call a c :: l' => (a, snd (h_exec a c h)) :: answers l' (fst (h_exec a c h))
  end.
