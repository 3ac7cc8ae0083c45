(** * Model of the class [Cluster] as objects that refer to each other
    (/repo/src/cognitivefactory/interactive_clustering/clustering/hierarchical.py:684-824).

    In Hierarchical.v a [Cluster] is a tree, which is right as long as no cluster is changed.
    Here a cluster is an object with an address, [children] holds addresses, and
    [add_new_children] changes one object in place.

    Simplifications:
    - an address is a position in the list of all objects created so far;
    - lists given as arguments are copied (in the code [self.children] and [self.members] are
      the caller's lists; a caller that goes on using them is not modelled);
    - [self.vectors] never changes; a vector is a value of an abstract type and [mean] is
      [sum(members) / len(members)], as in Hierarchical.v;
    - [in] on a list of clusters compares addresses (the class has no [__eq__]);
    - Python allows a limited number of nested calls: [limit] is the number of nested calls of
      [to_dict] that fit. *)

From Coq Require Import String List Bool Arith ZArith Decimal.
From Verif Require Import Base Manager Json.
Import ListNotations.
Open Scope nat_scope.
Open Scope py_scope.

(** [str] of an int, as written by [json.dumps]. *)
Fixpoint uint_text (u : uint) : pystr :=
  match u with
  | Nil => []
  | D0 u => 48%N :: uint_text u | D1 u => 49%N :: uint_text u | D2 u => 50%N :: uint_text u
  | D3 u => 51%N :: uint_text u | D4 u => 52%N :: uint_text u | D5 u => 53%N :: uint_text u
  | D6 u => 54%N :: uint_text u | D7 u => 55%N :: uint_text u | D8 u => 56%N :: uint_text u
  | D9 u => 57%N :: uint_text u
  end.
Definition int_text (z : Z) : pystr :=
  match Z.to_int z with Pos u => uint_text u | Neg u => 45%N :: uint_text u end.

Section WithOracles.
  Variable vec : Type.
  Variable mean : list vec -> vec.

  (** Attributes of a cluster (715-741). *)
  Record obj := mkObj {
    o_vectors : dict pystr vec; o_id : Z; o_iteration : Z; o_children : list nat;
    o_depth : nat; o_members : list pystr; o_centroid : vec }.
  Definition heap := list obj.

  (** Reads and writes of attributes. *)
  Definition deref (h : heap) (a : nat) : res obj :=
    match nth_error h a with Some o => Ok o | None => Raise AttributeError end.
  Definition assign (h : heap) (a : nat) (o : obj) : heap := firstn a h ++ o :: skipn (S a) h.
  Definition set_iteration it (o : obj) := mkObj (o_vectors o) (o_id o) it (o_children o) (o_depth o) (o_members o) (o_centroid o).
  Definition set_children c (o : obj) := mkObj (o_vectors o) (o_id o) (o_iteration o) c (o_depth o) (o_members o) (o_centroid o).
  Definition set_depth d (o : obj) := mkObj (o_vectors o) (o_id o) (o_iteration o) (o_children o) d (o_members o) (o_centroid o).
  Definition set_members l (o : obj) := mkObj (o_vectors o) (o_id o) (o_iteration o) (o_children o) (o_depth o) l (o_centroid o).
  Definition set_centroid v (o : obj) := mkObj (o_vectors o) (o_id o) (o_iteration o) (o_children o) (o_depth o) (o_members o) v.

  (** [update_centroid] (777-783): the value stored. *)
  Definition centroid_of (vectors : dict pystr vec) (members : list pystr) : res vec :=
    rows <-- rmap (fun x => dlookup x vectors) members ;;;
    match rows with [] => Raise ZeroDivisionError | _ => Ok (mean rows) end.

  (** [Cluster(...)] (692-741): the address of the new object; nothing is created when it fails. *)
  Definition construct (vectors : dict pystr vec) (cluster_ID iteration : Z)
      (children : option (list nat)) (members : option (list pystr)) : M heap nat :=
    match children, members with
    | Some _, Some _ | None, None => raise ValueError                             (* 722 *)
    | _, _ =>
        let children := match children with Some c => c | None => [] end in       (* 728 *)
        h <- gets (fun h => h) ;;
        objs <- lift (rmap (deref h) children) ;;
        let depth := match objs with [] => 0 | _ => list_max (map o_depth objs) + 1 end in        (* 731 *)
        let members := match members with Some l => l | None => flat_map o_members objs end in    (* 736 *)
        centroid <- lift (centroid_of vectors members) ;;                         (* 741 *)
        modify (fun h => h ++ [mkObj vectors cluster_ID iteration children depth members centroid]) ;;
        ret (length h)
    end.

  (** Changes one object. *)
  Definition update (a : nat) (f : obj -> obj) : M heap unit :=
    h <- gets (fun h => h) ;;
    o <- lift (deref h a) ;;
    modify (fun h => assign h a (f o)).

  (** [add_new_children] (746-772). *)
  Definition add_new_children (a : nat) (new_children : list nat) (new_iteration : Z) : M heap unit :=
    update a (set_iteration new_iteration) ;;                                     (* 760 *)
    update a (fun o => set_children                                               (* 763 *)
                 (o_children o ++ filter (fun c => negb (mem c (o_children o))) new_children) o) ;;
    h <- gets (fun h => h) ;;
    o <- lift (deref h a) ;;
    objs <- lift (rmap (deref h) (o_children o)) ;;
    depth <- lift (match objs with [] => Raise ValueError | _ => Ok (list_max (map o_depth objs) + 1) end) ;;
    update a (set_depth depth) ;;                                                 (* 766 *)
    update a (set_members (flat_map o_members objs)) ;;                           (* 769 *)
    centroid <- lift (centroid_of (o_vectors o) (flat_map o_members objs)) ;;     (* 772 *)
    update a (set_centroid centroid).

  (** [to_dict] (802-824). *)
  Fixpoint to_dict (limit : nat) (h : heap) (a : nat) : res json :=
    match limit with
    | O => Raise RecursionError
    | S limit =>
        o <-- deref h a ;;;
        children <-- rmap (to_dict limit h) (o_children o) ;;;                    (* 818 *)
        Ok (JObj [(str "cluster_ID", JNum (int_text (o_id o)));
                  (str "clustering_iteration", JNum (int_text (o_iteration o)));
                  (str "children", JArr children);
                  (str "cluster_inverse_depth", JNum (int_text (Z.of_nat (o_depth o))));
                  (str "members", JArr (map JStr (o_members o)))])
    end.
End WithOracles.
