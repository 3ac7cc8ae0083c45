(** * What a description of a cluster says, and when objects form a tree. *)

From Coq Require Import String List Bool Arith ZArith.
From Verif Require Import Base Manager Json Hierarchical Objects.
Import ListNotations.
Open Scope nat_scope.

(** A tree without vectors. *)
Inductive outline := Outline (id iteration : Z) (children : list outline) (depth : Z) (members : list pystr).

Fixpoint outline_of {vec} (t : tree vec) : outline :=
  match t with
  | Node _ id it c d l _ => Outline id (Z.of_nat it) (map outline_of c) (Z.of_nat d) l
  end.

(** Reading an integer written in decimal, and a description. *)
Fixpoint read_digits (acc : Z) (s : pystr) : option Z :=
  match s with
  | [] => Some acc
  | c :: s => if ((48 <=? c) && (c <=? 57))%N then read_digits (10 * acc + Z.of_N (c - 48)) s else None
  end.
Definition read_int (s : pystr) : option Z :=
  match s with
  | [] => None
  | c :: s' => if (c =? 45)%N then match s' with [] => None | _ => option_map Z.opp (read_digits 0 s') end else read_digits 0 s
  end.

Fixpoint collect {A B} (f : A -> option B) (l : list A) : option (list B) :=
  match l with
  | [] => Some []
  | x :: l => match f x, collect f l with Some y, Some r => Some (y :: r) | _, _ => None end
  end.
Definition field_int (k : pystr) (l : list (pystr * json)) : option Z :=
  match dget k l with Some (JNum s) => read_int s | _ => None end.
Definition field_strings (k : pystr) (l : list (pystr * json)) : option (list pystr) :=
  match dget k l with Some (JArr v) => collect (fun x => match x with JStr s => Some s | _ => None end) v | _ => None end.

(** [describes v t]: the JSON value [v] describes [t]. *)
Inductive describes : json -> outline -> Prop :=
| describes_node : forall fields id it cs vs d l,
    field_int (str "cluster_ID") fields = Some id ->
    field_int (str "clustering_iteration") fields = Some it ->
    dget (str "children") fields = Some (JArr vs) -> Forall2 describes vs cs ->
    field_int (str "cluster_inverse_depth") fields = Some d ->
    field_strings (str "members") fields = Some l ->
    describes (JObj fields) (Outline id it cs d l).

Section Objects.
  Context {vec : Type}.
  Notation heap := (heap vec).

  (** The object at an address and everything below it form the tree [t]. *)
  Inductive represents (vectors : dict pystr vec) (h : heap) : nat -> tree vec -> Prop :=
  | represents_node : forall a o id it c d l v,
      nth_error h a = Some o -> o_vectors vec o = vectors -> o_id vec o = id -> o_iteration vec o = Z.of_nat it ->
      Forall2 (represents vectors h) (o_children vec o) c -> o_depth vec o = d -> o_members vec o = l -> o_centroid vec o = v ->
      represents vectors h a (Node vec id it c d l v).

  (** The argument [children] of the constructor, as objects and as trees. *)
  Definition children_are (vectors : dict pystr vec) (h : heap) (cs : option (list nat)) (ts : option (list (tree vec))) : Prop :=
    match cs, ts with
    | Some cs, Some ts => Forall2 (represents vectors h) cs ts
    | None, None => True
    | _, _ => False
    end.

  (** Length of the longest path down from a node. *)
  Fixpoint height (t : tree vec) : nat :=
    match t with Node _ _ _ c _ _ _ => match c with [] => 0 | _ => S (list_max (map height c)) end end.

  (** An inner object agrees with its children: it has their members and is one level above
      the deepest of them. *)
  Definition up_to_date (h : heap) (o : obj vec) : Prop :=
    exists objs, Forall2 (fun c oc => nth_error h c = Some oc) (o_children vec o) objs /\
      o_members vec o = flat_map (o_members vec) objs /\ o_depth vec o = S (list_max (map (o_depth vec) objs)).

  (** Objects made by constructor calls only. *)
  Inductive constructed (mean : list vec -> vec) : heap -> Prop :=
  | constructed_none : constructed mean []
  | constructed_one : forall h vectors id it children members,
      constructed mean h -> constructed mean (fst (construct vec mean vectors id it children members h)).

  (** Objects made by calls, successful or not, in which children are only added to an object
      that has some already and is no object's child, and never to itself. *)
  Definition no_parent (h : heap) (a : nat) : Prop := forall b o, nth_error h b = Some o -> ~ In a (o_children vec o).
  Inductive bottom_up (mean : list vec -> vec) : heap -> Prop :=
  | bottom_up_none : bottom_up mean []
  | bottom_up_construct : forall h vectors id it children members, bottom_up mean h ->
      bottom_up mean (fst (construct vec mean vectors id it children members h))
  | bottom_up_add : forall h a o new_children it, bottom_up mean h ->
      nth_error h a = Some o -> o_children vec o <> [] -> no_parent h a -> ~ In a new_children ->
      (forall c, In c new_children -> c < length h) ->
      bottom_up mean (fst (add_new_children vec mean a new_children it h)).
End Objects.
