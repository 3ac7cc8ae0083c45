(** * When a session can go on with another manager *)

From Coq Require Import String List Bool Arith ZArith Permutation.
From Verif Require Import Base Manager Spec MinMax SameSpec.
Import ListNotations.

(** The same IDs in the same order and the same added constraints. *)
Definition same_content (m1 m2 : mgr) : Prop :=
  ask get_list_of_managed_data_IDs m1 = ask get_list_of_managed_data_IDs m2 /\
  forall a b, ask (get_added_constraint a b) m1 = ask (get_added_constraint a b) m2.

(** The same, except perhaps for the constraint of an ID with itself. *)
Definition same_between_IDs (m1 m2 : mgr) : Prop :=
  ask get_list_of_managed_data_IDs m1 = ask get_list_of_managed_data_IDs m2 /\
  forall a b, a <> b -> ask (get_added_constraint a b) m1 = ask (get_added_constraint a b) m2.

(** The answers (or errors) of a history of calls. *)
Fixpoint outputs (l : list call) (m : mgr) : list (res value) :=
  match l with
  | [] => []
  | c :: l' => snd (exec c m) :: outputs l' (fst (exec c m))
  end.

(** Equal answers, up to the order of IDs inside one component or one conflict. *)
Definition same_output (r1 r2 : res value) : Prop :=
  match r1, r2 with
  | Ok (VComponents l1), Ok (VComponents l2) => Forall2 (@Permutation pystr) l1 l2
  | Ok (VConflict (Some l1)), Ok (VConflict (Some l2)) => Permutation l1 l2
  | _, _ => r1 = r2
  end.

(** Calls that do not ask for the added constraint of an ID with itself. *)
Definition not_self (c : call) : Prop :=
  match c with CallGetAdded a b => a <> b | _ => True end.

(** A colouring strategy that does not look at the names of the components: for graphs with the
    same edges and the same number of components, the nodes on the edges are visited in the same order. *)
Definition is_index (u : node) : bool := match u with NIdx _ => true | NId _ => false end.
Definition ignores_names (order : nat -> graph -> list node) : Prop :=
  forall i names1 names2 edges, NoDup names1 -> NoDup names2 -> length names1 = length names2 ->
    filter is_index (order i (make_graph names1 edges)) = filter is_index (order i (make_graph names2 edges)).

(** networkx [strategy_random_sequential]: [random.shuffle(list(G))] swaps positions chosen for the length of the list. *)
Definition shuffled (positions : nat -> list nat) (g : graph) : list node :=
  map (fun k => nth k (g_nodes g) (NId [])) (positions (length (g_nodes g))).

(** A clustering that only reads the manager, and of it only the IDs and inferred constraints. *)
Definition reads_knowledge (clustering : nat -> Z -> M mgr (dict pystr Z)) : Prop :=
  forall i k m1 m2, reachable m1 -> reachable m2 -> same_knowledge m1 m2 ->
    fst (clustering i k m1) = m1 /\ snd (clustering i k m1) = snd (clustering i k m2).
