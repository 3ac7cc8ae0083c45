(** * Model of [get_min_and_max_number_of_clusters]
    (/repo/src/cognitivefactory/interactive_clustering/constraints/binary.py:501-575)
    and of the part of [networkx] it calls.

    [nx.coloring.greedy_color(G, strategy)] visits the nodes of [G] in an order given
    by the strategy and gives each node the smallest colour not used by its already
    coloured neighbours (networkx documentation and code; networkx is not in /repo).
    The order is an oracle here: an arbitrary function from the graph to a list of
    nodes, one for each of the five calls (largest_first, smallest_last, and three
    random_sequential).  The theorems assume only that each order is a permutation of
    the nodes of the graph. *)

From Coq Require Import List Bool Arith NArith QArith Permutation.
From Verif Require Import Base Manager.
Import ListNotations.
Open Scope nat_scope.
Open Scope py_scope.

(** Nodes of the networkx graph: the component identifiers (strings, 548) and the
    integers occurring in the edges (536-544).  In the code the edges are pairs of
    positions, not of identifiers, so the graph has both kinds of nodes. *)
Inductive node := NId (x : pystr) | NIdx (i : nat).

Definition node_eqb (u v : node) : bool :=
  match u, v with
  | NId x, NId y => eqb x y
  | NIdx i, NIdx j => Nat.eqb i j
  | _, _ => false
  end.

Lemma node_eqb_eq u v : node_eqb u v = true <-> u = v.
Proof.
  destruct u, v; simpl; try (split; discriminate).
  - rewrite eqb_eq. split; congruence.
  - rewrite Nat.eqb_eq. split; congruence.
Qed.

#[global] Instance EqB_node : EqB node := {| eqb := node_eqb; eqb_eq := node_eqb_eq |}.

Record graph := mkGraph { g_nodes : list node; g_edges : list (node * node) }.

(** [nx.Graph(); add_nodes_from(ids); add_edges_from(edges)] (547-551): adding an edge
    adds its end points when they are missing. *)
Definition make_graph (ids : list pystr) (edges : list (nat * nat)) : graph :=
  mkGraph (dedup (map NId ids ++ flat_map (fun e => [NIdx (fst e); NIdx (snd e)]) edges))
          (map (fun e => (NIdx (fst e), NIdx (snd e))) edges).

Definition adjacent (g : graph) (u v : node) : bool :=
  existsb (fun e => (eqb (fst e) u && eqb (snd e) v) || (eqb (fst e) v && eqb (snd e) u)) (g_edges g).

(** The smallest colour that is not in the list. *)
Fixpoint first_free (fuel c : nat) (used : list nat) : nat :=
  match fuel with
  | 0 => c
  | S fuel' => if mem c used then first_free fuel' (S c) used else c
  end.

(** [greedy_color]: the dictionary of colours after visiting the nodes in order. *)
Definition greedy_step (g : graph) (colors : dict node nat) (u : node) : dict node nat :=
  let used := map snd (filter (fun e => adjacent g u (fst e)) colors) in
  dset u (first_free (S (length used)) 0 used) colors.

Definition greedy_color (g : graph) (order : list node) : dict node nat :=
  fold_left (greedy_step g) order [].

(** [max(l)]: ValueError on an empty sequence. *)
Definition py_max (l : list nat) : res nat :=
  match l with
  | [] => Raise ValueError
  | x :: l' => Ok (fold_left Nat.max l' x)
  end.

(** The kept components (529-533). *)
Definition linked_components (T : dict pystr trans) (ids : list pystr) : res (list pystr) :=
  rfilter (fun x => t <-- dlookup x T ;;; Ok (1 <? length (t_cl t))) ids.

(** [enumerate(l)] *)
Definition enumerate {A} (l : list A) : list (nat * A) := combine (seq 0 (length l)) l.

(** The edges (536-544): pairs of positions [i1 < i2] with
    [data_ID2 in self._constraints_transitivity[data_ID1]["CANNOT_LINK"]]. *)
Definition cannot_link_edges (T : dict pystr trans) (linked : list pystr) : res (list (nat * nat)) :=
  l <-- rfilter (fun e => let '(p, q) := e in
                   if fst p <? fst q
                   then t <-- dlookup (snd p) T ;;; Ok (mem (snd q) (t_cl t))
                   else Ok false)
          (list_prod (enumerate linked) (enumerate linked)) ;;;
  Ok (map (fun e => (fst (fst e), fst (snd e))) l).

(** [component[0]]: IndexError on an empty list. *)
Definition head_of (c : list pystr) : res pystr :=
  match c with [] => Raise IndexError | x :: _ => Ok x end.

Section WithOrders.
  (** Visiting orders of the five [greedy_color] calls. *)
  Variable order : nat -> graph -> list node.

  Definition colors_used (i : nat) (g : graph) : res nat := py_max (vals (greedy_color g (order i g))).

  (** [get_min_and_max_number_of_clusters] (501-575); [threshold] is not read. *)
  Definition get_min_and_max_number_of_clusters : M mgr (nat * nat) :=
    components <- get_connected_components ;;                            (* 519 *)
    ids <- lift (rmap head_of components) ;;                             (* 526 *)
    linked <- gets (fun m => linked_components (ctrans m) ids) ;;        (* 529-533 *)
    linked <- lift linked ;;
    edges <- gets (fun m => cannot_link_edges (ctrans m) linked) ;;      (* 536-544 *)
    edges <- lift edges ;;
    let g := make_graph ids edges in                                     (* 547-551 *)
    c0 <- lift (colors_used 0 g) ;;                                      (* 555-564 *)
    c1 <- lift (colors_used 1 g) ;;
    c2 <- lift (colors_used 2 g) ;;
    c3 <- lift (colors_used 3 g) ;;
    c4 <- lift (colors_used 4 g) ;;
    let lo := Nat.max 2 (1 + Nat.min (Nat.min (Nat.min (Nat.min c0 c1) c2) c3) c4) in
    ret (lo, length components).                                         (* 572-575 *)
End WithOrders.

(** Orders a colouring strategy may visit: every node exactly once. *)
Definition valid_orders (order : nat -> graph -> list node) : Prop :=
  forall i g, Permutation (order i g) (g_nodes g).
