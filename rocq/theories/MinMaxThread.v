(** * A thread that asks for the possible numbers of clusters while another thread changes the manager
    (/repo/src/cognitivefactory/interactive_clustering/constraints/binary.py).

    [get_min_and_max_number_of_clusters] (501-575) as a program that gives way to the other threads before each read of an entry
    of the dictionaries of the manager, as in [Threads.v].  The graph belongs to the thread: it is coloured at once, as in [MinMax.v].

    Line numbers refer to binary.py.  Simplifications: those of [MinMax.v], [Threads.v] and [Listing.v]; the program describes the method only
    when the other threads add or delete no data. *)

From Coq Require Import List Bool Arith.
From Verif Require Import Base Manager MinMax Threads Listing SampleThread.
Import ListNotations.
Open Scope nat_scope.
Open Scope t_scope.
Open Scope py_scope.

(** [len(self._constraints_transitivity[component_id]["CANNOT_LINK"].keys()) > 1] (532) *)
Definition p_is_linked (x : pystr) : prog bool := cl <~ p_cl x ;; Done (Ok (1 <? List.length cl)).

(** The edges (536-544). *)
Definition p_cannot_link_edges (linked : list pystr) : prog (list (nat * nat)) :=
  pairs <~ pfilter (fun e =>
             if fst (fst e) <? fst (snd e) then cl <~ p_cl (snd (fst e)) ;; Done (Ok (mem (snd (snd e)) cl)) else Done (Ok false))
             (list_prod (enumerate linked) (enumerate linked)) ;;
  Done (Ok (map (fun e => (fst (fst e), fst (snd e))) pairs)).

Section WithOrders.
  Variable order : nat -> graph -> list node.

  (** What follows the construction of the graph (555-575), without the manager. *)
  Definition range_of (g : graph) (nb_components : nat) : res (nat * nat) :=
    c0 <-- colors_used order 0 g ;;;                                     (* 555-564 *)
    c1 <-- colors_used order 1 g ;;;
    c2 <-- colors_used order 2 g ;;;
    c3 <-- colors_used order 3 g ;;;
    c4 <-- colors_used order 4 g ;;;
    Ok (Nat.max 2 (1 + Nat.min (Nat.min (Nat.min (Nat.min c0 c1) c2) c3) c4), nb_components).   (* 572-575 *)

  Definition p_min_and_max : prog (nat * nat) :=
    components <~ p_get_connected_components ;;                          (* 519 *)
    ids <~ Done (rmap head_of components) ;;                             (* 526 *)
    linked <~ pfilter p_is_linked ids ;;                                 (* 529-533 *)
    edges <~ p_cannot_link_edges linked ;;                               (* 536-544 *)
    Done (range_of (make_graph ids edges) (List.length components)).     (* 547-575 *)
End WithOrders.
