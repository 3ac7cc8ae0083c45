(** * A thread that lists the managed data while another thread changes the manager
    (/repo/src/cognitivefactory/interactive_clustering/constraints/binary.py).

    [get_list_of_managed_data_IDs] (204-215) as a program of one read, the getters of one constraint as in [Threads.v], in any order and any number.
    Simplification: [list] of the keys of a dictionary is one action, as it is in CPython for keys that are strings. *)

From Coq Require Import List.
From Verif Require Import Base Manager Threads Readers.
Import ListNotations.
Open Scope t_scope.

Inductive mcall := MManaged | MAdded (a b : pystr) | MInferred (a b : pystr).
Definition p_mexec (q : mcall) : prog value :=
  match q with
  | MManaged => r <~ p_ids ;; Done (Ok (VIds r))                           (* 215 *)
  | MAdded a b => r <~ p_get_added_constraint a b ;; Done (Ok (VAdded r))
  | MInferred a b => r <~ p_get_inferred_constraint a b ;; Done (Ok (VInferred r))
  end.
Definition as_mcall (q : mcall) : call := match q with MManaged => CallManagedIDs | MAdded a b => CallGetAdded a b | MInferred a b => CallGetInferred a b end.
Fixpoint p_msession (qs : list mcall) : prog (list (res value)) :=
  match qs with
  | [] => Done (Ok [])
  | q :: qs' => r <~ pcatch (p_mexec q) ;; rs <~ p_msession qs' ;; Done (Ok (r :: rs))
  end.
