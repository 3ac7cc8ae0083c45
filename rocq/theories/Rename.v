(** * Model of [rename_clusters_by_order]
    (/repo/src/cognitivefactory/interactive_clustering/clustering/abstract.py:69-100). *)

From Coq Require Import String List Bool Arith ZArith.
From Verif Require Import Base Sampling.
Import ListNotations.
Open Scope py_scope.

(** [sorted] on a list of strings *)
Definition sorted_strings (l : list pystr) : list pystr := sorted_by str_ltb l.

(** The loop 86-91 over the sorted IDs; the second component is [new_ID]. *)
Fixpoint mapping_loop (clusters : dict pystr Z) (l : list pystr) (mapping : dict Z Z) (new_ID : Z) : res (dict Z Z) :=
  match l with
  | [] => Ok mapping
  | data_ID :: l' =>
      c <-- dlookup data_ID clusters ;;;
      if mem c (keys mapping) then mapping_loop clusters l' mapping new_ID
      else mapping_loop clusters l' (dset c new_ID mapping) (new_ID + 1)%Z
  end.

Definition rename_clusters_by_order (clusters : dict pystr Z) : res (dict pystr Z) :=
  let list_of_data_IDs := sorted_strings (keys clusters) in                               (* 83 *)
  mapping <-- mapping_loop clusters list_of_data_IDs [] 0%Z ;;;                           (* 86-91 *)
  rfold (fun d data_ID =>                                                                 (* 94-97 *)
           old <-- dlookup data_ID clusters ;;;
           new <-- dlookup old mapping ;;;
           Ok (dset data_ID new d)) list_of_data_IDs [].
