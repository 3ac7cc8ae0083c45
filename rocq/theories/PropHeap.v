(** Generated from HeapThms.v by tools/gen_props.py: theorem statements,
    each closed by the lemma of the same name proved there. *)

(** * Properties of programs with several managers in one memory (C98) *)

From Coq Require Import String List Bool Arith QArith.
From Verif Require Import Base Manager Spec ResumeSpec Heap HeapSpec HeapThms.
Import ListNotations.
Open Scope nat_scope.

(** C98: whatever other managers a program has, and however the dictionaries are shared, each manager answers as it would alone with dictionaries that are values. *)
Theorem C98_managers_independent :
  forall prog a ids, well_addressed 0 prog -> nth_error (created prog) a = Some ids ->
    own_answers a (answers prog empty_heap) = outputs (own_calls a prog) (init ids).
Proof. exact C98_managers_independent_proof. Qed.
Print Assumptions C98_managers_independent.

Definition A := str "a". Definition B := str "b". Definition C := str "c".
Definition prog : list action :=
  [New [A; B; C]; New [C; A]; Call 0 (CallAddConstraint A B MUST_LINK 1%Q); Call 1 (CallAddConstraint A C CANNOT_LINK 1%Q);
   Call 0 (CallAddConstraint C B MUST_LINK 1%Q); Call 1 (CallDeleteDataID A); Call 0 (CallDeleteDataID B); Call 0 CallComponents;
   Call 1 (CallGetInferred A C); Call 0 (CallGetInferred A C)].
(** [b] and [c] share the dictionary of their component after the fifth action. *)
Example C98_ex : well_addressed 0 prog /\ nth_error (created prog) 0 = Some [A; B; C] /\
  own_answers 0 (answers prog empty_heap) =
    [Ok (VBool true); Ok (VBool true); Ok (VBool true); Ok (VComponents [[A]; [C]]); Ok (VInferred None)] /\
  own_answers 1 (answers prog empty_heap) = [Ok (VBool true); Ok (VBool true); Raise ValueError] /\
  address fst (memory (firstn 5 prog) empty_heap) 0 B = address fst (memory (firstn 5 prog) empty_heap) 0 C /\
  address fst (memory (firstn 5 prog) empty_heap) 0 B <> None /\
  address fst (memory (firstn 5 prog) empty_heap) 1 C <> address fst (memory (firstn 5 prog) empty_heap) 0 C.
Proof. vm_compute. repeat split; auto 10; discriminate. Qed.

(** C98: the only exception is ValueError; no loop over a dictionary is disturbed by a change of its size, no key is missing. *)
Theorem C98_no_runtime_error :
  forall prog a e, well_addressed 0 prog -> In (a, Raise e) (answers prog empty_heap) -> e = ValueError.
Proof. exact C98_no_runtime_error_proof. Qed.
Print Assumptions C98_no_runtime_error.
