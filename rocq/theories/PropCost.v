(** Generated from CostThms.v by tools/gen_props.py: theorem statements,
    each closed by the lemma of the same name proved there. *)

From Coq Require Import String List Bool Arith ZArith QArith Lia.
From Verif Require Import Base Manager Spec ManagerThms ManagerInv ManagerQueries Threads Readers EffortSpec CostSpec CostThms.
Import ListNotations.
Open Scope nat_scope.

(** **C148.** A question about two data costs at most 4 accesses to the dictionaries of the manager, however many data and constraints there are. *)
Theorem C148_question :
  forall a b m, question_cost (TGetInferred a b) m <= 4 /\ question_cost (TGetAdded a b) m <= 3.
Proof. exact C148_question_proof. Qed.
Print Assumptions C148_question.

Definition qa := str "a". Definition qb := str "b". Definition qc := str "c". Definition qd := str "d".
Definition four : mgr := run [CallAddConstraint qa qb MUST_LINK 1%Q; CallAddConstraint qc qd CANNOT_LINK 1%Q] (init [qa; qb; qc; qd]).
Lemma four_ok : reachable four /\ ask get_list_of_managed_data_IDs four = Ok [qa; qb; qc; qd].
Proof. split; [apply run_reachable|reflexivity]. Qed.
Example C148_question_ex : question_cost (TGetInferred qa qc) four = 4 /\ question_cost (TGetInferred qa qb) four = 3 /\ question_cost (TGetAdded qa qc) four = 3.
Proof. vm_compute. repeat split. Qed.

(** Adding a constraint costs at most [2 * n + 14] accesses when [n] data are managed. *)
Theorem C148_add_constraint :
  forall m l a b t v, reachable m -> ask get_list_of_managed_data_IDs m = Ok l -> change_cost (WAdd a b t v) m <= 2 * length l + 14.
Proof. exact C148_add_constraint_proof. Qed.
Print Assumptions C148_add_constraint.

(** The bound is reached: this constraint brings all four data together or apart. *)
Example C148_add_constraint_ex : reachable four /\ ask get_list_of_managed_data_IDs four = Ok [qa; qb; qc; qd] /\
  change_cost (WAdd qa qc MUST_LINK 1%Q) four = 2 * 4 + 14 /\ change_cost (WAdd qa qc CANNOT_LINK 1%Q) four = 19 /\ change_cost (WAdd qa qb MUST_LINK 1%Q) four = 8.
Proof. split; [apply four_ok|]. split; [apply four_ok|]. vm_compute. repeat split. Qed.

(** Adding a data costs at most [n + 5]. *)
Theorem C148_add_data :
  forall m l x, reachable m -> ask get_list_of_managed_data_IDs m = Ok l -> change_cost (WAddID x) m <= length l + 5.
Proof. exact C148_add_data_proof. Qed.
Print Assumptions C148_add_data.

Example C148_add_data_ex : change_cost (WAddID (str "e")) four = 4 + 5 /\ change_cost (WAddID qa) four = 1.
Proof. vm_compute. repeat split. Qed.

(** Deleting a constraint or a data costs much more, because everything is inferred again: with [n] data and [k] constraints that remain, at most
    about [n * n / 2 + (4 * n + 6) * (n + k)]. *)
Theorem C148_delete :
  forall m c, reachable m -> (exists x, c = WDeleteID x) \/ (exists a b, c = WDelete a b) ->
  let m' := fst (exec (as_wcall c) m) in forall l, ask get_list_of_managed_data_IDs m' = Ok l ->
  let n := length l in let k := effort m' MUST_LINK + effort m' CANNOT_LINK in
  2 * change_cost c m <= 10 + 4 * n + n * (n + 1) + 2 * ((4 * n + 6) * (n + k)).
Proof. exact C148_delete_proof. Qed.
Print Assumptions C148_delete.

Example C148_delete_ex : let m' := fst (exec (CallDeleteConstraint qb qa) four) in ask get_list_of_managed_data_IDs m' = Ok [qa; qb; qc; qd] /\
  effort m' MUST_LINK + effort m' CANNOT_LINK = 1 /\ change_cost (WDelete qb qa) four = 53 /\ change_cost (WDeleteID qb) four = 45.
Proof. vm_compute. repeat split. Qed.

(** and never less than [n * (n + 1) / 2], while an addition costs at most [2 * n + 14]. *)
Theorem C148_delete_least :
  forall m c v, reachable m -> (exists x, c = WDeleteID x) \/ (exists a b, c = WDelete a b) -> snd (exec (as_wcall c) m) = Ok v ->
  forall l, ask get_list_of_managed_data_IDs (fst (exec (as_wcall c) m)) = Ok l -> length l * (length l + 1) <= 2 * change_cost c m.
Proof. exact C148_delete_least_proof. Qed.
Print Assumptions C148_delete_least.

Example C148_delete_least_ex : snd (exec (CallDeleteConstraint qb qa) four) = Ok (VBool true) /\ 4 * (4 + 1) <= 2 * change_cost (WDelete qb qa) four.
Proof. split; [reflexivity|]. vm_compute. repeat constructor. Qed.
