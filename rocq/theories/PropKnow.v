(** Generated from KnowThms.v by tools/gen_props.py: theorem statements,
    each closed by the lemma of the same name proved there. *)

From Coq Require Import String List Bool Arith ZArith QArith Lia.
From Verif Require Import Base Manager Spec ManagerThms ManagerInv ManagerQueries ClusterSpec EffortSpec WrongSpec KnowThms.
Import ListNotations.
Open Scope nat_scope.

(** **C147.** Some constraints have been added, between [n] data; [k] of them link two different data. They decide at least [k] pairs of data, *)
Theorem C147_at_least :
  forall m l, reachable m -> ask get_list_of_managed_data_IDs m = Ok l ->
  2 * nb_undecided m l + 2 * (effort m MUST_LINK + effort m CANNOT_LINK) <= length l * (length l - 1).
Proof. exact C147_at_least_proof. Qed.
Print Assumptions C147_at_least.

(** Five data; three constraints. *)
Definition pa := str "a". Definition pb := str "b". Definition pc := str "c". Definition pd := str "d". Definition pe := str "e".
Definition all5 := [pa; pb; pc; pd; pe].
Definition said : mgr := run [CallAddConstraint pa pb MUST_LINK 1%Q; CallAddConstraint pd pc MUST_LINK 1%Q; CallAddConstraint pc pa CANNOT_LINK 1%Q] (init all5).
Example C147_at_least_ex : reachable said /\ ask get_list_of_managed_data_IDs said = Ok all5 /\ effort said MUST_LINK = 2 /\ effort said CANNOT_LINK = 1 /\ nb_undecided said all5 = 4.
Proof. split; [apply run_reachable|]. vm_compute. repeat split. Qed.

(** and at most [k * (k + 1) / 2]. *)
Theorem C147_at_most :
  forall m l, reachable m -> ask get_list_of_managed_data_IDs m = Ok l ->
  let k := effort m MUST_LINK + effort m CANNOT_LINK in
  length l * (length l - 1) <= 2 * nb_undecided m l + k * (k + 1).
Proof. exact C147_at_most_proof. Qed.
Print Assumptions C147_at_most.

(** Here 3 constraints decide 6 of the 10 pairs, which is the most 3 constraints can. *)
Example C147_at_most_ex : length all5 * (length all5 - 1) = 2 * nb_undecided said all5 + 3 * (3 + 1).
Proof. vm_compute. reflexivity. Qed.

(** So fewer than [n - 1] constraints never decide everything, *)
Theorem C147_complete :
  forall m l, reachable m -> ask get_list_of_managed_data_IDs m = Ok l -> nb_undecided m l = 0 -> length l - 1 <= effort m MUST_LINK + effort m CANNOT_LINK.
Proof. exact C147_complete_proof. Qed.
Print Assumptions C147_complete.

Example C147_complete_ex : let m := run [CallAddConstraint pe pd CANNOT_LINK 1%Q] said in nb_undecided m all5 = 2 /\
  nb_undecided (run [CallAddConstraint pe pd MUST_LINK 1%Q] said) all5 = 0 /\ length all5 - 1 = 4.
Proof. vm_compute. repeat split. Qed.

(** and if the constraints are right, clusters that respect [k] of them are wrong about at most [n * (n - 1) / 2 - k] pairs. *)
Theorem C147_wrong :
  forall m l d e, reachable m -> ask get_list_of_managed_data_IDs m = Ok l -> respects m d -> respects m e ->
  2 * nb_wrong l d e + 2 * (effort m MUST_LINK + effort m CANNOT_LINK) <= length l * (length l - 1).
Proof. exact C147_wrong_proof. Qed.
Print Assumptions C147_wrong.

Definition found : dict pystr Z := [(pa, 0); (pb, 0); (pc, 1); (pd, 1); (pe, 1)]%Z.
Definition truth : dict pystr Z := [(pa, 7); (pb, 7); (pc, 4); (pd, 4); (pe, 7)]%Z.
Example C147_wrong_ex : reachable said /\ respects said found /\ respects said truth /\ nb_wrong all5 found truth = 4.
Proof.
  assert (In5 : forall x, managed said x <-> In x all5) by (intro x; rewrite managed_ids; reflexivity).
  split; [apply run_reachable|]. split; [|split]; [| |vm_compute; reflexivity];
  (split; intros a b Ma Mb Q; apply In5 in Ma, Mb; simpl in Ma, Mb; repeat destruct Ma as [<-|Ma]; try tauto; repeat destruct Mb as [<-|Mb]; try tauto;
    vm_compute in Q; try discriminate; vm_compute; congruence).
Qed.

(** Both bounds are reached, for each number of constraints that can be: [k] constraints, each added when nothing was known about its data, that decide only [k] pairs, *)
Theorem C147_least :
  forall l k, NoDup l -> 2 * k <= length l * (length l - 1) -> exists cs, length cs = k /\ frugal cs (init l) /\
  let m := run (annotations cs) (init l) in effort m MUST_LINK + effort m CANNOT_LINK = k /\ 2 * nb_undecided m l + 2 * k = length l * (length l - 1).
Proof. exact C147_least_proof. Qed.
Print Assumptions C147_least.

Example C147_least_ex : let m := run [CallAddConstraint pa pb CANNOT_LINK 1%Q; CallAddConstraint pa pc CANNOT_LINK 1%Q; CallAddConstraint pa pd CANNOT_LINK 1%Q] (init all5) in
  NoDup all5 /\ 2 * 3 <= length all5 * (length all5 - 1) /\ effort m CANNOT_LINK = 3 /\ nb_undecided m all5 = 7.
Proof. split; [repeat (constructor; [cbn; intuition discriminate|]); constructor|]. vm_compute. repeat split. lia. Qed.

(** and [k] constraints that decide [k * (k + 1) / 2] pairs. *)
Theorem C147_most :
  forall l k, NoDup l -> k < length l -> exists cs, length cs = k /\ frugal cs (init l) /\
  let m := run (annotations cs) (init l) in effort m MUST_LINK + effort m CANNOT_LINK = k /\ 2 * nb_undecided m l + k * (k + 1) = length l * (length l - 1).
Proof. exact C147_most_proof. Qed.
Print Assumptions C147_most.

Example C147_most_ex : let m := run [CallAddConstraint pa pb MUST_LINK 1%Q; CallAddConstraint pa pc MUST_LINK 1%Q; CallAddConstraint pa pd MUST_LINK 1%Q] (init all5) in
  3 < length all5 /\ effort m MUST_LINK = 3 /\ nb_undecided m all5 = 4.
Proof. vm_compute. repeat split. lia. Qed.
