(** Generated from ManagerThms.v by tools/gen_props.py: theorem statements,
    each closed by the lemma of the same name proved there. *)

From Coq Require Import String List Bool QArith Permutation.
From Verif Require Import Base Manager Spec ManagerThms.
Import ListNotations.
Open Scope nat_scope.

(** Running example: a must-link b, b cannot-link c, d unconstrained. *)
Definition a : pystr := str "a".
Definition b : pystr := str "b".
Definition c : pystr := str "c".
Definition d : pystr := str "d".
Definition ex_history : list call :=
  [CallAddConstraint a b MUST_LINK 1%Q; CallAddConstraint c b CANNOT_LINK 1%Q].
Definition ex : mgr := run ex_history (init [a; b; c; d]).
Lemma ex_reachable : reachable ex.
Proof. apply run_reachable. Qed.


(** C01: get_inferred_constraint is exactly the closure of the added constraints, in every reachable manager. *)
Theorem C01_inferred_is_closure :
  forall m, reachable m -> forall a b, managed m a -> managed m b ->
    (inferred m a b (Some MUST_LINK) <-> linked (added_must m) a b) /\
    (inferred m a b (Some CANNOT_LINK) <-> separated (added_must m) (added_cannot m) a b) /\
    (inferred m a b None <-> ~ linked (added_must m) a b /\ ~ separated (added_must m) (added_cannot m) a b) /\
    (forall t, inferred m a b t -> t = Some MUST_LINK \/ t = Some CANNOT_LINK \/ t = None).
Proof. exact C01_inferred_is_closure_proof. Qed.
Print Assumptions C01_inferred_is_closure.

Example C01_ex1 : inferred ex a c (Some CANNOT_LINK) /\ ~ added ex CANNOT_LINK a c.
Proof.
  split; [vm_compute; reflexivity|]. intros [v E]. vm_compute in E. discriminate.
Qed.
Example C01_ex2 : inferred ex a d None /\ managed ex a /\ managed ex d.
Proof.
  split; [vm_compute; reflexivity|].
  split; eexists; (split; [vm_compute; reflexivity|simpl; tauto]).
Qed.

(** C02: inference is sound and complete for entailment over all labellings. *)
Theorem C02_inference_is_entailment :
  forall m, reachable m -> forall a b, managed m a -> managed m b ->
    (inferred m a b (Some MUST_LINK) <->
       forall label, satisfies (added_must m) (added_cannot m) label -> label a = label b) /\
    (inferred m a b (Some CANNOT_LINK) <->
       forall label, satisfies (added_must m) (added_cannot m) label -> label a <> label b) /\
    (inferred m a b None <->
       (exists label, satisfies (added_must m) (added_cannot m) label /\ label a = label b) /\
       (exists label, satisfies (added_must m) (added_cannot m) label /\ label a <> label b)).
Proof. exact C02_inference_is_entailment_proof. Qed.
Print Assumptions C02_inference_is_entailment.

(** a and d may or may not be together, a and c may not. *)
Example C02_ex : inferred ex a d None /\ inferred ex a c (Some CANNOT_LINK) /\ inferred ex b a (Some MUST_LINK)
  /\ satisfiable (added_must ex) (added_cannot ex).
Proof.
  split; [reflexivity|]. split; [reflexivity|]. split; [reflexivity|].
  apply C03_always_satisfiable_proof. apply ex_reachable.
Qed.

(** C03: the added constraints are always satisfiable; nothing is inferred both ways; an ID is always MUST_LINKed with itself. *)
Theorem C03_always_satisfiable :
  forall m, reachable m ->
    satisfiable (added_must m) (added_cannot m) /\
    (forall a b, ~ (linked (added_must m) a b /\ separated (added_must m) (added_cannot m) a b)) /\
    (forall x, managed m x -> inferred m x x (Some MUST_LINK)).
Proof. exact C03_always_satisfiable_proof. Qed.
Print Assumptions C03_always_satisfiable.

Example C03_ex : let m := fst (exec (CallDeleteConstraint a a) ex) in
  ~ added m MUST_LINK a a /\ inferred m a a (Some MUST_LINK).
Proof. split; [intros [v E]; vm_compute in E; discriminate|vm_compute; reflexivity]. Qed.

(** C04: add_constraint accepts a constraint iff some labelling satisfies it together with the added ones. *)
Theorem C04_add_constraint_exact :
  forall m, reachable m -> forall a b t v,
    (managed m a -> managed m b -> allowed t ->
       (ask (add_constraint a b t v) m = Ok true <-> satisfiable (must_with m t a b) (cannot_with m t a b)) /\
       (ask (add_constraint a b t v) m = Raise ValueError <-> ~ satisfiable (must_with m t a b) (cannot_with m t a b))) /\
    (~ managed m a \/ ~ managed m b \/ ~ allowed t -> ask (add_constraint a b t v) m = Raise ValueError).
Proof. exact C04_add_constraint_exact_proof. Qed.
Print Assumptions C04_add_constraint_exact.

Example C04_ex : ask (add_constraint a c MUST_LINK 1%Q) ex = Raise ValueError
              /\ ask (add_constraint a d MUST_LINK 1%Q) ex = Ok true
              /\ ask (add_constraint a (str "zz") MUST_LINK 1%Q) ex = Raise ValueError.
Proof. repeat split. Qed.

(** C05: a call that raises leaves the manager (the whole object state) unchanged. *)
Theorem C05_failed_calls_change_nothing :
  forall m, reachable m -> forall c e, snd (exec c m) = Raise e -> fst (exec c m) = m.
Proof. exact C05_failed_calls_change_nothing_proof. Qed.
Print Assumptions C05_failed_calls_change_nothing.

Example C05_ex : snd (exec (CallAddConstraint a c MUST_LINK 1%Q) ex) = Raise ValueError.
Proof. reflexivity. Qed.

(** C06: the only exception ever raised is ValueError, and exactly in the documented cases; modifying calls return True. *)
Theorem C06_only_documented_errors :
  forall m, reachable m -> forall c,
    (forall e, snd (exec c m) = Raise e -> e = ValueError) /\
    (snd (exec c m) = Raise ValueError <-> documented_error m c) /\
    (forall v, snd (exec c m) = Ok v ->
       match c with
       | CallAddDataID _ | CallDeleteDataID _ | CallAddConstraint _ _ _ _ | CallDeleteConstraint _ _ => v = VBool true
       | _ => True
       end).
Proof. exact C06_only_documented_errors_proof. Qed.
Print Assumptions C06_only_documented_errors.

Example C06_ex : documented_error ex (CallAddDataID a)
  /\ snd (exec (CallAddDataID a) ex) = Raise ValueError
  /\ snd (exec (CallAddDataID (str "e")) ex) = Ok (VBool true).
Proof.
  split; [eexists; split; [vm_compute; reflexivity|simpl; auto]|]. split; reflexivity.
Qed.

(** C07: getters do not depend on the order of their arguments, errors included. *)
Theorem C07_getters_symmetric :
  forall m, reachable m -> forall a b,
    ask (get_added_constraint a b) m = ask (get_added_constraint b a) m /\
    ask (get_inferred_constraint a b) m = ask (get_inferred_constraint b a) m.
Proof. exact C07_getters_symmetric_proof. Qed.
Print Assumptions C07_getters_symmetric.

Example C07_ex : ask (get_inferred_constraint c a) ex = Ok (Some CANNOT_LINK)
  /\ ask (get_added_constraint b c) ex = Ok (Some (CANNOT_LINK, 1%Q)).
Proof. split; reflexivity. Qed.

(** C08: for every history, the managed IDs and the added constraints are those computed by the abstract map machine. *)
Theorem C08_added_constraints_refine_map :
  forall ids history, exists s, a_run (a_init ids) history s /\ shows (run history (init ids)) s.
Proof. exact C08_added_constraints_refine_map_proof. Qed.
Print Assumptions C08_added_constraints_refine_map.

Example C08_ex : ask (get_added_constraint b a) (run [CallDeleteDataID b; CallAddDataID b] ex) = Ok None
  /\ ask get_list_of_managed_data_IDs (run [CallDeleteDataID b; CallAddDataID b] ex) = Ok [a; c; d; b].
Proof. split; reflexivity. Qed.

(** C08 (one call): an accepted call has exactly the effect of the abstract machine, a refused one has none. *)
Theorem C08_one_call :
  forall m s c, reachable m -> shows m s -> a_closed s ->
    (a_ok s c -> shows (fst (exec c m)) (a_effect s c)) /\
    (~ a_ok s c -> snd (exec c m) = Raise ValueError /\ shows (fst (exec c m)) s).
Proof. exact C08_one_call_proof. Qed.
Print Assumptions C08_one_call.

(** C09: managed IDs form an insertion-ordered set determined by the history; constructor duplicates are ignored. *)
Theorem C09_managed_ids_ordered_set :
  forall ids0 history,
    let m := run history (init ids0) in
    ask get_list_of_managed_data_IDs (init ids0) = Ok (dedup ids0) /\
    (exists l, ask get_list_of_managed_data_IDs m = Ok l /\ NoDup l) /\
    (forall x, managed m x <-> present_after x history (In x ids0)) /\
    (forall x l, ask get_list_of_managed_data_IDs m = Ok l -> ~ In x l ->
       ask get_list_of_managed_data_IDs (fst (exec (CallAddDataID x) m)) = Ok (l ++ [x])) /\
    (forall x l, ask get_list_of_managed_data_IDs m = Ok l ->
       ask get_list_of_managed_data_IDs (fst (exec (CallDeleteDataID x) m)) = Ok (filter (fun y => negb (eqb x y)) l)) /\
    (forall c l, ask get_list_of_managed_data_IDs m = Ok l ->
       (forall x, c <> CallAddDataID x) -> (forall x, c <> CallDeleteDataID x) ->
       ask get_list_of_managed_data_IDs (fst (exec c m)) = Ok l).
Proof. exact C09_managed_ids_ordered_set_proof. Qed.
Print Assumptions C09_managed_ids_ordered_set.

Example C09_ex : ask get_list_of_managed_data_IDs (init [b; a; b]) = Ok [b; a]
  /\ present_after a [CallDeleteDataID a; CallAddDataID a] (In a [b]).
Proof. split; [reflexivity|]. simpl. auto. Qed.

(** C10: answers depend only on the current IDs and constraints, not on the history that produced them. *)
Theorem C10_history_independence :
  forall m1 m2, reachable m1 -> reachable m2 ->
    (forall x, managed m1 x <-> managed m2 x) ->
    (forall t a b, added m1 t a b <-> added m2 t a b) ->
    same_answers m1 m2.
Proof. exact C10_history_independence_proof. Qed.
Print Assumptions C10_history_independence.

Example C10_ex :
  let m1 := run [CallAddConstraint c b CANNOT_LINK 1%Q; CallAddConstraint a d MUST_LINK 1%Q;
                 CallDeleteConstraint d a; CallAddConstraint b a MUST_LINK 1%Q] (init [d; c; b; a]) in
  reachable m1 /\ (forall x y, In x [a; b; c; d] -> In y [a; b; c; d] ->
     ask (get_added_constraint x y) m1 = ask (get_added_constraint x y) ex)
  /\ ask get_connected_components m1 <> ask get_connected_components ex.
Proof.
  split; [apply run_reachable|]. split; [|vm_compute; discriminate].
  intros x y Hx Hy. simpl in Hx, Hy.
  repeat (destruct Hx as [<-|Hx]; [repeat (destruct Hy as [<-|Hy]; [vm_compute; reflexivity|]); destruct Hy|]); destruct Hx.
Qed.

(** C11: after delete_constraint the manager answers as if that constraint had never been there. *)
Theorem C11_retraction_is_complete :
  forall m, reachable m -> forall a b, managed m a -> managed m b ->
    let m' := fst (exec (CallDeleteConstraint a b) m) in
    let must' := fun p q => added_must m p q /\ ~ same_unordered a b p q in
    let cannot' := fun p q => added_cannot m p q /\ ~ same_unordered a b p q in
    snd (exec (CallDeleteConstraint a b) m) = Ok (VBool true) /\
    (forall x, managed m' x <-> managed m x) /\
    (forall t p q, added m' t p q <-> added m t p q /\ ~ same_unordered a b p q) /\
    (forall p q, managed m p -> managed m q ->
       (inferred m' p q (Some MUST_LINK) <-> linked must' p q) /\
       (inferred m' p q (Some CANNOT_LINK) <-> separated must' cannot' p q)) /\
    (forall m2, reachable m2 -> (forall x, managed m2 x <-> managed m x) ->
       (forall t p q, added m2 t p q <-> added m t p q /\ ~ same_unordered a b p q) -> same_answers m' m2).
Proof. exact C11_retraction_is_complete_proof. Qed.
Print Assumptions C11_retraction_is_complete.

Example C11_ex : let m' := fst (exec (CallDeleteConstraint b c) ex) in
  inferred ex a c (Some CANNOT_LINK) /\ inferred m' a c None
  /\ snd (exec (CallAddConstraint a c MUST_LINK 1%Q) m') = Ok (VBool true).
Proof. repeat split. Qed.

(** C12: deleting an ID removes it and everything inferred through it; managing it again starts afresh. *)
Theorem C12_deleted_id_is_forgotten :
  forall m, reachable m -> forall x, managed m x ->
    let m' := fst (exec (CallDeleteDataID x) m) in
    let must' := fun p q => added_must m p q /\ p <> x /\ q <> x in
    let cannot' := fun p q => added_cannot m p q /\ p <> x /\ q <> x in
    let m'' := fst (exec (CallAddDataID x) m') in
    snd (exec (CallDeleteDataID x) m) = Ok (VBool true) /\
    (forall y, managed m' y <-> managed m y /\ y <> x) /\
    (forall t p q, added m' t p q <-> added m t p q /\ p <> x /\ q <> x) /\
    (forall p q, managed m' p -> managed m' q ->
       (inferred m' p q (Some MUST_LINK) <-> linked must' p q) /\
       (inferred m' p q (Some CANNOT_LINK) <-> separated must' cannot' p q)) /\
    (forall m2, reachable m2 -> (forall y, managed m2 y <-> managed m y /\ y <> x) ->
       (forall t p q, added m2 t p q <-> added m t p q /\ p <> x /\ q <> x) -> same_answers m' m2) /\
    (forall y, managed m'' y <-> managed m y) /\
    (forall t p q, added m'' t p q <-> added m' t p q \/ (t = MUST_LINK /\ p = x /\ q = x)) /\
    (forall y, managed m'' y -> y <> x -> inferred m'' x y None).
Proof. exact C12_deleted_id_is_forgotten_proof. Qed.
Print Assumptions C12_deleted_id_is_forgotten.

Example C12_ex : let m' := fst (exec (CallDeleteDataID b) ex) in let m'' := fst (exec (CallAddDataID b) m') in
  inferred ex a c (Some CANNOT_LINK) /\ inferred m' a c None /\ inferred m'' a b None.
Proof. repeat split. Qed.

(** C13: connected components are non-empty, repeat nothing, cover exactly the managed IDs, and group exactly the inferred MUST_LINKs. *)
Theorem C13_components_partition :
  forall m, reachable m ->
    exists l ids, ask get_connected_components m = Ok l /\ ask get_list_of_managed_data_IDs m = Ok ids /\
      Permutation (concat l) ids /\ NoDup (concat l) /\
      (forall c, In c l -> c <> []) /\
      (forall a b, managed m a -> managed m b ->
         ((exists c, In c l /\ In a c /\ In b c) <-> inferred m a b (Some MUST_LINK))).
Proof. exact C13_components_partition_proof. Qed.
Print Assumptions C13_components_partition.

Example C13_ex : ask get_connected_components ex = Ok [[a; b]; [c]; [d]].
Proof. reflexivity. Qed.

(** C14: the completeness check is true exactly when every pair of managed IDs has an inferred constraint. *)
Theorem C14_completude_exact :
  forall m, reachable m ->
    exists b, ask check_completude_of_constraints m = Ok b /\
      (b = true <-> forall x y, managed m x -> managed m y ->
                      inferred m x y (Some MUST_LINK) \/ inferred m x y (Some CANNOT_LINK)).
Proof. exact C14_completude_exact_proof. Qed.
Print Assumptions C14_completude_exact.

Example C14_ex : ask check_completude_of_constraints ex = Ok false
  /\ ask check_completude_of_constraints (run [CallAddConstraint d c MUST_LINK 1%Q] ex) = Ok true.
Proof. split; reflexivity. Qed.

(** C19: a conflict is reported exactly when the constraint would be refused, and lists exactly the two components involved. *)
Theorem C19_conflict_listing_exact :
  forall m, reachable m -> forall a b t v, managed m a -> managed m b -> allowed t ->
    (ask (get_list_of_involved_data_IDs_in_a_constraint_conflict a b t) m = Ok None <->
       ask (add_constraint a b t v) m = Ok true) /\
    (ask (add_constraint a b t v) m = Raise ValueError ->
       exists l, ask (get_list_of_involved_data_IDs_in_a_constraint_conflict a b t) m = Ok (Some l) /\
         NoDup l /\
         forall x, In x l <-> managed m x /\ (inferred m a x (Some MUST_LINK) \/ inferred m b x (Some MUST_LINK))) /\
    fst (get_list_of_involved_data_IDs_in_a_constraint_conflict a b t m) = m.
Proof. exact C19_conflict_listing_exact_proof. Qed.
Print Assumptions C19_conflict_listing_exact.

Example C19_ex : ask (get_list_of_involved_data_IDs_in_a_constraint_conflict a c MUST_LINK) ex = Ok (Some [a; b; c])
  /\ ask (get_list_of_involved_data_IDs_in_a_constraint_conflict a d MUST_LINK) ex = Ok None.
Proof. split; reflexivity. Qed.

(** C20: adding an already inferred constraint succeeds and changes no inference; re-adding an added one changes nothing at all. *)
Theorem C20_redundant_add :
  forall m, reachable m -> forall a b t v, managed m a -> managed m b -> inferred m a b (Some t) ->
    let m' := fst (exec (CallAddConstraint a b t v) m) in
    snd (exec (CallAddConstraint a b t v) m) = Ok (VBool true) /\
    same_answers m m' /\
    (forall x, managed m' x <-> managed m x) /\
    (added m t a b -> m' = m).
Proof. exact C20_redundant_add_proof. Qed.
Print Assumptions C20_redundant_add.

Example C20_ex : inferred ex a c (Some CANNOT_LINK) /\ ~ added ex CANNOT_LINK a c
  /\ fst (exec (CallAddConstraint a b MUST_LINK 1%Q) ex) = ex.
Proof.
  split; [reflexivity|]. split; [|reflexivity]. intros [v E]. vm_compute in E. discriminate.
Qed.

(** C21: a batch of annotations accepted in one order is accepted in every order, and the resulting managers give the same answers. *)
Theorem C21_batch_order_irrelevant :
  forall m l1 l2 m1, reachable m -> Permutation l1 l2 ->
    add_all l1 m = (m1, Ok tt) ->
    exists m2, add_all l2 m = (m2, Ok tt) /\
      (forall x, managed m1 x <-> managed m2 x) /\
      (forall a b, ask (get_added_constraint a b) m1 = ask (get_added_constraint a b) m2) /\
      same_answers m1 m2.
Proof. exact C21_batch_order_irrelevant_proof. Qed.
Print Assumptions C21_batch_order_irrelevant.

Example C21_ex : exists m1 m2,
  add_all [(a, b, MUST_LINK); (b, c, MUST_LINK); (a, c, MUST_LINK); (c, d, CANNOT_LINK)] (init [a; b; c; d]) = (m1, Ok tt)
  /\ add_all [(c, d, CANNOT_LINK); (a, c, MUST_LINK); (b, c, MUST_LINK); (a, b, MUST_LINK)] (init [a; b; c; d]) = (m2, Ok tt)
  /\ m1 <> m2.
Proof. eexists. eexists. split; [vm_compute; reflexivity|]. split; [vm_compute; reflexivity|]. intro E. discriminate E. Qed.
