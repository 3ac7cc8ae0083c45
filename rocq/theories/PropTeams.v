(** Generated from TeamsThms.v by tools/gen_props.py: theorem statements,
    each closed by the lemma of the same name proved there. *)

From Coq Require Import String List Bool Arith ZArith QArith Permutation.
From Verif Require Import Base Manager Spec ManagerThms MonoSpec ResumeSpec TeamsSpec TeamsThms.
Import ListNotations.
Open Scope nat_scope.

Definition a := str "a". Definition b := str "b". Definition c := str "c". Definition d := str "d". Definition e := str "e".
Definition first_team (x : pystr) : bool := eqb x a || eqb x c || eqb x e.
Definition work : list call :=
  [CallAddConstraint c a MUST_LINK 1%Q; CallAddConstraint b d CANNOT_LINK 1%Q; CallComponents; CallAddDataID e; CallAddConstraint e a CANNOT_LINK 1%Q;
   CallAddConstraint d b MUST_LINK 1%Q; CallAddConstraint e c MUST_LINK 1%Q; CallDeleteConstraint b d; CallConflict e c MUST_LINK; CallGetInferred d b].

(** C131: when every call of a history is about data of one side only, the answers to the calls of this side are those of a manager that has only the data of this side and gets only its calls, up to the order of the IDs of a conflict. *)
Theorem C131_teams :
  forall side ids history, Forall (on_one_side side) history ->
    Forall2 same_output (answers_of side history (outputs history (init ids))) (outputs (filter (belongs side) history) (init (filter side ids))).
Proof. exact C131_teams_proof. Qed.
Print Assumptions C131_teams.

(** The deletion of the other side has put the IDs of the conflict in another order. *)
Example C131_teams_ex : Forall (on_one_side first_team) work /\
  answers_of first_team work (outputs work (init [d; c; b; a])) =
    [Ok (VBool true); Ok (VBool true); Ok (VBool true); Raise ValueError; Ok (VConflict (Some [a; c; e]))] /\
  outputs (filter (belongs first_team) work) (init (filter first_team [d; c; b; a])) =
    [Ok (VBool true); Ok (VBool true); Ok (VBool true); Raise ValueError; Ok (VConflict (Some [c; a; e]))].
Proof.
  split; [|split; vm_compute; reflexivity].
  repeat constructor; try (exists true; intros x X; cbn in X; repeat (destruct X as [<-|X]; [reflexivity|]); contradiction);
    exists false; intros x X; cbn in X; repeat (destruct X as [<-|X]; [reflexivity|]); contradiction.
Qed.

(** C131: the manager of the whole history is put together from the managers of the two sides: its IDs are theirs, it knows nothing between the two sides, and its components are theirs. *)
Theorem C131_together :
  forall side ids history, Forall (on_one_side side) history ->
    let m := run history (init ids) in
    let m1 := run (filter (belongs side) history) (init (filter side ids)) in
    let m2 := run (filter (belongs (other_side side)) history) (init (filter (other_side side) ids)) in
    (exists l, ask get_list_of_managed_data_IDs m = Ok l /\ ask get_list_of_managed_data_IDs m1 = Ok (filter side l) /\
       ask get_list_of_managed_data_IDs m2 = Ok (filter (other_side side) l)) /\
    (forall x y, managed m x -> managed m y -> side x <> side y -> inferred m x y None) /\
    (exists l l1 l2 k, ask get_connected_components m = Ok l /\ ask get_connected_components m1 = Ok l1 /\ ask get_connected_components m2 = Ok l2 /\
       Permutation (l1 ++ l2) k /\ Forall2 (@Permutation pystr) l k).
Proof. exact C131_together_proof. Qed.
Print Assumptions C131_together.

Example C131_together_ex :
  ask get_connected_components (run work (init [d; c; b; a])) = Ok [[d]; [a; c]; [b]; [e]] /\
  ask get_connected_components (run (filter (belongs first_team) work) (init (filter first_team [d; c; b; a]))) = Ok [[c; a]; [e]] /\
  ask get_connected_components (run (filter (belongs (other_side first_team)) work) (init (filter (other_side first_team) [d; c; b; a]))) = Ok [[d]; [b]].
Proof. vm_compute. auto. Qed.
