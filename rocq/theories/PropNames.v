(** Generated from NamesThms.v by tools/gen_props.py: theorem statements,
    each closed by the lemma of the same name proved there. *)

(** * Renaming the data (C101) *)

From Coq Require Import String List Bool Arith QArith Permutation.
From Verif Require Import Base Manager Spec ResumeSpec NamesSpec NamesThms.
Import ListNotations.
Open Scope nat_scope.

(** C101: when the data are renamed, every history of calls gives the same answers with the new names, up to the order of IDs inside a component or a conflict. *)
Theorem C101_names_do_not_matter :
  forall f ids history, injective f ->
    Forall2 same_output (map (rename_result f) (outputs history (init ids)))
                        (outputs (map (rename_call f) history) (init (map f ids))).
Proof. exact C101_names_do_not_matter_proof. Qed.
Print Assumptions C101_names_do_not_matter.

Definition A := str "a". Definition B := str "b". Definition C := str "c".
(** Reversing the names changes their alphabetical order. *)
Definition flip (x : pystr) : pystr := match x with c :: l => (if N.eqb c 97 then 99 else if N.eqb c 99 then 97 else c)%N :: l | [] => [] end.
Lemma flip_injective : injective flip.
Proof.
  intros [|c l] [|c' l']; cbn; try discriminate; auto. intro E. injection E as E1 E2. subst l'. f_equal.
  destruct (N.eqb_spec c 97), (N.eqb_spec c 99), (N.eqb_spec c' 97), (N.eqb_spec c' 99); congruence.
Qed.
Definition history : list call := [CallAddConstraint B C MUST_LINK 1%Q; CallAddConstraint A B MUST_LINK 1%Q; CallDeleteConstraint A A; CallComponents; CallAddConstraint A C CANNOT_LINK 1%Q].
Example C101_ex : outputs history (init [A; B; C]) = [Ok (VBool true); Ok (VBool true); Ok (VBool true); Ok (VComponents [[A; B; C]]); Raise ValueError] /\
  outputs (map (rename_call flip) history) (init (map flip [A; B; C])) = [Ok (VBool true); Ok (VBool true); Ok (VBool true); Ok (VComponents [[A; B; C]]); Raise ValueError] /\
  map flip [A; B; C] = [C; B; A].
Proof. split; [|split]; vm_compute; reflexivity. Qed.
