(** * Managers in memory *)

From Coq Require Import String List Bool Arith Lia.
From Verif Require Import Base Manager Spec ManagerInv ManagerProofs ManagerSem ManagerQueries ManagerThms ResumeSpec Heap HeapSpec HeapProofs HeapRun HeapCalls.
Import ListNotations.
Open Scope nat_scope.

(*HEADER
(** * Properties of programs with several managers in one memory (C98) *)

From Coq Require Import String List Bool Arith QArith.
From Verif Require Import Base Manager Spec ResumeSpec Heap HeapSpec HeapThms.
Import ListNotations.
Open Scope nat_scope.
HEADER*)

Lemma empty_R : R empty_heap [].
Proof.
  split; [reflexivity|]. split.
  - intros a m E. destruct a; discriminate.
  - split.
    + intros a a' b b' t (mg & E & _). destruct a; discriminate.
    + intros b a a' x x' r (t & T & (mg & E & _) & _). destruct a; discriminate.
Qed.

Lemma exec_run h W a m c : R h W -> nth_error W a = Some m ->
  R (fst (h_exec a c h)) (put a (fst (exec c m)) W) /\ snd (h_exec a c h) = snd (exec c m).
Proof.
  intros HR E. destruct (sim_exec a c h W m HR E I) as (h' & m' & r & r' & E1 & E2 & HR' & _ & Q).
  rewrite E1, E2. split; [exact HR'|]. cbn [snd]. destruct r, r'; try tauto; subst; reflexivity.
Qed.

(** What each manager of [W], and each manager made later, answers. *)
Lemma answers_run : forall prog h W, R h W -> well_addressed (length W) prog ->
  forall a m, nth_error (W ++ map init (created prog)) a = Some m ->
    own_answers a (answers prog h) = outputs (own_calls a prog) m.
Proof.
  induction prog as [|[ids|a0 c] prog IH]; intros h W HR WA a m E.
  - reflexivity.
  - cbn [answers own_calls flat_map]. destruct (init_run h W ids HR) as (HR' & _).
    apply (IH _ _ HR'); [rewrite app_length; cbn [length]; rewrite Nat.add_1_r; exact WA|].
    rewrite <- app_assoc. exact E.
  - destruct WA as [L WA]. destruct (nth_error W a0) as [m0|] eqn:E0; [|apply nth_error_None in E0; lia].
    destruct (exec_run h W a0 m0 c HR E0) as (HR' & Q).
    cbn [answers own_answers own_calls flat_map fst snd]. rewrite Q.
    specialize (IH _ _ HR'). rewrite put_length in IH. specialize (IH WA a).
    destruct (Nat.eqb_spec a0 a) as [->|N].
    + assert (m = m0) as ->.
      { rewrite nth_error_app1 in E by (apply nth_lt in E0; auto). congruence. }
      cbn [app outputs]. f_equal. apply IH. rewrite nth_error_app1 by (rewrite put_length; apply nth_lt in E0; auto).
      eapply nth_put_same; eauto.
    + cbn [app]. apply IH. cbn [created] in E. rewrite <- E.
      destruct (lt_dec a (length W)) as [LW|LW].
      * rewrite !nth_error_app1 by (rewrite ?put_length; auto). apply nth_put_other. auto.
      * rewrite !nth_error_app2 by (rewrite ?put_length; lia). rewrite put_length. reflexivity.
Qed.

(*PROP C98: whatever other managers a program has, and however the dictionaries are shared, each manager answers as it would alone with dictionaries that are values. *)
Lemma C98_managers_independent_proof :
  forall prog a ids, well_addressed 0 prog -> nth_error (created prog) a = Some ids ->
    own_answers a (answers prog empty_heap) = outputs (own_calls a prog) (init ids).
Proof.
  intros prog a ids WA E. apply (answers_run prog empty_heap [] empty_R WA).
  cbn [app]. rewrite nth_error_map, E. reflexivity.
Qed.

(*EX
Definition A := str "a". Definition B := str "b". Definition C := str "c".
Definition prog : list action :=
  [New [A; B; C]; New [C; A]; Call 0 (CallAddConstraint A B MUST_LINK 1%Q); Call 1 (CallAddConstraint A C CANNOT_LINK 1%Q);
   Call 0 (CallAddConstraint C B MUST_LINK 1%Q); Call 1 (CallDeleteDataID A); Call 0 (CallDeleteDataID B); Call 0 CallComponents;
   Call 1 (CallGetInferred A C); Call 0 (CallGetInferred A C)].
(** [b] and [c] share the dictionary of their component after the fifth action. *)
Example C98_ex : well_addressed 0 prog /\ nth_error (created prog) 0 = Some [A; B; C] /\
  own_answers 0 (answers prog empty_heap) =
    [Ok (VBool true); Ok (VBool true); Ok (VBool true); Ok (VComponents [[A]; [C]]); Ok (VInferred None)] /\
  own_answers 1 (answers prog empty_heap) = [Ok (VBool true); Ok (VBool true); Raise ValueError] /\
  address fst (memory (firstn 5 prog) empty_heap) 0 B = address fst (memory (firstn 5 prog) empty_heap) 0 C /\
  address fst (memory (firstn 5 prog) empty_heap) 0 B <> None /\
  address fst (memory (firstn 5 prog) empty_heap) 1 C <> address fst (memory (firstn 5 prog) empty_heap) 0 C.
Proof. vm_compute. repeat split; auto 10; discriminate. Qed.
EX*)

Lemma own_answers_In prog : forall h a r, In (a, r) (answers prog h) -> In r (own_answers a (answers prog h)).
Proof.
  intros h a r H. apply in_flat_map. exists (a, r). split; auto. cbn [fst snd]. rewrite Nat.eqb_refl. left. reflexivity.
Qed.

Lemma outputs_In l : forall m r, In r (outputs l m) -> exists l1 c l2, l = l1 ++ c :: l2 /\ r = snd (exec c (run l1 m)).
Proof.
  induction l as [|c l IH]; intros m r; [intros []|]. intros [<-|H].
  - exists [], c, l. auto.
  - destruct (IH _ _ H) as (l1 & c' & l2 & -> & ->). exists (c :: l1), c', l2. auto.
Qed.

Lemma answers_made prog : forall h a r made, well_addressed made prog -> In (a, r) (answers prog h) -> a < made + length (created prog).
Proof.
  induction prog as [|[ids|a0 c] prog IH]; intros h a r made WA H; [destruct H|..].
  - cbn [created length]. apply (IH _ _ _ _ WA) in H. lia.
  - destruct WA as [L WA]. destruct H as [H|H]; [inversion H; subst; lia|]. apply (IH _ _ _ _ WA) in H. exact H.
Qed.

(*PROP C98: the only exception is ValueError; no loop over a dictionary is disturbed by a change of its size, no key is missing. *)
Lemma C98_no_runtime_error_proof :
  forall prog a e, well_addressed 0 prog -> In (a, Raise e) (answers prog empty_heap) -> e = ValueError.
Proof.
  intros prog a e WA H. pose proof (answers_made prog _ _ _ 0 WA H) as L. cbn [Nat.add] in L.
  destruct (nth_error (created prog) a) as [ids|] eqn:E; [|apply nth_error_None in E; lia].
  apply own_answers_In in H. rewrite (C98_managers_independent_proof _ _ _ WA E) in H.
  destruct (outputs_In _ _ _ H) as (l1 & c & l2 & _ & Q). symmetry in Q.
  apply (proj1 (C06_only_documented_errors_proof _ (run_reachable ids l1) c) e Q).
Qed.
