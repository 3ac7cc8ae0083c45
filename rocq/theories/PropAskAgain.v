(** Generated from AskAgainThms.v by tools/gen_props.py: theorem statements,
    each closed by the lemma of the same name proved there. *)

From Coq Require Import String List Bool Arith ZArith QArith.
From Verif Require Import Base Manager Spec ManagerThms Threads ThreadSpec ThreadsThms Readers ReadersSpec ReadersThms Listing ListingSpec ListingThms AskAgain AskAgainSpec AskAgainThms.
Import ListNotations.
Open Scope nat_scope.

Definition A := str "a". Definition B := str "b". Definition C := str "c".

(** C163: a session of questions alone, action by action, ends with the manager and the results of the methods called one by one. *)
Theorem C163_alone : forall qs m, alone (p_qsession qs) m = (fst (one_by_one (map as_qcall qs) m), Ok (snd (one_by_one (map as_qcall qs) m))).
Proof. exact C163_alone_proof. Qed.
Print Assumptions C163_alone.

Example C163_alone_ex : snd (alone (p_qsession [QInferred A B; QComponents; QCompletude; QInferred A (str "z"); QConflict A B CANNOT_LINK]) (run [CallAddConstraint A B MUST_LINK 1%Q] (init [A; B; C]))) =
  Ok [Ok (VInferred (Some MUST_LINK)); Ok (VComponents [[A; B]; [C]]); Ok (VBool false); Raise ValueError; Ok (VConflict (Some [A; B]))].
Proof. vm_compute. reflexivity. Qed.

(** C163: one thread adds constraints, any number of calls, and any number of other threads ask for inferred constraints, for the components, for the completeness and for conflicts, in any order. However their reads
    and writes are interleaved, what a thread was told stays so: when it asks the same again, an inferred constraint is the same, complete constraints are complete, data that were
    in one component are in one component, and a conflict is a conflict, that involves at least the same data. *)
Theorem C163_told_stays : forall m cs qss m' r rss,
    reachable m -> Forall only_adds_constraints cs ->
    interleaved m (p_wsession cs :: map p_qsession qss) m' (r :: rss) ->
    m' = run (map as_wcall cs) m /\ r = Ok (snd (one_by_one (map as_wcall cs) m)) /\
    Forall2 (fun qs x => exists answers, x = Ok answers /\ length answers = length qs /\
      forall i j q v w, i < j -> nth_error qs i = Some q -> nth_error qs j = Some q -> nth_error answers i = Some v -> nth_error answers j = Some w -> still q v w) qss rss.
Proof. exact C163_told_stays_proof. Qed.
Print Assumptions C163_told_stays.

Definition ex : mgr := run [CallAddConstraint A C CANNOT_LINK 1%Q] (init [A; B; C]).
Definition news : list wcall := [WAdd B A MUST_LINK 1%Q; WAdd B C CANNOT_LINK 1%Q].
Definition asked : list qcall := [QInferred A B; QComponents; QCompletude; QCompletude; QInferred A B; QComponents; QCompletude].
Definition asked2 : list qcall := [QConflict A C MUST_LINK; QConflict A C MUST_LINK].
(** The first questions are asked while [a] and [b] are being linked, when the row of [b] is written and the one of [a] is not. *)
Example C163_told_stays_ex : reachable ex /\ Forall only_adds_constraints news /\ exists m', interleaved ex (p_wsession news :: map p_qsession [asked; asked2]) m'
  [Ok [Ok (VBool true); Ok (VBool true)];
   Ok [Ok (VInferred (Some MUST_LINK)); Ok (VComponents [[A]; [B; A]; [C]]); Ok (VBool false); Ok (VBool true); Ok (VInferred (Some MUST_LINK)); Ok (VComponents [[B; A]; [C]]); Ok (VBool true)];
   Ok [Ok (VConflict (Some [A; B; A; C])); Ok (VConflict (Some [B; A; C]))]].
Proof.
  split; [apply reach_call, reach_init|]. split; [repeat constructor|].
  eexists. apply (play_interleaved (repeat 0 15 ++ repeat 1 9 ++ repeat 2 13 ++ repeat 0 (length (states (p_wsession news) ex) - 15) ++ repeat 1 29 ++ repeat 2 15)). vm_compute. reflexivity.
Qed.

(** C163: only the same question: asked with the data in the other order, the constraint that was inferred may not be there yet. *)
Theorem C163_other_order : exists m cs a b m' r,
    reachable m /\ Forall only_adds_constraints cs /\
    interleaved m [p_wsession cs; p_qsession [QInferred a b; QInferred b a]] m' [r; Ok [Ok (VInferred (Some MUST_LINK)); Ok (VInferred None)]].
Proof. exact C163_other_order_proof. Qed.
Print Assumptions C163_other_order.
