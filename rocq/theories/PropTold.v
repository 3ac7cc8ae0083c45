(** Generated from ToldThms.v by tools/gen_props.py: theorem statements,
    each closed by the lemma of the same name proved there. *)

From Coq Require Import String List Bool Arith ZArith QArith.
From Verif Require Import Base Manager Spec ManagerThms Threads ThreadSpec ThreadsThms Readers ReadersSpec ReadersThms Listing ListingSpec ListingThms AskAgain AskAgainSpec AskAgainThms ToldSpec ToldThms.
Import ListNotations.
Open Scope nat_scope.

Definition A := str "a". Definition B := str "b". Definition C := str "c".

(** C164: one thread adds constraints, any number of calls, and any number of other threads ask for inferred constraints, for the components, for the completeness and for conflicts. However their
    reads and writes are interleaved, no thread is told less than what the method returns before the additions, and what a thread is told is still returned by the method after them. *)
Theorem C164_between : forall m cs qss m' r rss,
    reachable m -> Forall only_adds_constraints cs ->
    interleaved m (p_wsession cs :: map p_qsession qss) m' (r :: rss) ->
    Forall2 (fun qs x => exists answers, x = Ok answers /\
      Forall2 (fun q v => still q (snd (exec (as_qcall q) m)) v /\ still q v (snd (exec (as_qcall q) m'))) qs answers) qss rss.
Proof. exact C164_between_proof. Qed.
Print Assumptions C164_between.

Definition ex : mgr := run [CallAddConstraint A C CANNOT_LINK 1%Q] (init [A; B; C]).
Definition news : list wcall := [WAdd B A MUST_LINK 1%Q; WAdd B C CANNOT_LINK 1%Q].
Definition asked : list (list qcall) := [[QInferred A B; QComponents; QCompletude; QInferred B A]; [QConflict A C MUST_LINK; QInferred B A]].
Definition answered : list (res (list (res value))) :=
  [Ok [Ok (VBool true); Ok (VBool true)];
   Ok [Ok (VInferred (Some MUST_LINK)); Ok (VComponents [[A]; [B; A]; [C]]); Ok (VBool false); Ok (VInferred None)];
   Ok [Ok (VConflict (Some [A; B; A; C])); Ok (VInferred (Some MUST_LINK))]].
Lemma answered_so : exists m', interleaved ex (p_wsession news :: map p_qsession asked) m' answered.
Proof.
  eexists. apply (play_interleaved (repeat 0 15 ++ repeat 1 15 ++ repeat 2 13 ++ repeat 0 (length (states (p_wsession news) ex) - 15) ++ repeat 2 4)). vm_compute. reflexivity.
Qed.
(** The answers are neither those before nor those after the additions. *)
Example C164_between_ex : reachable ex /\ Forall only_adds_constraints news /\ (exists m', interleaved ex (p_wsession news :: map p_qsession asked) m' answered) /\
  snd (exec CallComponents ex) = Ok (VComponents [[A]; [B]; [C]]) /\ snd (exec CallComponents (run (map as_wcall news) ex)) = Ok (VComponents [[B; A]; [C]]).
Proof. split; [apply reach_call, reach_init|]. split; [repeat constructor|]. split; [exact answered_so|]. split; vm_compute; reflexivity. Qed.

(** C164: what some thread is told to be inferred is inferred in the end; so no two threads are told different constraints between the same two data, whatever the order of the data. *)
Theorem C164_no_contradiction : forall m cs qss m' r rss a b t,
    reachable m -> Forall only_adds_constraints cs ->
    interleaved m (p_wsession cs :: map p_qsession qss) m' (r :: rss) ->
    told qss rss a b t -> inferred m' a b (Some t) /\ forall u, told qss rss a b u \/ told qss rss b a u -> u = t.
Proof. exact C164_no_contradiction_proof. Qed.
Print Assumptions C164_no_contradiction.

Example C164_no_contradiction_ex : told asked (tl answered) A B MUST_LINK /\ told asked (tl answered) B A MUST_LINK /\
  exists m', interleaved ex (p_wsession news :: map p_qsession asked) m' (hd (Raise ValueError) answered :: tl answered).
Proof. split; [exists 0; do 2 eexists; exists 0; repeat split; reflexivity|]. split; [exists 1; do 2 eexists; exists 1; repeat split; reflexivity|exact answered_so]. Qed.
