(** Generated from GrowThms.v by tools/gen_props.py: theorem statements,
    each closed by the lemma of the same name proved there. *)

From Coq Require Import String List Bool Arith ZArith QArith.
From Verif Require Import Base Manager Spec ManagerInv ManagerThms Threads ThreadSpec ThreadsThms Readers ReadersSpec ReadersThms KeepSpec GrowThms.
Import ListNotations.
Open Scope nat_scope.

Definition A := str "a". Definition B := str "b". Definition C := str "c". Definition D := str "d".

(** C167: one thread adds data and constraints, any number of calls, and any number of other threads ask for added and inferred constraints. However their reads and writes are interleaved, a
    constraint that is inferred before the additions is told by each question about it; and once a thread is told an inferred constraint, it is told the same each time it asks the same, and the constraint
    is inferred in the end. *)
Theorem C167_inferred_stays : forall m cs qss m' r rss,
    reachable m -> Forall only_adds cs -> Forall (Forall asks) qss ->
    interleaved m (p_wsession cs :: map p_session qss) m' (r :: rss) ->
    Forall2 (fun qs x => exists answers, x = Ok answers /\ length answers = length qs /\
      forall i a b v t, nth_error qs i = Some (TGetInferred a b) -> nth_error answers i = Some v ->
        (inferred m a b (Some t) -> v = Ok (VInferred (Some t))) /\
        (v = Ok (VInferred (Some t)) -> inferred m' a b (Some t) /\
           forall j v', i < j -> nth_error qs j = Some (TGetInferred a b) -> nth_error answers j = Some v' -> v' = v)) qss rss.
Proof. exact C167_inferred_stays_proof. Qed.
Print Assumptions C167_inferred_stays.

Definition ex : mgr := run [CallAddConstraint A B MUST_LINK 1%Q] (init [A; B; C]).
Definition news : list wcall := [WAddID D; WAdd D C MUST_LINK 1%Q; WAdd C A CANNOT_LINK 1%Q].
Definition asked : list tcall := [TGetInferred C D; TGetInferred B A; TGetInferred C D; TGetInferred D C; TGetInferred C D; TGetInferred D B; TGetInferred B A].
(** D is unknown, then C is linked to D, but D not yet to C, and C stays linked to D. *)
Example C167_inferred_stays_ex : reachable ex /\ Forall only_adds news /\ Forall (Forall asks) [asked] /\ inferred ex B A (Some MUST_LINK) /\
  exists m', interleaved ex (p_wsession news :: map p_session [asked]) m'
    [Ok [Ok (VBool true); Ok (VBool true); Ok (VBool true)];
     Ok [Raise ValueError; Ok (VInferred (Some MUST_LINK)); Ok (VInferred (Some MUST_LINK)); Ok (VInferred None); Ok (VInferred (Some MUST_LINK)); Ok (VInferred (Some CANNOT_LINK));
         Ok (VInferred (Some MUST_LINK))]].
Proof.
  split; [apply run_reachable|]. split; [repeat constructor|]. split; [repeat constructor|]. split; [vm_compute; reflexivity|].
  eexists. apply (play_interleaved (repeat 1 2 ++ repeat 0 23 ++ repeat 1 11 ++ repeat 0 23 ++ repeat 1 9)). vm_compute. reflexivity.
Qed.

(** C167: only while nothing is deleted: while another thread deletes a constraint of other data, a thread can be told that two data must link, then that nothing is known of them, and they must link
    before and after. *)
Theorem C167_deletions : exists m a b c d m' r,
    reachable m /\ inferred m a b (Some MUST_LINK) /\ inferred m' a b (Some MUST_LINK) /\
    interleaved m [p_wsession [WDelete c d]; p_session [TGetInferred a b; TGetInferred a b]] m' [r; Ok [Ok (VInferred (Some MUST_LINK)); Ok (VInferred None)]].
Proof. exact C167_deletions_proof. Qed.
Print Assumptions C167_deletions.

(** C167: no two threads are told that two data must link and that they cannot, in whatever order the data are given and at whatever moments of the additions. *)
Theorem C167_no_contradiction : forall m cs qss m' r rss k k' qs qs' answers answers' i j a b t u,
    reachable m -> Forall only_adds cs -> Forall (Forall asks) qss ->
    interleaved m (p_wsession cs :: map p_session qss) m' (r :: rss) ->
    nth_error qss k = Some qs -> nth_error rss k = Some (Ok answers) ->
    nth_error qss k' = Some qs' -> nth_error rss k' = Some (Ok answers') ->
    nth_error qs i = Some (TGetInferred a b) -> nth_error answers i = Some (Ok (VInferred (Some t))) ->
    nth_error qs' j = Some (TGetInferred a b) \/ nth_error qs' j = Some (TGetInferred b a) -> nth_error answers' j = Some (Ok (VInferred (Some u))) ->
    t = u.
Proof. exact C167_no_contradiction_proof. Qed.
Print Assumptions C167_no_contradiction.

(** One thread is told of C and D, and another one, later, of D and C. *)
Example C167_no_contradiction_ex : exists m', interleaved ex (p_wsession news :: map p_session [[TGetInferred C D]; [TGetInferred D C]]) m'
  [Ok [Ok (VBool true); Ok (VBool true); Ok (VBool true)]; Ok [Ok (VInferred (Some MUST_LINK))]; Ok [Ok (VInferred (Some MUST_LINK))]].
Proof. eexists. apply (play_interleaved (repeat 0 23 ++ repeat 1 3 ++ repeat 0 23 ++ repeat 2 3)). vm_compute. reflexivity. Qed.
