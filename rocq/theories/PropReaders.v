(** Generated from ReadersThms.v by tools/gen_props.py: theorem statements,
    each closed by the lemma of the same name proved there. *)

From Coq Require Import String List Bool Arith ZArith QArith.
From Verif Require Import Base Manager Spec ManagerThms ManagerInv ManagerQueries Threads ThreadSpec ThreadsThms Readers ReadersSpec ReadersThms.
Import ListNotations.
Open Scope nat_scope.

(** C145: one change alone, action by action, ends with the manager and the result of the method. *)
Theorem C145_alone : forall c m, alone (p_wexec c) m = exec (as_wcall c) m.
Proof. exact C145_alone_proof. Qed.
Print Assumptions C145_alone.

Definition A := str "a". Definition B := str "b". Definition C := str "c". Definition D := str "d".
Definition ex : mgr := run [CallAddConstraint A B MUST_LINK 1%Q] (init [B; A; C]).
Lemma ex_reachable : reachable ex. Proof. apply run_reachable. Qed.
Example C145_alone_ex : snd (alone (p_wexec (WAddID D)) ex) = Ok (VBool true) /\ snd (alone (p_wexec (WDeleteID D)) ex) = Raise ValueError /\
  ask (get_inferred_constraint A B) (fst (alone (p_wexec (WDelete B A)) ex)) = Ok None.
Proof. repeat split; vm_compute; reflexivity. Qed.

(** C145, partial: one thread adds data and constraints, any number of calls, and any number of other threads ask any number of questions about inferred constraints, and about
    added constraints of data that are managed from the start.  However their reads and writes are interleaved, the changes end as when they are made alone, and every
    question is answered as it is after some number of the changes; from one question to the next of the same thread this number goes back by one at most. *)
Theorem C145_additions_partial : forall m cs qss m' r rss,
    reachable m -> Forall only_adds cs -> Forall (Forall (only_asks m)) qss ->
    interleaved m (p_wsession cs :: map p_session qss) m' (r :: rss) ->
    m' = run (map as_wcall cs) m /\ r = Ok (snd (one_by_one (map as_wcall cs) m)) /\
    Forall2 (fun qs rs => exists answers, rs = Ok answers /\ right_at_times (map as_wcall cs) m 0 qs answers) qss rss.
Proof. exact C145_additions_partial_proof. Qed.
Print Assumptions C145_additions_partial.

(** One thread adds D and tells that D and C must link, and that A and C cannot; another one asks meanwhile.  D is unknown, then C is linked to D, but D not yet to C, and in the end D cannot link with B. *)
Definition news : list wcall := [WAddID D; WAdd D C MUST_LINK 1%Q; WAdd C A CANNOT_LINK 1%Q].
Definition asks : list tcall := [TGetInferred C D; TGetInferred C D; TGetInferred D C; TGetAdded A C; TGetInferred D B].
Definition answers : list (res value) := [Raise ValueError; Ok (VInferred (Some MUST_LINK)); Ok (VInferred None); Ok (VAdded None); Ok (VInferred (Some CANNOT_LINK))].
Example C145_additions_ex : Forall only_adds news /\ Forall (Forall (only_asks ex)) [asks] /\
  (exists m', interleaved ex (p_wsession news :: map p_session [asks]) m' [Ok [Ok (VBool true); Ok (VBool true); Ok (VBool true)]; Ok answers]) /\
  right_at_times (map as_wcall news) ex 0 asks answers.
Proof.
  split; [repeat constructor|]. split.
  - assert (M : forall x, In x [A; B; C] -> managed ex x) by (intros x I; apply managed_ids; destruct I as [<-|[<-|[<-|[]]]]; vm_compute; auto).
    repeat constructor; apply M; cbn; auto.
  - split.
    + eexists. apply (play_interleaved (repeat 1 2 ++ repeat 0 23 ++ repeat 1 10 ++ repeat 0 23 ++ repeat 1 4)). vm_compute. reflexivity.
    + apply (question _ _ 0 0); [cbn; auto with arith|reflexivity|]. apply (question _ _ 0 2); [cbn; auto with arith|reflexivity|].
      apply (question _ _ 1 1); [cbn; auto with arith|reflexivity|]. apply (question _ _ 0 2); [cbn; auto with arith|reflexivity|].
      apply (question _ _ 1 3); [cbn; auto with arith|reflexivity|]. constructor.
Qed.

(** C145, refuted: the answers that one thread gets one after the other need not be right at one moment.  While another thread adds a = b, it is told that b and a must link, and then
    that nothing is known of a and b. *)
Theorem C145_order_refuted :
  exists ids a b m',
    interleaved (init ids) [p_wsession [WAdd a b MUST_LINK 1%Q]; p_session [TGetInferred b a; TGetInferred a b]] m'
      [Ok [Ok (VBool true)]; Ok [Ok (VInferred (Some MUST_LINK)); Ok (VInferred None)]].
Proof. exact C145_order_refuted_proof. Qed.
Print Assumptions C145_order_refuted.

(** C145, refuted for deletions: while another thread deletes the constraint of c and d, a thread is told that nothing is known of a and b, which must link before and after. *)
Theorem C145_deletion_refuted :
  exists m a b c d m',
    reachable m /\ ask (get_inferred_constraint a b) m = Ok (Some MUST_LINK) /\ ask (get_inferred_constraint a b) m' = Ok (Some MUST_LINK) /\
    interleaved m [p_wsession [WDelete c d]; p_session [TGetInferred a b]] m' [Ok [Ok (VBool true)]; Ok [Ok (VInferred None)]].
Proof. exact C145_deletion_refuted_proof. Qed.
Print Assumptions C145_deletion_refuted.

(** C145, refuted for deletions of data: a question about a data that is being deleted can raise a KeyError, which the documentation does not mention. *)
Theorem C145_deleted_ID_refuted :
  exists ids a b m',
    interleaved (init ids) [p_wsession [WDeleteID b]; p_session [TGetInferred a b]] m' [Ok [Ok (VBool true)]; Ok [Raise KeyError]].
Proof. exact C145_deleted_ID_refuted_proof. Qed.
Print Assumptions C145_deleted_ID_refuted.

(** C145, refuted for added constraints of new data: a question about the added constraint of a data that is being added can raise a KeyError. *)
Theorem C145_new_ID_refuted :
  exists ids a b m',
    interleaved (init ids) [p_wsession [WAddID b]; p_session [TGetAdded a b]] m' [Ok [Ok (VBool true)]; Ok [Raise KeyError]].
Proof. exact C145_new_ID_refuted_proof. Qed.
Print Assumptions C145_new_ID_refuted.
