(** Generated from ListingThms.v by tools/gen_props.py: theorem statements,
    each closed by the lemma of the same name proved there. *)

From Coq Require Import String List Bool Arith ZArith QArith.
From Verif Require Import Base Manager Spec ManagerThms ManagerInv ManagerQueries Threads ThreadSpec ThreadsThms Readers ReadersSpec ReadersThms Listing ListingSpec ListingThms.
Import ListNotations.
Open Scope nat_scope.

(** C152: the listing and the check alone, action by action, end with the manager and the result of the methods. *)
Theorem C152_alone : forall q m, alone (p_lexec q) m = exec (as_lcall q) m.
Proof. exact C152_alone_proof. Qed.
Print Assumptions C152_alone.

Definition A := str "a". Definition B := str "b". Definition C := str "c".
Definition ex : mgr := run [CallAddConstraint A B MUST_LINK 1%Q] (init [B; A; C]).
Lemma ex_reachable : reachable ex. Proof. apply run_reachable. Qed.
Example C152_alone_ex : snd (alone (p_lexec LComponents) ex) = Ok (VComponents [[A; B]; [C]]) /\ snd (alone (p_lexec LCompletude) ex) = Ok (VBool false) /\
  snd (alone (p_lexec LCompletude) (run [CallAddConstraint A C CANNOT_LINK 1%Q] ex)) = Ok (VBool true).
Proof. repeat split; vm_compute; reflexivity. Qed.

(** C152: one thread adds constraints, any number of calls, and any number of other threads check any number of times that the constraints are complete, or list the connected components. However
    their reads and writes are interleaved, the additions end as when they are made alone; each check returns what it returns after some number of the additions; each list of
    components covers the data with components of the data after some numbers of the additions, two of them being nested or apart. *)
Theorem C152_listing_partial : forall m cs qss m' r rss,
    reachable m -> Forall only_adds_constraints cs ->
    interleaved m (p_wsession cs :: map p_lsession qss) m' (r :: rss) ->
    m' = run (map as_wcall cs) m /\ r = Ok (snd (one_by_one (map as_wcall cs) m)) /\
    Forall2 (fun qs rs => exists answers, rs = Ok answers /\ got_at_times (map as_wcall cs) m 0 qs answers) qss rss.
Proof. exact C152_listing_partial_proof. Qed.
Print Assumptions C152_listing_partial.

Definition news : list wcall := [WAdd C A CANNOT_LINK 1%Q; WAdd A B CANNOT_LINK 1%Q].
Definition lists : list lcall := [LCompletude; LComponents; LCompletude].
Definition lists_got : list (res value) := [Ok (VBool false); Ok (VComponents [[A; B]; [C]]); Ok (VBool true)].
Example C152_listing_ex : Forall only_adds_constraints news /\
  (exists m', interleaved ex (p_wsession news :: map p_lsession [lists]) m' [Ok [Ok (VBool true); Raise ValueError]; Ok lists_got]) /\
  got_at_times (map as_wcall news) ex 0 lists lists_got.
Proof.
  split; [repeat constructor|]. assert (J : exists m', interleaved ex (p_wsession news :: map p_lsession [lists]) m' [Ok [Ok (VBool true); Raise ValueError]; Ok lists_got]).
  { eexists. apply (play_interleaved (repeat 0 12 ++ repeat 1 7 ++ repeat 0 (length (states (p_wsession news) ex) - 12) ++ repeat 1 11)). vm_compute. reflexivity. }
  split; auto. destruct J as [m' J]. apply C152_listing_partial in J as (_ & _ & F); [|apply ex_reachable|repeat constructor].
  inversion F as [|? ? ? ? (answers & E & G) _]; subst. injection E as <-. exact G.
Qed.

(** C152, refuted: a list of components that is got while a MUST_LINK constraint is added is not always a partition of the data: the same data is in two of the components. *)
Theorem C152_partition_refuted :
  exists ids a b m' l,
    interleaved (init ids) [p_wsession [WAdd a b MUST_LINK 1%Q]; p_lsession [LComponents]] m' [Ok [Ok (VBool true)]; Ok [Ok (VComponents l)]] /\
    ~ NoDup (concat l).
Proof. exact C152_partition_refuted_proof. Qed.
Print Assumptions C152_partition_refuted.

(** C152, refuted: nor does the list stand for the components after some number of the additions. *)
Theorem C152_moment_refuted :
  exists ids a b m' l,
    interleaved (init ids) [p_wsession [WAdd a b MUST_LINK 1%Q]; p_lsession [LComponents]] m' [Ok [Ok (VBool true)]; Ok [Ok (VComponents l)]] /\
    forall n, ask get_connected_components (run (firstn n [CallAddConstraint a b MUST_LINK 1%Q]) (init ids)) <> Ok l.
Proof. exact C152_moment_refuted_proof. Qed.
Print Assumptions C152_moment_refuted.
