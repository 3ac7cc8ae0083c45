(** Generated from ManagedThreadThms.v by tools/gen_props.py: theorem statements,
    each closed by the lemma of the same name proved there. *)

From Coq Require Import String List Bool Arith ZArith QArith.
From Verif Require Import Base Manager Spec ManagerInv ManagerThms Threads ThreadSpec ThreadsThms Readers ReadersSpec ReadersThms ManagedThread ManagedThreadThms.
Import ListNotations.
Open Scope nat_scope.

Definition A := str "a". Definition B := str "b". Definition C := str "c". Definition D := str "d".

(** C166: a session of questions alone, action by action, ends with the manager and the results of the methods called one by one. *)
Theorem C166_alone : forall qs m, alone (p_msession qs) m = (fst (one_by_one (map as_mcall qs) m), Ok (snd (one_by_one (map as_mcall qs) m))).
Proof. exact C166_alone_proof. Qed.
Print Assumptions C166_alone.

Example C166_alone_ex : snd (alone (p_msession [MManaged; MAdded A B; MInferred A D]) (init [B; A; C])) = Ok [Ok (VIds [B; A; C]); Ok (VAdded None); Raise ValueError].
Proof. vm_compute. reflexivity. Qed.

(** C166: one thread adds and deletes data and constraints, any number of calls, and any number of other threads list the managed data and ask for constraints. However their reads and writes are
    interleaved, each list is the one that the method returns after some number of the changes, and these numbers only grow from one list of a thread to its next. *)
Theorem C166_moments : forall m cs qss m' r rss,
    interleaved m (p_wsession cs :: map p_msession qss) m' (r :: rss) ->
    m' = run (map as_wcall cs) m /\ r = Ok (snd (one_by_one (map as_wcall cs) m)) /\
    Forall2 (fun qs x => exists answers (moment_of : nat -> nat), x = Ok answers /\ length answers = length qs /\
      (forall i, moment_of i <= length cs) /\ (forall i j, i <= j -> moment_of i <= moment_of j) /\
      forall i, nth_error qs i = Some MManaged -> nth_error answers i = Some (snd (exec CallManagedIDs (run (firstn (moment_of i) (map as_wcall cs)) m)))) qss rss.
Proof. exact C166_moments_proof. Qed.
Print Assumptions C166_moments.

Definition changes : list wcall := [WAddID D; WDeleteID A].
Definition asked : list (list mcall) := [[MManaged; MAdded B C; MManaged]; [MManaged; MManaged]].
(** The lists after one and two changes, both told while the change is being made, and the lists before and after all changes. *)
Example C166_moments_ex : exists m', interleaved (init [A; B; C]) (p_wsession changes :: map p_msession asked) m'
  [Ok [Ok (VBool true); Ok (VBool true)]; Ok [Ok (VIds [A; B; C; D]); Ok (VAdded None); Ok (VIds [B; C; D])]; Ok [Ok (VIds [A; B; C]); Ok (VIds [B; C; D])]].
Proof.
  eexists. apply (play_interleaved (repeat 2 1 ++ repeat 0 2 ++ repeat 1 1 ++ repeat 0 8 ++ repeat 1 4 ++ repeat 0 33 ++ repeat 2 1)). vm_compute. reflexivity.
Qed.

(** C166: the data that a thread was told are managed may not be ready: the constraints of one of them are refused, or their entries are missing. *)
Theorem C166_not_ready : exists m cs x y m' r l,
    reachable m /\ Forall only_adds cs /\ In x l /\ In y l /\
    interleaved m [p_wsession cs; p_msession [MManaged; MInferred x y; MAdded x y]] m' [r; Ok [Ok (VIds l); Raise ValueError; Raise KeyError]].
Proof. exact C166_not_ready_proof. Qed.
Print Assumptions C166_not_ready.
