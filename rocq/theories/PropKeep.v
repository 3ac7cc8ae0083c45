(** Generated from KeepThms.v by tools/gen_props.py: theorem statements,
    each closed by the lemma of the same name proved there. *)

From Coq Require Import String List Bool Arith ZArith QArith.
From Verif Require Import Base Manager Spec ManagerInv ManagerThms Threads ThreadSpec ThreadsThms Readers ReadersSpec ReadersThms KeepSpec KeepThms.
Import ListNotations.
Open Scope nat_scope.

Definition A := str "a". Definition B := str "b". Definition C := str "c". Definition D := str "d".

(** C165: one thread changes the manager, any number of additions and deletions, none of which deletes the constraint between two managed data nor one of them; any number of other threads ask for
    added and inferred constraints. However their reads and writes are interleaved, the constraint between the two data is told, with its type and value, if it was added before; and once a thread is told it,
    it is told the same each time it asks, whatever the order of the data, and it is there in the end. *)
Theorem C165_added_stays : forall m cs qss m' r rss a b,
    managed m a -> managed m b -> Forall (leaves a b) cs -> Forall (Forall asks) qss ->
    interleaved m (p_wsession cs :: map p_session qss) m' (r :: rss) ->
    Forall2 (fun qs x => exists answers, x = Ok answers /\ length answers = length qs /\
      forall i q v c, nth_error qs i = Some q -> asks_for a b q -> nth_error answers i = Some v ->
        (added_as m a b c -> v = Ok (VAdded (Some c))) /\
        (v = Ok (VAdded (Some c)) -> added_as m' a b c /\
           forall j q' v', i < j -> nth_error qs j = Some q' -> asks_for a b q' -> nth_error answers j = Some v' -> v' = v)) qss rss.
Proof. exact C165_added_stays_proof. Qed.
Print Assumptions C165_added_stays.

Definition ex : mgr := run [CallAddConstraint A C CANNOT_LINK 1%Q] (init [A; B; C; D]).
Definition changes : list wcall := [WAdd B A MUST_LINK 1%Q; WDeleteID D; WDelete A C].
Definition asked : list tcall := [TGetAdded A B; TGetInferred A B; TGetAdded B A].
(** The questions are asked while the inferred constraints are computed again, after [d] is deleted. *)
Example C165_added_stays_ex : managed ex A /\ managed ex B /\ Forall (leaves A B) changes /\ Forall (Forall asks) [asked] /\
  exists m', interleaved ex (p_wsession changes :: map p_session [asked]) m'
    [Ok [Ok (VBool true); Ok (VBool true); Ok (VBool true)]; Ok [Ok (VAdded (Some (MUST_LINK, 1%Q))); Ok (VInferred None); Ok (VAdded (Some (MUST_LINK, 1%Q)))]].
Proof.
  split; [apply managed_ids; vm_compute; auto|]. split; [apply managed_ids; vm_compute; auto|]. split; [|split; [repeat constructor|]].
  - constructor; [exact I|]. constructor; [split; discriminate|]. constructor; [|constructor]. split; intros [H1 H2]; discriminate.
  - eexists. apply (play_interleaved (repeat 0 30 ++ repeat 1 10 ++ repeat 0 92)). vm_compute. reflexivity.
Qed.

(** C165: when the changes do not add the constraint either, each answer about it is the one before the changes, whatever the changes in progress. *)
Theorem C165_untouched : forall m cs qss m' r rss a b o,
    managed m a -> managed m b -> Forall (leaves a b) cs -> Forall (adds_other a b) cs -> Forall (Forall asks) qss ->
    interleaved m (p_wsession cs :: map p_session qss) m' (r :: rss) -> ask (get_added_constraint a b) m = Ok o ->
    Forall2 (fun qs x => exists answers, x = Ok answers /\ length answers = length qs /\
      forall i q v, nth_error qs i = Some q -> asks_for a b q -> nth_error answers i = Some v -> v = Ok (VAdded o)) qss rss.
Proof. exact C165_untouched_proof. Qed.
Print Assumptions C165_untouched.

(** Nothing is ever added between [b] and [c]: so it is told at each moment, also while [d] is deleted. *)
Definition asked2 : list tcall := [TGetAdded C B; TGetAdded B C].
Example C165_untouched_ex : managed ex B /\ managed ex C /\ Forall (leaves B C) changes /\ Forall (adds_other B C) changes /\ ask (get_added_constraint B C) ex = Ok None /\
  exists m', interleaved ex (p_wsession changes :: map p_session [asked2]) m'
    [Ok [Ok (VBool true); Ok (VBool true); Ok (VBool true)]; Ok [Ok (VAdded None); Ok (VAdded None)]].
Proof.
  split; [apply managed_ids; vm_compute; auto|]. split; [apply managed_ids; vm_compute; auto|]. split; [|split; [|split; [vm_compute; reflexivity|]]].
  - constructor; [exact I|]. constructor; [split; discriminate|]. constructor; [|constructor]. split; intros [H1 H2]; discriminate.
  - constructor; [split; intros [H1 H2]; discriminate|]. repeat constructor.
  - eexists. apply (play_interleaved (repeat 0 30 ++ repeat 1 6 ++ repeat 0 92)). vm_compute. reflexivity.
Qed.

(** C165: the constraint that a thread was told may not be inferred yet when it asks for the inferred constraint. *)
Theorem C165_not_yet_inferred : exists m cs a b c m' r,
    reachable m /\ Forall only_adds cs /\
    interleaved m [p_wsession cs; p_session [TGetAdded a b; TGetInferred a b]] m' [r; Ok [Ok (VAdded (Some c)); Ok (VInferred None)]].
Proof. exact C165_not_yet_inferred_proof. Qed.
Print Assumptions C165_not_yet_inferred.
