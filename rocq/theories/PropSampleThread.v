(** Generated from SampleThreadThms.v by tools/gen_props.py: theorem statements,
    each closed by the lemma of the same name proved there. *)

From Coq Require Import String List Bool Arith ZArith QArith Permutation Lia.
From Verif Require Import Base Manager Spec ManagerThms ManagerInv ManagerQueries Sampling SamplingSpec Threads ThreadSpec ThreadsThms Readers ReadersSpec ReadersThms ListingSpec SampleThread SampleThreadSpec SampleThreadThms.
Import ListNotations.
Open Scope nat_scope.

(** C153: the sampling alone, action by action, leaves the manager as it is and ends with the result of the method. *)
Theorem C153_alone : forall vec D pairwise ltb draw o nb clustering vectors s m, reachable m ->
  alone (p_sample vec D pairwise ltb draw o nb clustering vectors) m = (m, result (sample vec D pairwise ltb draw o nb clustering vectors) (s, m)).
Proof. exact C153_alone_proof. Qed.
Print Assumptions C153_alone.

Definition A := str "a". Definition B := str "b". Definition C := str "c".
Definition ex : mgr := run [CallAddConstraint A B MUST_LINK 1%Q] (init [B; A; C]).
Lemma ex_reachable : reachable ex. Proof. apply run_reachable. Qed.
(** Numbers as vectors, and how far apart they are. *)
Definition apart (rows : list Z) (i j : nat) : Z := Z.abs (nth i rows 0 - nth j rows 0)%Z.
Definition places : dict pystr Z := [(A, 0%Z); (B, 1%Z); (C, 5%Z)].
Definition far : options := mkOptions None (Some FARTHEST) true true.
Definition any : options := mkOptions None None true true.
Definition first_ones (l : list (pystr * pystr)) (k : nat) := firstn k l.
Example C153_alone_ex : alone (p_sample Z Z apart Z.ltb first_ones far 5 None (Some places)) ex = (ex, Ok [(A, C); (B, C)]).
Proof. vm_compute. reflexivity. Qed.

(** C153: one thread adds constraints, any number of calls, and any number of other threads sample pairs, any number of times each, with the documented arguments. However their reads
    and writes are interleaved, the additions end as when they are made alone, and no sampling fails: each returns a sample of the pairs that were eligible after some number of the additions,
    as large as the pairs still eligible a number of additions later allow, and with nothing left out that was still eligible then and comes first in the order of the distances. *)
Theorem C153_samples_while_adding : forall vec D pairwise ltb draw m cs rqss m' r rs,
    valid_draw draw -> reachable m -> Forall only_adds_constraints cs ->
    Forall (Forall (fun q => valid_arguments (r_options q) m (r_nb q) (r_clustering q) (r_vectors q))) rqss ->
    interleaved m (p_left (p_wsession cs) :: map (fun rqs => p_right (p_samples vec D pairwise ltb draw rqs)) rqss) m' (r :: rs) ->
    m' = run (map as_wcall cs) m /\ r = Ok (inl (snd (one_by_one (map as_wcall cs) m))) /\
    Forall2 (fun rqs x => exists ls, x = Ok (inr (map Ok ls)) /\ sampled_at_times pairwise ltb (map as_wcall cs) m 0 rqs ls) rqss rs.
Proof. exact C153_samples_while_adding_proof. Qed.
Print Assumptions C153_samples_while_adding.

Definition news : list wcall := [WAdd C A CANNOT_LINK 1%Q].
Definition wanted : list (request Z) := [mkRequest any 2 None None; mkRequest far 1 None (Some places)].
(** The constraint between [c] and [a] is added while the first sampling goes on: it returns a pair that is decided meanwhile. *)
Definition turns : list nat := repeat 1 8 ++ repeat 0 (length (states (p_wsession news) ex)) ++ repeat 1 (length (states (p_samples Z Z apart Z.ltb first_ones wanted) (run (map as_wcall news) ex)) - 8).
Example C153_samples_ex : valid_draw first_ones /\ strict_weak_order Z.ltb /\ Forall only_adds_constraints news /\
  Forall (fun q => valid_arguments (r_options q) ex (r_nb q) (r_clustering q) (r_vectors q)) wanted /\
  (exists m', interleaved ex [p_left (p_wsession news); p_right (p_samples Z Z apart Z.ltb first_ones wanted)] m' [Ok (inl [Ok (VBool true)]); Ok (inr [Ok [(B, C)]; Ok []])]).
Proof.
  split. { intros l k L. split; [apply firstn_length_le; auto|]. exists (skipn k l). unfold first_ones. rewrite firstn_skipn. auto. }
  split. { split; [intro; apply Z.ltb_irrefl|]. split; intros x y z; rewrite !Z.ltb_lt; lia. }
  split; [repeat constructor|]. split.
  - assert (M : forall x, managed ex x -> In x (keys places)). { intros x Mx. apply managed_ids in Mx. change (In x [B; A; C]) in Mx. change (In x [A; B; C]). cbn [In] in *. tauto. }
    constructor; [|constructor; [|constructor]]; (split; [cbn; lia|]); (split; [cbn; congruence|]); cbn; [congruence|]. intros _. split; [exists places; auto|].
    exists A. apply managed_ids. change (In A [B; A; C]). cbn [In]. auto.
  - eexists. apply (play_interleaved turns). vm_compute. reflexivity.
Qed.
