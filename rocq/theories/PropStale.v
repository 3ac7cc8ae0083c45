(** Generated from StaleThms.v by tools/gen_props.py: theorem statements,
    each closed by the lemma of the same name proved there. *)

From Coq Require Import String List Bool Arith ZArith Permutation Lia.
From Verif Require Import Base Manager Spec ManagerThms Sampling SamplingSpec StaleSpec StaleThms.
Import ListNotations.
Open Scope nat_scope.

(** C119: when a sampling raises.  KeyError: exactly when the clustering is needed and lacks a managed ID that has another one to be paired with, or the vectors are needed and lack a managed ID.  ValueError: exactly when the number is negative, a needed dictionary is not given, or distances are needed and nothing is managed.  No other exception. *)
Theorem C119_sampling_raises :
  forall vec D pairwise ltb draw o nb clustering vectors s m, reachable m -> accepted o ->
    let r := result (sample vec D pairwise ltb draw o nb clustering vectors) (s, m) in
    (r = Raise KeyError <-> (0 < nb)%Z /\ given o clustering vectors /\ (cluster_missing o m clustering \/ vector_missing o m vectors)) /\
    (r = Raise ValueError <-> (nb < 0)%Z \/ ((0 < nb)%Z /\ (~ given o clustering vectors \/ (o_distance o <> None /\ ~ has_ids m)))) /\
    (forall e, r = Raise e -> e = KeyError \/ e = ValueError).
Proof. exact C119_sampling_raises_proof. Qed.
Print Assumptions C119_sampling_raises.

(** C119: what the dictionaries say about data that are not managed (deleted since, or never added) is ignored, and so is a dictionary that no restriction needs. *)
Theorem C119_stale_ignored :
  forall vec D pairwise ltb draw o nb clustering clustering' vectors vectors' s s' m, reachable m ->
    (o_clusters o <> None -> agree m clustering clustering') -> (o_distance o <> None -> agree m vectors vectors') ->
    result (sample vec D pairwise ltb draw o nb clustering vectors) (s, m) =
    result (sample vec D pairwise ltb draw o nb clustering' vectors') (s', m).
Proof. exact C119_stale_ignored_proof. Qed.
Print Assumptions C119_stale_ignored.

(** The session continues after a clustering: "c" is new, "z" was deleted. *)
Definition a := str "a". Definition b := str "b". Definition c := str "c". Definition z := str "z".
Definition now : mgr := run [CallAddDataID c; CallDeleteDataID z] (init [a; b; z]).
Definition alone : mgr := run [CallDeleteDataID a; CallDeleteDataID z] (init [a; b; z]).
Definition before_c : dict pystr Z := [(a, 0); (b, 1); (z, 1)]%Z.
Definition other : options := mkOptions (Some DIFFERENT_CLUSTERS) None false false.
Definition near : options := mkOptions None (Some CLOSEST) false false.
Definition ask_pairs (m : mgr) (o : options) := result (sample nat nat (fun rows i j => i + j) Nat.ltb (fun l k => firstn k l) o 9 (Some before_c) (Some [(a, 1); (b, 2)])) (fresh_sampler nat nat, m).
Example C119_ex :
  reachable now /\ accepted other /\ accepted near /\ given other (Some before_c) (Some [(a, 1)]) /\ cluster_missing other now (Some before_c) /\
  ask_pairs now other = Raise KeyError /\ ask_pairs now near = Raise KeyError /\
  agree (init [a; b]) (Some before_c) (Some [(b, 1); (a, 0)]%Z) /\ ask_pairs (init [a; b]) other = Ok [(a, b)] /\
  ask_pairs (init []) near = Raise ValueError /\ ask_pairs (init [c]) other = Ok [].
Proof.
  split; [apply run_reachable; constructor|]. split; [reflexivity|]. split; [reflexivity|]. split; [split; intros; discriminate|]. split.
  - split; [discriminate|]. exists before_c, c, a. split; [reflexivity|].
    split; [exists [a; b; c]; split; [reflexivity|simpl; tauto]|]. split; [exists [a; b; c]; split; [reflexivity|simpl; tauto]|].
    split; [discriminate|]. simpl. intros [X|[X|[X|[]]]]; discriminate.
  - split; [reflexivity|]. split; [reflexivity|]. split; [|repeat split; vm_compute; reflexivity].
    intros x (l & El & X). vm_compute in El. injection El as <-. simpl in X. destruct X as [<-|[<-|[]]]; reflexivity.
Qed.
