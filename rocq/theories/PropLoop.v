(** Generated from LoopThms.v by tools/gen_props.py: theorem statements,
    each closed by the lemma of the same name proved there. *)

From Coq Require Import String List Bool Arith ZArith QArith Permutation.
From Verif Require Import Base Manager Spec ManagerThms Sampling SamplingSpec Loop LoopThms.
Import ListNotations.
Open Scope nat_scope.


(** C31: annotating sampled pairs by a fixed ground truth ends within n(n-1)/2 iterations, no annotation is ever refused, the constraints are then complete and the connected components are exactly the ground-truth clusters.  It may start from any manager whose constraints agree with the ground truth. *)
Theorem C31_annotation_loop :
  forall vec D pairwise ltb draws truth o nb vectors s m l,
    (forall i, valid_draw (draws i)) -> o_clusters o = None -> o_without_inferred o = true -> (1 <= nb)%Z ->
    reachable m -> satisfies (added_must m) (added_cannot m) truth -> valid_arguments (vec := vec) o m nb None vectors ->
    ask get_list_of_managed_data_IDs m = Ok l ->
    exists s' m' rounds,
      annotation_loop vec D pairwise ltb draws truth o nb vectors (S (length l * (length l - 1) / 2)) 0 (s, m)
        = ((s', m'), Ok (rounds, [])) /\
      rounds <= length l * (length l - 1) / 2 /\
      complete m' /\
      ask get_list_of_managed_data_IDs m' = Ok l /\
      exists components, ask get_connected_components m' = Ok components /\
        forall a b, In a l -> In b l -> ((exists c, In c components /\ In a c /\ In b c) <-> truth a = truth b).
Proof. exact C31_annotation_loop_proof. Qed.
Print Assumptions C31_annotation_loop.

Definition C31_draw (i : nat) (l : list (pystr * pystr)) (k : nat) := firstn k (if Nat.even i then l else rev l).
Example C31_ex : let ids := [str "a"; str "b"; str "c"; str "d"] in
  let truth x := if eqb x (str "a") then 1 else if eqb x (str "c") then 1 else 2 in
  let r := annotation_loop unit unit (fun _ _ _ => tt) (fun _ _ => false) C31_draw truth (mkOptions None None true true) 2 None
             7 0 (fresh_sampler unit unit, init ids) in
  snd r = Ok (2, []) /\ ask get_connected_components (snd (fst r)) = Ok [[str "a"; str "c"]; [str "b"; str "d"]].
Proof. vm_compute. split; reflexivity. Qed.
Example C31_ex_draws : forall i, valid_draw (C31_draw i).
Proof.
  intros i l k H. unfold C31_draw. set (l' := if Nat.even i then l else rev l).
  assert (P : Permutation l l') by (unfold l'; destruct (Nat.even i); [apply Permutation_refl|apply Permutation_rev]).
  split.
  - apply firstn_length_le. rewrite <- (Permutation_length P). exact H.
  - exists (skipn k l'). rewrite firstn_skipn. exact P.
Qed.
