(** Generated from WeightThms.v by tools/gen_props.py: theorem statements,
    each closed by the lemma of the same name proved there. *)

From Coq Require Import String List Bool Arith ZArith QArith Permutation Lia.
From Verif Require Import Base Manager Spec ManagerThms SamplingSpec ClusterSpec Mpckmeans MpckSpec MpckThms WeightSpec WeightThms.
Import ListNotations.
Open Scope nat_scope.
Open Scope py_scope.


(** C115: no weight is large enough.  Here two data that must not be linked stay together for every weight and every number of iterations: they are the farthest pair, for which the penalty of CANNOT_LINK is 0. *)
Theorem C115_any_weight_refuted :
  exists m (vectors : dict pystr (list Q)) o first sample a b,
    reachable m /\ NoDup (keys vectors) /\ (forall x, In x (keys vectors) <-> managed m x) /\
    exact_numbers o /\ exact_argmin o /\ valid_first first /\ valid_sample sample /\
    inferred m a b (Some CANNOT_LINK) /\
    forall it w p, make_mpckmeans Q o (str "MPC") it w = Ok p ->
      exists s' d, cluster (list Q) Q o (fun x => x) 1000 (fun l => l) first sample (fun _ l => l) p m vectors (Some 2%Z) (fresh_mpckmeans Q) = (s', Ok d) /\
        nb_clusters_of d = 2 /\ exists c, dget a d = Some c /\ dget b d = Some c.
Proof. exact C115_any_weight_refuted_proof. Qed.
Print Assumptions C115_any_weight_refuted.

Example C115_any_weight_ex : result (cluster (list Q) Q Wops (fun x => x) 1000 (fun l => l) wfirst (fun _ k => seq 0 k) (fun _ l => l) (mkMPParams Q 10 (1000000 # 1)) wm0 wvecs (Some 2%Z)) (fresh_mpckmeans Q) =
  Ok [(wa, 0); (wb, 0); (wc, 1); (wm, 0)]%Z.
Proof. vm_compute. reflexivity. Qed.

(** C115, the part that holds: any number of points, metric, centres and order of the points.  If a CANNOT_LINK between points that are not at the largest distance is broken by an assignment of the points, or a MUST_LINK between points that are not at distance 0, then either the weight is below the bound (the gain in distance to the centres over twice the room to the largest distance), or, when the second of the two points was assigned, each cluster would have broken some constraint. *)
Theorem C115_weight_partial :
  forall o order shuffle m l mg cg X w A far C t labels,
    exact_numbers o -> exact_argmin o -> valid_order order -> valid_shuffle shuffle -> (0 <= w)%Q -> Forall (Qle 0) A ->
    exact_graph m MUST_LINK l mg -> exact_graph m CANNOT_LINK l cg -> length X = length l ->
    (forall p q, p < length X -> q < length X -> (square_distance (nth p X []) (nth q X []) A <= far)%Q) ->
    assign_points Q o order shuffle X w mg cg t A far C = Ok labels ->
    forall i j ci cj, i <> j -> nth_error labels i = Some (Some ci) -> nth_error labels j = Some (Some cj) ->
      let d := square_distance (nth i X []) (nth j X []) A in
      let reach := fun p c => square_distance (nth p X []) (nth c C []) A in
      forall cost,
        (constrained m l CANNOT_LINK i j /\ constrained m l CANNOT_LINK j i /\ ci = cj /\ (cost == 2 * w * (far - d))%Q \/
         constrained m l MUST_LINK i j /\ constrained m l MUST_LINK j i /\ ci <> cj /\ (cost == 2 * w * d)%Q) ->
        (forall p c c', (p = i \/ p = j) -> c < length C -> c' < length C -> (reach p c' - reach p c < cost)%Q) ->
        exists p before, (p = i \/ p = j) /\
          (forall q, before q = None \/ nth_error labels q = Some (before q)) /\ before p = None /\
          forall c, c < length C -> ~ free_of_conflicts (constrained m l MUST_LINK) (constrained m l CANNOT_LINK) before p c.
Proof. exact C115_weight_partial_proof. Qed.
Print Assumptions C115_weight_partial.

(** Three data on a line, at 0, 10 and 4, none of which may be linked, and two clusters with
    centres 0 and 10: the third datum joins the second one whatever the weight costs. *)
Definition line3 : mgr := run [CallAddConstraint wa wb CANNOT_LINK 1%Q; CallAddConstraint wb wc CANNOT_LINK 1%Q; CallAddConstraint wa wc CANNOT_LINK 1%Q] (init [wa; wb; wc]).
Definition X3 : list (list Q) := [[0 # 1]; [10 # 1]; [4 # 1]].
Example C115_weight_ex : exists mg cg cs,
  constraint_graphs 1000 (fun l => l) line3 [wa; wb; wc] = Ok (mg, cg, cs) /\
  assign_points Q Wops (fun l => l) (fun _ l => l) X3 (1000 # 1) mg cg 0 [1 # 1] (100 # 1) [[0 # 1]; [10 # 1]] = Ok [Some 0; Some 1; Some 1] /\
  constrained line3 [wa; wb; wc] CANNOT_LINK 1 2 /\
  (forall p q, p < 3 -> q < 3 -> Qle (square_distance (nth p X3 []) (nth q X3 []) [1 # 1]) (100 # 1)) /\
  Qeq (square_distance (nth 1 X3 []) (nth 2 X3 []) [1 # 1]) (36 # 1).
Proof.
  eexists _, _, _. split; [vm_compute; reflexivity|]. split; [vm_compute; reflexivity|]. split; [exists wb, wc; repeat split; vm_compute; reflexivity|]. split; [|vm_compute; reflexivity].
  intros [|[|[|p]]] [|[|[|q]]] Lp Lq; try lia; vm_compute; discriminate.
Qed.
