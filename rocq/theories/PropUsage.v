(** Generated from UsageThms.v by tools/gen_props.py: theorem statements,
    each closed by the lemma of the same name proved there. *)

From Coq Require Import String List Bool Arith ZArith QArith Permutation Lia.
From Verif Require Import Base Manager Spec ManagerThms Sampling SamplingSpec MinMax ClusterSpec KMeans KMeansSpec Loop Usage UsageSpec Factories UsageThms.
From Verif Require Hierarchical Spectral Mpckmeans.
Import ListNotations.
Open Scope nat_scope.
Open Scope py_scope.

(** The examples use points on a line, no shuffling, insertion orders, and draw the first pairs. *)
Lemma first_draw : forall i : nat, valid_draw ((fun _ l k => firstn k l) i).
Proof. intros i l k L. split; [apply firstn_length_le; exact L|]. exists (skipn k l). rewrite firstn_skipn. apply Permutation_refl. Qed.
Lemma id_shuffle : forall i : nat, valid_shuffle ((fun _ l => l) i).
Proof. intros i l. apply Permutation_refl. Qed.
Lemma nodup_order : forall i : nat, valid_set_order ((fun _ => nodup Z.eq_dec) i).
Proof. intros i l. split; [apply NoDup_nodup|intro; apply nodup_In]. Qed.
Lemma insertion_order : forall i : nat, valid_orders ((fun _ _ g => g_nodes g) i).
Proof. intros i j g. apply Permutation_refl. Qed.


(** C95: what a session asks of its clustering holds of constrained KMeans. *)
Theorem C95_kmeans_sound :
  forall vec D (eqD : EqB D) pairwise ltb dzero dsum mean shuffles set_orders model it tol p (vectors : dict pystr vec),
    (forall i, valid_shuffle (shuffles i)) -> (forall i, valid_set_order (set_orders i)) -> make_kmeans D ltb dzero model it tol = Ok p ->
    sound_clustering vectors (clustering_step vec D pairwise ltb dsum mean shuffles set_orders p vectors).
Proof. exact C95_kmeans_sound_proof. Qed.
Print Assumptions C95_kmeans_sound.

(** C95: and of hierarchical clustering, for the four linkages. *)
Theorem C95_hierarchical_sound :
  forall vec D (eqD : EqB D) pairwise cdistance ltb dsum ddiv inf mean name linkage (vectors : dict pystr vec),
    Hierarchical.make_hierarchical name = Ok linkage ->
    sound_clustering vectors (hierarchical_step vec D pairwise cdistance ltb dsum ddiv inf mean linkage vectors).
Proof. exact C95_hierarchical_sound_proof. Qed.
Print Assumptions C95_hierarchical_sound.

(** C95: with any such clustering and any sampler that does not look at the clusters, the session decides all the pairs within n(n-1)/2 iterations, whatever the draws, and refuses no annotation.  It returns the ground truth, numbered canonically, when some IDs have different true clusters or everything was decided before; otherwise it ends with ValueError. *)
Theorem C95_session :
  forall vec D sampling_distances ltb draws node_orders truth o nb_to_select (vectors : dict pystr vec) clustering m l,
    sound_clustering vectors clustering ->
    (forall i, valid_draw (draws i)) -> (forall i, valid_orders (node_orders i)) ->
    o_clusters o = None -> o_without_inferred o = true -> (1 <= nb_to_select)%Z ->
    reachable m -> satisfies (added_must m) (added_cannot m) truth ->
    ask get_list_of_managed_data_IDs m = Ok l -> l <> [] -> covers (Some vectors) m ->
    let bound := length l * (length l - 1) / 2 in
    let (m', r) := session_with vec D sampling_distances ltb draws node_orders truth o nb_to_select vectors clustering (S bound) m in
    complete m' /\ ask get_list_of_managed_data_IDs m' = Ok l /\ satisfies (added_must m') (added_cannot m') truth /\
    (complete m \/ (exists a b, In a l /\ In b l /\ truth a <> truth b) ->
       exists rounds d, r = Ok (rounds, d, []) /\ rounds <= bound /\ canonical d /\ covers_exactly m d /\
         forall a b, In a l -> In b l -> (dget a d = dget b d <-> truth a = truth b)) /\
    (~ complete m -> (forall a b, In a l -> In b l -> truth a = truth b) -> r = Raise ValueError).
Proof. exact C95_session_proof. Qed.
Print Assumptions C95_session.

(** C54 (what fails): with a single component the range is (2, 1) and the suggested number is 1, which every algorithm with a number of clusters rejects with ValueError; two IDs and one MUST_LINK are enough. *)
Theorem C54_suggested_number_refuted :
  (exists m a b, reachable m /\ managed m a /\ managed m b /\ a <> b /\ nb_components m 1) /\
  forall m order, reachable m -> nb_components m 1 -> valid_orders order ->
    ask (suggested_number order) m = Ok 1%Z /\
    (forall vec D (eqD : EqB D) pairwise ltb dzero dsum mean shuffle set_order model it tol p vectors s,
       valid_set_order set_order -> valid_shuffle shuffle -> make_kmeans D ltb dzero model it tol = Ok p ->
       result (cluster vec D pairwise ltb dsum mean shuffle set_order p m vectors (Some 1%Z)) s = Raise ValueError) /\
    (forall vec D (eqD : EqB D) pairwise cdistance ltb dsum ddiv inf mean linkage vectors s,
       result (Hierarchical.cluster vec D pairwise cdistance ltb dsum ddiv inf mean linkage m vectors (Some 1%Z)) s = Raise ValueError) /\
    (forall vec D kernel (zero one : D) solver vectors s,
       result (Spectral.cluster vec D kernel zero one solver m vectors (Some 1%Z)) s = Raise ValueError) /\
    (forall vec D o flatten limit order first sample shuffle p vectors s,
       result (Mpckmeans.cluster vec D o flatten limit order first sample shuffle p m vectors (Some 1%Z)) s = Raise ValueError).
Proof. exact C54_suggested_number_refuted_proof. Qed.
Print Assumptions C54_suggested_number_refuted.

(** C54 (what holds): with at least two components the suggested number lies in the range, is a feasible number of clusters and is accepted: KMeans and hierarchical clustering return a clustering of exactly the managed IDs. *)
Theorem C54_suggested_number_partial :
  forall m order n, reachable m -> nb_components m n -> 2 <= n -> valid_orders order ->
    exists lo k, ask (get_min_and_max_number_of_clusters order) m = Ok (lo, n) /\
      suggested_number order m = (m, Ok (Z.of_nat k)) /\ 2 <= k /\ lo <= k <= n /\ feasible m k /\
    (forall vec D (eqD : EqB D) pairwise ltb dzero dsum mean shuffle set_order model it tol p vectors s,
       valid_set_order set_order -> valid_shuffle shuffle -> make_kmeans D ltb dzero model it tol = Ok p -> covers (Some vectors) m ->
       exists d, result (cluster vec D pairwise ltb dsum mean shuffle set_order p m vectors (Some (Z.of_nat k))) s = Ok d /\ covers_exactly m d) /\
    (forall vec D (eqD : EqB D) pairwise cdistance ltb dsum ddiv inf mean name linkage vectors s,
       Hierarchical.make_hierarchical name = Ok linkage -> covers (Some vectors) m ->
       exists d, result (Hierarchical.cluster vec D pairwise cdistance ltb dsum ddiv inf mean linkage m vectors (Some (Z.of_nat k))) s = Ok d /\
         covers_exactly m d).
Proof. exact C54_suggested_number_partial_proof. Qed.
Print Assumptions C54_suggested_number_partial.

Definition ex54 : mgr := run [CallAddConstraint (str "a") (str "b") CANNOT_LINK 1%Q] (init [str "a"; str "b"; str "c"; str "d"]).
Example C54_ex : nb_components ex54 4 /\ ask (suggested_number (fun _ g => g_nodes g)) ex54 = Ok 3%Z.
Proof. split; [eexists; split; [vm_compute; reflexivity|reflexivity]|vm_compute; reflexivity]. Qed.

(** C81: from any manager whose constraints agree with the ground truth, and with any sampler that does not look at the clusters, the session of the usage guide decides all the pairs within n(n-1)/2 iterations.  When some IDs have different true clusters (or everything was decided before), it returns: no annotation was refused and the last clustering is exactly the ground truth, numbered canonically. *)
Theorem C81_session_partial :
  forall vec D (eqD : EqB D) sampling_distances pairwise ltb dzero dsum mean draws shuffles set_orders node_orders truth o
         model it tol p nb_to_select vectors m l,
    (forall i, valid_draw (draws i)) -> (forall i, valid_shuffle (shuffles i)) ->
    (forall i, valid_set_order (set_orders i)) -> (forall i, valid_orders (node_orders i)) ->
    o_clusters o = None -> o_without_inferred o = true -> (1 <= nb_to_select)%Z -> make_kmeans D ltb dzero model it tol = Ok p ->
    reachable m -> satisfies (added_must m) (added_cannot m) truth ->
    ask get_list_of_managed_data_IDs m = Ok l -> l <> [] -> covers (Some vectors) m ->
    let bound := length l * (length l - 1) / 2 in
    let (m', r) := session vec D sampling_distances pairwise ltb dsum mean draws shuffles set_orders node_orders truth o p
                     nb_to_select vectors (S bound) m in
    complete m' /\ ask get_list_of_managed_data_IDs m' = Ok l /\ satisfies (added_must m') (added_cannot m') truth /\
    (complete m \/ (exists a b, In a l /\ In b l /\ truth a <> truth b) ->
       exists rounds d, r = Ok (rounds, d, []) /\ rounds <= bound /\ canonical d /\ covers_exactly m d /\
         forall a b, In a l -> In b l -> (dget a d = dget b d <-> truth a = truth b)).
Proof. exact C81_session_partial_proof. Qed.
Print Assumptions C81_session_partial.

Definition a := str "a". Definition b := str "b". Definition c := str "c". Definition d := str "d".
Definition pw (X Y : list Z) (i j : nat) : Z := Z.abs (nth i X 0 - nth j Y 0)%Z.
Definition zmean (l : list Z) : Z := (fold_right Z.add 0 l / Z.of_nat (length l))%Z.
Definition zsum (l : list Z) : Z := fold_right Z.add 0%Z l.
Definition session_Z := session Z Z (fun X => pw X X) pw Z.ltb zsum zmean (fun _ l k => firstn k l) (fun _ l => l) (fun _ => nodup Z.eq_dec) (fun _ _ g => g_nodes g).
Definition pars := mkKParams Z 5 1%Z.
Definition truth x := if eqb x a then 1 else if eqb x c then 1 else 2.
Definition vecs : dict pystr Z := [(a, 0); (b, 1); (c, 10); (d, 12)]%Z.
(** The vectors suggest {a, b}, {c, d}; the annotations lead to {a, c}, {b, d}. *)
Example C81_ex : make_kmeans Z Z.ltb 0%Z (str "COP") 5 1%Z = Ok pars /\
  result (session_Z truth (mkOptions None None true true) pars 2%Z vecs 7) (init [a; b; c; d]) = Ok (2, [(a, 0); (b, 1); (c, 0); (d, 1)]%Z, []).
Proof. split; vm_compute; reflexivity. Qed.

(** C81 (what fails): when all the IDs belong to one true cluster, the session of the usage guide always ends with ValueError, after the annotation that completes the constraints. *)
Theorem C81_session_refuted :
  forall vec D (eqD : EqB D) sampling_distances pairwise ltb dzero dsum mean draws shuffles set_orders node_orders truth o
         model it tol p nb_to_select vectors m l,
    (forall i, valid_draw (draws i)) -> (forall i, valid_shuffle (shuffles i)) ->
    (forall i, valid_set_order (set_orders i)) -> (forall i, valid_orders (node_orders i)) ->
    o_clusters o = None -> o_without_inferred o = true -> (1 <= nb_to_select)%Z -> make_kmeans D ltb dzero model it tol = Ok p ->
    reachable m -> satisfies (added_must m) (added_cannot m) truth ->
    ask get_list_of_managed_data_IDs m = Ok l -> covers (Some vectors) m ->
    (forall a b, In a l -> In b l -> truth a = truth b) -> ~ complete m ->
    result (session vec D sampling_distances pairwise ltb dsum mean draws shuffles set_orders node_orders truth o p
              nb_to_select vectors (S (length l * (length l - 1) / 2))) m = Raise ValueError.
Proof. exact C81_session_refuted_proof. Qed.
Print Assumptions C81_session_refuted.

(** One topic, three texts: the session fails with ValueError. *)
Example C81_refuted_ex : result (session_Z (fun _ => 5) (mkOptions None None true true) pars 1%Z vecs 4) (init [a; b; c]) = Raise ValueError.
Proof. vm_compute; reflexivity. Qed.
(** The same four texts as for C81, with hierarchical clustering. *)
Definition hstep (link : pystr) := hierarchical_step Z Z (fun X => pw X X) (fun x y => Z.abs (x - y)) Z.ltb zsum (fun s k => s / Z.of_nat k)%Z 1000%Z zmean link vecs.
Example C95_ex : sound_clustering vecs (hstep (str "complete")) /\
  result (session_with Z Z (fun X => pw X X) Z.ltb (fun _ l k => firstn k l) (fun _ _ g => g_nodes g) truth (mkOptions None None true true) 2%Z vecs
    (hstep (str "complete")) 7) (init [a; b; c; d]) = Ok (2, [(a, 0); (b, 1); (c, 0); (d, 1)]%Z, []).
Proof. split; [eapply (C95_hierarchical_sound_proof _ _ _ _ _ _ _ _ _ _ (str "complete")); reflexivity|vm_compute; reflexivity]. Qed.

(** C82 (what fails): with each of the three samplers of the factory that look at the clusters there is a session of two texts that never ends although their pair is undecided: far-apart texts are always in different clusters, equal ones always in the same. *)
Theorem C82_every_sampler_refuted :
  forall name, In name [str "random_in_same_cluster"; str "farthest_in_same_cluster"; str "closest_in_different_clusters"] ->
    exists o p vectors, sampling_factory name no_sampling_kargs = Ok o /\ make_kmeans Z Z.ltb 0%Z (str "COP") 150 1%Z = Ok p /\
      covers (Some vectors) two /\ ~ complete two /\
      forall truth fuel, result (line_session truth o p 3%Z vectors fuel) two = Raise OutOfFuel.
Proof. exact C82_every_sampler_refuted_proof. Qed.
Print Assumptions C82_every_sampler_refuted.

(** C82 (what holds for every sampler that skips inferred constraints): no annotation is refused and what is decided stays decided; a session that returns has the ground truth as its last clustering; it fails only with ValueError on a single component; it goes on for more than n(n-1)/2 iterations only when in some iteration a pair is undecided and no undecided pair meets the restriction of the sampler. *)
Theorem C82_every_sampler_partial :
  forall vec D (eqD : EqB D) sampling_distances pairwise ltb dzero dsum mean draws shuffles set_orders node_orders truth o
         model it tol p nb_to_select vectors m l fuel,
    (forall i, valid_draw (draws i)) -> (forall i, valid_shuffle (shuffles i)) ->
    (forall i, valid_set_order (set_orders i)) -> (forall i, valid_orders (node_orders i)) ->
    o_without_inferred o = true -> (1 <= nb_to_select)%Z -> make_kmeans D ltb dzero model it tol = Ok p ->
    reachable m -> satisfies (added_must m) (added_cannot m) truth ->
    ask get_list_of_managed_data_IDs m = Ok l -> l <> [] -> covers (Some vectors) m ->
    let (m', r) := session vec D sampling_distances pairwise ltb dsum mean draws shuffles set_orders node_orders truth o p
                     nb_to_select vectors fuel m in
    ask get_list_of_managed_data_IDs m' = Ok l /\ satisfies (added_must m') (added_cannot m') truth /\
    (forall a b t, In a l -> In b l -> inferred m a b (Some t) -> inferred m' a b (Some t)) /\
    match r with
    | Ok (rounds, d, refused) =>
        refused = [] /\ complete m' /\ canonical d /\ covers_exactly m d /\
        forall a b, In a l -> In b l -> (dget a d = dget b d <-> truth a = truth b)
    | Raise e =>
        (e = ValueError /\ nb_components m' 1 /\ complete m') \/
        (e = OutOfFuel /\
          (fuel <= length l * (length l - 1) / 2 \/
           exists m1 d1, reachable m1 /\ ask get_list_of_managed_data_IDs m1 = Ok l /\ satisfies (added_must m1) (added_cannot m1) truth /\
             ~ complete m1 /\ canonical d1 /\ covers_exactly m1 d1 /\ respects m1 d1 /\ o_clusters o <> None /\
             forall q, ~ eligible o m1 (Some d1) q))
    end.
Proof. exact C82_every_sampler_partial_proof. Qed.
Print Assumptions C82_every_sampler_partial.

(** A restricted sampler that does end. *)
Example C82_ex : result (session_Z truth (mkOptions (Some SAME_CLUSTER) None true true) pars 2%Z [(a, 0); (c, 10); (b, 1); (d, 12)]%Z 7) (init [a; b; c; d]) =
  Ok (3, [(a, 0); (b, 1); (c, 0); (d, 1)]%Z, []).
Proof. vm_compute; reflexivity. Qed.
