(** * The suggested minimum on sparse constraints (C90). *)

From Coq Require Import String List Bool Arith ZArith QArith Permutation Lia.
From Verif Require Import Base Manager Spec Closure ManagerProofs ManagerInv ManagerQueries ManagerSem ManagerThms
  Sampling SamplingProofs MinMax MinMaxThms ColoringSpec.
Import ListNotations.
Open Scope nat_scope.

Notation ids m := (keys (cdict m)).

(*HEADER
From Coq Require Import String List Bool Arith ZArith QArith Permutation Lia.
From Verif Require Import Base Manager Spec Sampling MinMax ManagerThms MinMaxThms ColoringSpec ColoringThms.
Import ListNotations.
Open Scope nat_scope.
HEADER*)

(** ** Greedy colouring: a colour is at most the number of earlier neighbours. *)
Lemma greedy_earlier_aux g l : forall D, NoDup (keys D ++ l) ->
  (forall u a, dget u D = Some a -> exists p q, keys D = p ++ u :: q /\ a <= length (filter (adjacent g u) p)) ->
  forall u a, dget u (fold_left (greedy_step g) l D) = Some a ->
    exists p q, keys D ++ l = p ++ u :: q /\ a <= length (filter (adjacent g u) p).
Proof.
  induction l as [|x l IH]; intros D N B u a E; cbn [fold_left] in E; [rewrite app_nil_r; auto|].
  assert (Nx : ~ In x (keys D)) by (apply NoDup_remove_2 in N; rewrite in_app_iff in N; tauto).
  assert (K : keys (greedy_step g D x) = keys D ++ [x]) by (apply keys_dset_out; auto).
  replace (keys D ++ x :: l) with (keys (greedy_step g D x) ++ l) by (rewrite K, <- app_assoc; auto).
  apply IH; auto.
  - rewrite K, <- app_assoc. auto.
  - clear u a E. intros u a E. rewrite K. unfold greedy_step in E. rewrite dget_dset in E. destruct (eqb_spec u x) as [->|].
    + inversion E as [E']. exists (keys D), []. split; auto. etransitivity; [apply first_free_le|]. rewrite map_length.
      unfold keys. clear. induction D as [|[k v] D IHD]; simpl; auto. destruct (adjacent g x k); simpl; lia.
    + destruct (B u a E) as (p & q & Q & L). exists p, (q ++ [x]). rewrite Q, <- app_assoc. auto.
Qed.
Lemma greedy_earlier g l u a : NoDup l -> dget u (greedy_color g l) = Some a ->
  exists p q, l = p ++ u :: q /\ a <= length (filter (adjacent g u) p).
Proof. intros N E. apply (greedy_earlier_aux g l []); auto. intros v b Q. discriminate. Qed.

(** ** Every strategy bounds the minimum. *)
Lemma minmax_strategies order m : valid_orders order -> Inv m -> ids m <> [] ->
  exists lo, get_min_and_max_number_of_clusters order m = (m, Ok (lo, length (comps m))) /\
    forall j, j < 5 -> exists c u, dget u (coloring order j m) = Some c /\ lo <= Nat.max 2 (1 + c).
Proof.
  intros V I N. rewrite run_minmax by auto. unfold tail_of, bind, lift, ret.
  destruct (colors_used_ok order V 0 m N I) as (c0 & -> & _ & u0 & U0). destruct (colors_used_ok order V 1 m N I) as (c1 & -> & _ & u1 & U1).
  destruct (colors_used_ok order V 2 m N I) as (c2 & -> & _ & u2 & U2). destruct (colors_used_ok order V 3 m N I) as (c3 & -> & _ & u3 & U3).
  destruct (colors_used_ok order V 4 m N I) as (c4 & -> & _ & u4 & U4).
  eexists. split; [reflexivity|]. intros j J.
  destruct j as [|[|[|[|[|j]]]]]; [exists c0, u0|exists c1, u1|exists c2, u2|exists c3, u3|exists c4, u4|lia]; (split; [auto|lia]).
Qed.

(** ** The graph and the components *)
Section Graph.
  Variable m : mgr.
  Hypothesis I : Inv m.
  Notation g := (the_graph m).

  Definition node_comp (u : node) : list pystr :=
    match u with NId x => [] | NIdx i => comp_of m (nth i (kept m) []) end.

  Lemma kept_heads x : In x (kept m) -> In x (heads m).
  Proof. unfold kept. intro H. apply filter_In in H. tauto. Qed.
  Lemma kept_ids x : In x (kept m) -> In x (ids m).
  Proof. intro H. apply heads_ids; auto. apply kept_heads; auto. Qed.
  Lemma kept_NoDup : NoDup (kept m).
  Proof. apply NoDup_filter, heads_NoDup; auto. Qed.

  Lemma adjacent_spec u v : adjacent g u v = true -> exists i j, u = NIdx i /\ v = NIdx j /\ i < length (kept m) /\ j < length (kept m) /\
    cl_between m (node_comp u) (node_comp v).
  Proof.
    assert (Q : forall i j, In (i, j) (edges m) -> i < length (kept m) /\ j < length (kept m) /\
      separated (sml m) (scl m) (nth i (kept m) []) (nth j (kept m) [])).
    { intros i j H. assert (B := edges_In m i j H). split; [lia|]. split; [lia|].
      unfold edges in H. apply in_map_iff in H. destruct H as (((a, x), (b, y)) & E & H). simpl in E. inversion E; subst.
      apply filter_In in H. destruct H as [H1 H2]. simpl in H2. apply andb_true_iff in H2. destruct H2 as [_ H2].
      apply in_prod_iff in H1. destruct H1 as [H1 H3]. apply enumerate_In in H1. apply enumerate_In in H3.
      rewrite (nth_error_nth _ _ _ H1), (nth_error_nth _ _ _ H3). apply mem_In in H2. apply cl_of_In in H2; auto.
      apply kept_ids. eapply nth_error_In; eauto. }
    assert (CB : forall i j, i < length (kept m) -> j < length (kept m) -> separated (sml m) (scl m) (nth i (kept m) []) (nth j (kept m) []) ->
      cl_between m (node_comp (NIdx i)) (node_comp (NIdx j))).
    { intros i j Li Lj S. assert (Ki := kept_ids _ (nth_In (kept m) [] Li)). assert (Kj := kept_ids _ (nth_In (kept m) [] Lj)).
      exists (nth i (kept m) []), (nth j (kept m) []). split; [apply self_comp; auto|]. split; [apply self_comp; auto|].
      apply inferred_spec; auto. apply infer_CL; auto. }
    intro A. unfold adjacent in A. apply existsb_exists in A. destruct A as (e & He & A).
    unfold the_graph, make_graph in He; simpl in He. apply in_map_iff in He. destruct He as ((i, j) & <- & He).
    destruct (Q i j He) as (Li & Lj & S). simpl in A. apply orb_true_iff in A. rewrite !andb_true_iff, !eqb_eq in A.
    destruct A as [[<- <-]|[<- <-]].
    - exists i, j. repeat (split; auto).
    - exists j, i. split; auto. split; auto. split; auto. split; auto. apply CB; auto. apply separated_sym; auto.
  Qed.

  Lemma node_comp_In i : i < length (kept m) -> In (node_comp (NIdx i)) (comps m).
  Proof. intro L. apply comps_In. exists (nth i (kept m) []). split; auto. apply kept_ids, nth_In; auto. Qed.
  Lemma node_comp_inj i j : i < length (kept m) -> j < length (kept m) -> node_comp (NIdx i) = node_comp (NIdx j) -> i = j.
  Proof.
    intros Li Lj E. simpl in E. apply (proj1 (NoDup_nth (kept m) []) kept_NoDup); auto.
    assert (Hi := kept_heads _ (nth_In (kept m) [] Li)). assert (Hj := kept_heads _ (nth_In (kept m) [] Lj)).
    rewrite <- (heads_rep m _ I Hi), <- (heads_rep m _ I Hj). unfold rep_of. rewrite E. auto.
  Qed.

  (** Nodes of the graph with an index. *)
  Definition indexed (u : node) : bool := match u with NIdx i => i <? length (kept m) | NId _ => false end.
  Definition comps_of (S : list node) : list (list pystr) := map node_comp (filter indexed S).

  Lemma comps_of_incl S : incl (comps_of S) (comps m).
  Proof.
    intros c C. apply in_map_iff in C as (u & <- & U). apply filter_In in U as [_ U]. destruct u as [x|i]; [discriminate|].
    apply node_comp_In. apply Nat.ltb_lt; auto.
  Qed.
  Lemma degree_at_most S u k : NoDup S -> at_most m k (node_comp u) (comps_of S) -> degree_in g S u <= k.
  Proof.
    intros N A. unfold degree_in. rewrite <- (map_length node_comp). apply A.
    - apply NoDup_map_on; [apply NoDup_filter; auto|]. intros v w V W E. apply filter_In in V as [_ V]. apply filter_In in W as [_ W].
      destruct (adjacent_spec _ _ V) as (i & j & _ & -> & _ & Lj & _). destruct (adjacent_spec _ _ W) as (i' & j' & _ & -> & _ & Lj' & _).
      f_equal. apply node_comp_inj; auto.
    - intros c C. apply in_map_iff in C as (v & <- & V). apply filter_In in V as [V E]. apply in_map, filter_In. split; auto.
      destruct (adjacent_spec _ _ E) as (i & j & _ & -> & _ & Lj & _). apply Nat.ltb_lt; auto.
    - intros c C. apply in_map_iff in C as (v & <- & V). apply filter_In in V as [_ E].
      destruct (adjacent_spec _ _ E) as (i & j & -> & -> & _ & _ & CB). auto.
  Qed.
  Lemma degree_isolated S u : indexed u = false -> degree_in g S u = 0.
  Proof.
    intro E. unfold degree_in. destruct (filter (adjacent g u) S) as [|v l] eqn:F; auto.
    assert (V : In v (filter (adjacent g u) S)) by (rewrite F; left; auto). apply filter_In in V as [_ V].
    destruct (adjacent_spec _ _ V) as (i & j & -> & _ & Li & _). apply Nat.ltb_lt in Li. simpl in E. congruence.
  Qed.
  Lemma degree_app S S' u : degree_in g (S ++ S') u = degree_in g S u + degree_in g S' u.
  Proof. unfold degree_in. rewrite filter_app, app_length. auto. Qed.

  Lemma degenerate_last p u k : degenerate m k -> NoDup (p ++ [u]) ->
    (forall v, In v p -> degree_in g (p ++ [u]) u <= degree_in g (p ++ [u]) v) -> degree_in g (p ++ [u]) u <= k.
  Proof.
    intros Dg N Min. destruct (indexed u) eqn:E; [|rewrite degree_isolated by auto; lia].
    destruct (Dg (comps m) (comps_of (p ++ [u]))) as (c & C & A).
    - unfold ask. rewrite run_components; auto.
    - apply comps_of_incl.
    - unfold comps_of. rewrite filter_app, map_app. simpl. rewrite E. intro Z. apply app_eq_nil in Z as [_ Z]. discriminate.
    - apply in_map_iff in C as (v & <- & V). apply filter_In in V as [V _]. apply degree_at_most in A; auto.
      apply in_app_or in V as [V|[->|[]]]; auto. specialize (Min v V). lia.
  Qed.
End Graph.

(** ** Orders of networkx exist *)
Definition first_min (g : graph) (S : list node) (x : node) (l : list node) : node :=
  fold_left (fun u v => if degree_in g S v <? degree_in g S u then v else u) l x.
Fixpoint remove1 (u : node) (l : list node) : list node :=
  match l with [] => [] | v :: l' => if eqb u v then l' else v :: remove1 u l' end.
Fixpoint sl_aux (g : graph) (n : nat) (S : list node) : list node :=
  match n, S with
  | S n', x :: l => let u := first_min g S x l in sl_aux g n' (remove1 u S) ++ [u]
  | _, _ => []
  end.
Definition sl_order (g : graph) : list node := sl_aux g (length (g_nodes g)) (g_nodes g).
Definition nx_orders (i : nat) (g : graph) : list node := if i =? 1 then sl_order g else largest_first g.

Lemma first_min_spec g S l : forall x, In (first_min g S x l) (x :: l) /\
  forall v, In v (x :: l) -> degree_in g S (first_min g S x l) <= degree_in g S v.
Proof.
  unfold first_min. induction l as [|y l IH]; intro x; cbn [fold_left].
  - split; [left; auto|]. intros v [->|[]]; auto.
  - destruct (IH (if degree_in g S y <? degree_in g S x then y else x)) as [A B]. split.
    + destruct A as [A|A]; [|right; right; auto]. rewrite <- A. destruct (_ <? _); [right; left|left]; auto.
    + assert (Bx := B _ (or_introl eq_refl)). intros v V.
      destruct (Nat.ltb_spec (degree_in g S y) (degree_in g S x)); destruct V as [->|[->|V]]; try (apply B; right; auto; fail); lia.
Qed.
Lemma remove1_perm u l : In u l -> Permutation l (u :: remove1 u l).
Proof.
  induction l as [|v l IH]; intros []; simpl; destruct (eqb_spec u v); subst; try congruence; auto.
  etransitivity; [apply perm_skip, IH; auto|apply perm_swap].
Qed.
Lemma filter_perm {A} (f : A -> bool) l l' : Permutation l l' -> Permutation (filter f l) (filter f l').
Proof.
  induction 1; simpl; auto.
  - destruct (f x); auto.
  - destruct (f x), (f y); auto. apply perm_swap.
  - etransitivity; eauto.
Qed.
Lemma degree_perm g S S' u : Permutation S S' -> degree_in g S u = degree_in g S' u.
Proof. intro P. apply Permutation_length, filter_perm; auto. Qed.

Lemma sl_aux_spec g n : forall S, length S = n -> Permutation (sl_aux g n S) S /\ smallest_last g (sl_aux g n S).
Proof.
  induction n as [|n IH]; intros S L.
  - destruct S; [|discriminate]. split; auto. intros p u q E. destruct p; discriminate.
  - destruct S as [|x l]; [discriminate|]. cbn [sl_aux]. destruct (first_min_spec g (x :: l) l x) as [A B].
    set (u := first_min g (x :: l) x l) in *. clearbody u. assert (P := remove1_perm u (x :: l) A).
    destruct (IH (remove1 u (x :: l))) as [P' SL]; [apply Permutation_length in P; cbn [length] in P, L |- *; lia|].
    set (r := sl_aux g n (remove1 u (x :: l))) in *. clearbody r.
    assert (PS : Permutation (r ++ [u]) (x :: l)).
    { rewrite P. etransitivity; [apply Permutation_app_comm|]. simpl. apply perm_skip; auto. }
    split; auto. intros p w q E v V. destruct (exists_last (l := w :: q)) as (q' & z & Q); [discriminate|].
    rewrite Q in E. rewrite app_assoc in E. apply app_inj_tail in E as [E ->]. destruct q' as [|w' q'].
    + simpl in Q. inversion Q; subst. rewrite app_nil_r in *. rewrite !(degree_perm g _ _ _ PS). apply B.
      eapply Permutation_in; [exact PS|]. apply in_or_app; auto.
    + simpl in Q. inversion Q; subst. apply (SL p w' q'); auto.
Qed.
Lemma nx_orders_ok : networkx_orders nx_orders.
Proof.
  split; [|split].
  - intros i g. unfold nx_orders. destruct (i =? 1); [apply sl_aux_spec; auto|]. symmetry. apply sorted_perm.
  - intro g. reflexivity.
  - intros g _. apply sl_aux_spec; auto.
Qed.

(** ** Examples *)
Definition nm (i : nat) : pystr :=
  str (nth i ["a"; "b"; "c"; "d"; "e"; "f"; "g"; "h"; "i"; "j"; "k"; "l"; "m"; "n"; "o"]%string ""%string).
(** 15 IDs; 16 CANNOT_LINK forming a bipartite graph. *)
Definition bip : mgr :=
  run (map (fun e => CallAddConstraint (nm (fst e)) (nm (snd e)) CANNOT_LINK 1%Q)
   [(0,1);(0,6);(1,12);(1,13);(2,6);(2,11);(3,7);(3,8);(4,6);(4,11);(5,10);(5,14);(7,10);(8,14);(9,12);(9,13)])
   (init (map nm (seq 0 15))).
Definition bip_label (x : pystr) : nat :=
  if mem x (map nm [1; 5; 6; 7; 8; 9; 11]) then 1 else 0.

Lemma feasible_check m l f k : reachable m -> ask get_list_of_managed_data_IDs m = Ok l ->
  forallb (fun a => forallb (fun b => match ask (get_added_constraint a b) m with
    | Ok (Some (t, _)) => if eqb t MUST_LINK then f a =? f b else if eqb t CANNOT_LINK then negb (f a =? f b) else true
    | _ => true end) l) l = true ->
  nb_of_clusters l f = k -> feasible m k.
Proof.
  intros R L F K. assert (I := reachable_inv _ R). exists l, f. split; auto. split; auto.
  assert (G : forall t a b, added m t a b -> (t = MUST_LINK -> f a = f b) /\ (t = CANNOT_LINK -> f a <> f b)).
  { intros t a b H. assert (H' := added_ids m t a b I H). destruct H' as [Ha Hb].
    assert (J : forall x, In x (ids m) -> In x l).
    { intros x X. apply managed_ids in X. destruct X as (l' & E & X). congruence. }
    rewrite forallb_forall in F. specialize (F a (J a Ha)). rewrite forallb_forall in F. specialize (F b (J b Hb)).
    destruct H as (v & E). rewrite E in F. split; intros ->; simpl in F; [apply Nat.eqb_eq; auto|].
    apply negb_true_iff, Nat.eqb_neq in F; auto. }
  split; intros a b H; apply (G _ _ _ H); auto.
Qed.

(*PROP C90: when every set of components has one with at most k CANNOT_LINK to the others, the returned minimum is at most k+1 (and 2 in any case), provided the second colouring visits the nodes in a smallest-last order, as networkx does.  So with CANNOT_LINK constraints without cycle the minimum is 2, the true one as soon as there is a CANNOT_LINK. *)
Lemma C90_sparse_minimum_proof :
  forall order m k, networkx_orders order -> reachable m -> has_ids m -> degenerate m k ->
    exists lo hi, ask (get_min_and_max_number_of_clusters order) m = Ok (lo, hi) /\ lo <= Nat.max 2 (1 + k).
Proof.
  intros order m k (V & _ & SL) R H Dg. assert (I := reachable_inv _ R). assert (N := has_ids_spec m H).
  destruct (minmax_strategies order m V I N) as (lo & E & B). exists lo, (length (comps m)). unfold ask. rewrite E. split; auto.
  destruct (B 1 ltac:(lia)) as (c & u & U & L). apply greedy_earlier in U; [|apply order_nodup; auto].
  destruct U as (p & q & O & Lc). assert (ND : NoDup (p ++ u :: q)) by (rewrite <- O; apply order_nodup; auto).
  assert (K : degree_in (the_graph m) (p ++ [u]) u <= k).
  { apply degenerate_last; auto.
    - replace (p ++ u :: q) with ((p ++ [u]) ++ q) in ND by (rewrite <- app_assoc; auto). apply NoDup_app_inv in ND. tauto.
    - apply (SL (the_graph m) ltac:(apply dedup_NoDup) p u q O). }
  rewrite degree_app in K. unfold degree_in in K at 1. lia.
Qed.

(*EX
(** Three data: b may join neither a nor c. *)
Definition path : mgr :=
  run [CallAddConstraint (nm 0) (nm 1) CANNOT_LINK 1%Q; CallAddConstraint (nm 1) (nm 2) CANNOT_LINK 1%Q] (init [nm 0; nm 1; nm 2]).
Lemma path_components : ask get_connected_components path = Ok [[nm 0]; [nm 1]; [nm 2]].
Proof. vm_compute. reflexivity. Qed.
Lemma path_between : forall i j, i < 3 -> j < 3 -> cl_between path [nm i] [nm j] -> i + 1 = j \/ j + 1 = i.
Proof.
  intros i j Li Lj (x & y & [<-|[]] & [<-|[]] & H). unfold inferred in H.
  destruct i as [|[|[|i]]]; [| | |exfalso; lia]; (destruct j as [|[|[|j]]]; [| | |exfalso; lia]); vm_compute in H; try discriminate; lia.
Qed.
Lemma path_degenerate : degenerate path 1.
Proof.
  intros comps S E C N. rewrite path_components in E. injection E as <-.
  assert (G : forall i, (i = 0 \/ i = 2) -> at_most path 1 [nm i] S).
  { intros i Hi l Nl Il Hl. apply (NoDup_incl_length Nl (l' := [[nm 1]])). intros c Hc.
    assert (B := Hl c Hc). destruct (C c (Il c Hc)) as [<-|[<-|[<-|[]]]]; [|left; reflexivity|];
      exfalso; apply path_between in B; lia. }
  destruct (in_dec (list_eq_dec (list_eq_dec N.eq_dec)) [nm 0] S) as [H0|H0].
  - exists [nm 0]. auto.
  - destruct (in_dec (list_eq_dec (list_eq_dec N.eq_dec)) [nm 2] S) as [H2|H2].
    + exists [nm 2]. auto.
    + destruct S as [|c S]; [congruence|]. exists c. split; [left; reflexivity|]. intros l Nl Il _.
      apply (NoDup_incl_length Nl (l' := [[nm 1]])). intros d Hd.
      destruct (C d (Il d Hd)) as [<-|[<-|[<-|[]]]]; [exfalso; auto|left; reflexivity|exfalso; auto].
Qed.
Example C90_sparse_ex : networkx_orders nx_orders /\ reachable path /\ has_ids path /\ degenerate path 1 /\
  ask (get_min_and_max_number_of_clusters nx_orders) path = Ok (2, 3).
Proof.
  split; [apply nx_orders_ok|]. split; [apply run_reachable|]. split; [|split; [apply path_degenerate|vm_compute; reflexivity]].
  exists (nm 0), (map nm (seq 0 3)). split; [vm_compute; reflexivity|left; auto].
Qed.
EX*)

(*PROP C90: whatever the colouring orders, the minimum is at most one more than the largest number of components that one component may not join. *)
Lemma C90_bounded_degree_proof :
  forall order m k, valid_orders order -> reachable m -> has_ids m -> bounded_degree m k ->
    exists lo hi, ask (get_min_and_max_number_of_clusters order) m = Ok (lo, hi) /\ lo <= Nat.max 2 (1 + k).
Proof.
  intros order m k V R H Bd. assert (I := reachable_inv _ R). assert (N := has_ids_spec m H).
  destruct (minmax_strategies order m V I N) as (lo & E & B). exists lo, (length (comps m)). unfold ask. rewrite E. split; auto.
  destruct (B 0 ltac:(lia)) as (c & u & U & L). apply greedy_earlier in U; [|apply order_nodup; auto].
  destruct U as (p & q & O & Lc). assert (ND : NoDup (p ++ u :: q)) by (rewrite <- O; apply order_nodup; auto).
  assert (K : degree_in (the_graph m) p u <= k).
  { destruct (indexed m u) eqn:Iu; [|rewrite degree_isolated by auto; lia]. apply degree_at_most; auto.
    - apply NoDup_app_inv in ND. tauto.
    - destruct u as [x|i]; [discriminate|]. intros l Nl Il Cl. apply (Bd (comps m) (node_comp m (NIdx i))); auto.
      + unfold ask. rewrite run_components; auto.
      + apply node_comp_In; auto. apply Nat.ltb_lt; auto.
      + intros z Z. apply (comps_of_incl m I p). auto. }
  unfold degree_in in K. lia.
Qed.

(*EX
(** The bound is reached: three data that may not be together. *)
Definition triangle : mgr :=
  run [CallAddConstraint (nm 0) (nm 1) CANNOT_LINK 1%Q; CallAddConstraint (nm 1) (nm 2) CANNOT_LINK 1%Q;
       CallAddConstraint (nm 0) (nm 2) CANNOT_LINK 1%Q] (init [nm 0; nm 1; nm 2; nm 3]).
Example C90_bounded_ex : bounded_degree triangle 2 /\ ask (get_min_and_max_number_of_clusters nx_orders) triangle = Ok (3, 4).
Proof.
  split; [|vm_compute; reflexivity]. intros comps c E C l Nl Il Hl.
  assert (Q : comps = [[nm 0]; [nm 1]; [nm 2]; [nm 3]]) by (vm_compute in E; injection E as <-; reflexivity). subst comps.
  assert (Z : ~ In c l /\ (c = [nm 3] \/ ~ In [nm 3] l)).
  { split.
    - intro J. destruct (Hl c J) as (x & y & X & Y & H). unfold inferred in H.
      destruct C as [<-|[<-|[<-|[<-|[]]]]]; destruct X as [<-|[]]; destruct Y as [<-|[]]; vm_compute in H; discriminate.
    - destruct C as [<-|[<-|[<-|[<-|[]]]]]; [| | |left; reflexivity]; right; intro J; destruct (Hl _ J) as (x & y & X & Y & H);
        unfold inferred in H; destruct X as [<-|[]]; destruct Y as [<-|[]]; vm_compute in H; discriminate. }
  destruct Z as [Z1 Z2]. destruct Z2 as [->|Z2].
  - destruct l as [|d l]; [repeat constructor|]. exfalso. destruct (Hl d (or_introl eq_refl)) as (x & y & X & Y & H). unfold inferred in H.
    destruct X as [<-|[]]. destruct (Il d (or_introl eq_refl)) as [<-|[<-|[<-|[<-|[]]]]]; destruct Y as [<-|[]]; vm_compute in H; discriminate.
  - destruct C as [<-|[<-|[<-|[<-|[]]]]].
    + apply (NoDup_incl_length Nl (l' := [[nm 1]; [nm 2]])). intros d Hd. destruct (Il d Hd) as [<-|[<-|[<-|[<-|[]]]]]; simpl; tauto.
    + apply (NoDup_incl_length Nl (l' := [[nm 0]; [nm 2]])). intros d Hd. destruct (Il d Hd) as [<-|[<-|[<-|[<-|[]]]]]; simpl; tauto.
    + apply (NoDup_incl_length Nl (l' := [[nm 0]; [nm 1]])). intros d Hd. destruct (Il d Hd) as [<-|[<-|[<-|[<-|[]]]]]; simpl; tauto.
    + destruct l as [|d l]; [repeat constructor|]. exfalso. destruct (Hl d (or_introl eq_refl)) as (x & y & X & Y & H). unfold inferred in H.
      destruct X as [<-|[]]. destruct (Il d (or_introl eq_refl)) as [<-|[<-|[<-|[<-|[]]]]]; destruct Y as [<-|[]]; vm_compute in H; discriminate.
Qed.
EX*)

(*PROP C90: constraints without cycle between the components (every set of components has one with at most one CANNOT_LINK to the others): the minimum returned is 2, it is feasible with at least two components, and no smaller number is once there is a CANNOT_LINK. *)
Lemma C90_forest_exact_proof :
  forall order m n, networkx_orders order -> reachable m -> nb_components m n -> 2 <= n -> degenerate m 1 ->
    exists hi, ask (get_min_and_max_number_of_clusters order) m = Ok (2, hi) /\ feasible m 2 /\
      ((exists a b, managed m a /\ managed m b /\ inferred m a b (Some CANNOT_LINK)) -> forall k, feasible m k -> 2 <= k).
Proof.
  intros order m n O R H Hn Dg. assert (V := proj1 O). assert (I := reachable_inv _ R).
  assert (HI : has_ids m).
  { apply nb_components_spec in H; auto. subst n. assert (N : ids m <> []) by (apply comps_nonempty; auto; lia).
    destruct (ids m) as [|x l] eqn:E; [congruence|]. exists x. apply managed_ids. rewrite E. left; auto. }
  destruct (C90_sparse_minimum_proof order m 1 O R HI Dg) as (lo & hi & E & L).
  destruct (C16_range_feasible_proof order m n V R H Hn) as (lo' & hi' & E' & L2 & F).
  destruct (C17_minimum_partial_proof order m n V R H Hn) as (lo'' & hi'' & E'' & _ & G).
  rewrite E in E'. injection E' as <- <-. clear E''. assert (lo = 2) as -> by (simpl in L; lia).
  exists hi. split; auto.
Qed.

(*EX
Example C90_forest_ex : nb_components path 3 /\ degenerate path 1 /\ inferred path (nm 0) (nm 1) (Some CANNOT_LINK) /\
  feasible path 2 /\ ~ feasible path 1.
Proof.
  assert (N : nb_components path 3) by (eexists; split; [apply path_components|reflexivity]).
  assert (C : inferred path (nm 0) (nm 1) (Some CANNOT_LINK)) by (vm_compute; reflexivity).
  destruct (C90_forest_exact nx_orders path 3 nx_orders_ok (run_reachable _ _) N ltac:(lia) path_degenerate) as (hi & E & F & G).
  repeat (split; [solve [auto using path_degenerate]|]). intro F1. apply G in F1; [lia|]. exists (nm 0), (nm 1). split; [|split; auto];
    exists (map nm (seq 0 3)); (split; [vm_compute; reflexivity|simpl; auto]).
Qed.
EX*)

(*PROP C90: the minimum is not exact in general, even when two clusters would do: 15 data with 16 CANNOT_LINK that split into two groups, for which the orders of networkx (largest first, smallest last) give 3. *)
Lemma C90_not_exact_with_cycles_proof :
  exists order m, networkx_orders order /\ reachable m /\ has_ids m /\
    ask (get_min_and_max_number_of_clusters order) m = Ok (3, 15) /\ feasible m 2.
Proof.
  exists nx_orders, bip. split; [apply nx_orders_ok|]. split; [apply run_reachable|]. split; [|split].
  - exists (nm 0), (map nm (seq 0 15)). split; [vm_compute; reflexivity|left; auto].
  - vm_compute. reflexivity.
  - apply (feasible_check bip (map nm (seq 0 15)) bip_label); [apply run_reachable|vm_compute; reflexivity|vm_compute; reflexivity|vm_compute; reflexivity].
Qed.
