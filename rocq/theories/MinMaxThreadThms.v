(** * Threads that ask for the possible numbers of clusters while one thread adds constraints (C161). *)

From Coq Require Import String List Bool Arith ZArith QArith Permutation Lia.
(*HEADER
From Coq Require Import String List Bool Arith ZArith QArith Permutation.
From Verif Require Import Base Manager Spec ManagerThms ManagerInv ManagerQueries MinMax Threads ThreadSpec ThreadsThms Readers ReadersSpec ReadersThms Listing ListingSpec ListingThms
  SampleThread KMeansThreadSpec PropKMeansThread MinMaxThread MinMaxThreadThms.
Import ListNotations.
Open Scope nat_scope.

Definition A := str "a". Definition B := str "b". Definition C := str "c".
Definition node_order (i : nat) (g : graph) : list node := g_nodes g.
Lemma node_order_valid : valid_orders node_order.
Proof. intros i g. apply Permutation_refl. Qed.
HEADER*)
From Verif Require Import Base Manager Spec Closure ManagerProofs ManagerInv ManagerQueries ManagerThms InterruptThms MinMax MinMaxThms Threads ThreadSpec ThreadsThms Readers ReadersSpec ReadersThms
  Listing ListingSpec ListingThms SampleThread SampleThreadThms KMeansThreadSpec MinMaxThread.
Import ListNotations.
Open Scope nat_scope.
Open Scope py_scope.

(** ** The colouring of any graph *)
Section AnyGraph.
  Variable order : nat -> graph -> list node.
  Hypothesis V : valid_orders order.
  Variable g : graph.
  Hypothesis ND : NoDup (g_nodes g).
  Hypothesis NE : g_nodes g <> [].

  Definition col (i : nat) : dict node nat := greedy_color g (order i g).
  Lemma visit_nodup i : NoDup (order i g).
  Proof. eapply Permutation_NoDup; [apply Permutation_sym, V|auto]. Qed.
  Lemma col_proper i : proper g (col i) /\ keys (col i) = order i g.
  Proof. unfold col, greedy_color. apply greedy_proper; [apply visit_nodup|]. intros u v a b _ _ E. discriminate E. Qed.
  Lemma col_total i u : In u (g_nodes g) -> exists a, dget u (col i) = Some a.
  Proof. intro H. apply dget_In_key. rewrite (proj2 (col_proper i)). eapply Permutation_in; [apply Permutation_sym, V|]; auto. Qed.
  Lemma col_used i : exists c, colors_used order i g = Ok c /\ (forall u a, dget u (col i) = Some a -> a <= c) /\ exists u, dget u (col i) = Some c.
  Proof.
    unfold colors_used. fold (col i). destruct (py_max_spec (vals (col i))) as (c & E & Hc & H).
    - intro E. assert (X : exists u, In u (g_nodes g)) by (clear - NE; destruct (g_nodes g) as [|u l]; [congruence|exists u; left; auto]). destruct X as (u & Hu).
      destruct (col_total i u Hu) as (a & Ea). apply dget_In in Ea.
      assert (In a (vals (col i))) by (apply (in_map snd) in Ea; exact Ea). rewrite E in *. auto.
    - exists c. split; auto. split.
      + intros u a Ea. apply H. apply dget_In in Ea. apply (in_map snd) in Ea. exact Ea.
      + apply in_map_iff in Hc as ((u & a) & Ea & Hc). cbn in Ea. subst a. exists u. apply In_dget; auto. rewrite (proj2 (col_proper i)). apply visit_nodup.
  Qed.
  Lemma range_right n : exists i c, range_of order g n = Ok (Nat.max 2 (1 + c), n) /\ (forall u a, dget u (col i) = Some a -> a <= c) /\ exists u, dget u (col i) = Some c.
  Proof.
    unfold range_of. destruct (col_used 0) as (c0 & -> & H0). destruct (col_used 1) as (c1 & -> & H1). destruct (col_used 2) as (c2 & -> & H2). destruct (col_used 3) as (c3 & -> & H3).
    destruct (col_used 4) as (c4 & -> & H4). cbn [rbind].
    assert (C : Nat.min (Nat.min (Nat.min (Nat.min c0 c1) c2) c3) c4 = c0 \/ Nat.min (Nat.min (Nat.min (Nat.min c0 c1) c2) c3) c4 = c1
       \/ Nat.min (Nat.min (Nat.min (Nat.min c0 c1) c2) c3) c4 = c2 \/ Nat.min (Nat.min (Nat.min (Nat.min c0 c1) c2) c3) c4 = c3
       \/ Nat.min (Nat.min (Nat.min (Nat.min c0 c1) c2) c3) c4 = c4) by lia.
    destruct C as [E|[E|[E|[E|E]]]]; rewrite E; [exists 0, c0|exists 1, c1|exists 2, c2|exists 3, c3|exists 4, c4]; auto.
  Qed.
End AnyGraph.

(** A graph on positions below [n]. *)
Definition others (n : nat) (u : node) : list node :=
  match u with NId _ => [] | NIdx i => if i <? n then map NIdx (filter (fun j => negb (Nat.eqb j i)) (seq 0 n)) else [] end.
Lemma others_length n u : length (others n u) <= n - 1.
Proof.
  destruct u as [x|i]; cbn [others]; [cbn; lia|]. destruct (Nat.ltb_spec i n) as [L|L]; [|cbn; lia]. rewrite map_length.
  assert (S (length (filter (fun j => negb (Nat.eqb j i)) (seq 0 n))) <= n); [|lia].
  rewrite <- (seq_length n 0) at 2. change (length (i :: filter (fun j => negb (Nat.eqb j i)) (seq 0 n)) <= length (seq 0 n)). apply NoDup_incl_length.
  - constructor; [rewrite filter_In, negb_true_iff, Nat.eqb_refl; intros [_ ?]; discriminate|apply NoDup_filter, seq_NoDup].
  - intros j [<-|H]; [apply in_seq; lia|]. apply filter_In in H. tauto.
Qed.
Lemma others_spec ids es n u v : (forall i j, In (i, j) es -> i < j /\ j < n) -> adjacent (make_graph ids es) u v = true -> In v (others n u).
Proof.
  intros E A. unfold adjacent in A. apply existsb_exists in A as (e & He & A). cbn in He. apply in_map_iff in He as ((i & j) & <- & He). apply E in He. cbn in A. apply orb_true_iff in A.
  rewrite !andb_true_iff, !eqb_eq in A. destruct A as [[<- <-]|[<- <-]]; cbn [others].
  - destruct (Nat.ltb_spec i n); [|lia]. apply in_map; apply filter_In; rewrite in_seq, negb_true_iff, Nat.eqb_neq; lia.
  - destruct (Nat.ltb_spec j n); [|lia]. apply in_map; apply filter_In; rewrite in_seq, negb_true_iff, Nat.eqb_neq; lia.
Qed.
Lemma range_small order ids es n total : valid_orders order -> ids <> [] -> (forall i j, In (i, j) es -> i < j /\ j < n) -> n <= total -> 1 <= total ->
  exists i c, range_of order (make_graph ids es) total = Ok (Nat.max 2 (1 + c), total) /\ Nat.max 2 (1 + c) <= Nat.max 2 total /\
    forall u a, dget u (col order (make_graph ids es) i) = Some a -> a <= c.
Proof.
  intros V NE E L L1. assert (ND : NoDup (g_nodes (make_graph ids es))) by apply dedup_NoDup.
  assert (NE' : g_nodes (make_graph ids es) <> []).
  { destruct ids as [|x ids]; [congruence|]. intro Q. assert (H : In (NId x) (g_nodes (make_graph (x :: ids) es))) by (apply dedup_In; left; auto). rewrite Q in H. destruct H. }
  destruct (range_right order V _ ND NE' total) as (i & c & R & H & u & Eu). exists i, c. split; auto. split; auto.
  assert (B : c <= length (others n u)).
  { eapply (greedy_bound (make_graph ids es) (others n) (order i (make_graph ids es))); [intros; eapply others_spec; eauto| | |exact Eu]; [cbn; apply visit_nodup; auto|intros ? ? Q; discriminate Q]. }
  assert (B' := others_length n u). lia.
Qed.

(** ** What the additions do to the lists *)
Lemma moves_after {T U} new (p : prog T) (k : T -> prog U) s : calm p ->
  (forall x s', snd (alone p s) = Ok x -> ctrans s' = ctrans s -> moves new (k x) s') -> moves new (pbind p k) s.
Proof.
  intros C H. destruct (C s) as [C1 C2]. unfold moves. rewrite states_bind, alone_bind. destruct (alone p s) as [s1 [a|e]] eqn:E; cbn [fst snd] in *.
  - destruct (H a s1 eq_refl C2) as [N1 N2]. assert (M : forall y, mlof s1 y = mlof s y) by (intro y; unfold mlof; rewrite C2; auto). split.
    + intro y. rewrite <- M. apply N1.
    + intros t I y. rewrite <- M. apply in_app_iff in I as [I|I]; auto. left. unfold mlof. rewrite (C1 t I), C2. auto.
  - rewrite app_nil_r. unfold mlof. rewrite C2. split; auto. intros t I y. rewrite (C1 t I). auto.
Qed.
Lemma alone_ml x s l : mlof s x = Some l -> snd (alone (p_ml x) s) = Ok l.
Proof. unfold mlof. cbn. unfold dlookup. destruct (dget x (ctrans s)) as [e|]; cbn; congruence. Qed.
Lemma mlof_same s s' x : ctrans s' = ctrans s -> mlof s' x = mlof s x.
Proof. unfold mlof. intros ->. auto. Qed.
Lemma moves_transitivity a b t s la lb : mlof s a = Some la -> mlof s b = Some lb -> moves (ounion la lb) (p_add_constraint_transitivity a b t) s.
Proof.
  intros Ha Hb. assert (M : forall x, calm (p_ml x)) by (intro; apply calm_silent; cbn; auto). assert (C : forall x, calm (p_cl x)) by (intro; apply calm_silent; cbn; auto).
  unfold p_add_constraint_transitivity. destruct (eqb t MUST_LINK).
  - apply moves_after; [apply M|]. intros ml1 s1 E1 Q1. rewrite (alone_ml _ _ _ Ha) in E1. injection E1 as <-.
    apply moves_after; [apply M|]. intros ml2 s2 E2 Q2. rewrite (alone_ml b s1 lb) in E2 by (rewrite (mlof_same _ _ _ Q1); auto). injection E2 as <-.
    do 2 (apply moves_bind; [apply moves_calm; auto|intros]). cbv zeta. apply moves_bind.
    + apply moves_for. intros x s''. apply moves_bind; [apply moves_set_ml|intros; apply moves_set_cl].
    + intros. apply moves_for. intros. apply moves_bind; [apply moves_calm, C|intros; apply moves_set_cl].
  - cbv zeta. do 5 (apply moves_bind; [apply moves_calm; auto|intros]). apply moves_bind; [apply moves_for; intros; apply moves_set_cl|intros]. apply moves_bind; [apply moves_calm; auto|intros].
    apply moves_for. intros. apply moves_set_cl.
Qed.
Lemma moves_add a b t v s la lb : mlof s a = Some la -> mlof s b = Some lb -> moves (ounion la lb) (p_add_constraint a b t v) s.
Proof.
  intros Ha Hb. assert (Y : forall x, calm (prequire x)) by (intros []; apply calm_silent; exact I).
  assert (X : forall x, calm (p_in_dict x)) by (intros x; apply calm_silent; cbn; auto).
  assert (Z : forall T (p : prog T) U (k : T -> prog U), calm p -> (forall x s', ctrans s' = ctrans s -> moves (ounion la lb) (k x) s') -> forall s0, ctrans s0 = ctrans s -> moves (ounion la lb) (pbind p k) s0).
  { intros T p U k Cp H s0 Q. apply moves_after; auto. intros x s' _ Q'. apply H. congruence. }
  unfold p_add_constraint. generalize (eq_refl (ctrans s)). generalize s at 1 3. intros s0 Q0. revert s0 Q0.
  do 2 (apply Z; [apply X|intro]; apply Z; [apply Y|intro]). apply Z; [apply Y|intro]. apply Z; [apply calm_silent, silent_inferred|intro]. apply Z; [apply Y|intro].
  apply Z; [apply calm_silent, silent_added|intros [c|]]; [intros; apply moves_calm, calm_silent; exact I|].
  apply Z; [destruct (str_leb a b); apply calm_set|intros _ s1 Q1]. apply moves_bind; [apply moves_transitivity; rewrite (mlof_same _ _ _ Q1); auto|intros; apply moves_calm, calm_silent; exact I].
Qed.

Lemma filter_none {X} (f : X -> bool) l : (forall x, In x l -> f x = false) -> filter f l = [].
Proof. induction l as [|x l IH]; intro H; cbn; auto. rewrite H by (left; auto). apply IH. intros. apply H. right. auto. Qed.

(** ** What is read meanwhile *)
Section Asking.
  Variable m0 : mgr.
  Variable cs : list wcall.
  Hypothesis R0 : reachable m0.
  Hypothesis AC : Forall only_adds_constraints cs.
  Variable order : nat -> graph -> list node.
  Hypothesis V : valid_orders order.
  Hypothesis NE : ids m0 <> [].
  Notation N := (ReadersThms.N m0 cs).
  Notation K := (ListingThms.K m0).
  Notation stage := (ListingThms.stage m0 cs).

  Lemma K_ids : K = ids m0.
  Proof. unfold ListingThms.K. apply inv_keys, reachable_inv; auto. Qed.
  Lemma end_ids n : ids (N n) = ids m0.
  Proof. rewrite <- K_ids, <- (inv_keys _ (ListingThms.N_inv m0 cs R0 n)). apply N_keys; auto. Qed.
  Lemma filter_read {X} (f : X -> prog bool) (P : X -> bool -> Prop) k lo r hi :
    (forall y lo r hi, In y k -> watch stage lo (f y) r hi -> exists b, r = Ok b /\ P y b) -> watch stage lo (pfilter f k) r hi ->
    exists l', r = Ok l' /\ incl l' k /\ length l' <= length k /\ (forall y, In y k -> In y l' \/ P y false) /\ forall y, In y l' -> P y true.
  Proof.
    intro F. revert lo r hi. induction k as [|y k IH]; intros lo r hi W; cbn [pfilter] in W.
    - inversion W; subst. exists []. split; auto. split; [apply incl_refl|]. split; auto. split; intros ? [].
    - apply watch_bind in W as (x & n1 & W1 & W2). apply F in W1 as (b & -> & Pb); [|left; auto].
      apply watch_bind in W2 as (x & n2 & W2 & W3). apply IH in W2 as (l' & -> & I1 & I2 & I3 & I4); [|intros; eapply F; [right|]; eauto].
      inversion W3; subst. exists (if b then y :: l' else l'). split; auto. split; [|split; [|split]].
      + destruct b; [apply incl_cons; [left; auto|apply incl_tl; auto]|apply incl_tl; auto].
      + destruct b; cbn; lia.
      + intros z [<-|J]; [destruct b; [left; left|]; auto|]. destruct (I3 z J); auto. left. destruct b; [right|]; auto.
      + intros z J. destruct b; auto. destruct J as [<-|J]; auto.
  Qed.
  Lemma read_cl x lo r hi : In x K -> watch stage lo (p_cl x) r hi -> exists l, r = Ok l /\ incl (cl_of m0 x) l /\ NoDup l.
  Proof.
    intros J W. apply watch_read in W as (_ & s & (L & B & _ & T & _) & ->). destruct (entry_in m0 s x T J) as (e & E & _ & N2). unfold dlookup. rewrite E. cbn [rbind]. exists (t_cl e). split; auto. split; auto.
    unfold cl_of. destruct (dget x (ctrans m0)) as [e0|] eqn:E0; [|intros z []].
    destruct (N_below m0 cs R0 (adds cs AC) 0 hi (Nat.le_0_l _) x e0 E0) as (e1 & E1 & _ & Q1). destruct (B x e1 E1) as (e2 & E2 & _ & Q2). rewrite E in E2. injection E2 as <-. eapply incl_tran; eauto.
  Qed.
  Lemma collect_length k found lo l hi : watch stage lo (p_collect_components k found) (Ok l) hi -> length l <= length found + length k.
  Proof.
    revert lo found. induction k as [|x k IH]; intros lo found W; cbn [p_collect_components] in W; [inversion W; subst; lia|].
    apply watch_bind in W as (r & n1 & W1 & W). destruct r as [c|e]; [|destruct W; discriminate]. apply IH in W. cbn [length]. destruct (mem c found); [lia|]. rewrite app_length in W. cbn in W. lia.
  Qed.
  (** After the components are known: the graph. *)
  Lemma edges_read linked lo r hi : incl linked K -> watch stage lo (p_cannot_link_edges linked) r hi ->
    exists es, r = Ok es /\ (forall i j, In (i, j) es -> i < j /\ j < length linked) /\
      forall i j x y, i < j -> nth_error linked i = Some x -> nth_error linked j = Some y -> In y (cl_of m0 x) -> In (i, j) es.
  Proof.
    intros S W. unfold p_cannot_link_edges in W. apply watch_bind in W as (r1 & n1 & W1 & W).
    apply (filter_read _ (fun e b => if b : bool then fst (fst e) < fst (snd e) else fst (fst e) < fst (snd e) -> ~ In (snd (snd e)) (cl_of m0 (snd (fst e))))) in W1.
    2:{ intros [[i x] [j y]] lo' r' hi' J W'. cbn [fst snd] in *. apply in_prod_iff in J as [J _]. apply enumerate_In, nth_error_In, S in J. destruct (Nat.ltb_spec i j) as [L|L].
        - apply watch_bind in W' as (r2 & n2 & W2 & W'). apply read_cl in W2 as (l & -> & Q & _); auto. inversion W'; subst. eexists. split; [reflexivity|].
          destruct (mem y l) eqn:M; auto. intros _ J'. apply mem_nIn in M. apply M. auto.
        - inversion W'; subst. exists false. split; auto. intros. lia. }
    destruct W1 as (l & -> & I1 & _ & I2 & I3). inversion W; subst. eexists. split; [reflexivity|]. split.
    - intros i j J. apply in_map_iff in J as ([[i' x] [j' y]] & Q & J). cbn in Q. injection Q as -> ->. assert (J2 := I1 _ J). apply in_prod_iff in J2 as [J3 J4]. apply enumerate_In in J3, J4.
      split; [exact (I3 _ J)|apply nth_error_Some; congruence].
    - intros i j x y L Hi Hj C. apply in_map_iff. exists ((i, x), (j, y)). split; auto. destruct (I2 ((i, x), (j, y))) as [J|J]; auto.
      + apply in_prod_iff. split; apply enumerate_In; auto.
      + exfalso. apply (J L). exact C.
  Qed.
  Lemma rest_right l lo r hi : l <> [] -> (forall c, In c l -> c <> [] /\ incl c K) ->
    watch stage lo (pbind (Done (rmap head_of l)) (fun ids => pbind (pfilter p_is_linked ids) (fun linked => pbind (p_cannot_link_edges linked) (fun edges =>
      Done (range_of order (make_graph ids edges) (length l)))))) r hi ->
    exists linked es i c, r = Ok (Nat.max 2 (1 + c), length l) /\ Nat.max 2 (1 + c) <= Nat.max 2 (length l) /\
      (forall u a, dget u (col order (make_graph (map (hd []) l) es) i) = Some a -> a <= c) /\
      incl linked (map (hd []) l) /\ (forall x, In x (map (hd []) l) -> In x linked \/ length (cl_of m0 x) <= 1) /\
      (forall i j, In (i, j) es -> i < j /\ j < length linked) /\
      forall i j x y, i < j -> nth_error linked i = Some x -> nth_error linked j = Some y -> In y (cl_of m0 x) -> In (i, j) es.
  Proof.
    intros NL H W. rewrite (rmap_pure head_of (hd [])) in W. 2:{ intros c J. destruct (H c J) as [Q _]. destruct c; [exfalso; apply Q; reflexivity|reflexivity]. }
    cbn [pbind] in W. assert (HK : forall x, In x (map (hd []) l) -> In x K).
    { intros x J. apply in_map_iff in J as (c & <- & J). destruct (H c J) as [Q S]. apply S. destruct c; [exfalso; apply Q; reflexivity|left; auto]. }
    apply watch_bind in W as (r1 & n1 & W1 & W). apply (filter_read _ (fun x b => b = false -> length (cl_of m0 x) <= 1)) in W1 as (linked & -> & I1 & I2 & I3 & _).
    2:{ intros y lo' r' hi' J W'. unfold p_is_linked in W'. apply watch_bind in W' as (r2 & n2 & W2 & W'). apply read_cl in W2 as (k & -> & Q & _); auto. inversion W'; subst. eexists. split; [reflexivity|].
        intro E. apply Nat.ltb_ge in E. etransitivity; [|exact E]. apply NoDup_incl_length; auto.
        unfold cl_of. destruct (dget y (ctrans m0)) as [e|] eqn:E0; [|constructor]. eapply rep_cl_nodup; eauto. apply inv_rep, reachable_inv; auto. }
    apply watch_bind in W as (r2 & n2 & W2 & W). apply edges_read in W2 as (es & -> & E1 & E2); [|intros x J; auto]. inversion W; subst.
    assert (L1 : 1 <= length l) by (destruct l; [exfalso; apply NL; reflexivity|cbn; lia]). rewrite map_length in I2.
    destruct (range_small order (map (hd []) l) es (length linked) (length l) V) as (i & c & R & B & G); auto.
    { destruct l; [exfalso; apply NL; reflexivity|discriminate]. }
    exists linked, es, i, c. split; auto. split; auto. split; auto. split; auto. split; auto. intros x J. destruct (I3 x J); auto.
  Qed.

  (** Anything may be added. *)
  Lemma ask_right lo r hi : watch stage lo (p_min_and_max order) r hi ->
    exists least most, r = Ok (least, most) /\ 2 <= least <= Nat.max 2 most /\ length (comps (N (length cs))) <= most <= length (ids m0).
  Proof.
    intro W. unfold p_min_and_max in W. apply watch_bind in W as (r1 & n1 & W1 & W). assert (W1' := W1). apply (components_right m0 cs R0 AC) in W1 as (l & n2 & -> & L & _ & ND & C1 & C2 & _).
    assert (CO : forall c n x, component_of (run (firstn n (map as_wcall cs)) m0) x c -> In x c /\ In x (ids m0) /\ incl c K /\ incl c (comp_of (N (length cs)) x)).
    { intros c n x (Mx & Nc & H). change (run (firstn n (map as_wcall cs)) m0) with (N n) in *. assert (I := ListingThms.N_inv m0 cs R0 n). apply managed_ids in Mx.
      assert (L0 : forall y, In y c <-> In y (comp_of (N n) x)).
      { intro y. rewrite comp_of_In, H by auto. split.
        - intros [My Q]. apply managed_ids in My. apply inferred_spec in Q; auto. apply infer_ML in Q; auto.
        - intro Q. assert (Iy : In y (ids (N n))) by (rewrite <- (inv_keys _ I); eapply rep_linked_keys; [apply inv_rep; exact I|rewrite (inv_keys _ I); exact Mx|exact Q]).
          split; [apply managed_ids; auto|]. apply inferred_spec; auto. apply infer_ML; auto. }
      split; [apply L0, self_comp; auto|]. split; [rewrite <- (end_ids n); auto|]. split.
      - intros y J. apply H in J as [My _]. apply managed_ids in My. rewrite K_ids, <- (end_ids n). auto.
      - intros y J. apply L0 in J. unfold comp_of in *. destruct (dget x (ctrans (N n))) as [e|] eqn:E; [|destruct J].
        destruct (Nat.le_ge_cases n (length cs)) as [Le|Le].
        + destruct (N_below m0 cs R0 (adds cs AC) n (length cs) Le x e E) as (f & -> & Q & _). auto.
        + rewrite (N_end m0 cs n) in E by auto. rewrite E. auto. }
    assert (NL : l <> []).
    { destruct (ids m0) as [|x k] eqn:Q; [congruence|]. destruct (C2 x) as (n & c & _ & _ & J); [apply managed_ids; rewrite Q; left; auto|]. intros ->. destruct J. }
    apply rest_right in W as (linked & es & i & c & -> & B & _); auto.
    2:{ intros c J. destruct (C1 c J) as (n & x & _ & Q). apply CO in Q as (Q1 & Q2 & Q3 & _). split; auto. intros ->. destruct Q1. }
    eexists. eexists. split; [reflexivity|]. split; [split; [lia|auto]|]. split.
    - assert (F : incl (comps (N (length cs))) (map (fun d => comp_of (N (length cs)) (hd [] d)) l)).
      { intros d J. apply comps_In in J as (x & Ix & ->). rewrite end_ids in Ix. destruct (C2 x) as (n & d & _ & Q & J); [apply managed_ids; auto|]. apply in_map_iff. exists d. split; auto.
        apply CO in Q as (Q1 & _ & _ & Q4). apply comp_of_share; [apply ListingThms.N_inv; auto|rewrite end_ids; auto|]. apply Q4. destruct d; [destruct Q1|left; auto]. }
      apply NoDup_incl_length in F; [|apply comps_NoDup]. rewrite map_length in F. exact F.
    - unfold p_get_connected_components in W1'. apply watch_bind in W1' as (r2 & n3 & W2 & W1'). apply (read_keys m0 cs) in W2 as (_ & _ & ->). apply collect_length in W1'. cbn [length] in W1'. rewrite K_ids in W1'. lia.
  Qed.

  (** Nothing new is inferred as MUST_LINK. *)
  Hypothesis Q0 : no_new_links m0 (N (length cs)).
  Lemma still_linked n x y : In x (ids m0) -> In y (ids m0) -> linked (sml (N n)) x y -> linked (sml m0) x y.
  Proof.
    intros Ix Iy L. assert (I := ListingThms.N_inv m0 cs R0 n). assert (I0 := reachable_inv _ R0). assert (Ie := ListingThms.N_inv m0 cs R0 (length cs)).
    assert (Le : linked (sml (N (length cs))) x y).
    { destruct (Nat.le_ge_cases n (length cs)) as [Q|Q]; [|rewrite <- (N_end m0 cs n) by auto; auto].
      rewrite <- comp_of_In in * by (auto; rewrite end_ids; auto). unfold comp_of in *. destruct (dget x (ctrans (N n))) as [e|] eqn:E; [|destruct L].
      destruct (N_below m0 cs R0 (adds cs AC) n (length cs) Q x e E) as (f & -> & S & _). auto. }
    assert (H : inferred m0 x y (Some MUST_LINK)). { apply Q0. apply inferred_spec; rewrite ?end_ids; auto. apply infer_ML; rewrite ?end_ids; auto. }
    apply inferred_spec in H; auto. apply infer_ML in H; auto.
  Qed.
  Lemma quiet_rows n x : mlof (N n) x = mlof m0 x.
  Proof.
    revert x. induction n as [|n IH]; [reflexivity|]. intro x. destruct (nth_error cs n) as [c|] eqn:E.
    - destruct (at_call cs AC n c E) as (a & b & t & v & ->). assert (St := N_step m0 cs n _ E). assert (I := ListingThms.N_inv m0 cs R0 n). assert (I0 := reachable_inv _ R0). cbn [as_wcall] in St.
      assert (E2 : N (S n) = fst (alone (p_add_constraint a b t v) (N n))).
      { rewrite (N_step m0 cs n _ E), <- C145_alone_proof. cbn [p_wexec]. rewrite alone_bind. destruct (alone (p_add_constraint a b t v) (N n)) as [s1 [z|z]]; reflexivity. }
      destruct (accepts (N n) a b t) eqn:Ac.
      2:{ rewrite St. cbn [exec]. unfold bind. rewrite (run_add_constraint_raise _ _ _ _ _ I Ac). apply IH. }
      unfold accepts in Ac. rewrite !andb_true_iff in Ac. destruct Ac as [[B _] _]. apply both_true in B as [Ia Ib]. rewrite end_ids in Ia, Ib.
      assert (G : forall z, In z (ids m0) -> mlof (N n) z = Some (comp_of m0 z)).
      { intros z Iz. rewrite IH. unfold mlof, comp_of. rewrite <- (inv_keys _ I0) in Iz. destruct (dget_In_key _ _ Iz) as [e ->]. reflexivity. }
      destruct (moves_add a b t v (N n) _ _ (G a Ia) (G b Ib)) as [M _]. rewrite <- E2 in M. destruct (M x) as [->|H]; auto.
      assert (I1 := ListingThms.N_inv m0 cs R0 (S n)). assert (Ex : exists e, dget x (ctrans (N (S n))) = Some e /\ t_ml e = ounion (comp_of m0 a) (comp_of m0 b)).
      { unfold mlof in H. destruct (dget x (ctrans (N (S n)))) as [e|]; [|discriminate]. injection H as H. eauto. }
      destruct Ex as (e & Ee & Et). assert (Ix : In x (ids m0)) by (rewrite <- (end_ids (S n)), <- (inv_keys _ I1); eapply dget_Some_key; eauto).
      assert (Lx : forall z, In z (comp_of m0 a) \/ In z (comp_of m0 b) -> In z (ids m0) -> linked (sml m0) x z).
      { intros z J Iz. apply (still_linked (S n)); auto. apply (rep_ml _ _ _ (inv_rep _ I1) x e Ee). rewrite Et. apply ounion_In. auto. }
      assert (La := Lx a (or_introl (self_comp m0 a I0 Ia)) Ia). assert (Lb := Lx b (or_intror (self_comp m0 b I0 Ib)) Ib).
      assert (Ca : comp_of m0 a = comp_of m0 x) by (apply comp_of_share; auto; apply comp_of_In; auto). assert (Cb : comp_of m0 b = comp_of m0 x) by (apply comp_of_share; auto; apply comp_of_In; auto).
      rewrite H, Ca, Cb, <- (IH x), (G x Ix). f_equal. unfold ounion. rewrite <- app_nil_r. f_equal.
      apply filter_none. intros z J. apply negb_false_iff, mem_In. auto.
    - apply nth_error_None in E. rewrite (N_end m0 cs (S n)), <- (N_end m0 cs n) by lia. apply IH.
  Qed.
  Lemma quiet_collect k found lo r hi : incl k K -> watch stage lo (p_collect_components k found) r hi -> r = collect_components (ctrans m0) k found.
  Proof.
    revert lo found. induction k as [|x k IH]; intros lo found S W; cbn [p_collect_components collect_components] in *; [inversion W; subst; auto|].
    apply watch_bind in W as (r1 & n1 & W1 & W). apply watch_read in W1 as (L1 & s1 & (P1 & _ & _ & T1 & M1) & ->). assert (Jx : In x K) by (apply S; left; auto).
    destruct (entry_in m0 s1 x T1 Jx) as (e1 & E1 & _). unfold dlookup in *. rewrite E1 in W. cbn [rbind] in W.
    assert (Q : mlof s1 x = mlof m0 x) by (destruct (M1 x) as [->| ->]; apply quiet_rows). unfold mlof in Q. rewrite E1 in Q. destruct (dget x (ctrans m0)) as [e|]; [|discriminate]. cbn in Q. injection Q as Q.
    cbn [rbind]. rewrite <- Q. apply IH in W; auto. intros y J. apply S. right. auto.
  Qed.
  Lemma ask_quiet lo r hi : watch stage lo (p_min_and_max order) r hi ->
    exists least, r = Ok (least, length (comps m0)) /\ 2 <= least <= Nat.max 2 (length (comps m0)) /\ forall k, least <= k <= length (comps m0) -> feasible m0 k.
  Proof.
    intro W. assert (I0 := reachable_inv _ R0). unfold p_min_and_max in W. apply watch_bind in W as (r1 & n1 & W1 & W).
    unfold p_get_connected_components in W1. apply watch_bind in W1 as (r2 & n3 & W2 & W1). apply (read_keys m0 cs) in W2 as (_ & _ & ->). apply quiet_collect in W1; [|apply incl_refl].
    rewrite collect_run in W1 by apply incl_refl. rewrite K_ids in W1. subst r1. fold (comps m0) in W.
    assert (NL : comps m0 <> []).
    { destruct (ids m0) as [|x k] eqn:Q; [congruence|]. intro Z. assert (H : In (comp_of m0 x) (comps m0)) by (apply comps_In; exists x; rewrite Q; split; auto; left; auto). rewrite Z in H. destruct H. }
    apply rest_right in W as (linked & es & i & c & -> & B & G & I1 & I2 & E1 & E2); auto.
    2:{ intros d J. apply comps_In in J as (x & Ix & ->). split; [assert (S := self_comp m0 x I0 Ix); intro Z; rewrite Z in S; destruct S|].
        intros y J. apply comp_of_In in J; auto. eapply rep_linked_keys; [apply inv_rep; exact I0|rewrite (inv_keys _ I0); exact Ix|exact J]. }
    eexists. split; [reflexivity|]. split; [split; [lia|auto]|]. intros k Hk.
    set (g := make_graph (map (hd []) (comps m0)) es) in *. assert (ND : NoDup (g_nodes g)) by apply dedup_NoDup.
    pose (color := fun x => match dget (NIdx (index_of linked x)) (col order g i) with Some a => a | None => 0 end).
    destruct (extend_coloring m0 (Nat.max 2 (1 + c)) linked color (filter (fun x => negb (mem x linked)) (heads m0))) as (col' & B' & P'); auto.
    - lia.
    - intros x J. apply filter_In in J. tauto.
    - intros x J. apply filter_In in J as [J J']. apply negb_true_iff, mem_nIn in J'. destruct (I2 x J); tauto.
    - intros x J. unfold color. destruct (dget _ _) as [a|] eqn:Ea; [|lia]. apply G in Ea. lia.
    - intros u v Hu Hv Sp. assert (Iu : In u (ids m0)) by (apply heads_ids; auto). assert (Iv : In v (ids m0)) by (apply heads_ids; auto).
      assert (Hiu := index_of_nth _ _ Hu). assert (Hiv := index_of_nth _ _ Hv). unfold color. set (a := index_of linked u) in *. set (b := index_of linked v) in *.
      assert (Nab : a <> b). { intro E. rewrite E in Hiu. assert (u = v) by congruence. subst v. eapply rep_excl; eauto. apply linked_refl. }
      assert (E : In (Nat.min a b, Nat.max a b) es).
      { destruct (lt_dec a b) as [L|L].
        - replace (Nat.min a b) with a by lia. replace (Nat.max a b) with b by lia. apply (E2 a b u v); auto. apply cl_of_In; auto.
        - replace (Nat.min a b) with b by lia. replace (Nat.max a b) with a by lia. apply (E2 b a v u); auto; [lia|]. apply cl_of_In; auto. apply separated_sym; auto. }
      assert (Na : In (NIdx a) (g_nodes g) /\ In (NIdx b) (g_nodes g)).
      { unfold g, make_graph; cbn. rewrite !dedup_In, !in_app_iff, !in_flat_map. split; right; exists (Nat.min a b, Nat.max a b); (split; [exact E|]); cbn [fst snd In];
          destruct (Nat.max_spec a b) as [[? ->]|[? ->]]; destruct (Nat.min_spec a b) as [[? ->]|[? ->]]; auto; lia. }
      assert (A : adjacent g (NIdx a) (NIdx b) = true).
      { unfold adjacent. apply existsb_exists. exists (NIdx (Nat.min a b), NIdx (Nat.max a b)). split.
        - unfold g, make_graph; cbn [g_edges]. apply in_map_iff. exists (Nat.min a b, Nat.max a b). auto.
        - cbn [fst snd]. apply orb_true_iff. rewrite !andb_true_iff, !eqb_eq. destruct (Nat.max_spec a b) as [[? ->]|[? ->]]; destruct (Nat.min_spec a b) as [[? ->]|[? ->]]; auto; lia. }
      destruct (col_total order V g ND i _ (proj1 Na)) as (x & Ex). destruct (col_total order V g ND i _ (proj2 Na)) as (y & Ey). rewrite Ex, Ey.
      apply (proj1 (col_proper order V g ND i) (NIdx a) (NIdx b)); auto. congruence.
    - assert (Cov : forall x, In x (heads m0) -> In x (linked ++ filter (fun x => negb (mem x linked)) (heads m0))).
      { intros x J. apply in_app_iff. destruct (in_dec eq_dec_of x linked) as [M|M]; [left; auto|right]. apply filter_In. split; auto. apply negb_true_iff, mem_nIn. exact M. }
      apply (colored_feasible m0 (Nat.max 2 (1 + c)) col'); auto. lia.
  Qed.
End Asking.

(*PROP C161: asking alone, action by action, is the method. *)
Lemma C161_alone_proof : forall order m, alone (p_min_and_max order) m = get_min_and_max_number_of_clusters order m.
Proof.
  intros order m. unfold p_min_and_max, get_min_and_max_number_of_clusters. rewrite alone_bind. assert (C := C152_alone_proof LComponents m). cbn [p_lexec as_lcall exec] in C. rewrite alone_bind in C.
  assert (E : alone p_get_connected_components m = get_connected_components m).
  { revert C. unfold bind, ret. destruct (alone p_get_connected_components m) as [s [c|e]], (get_connected_components m) as [s' [c'|e']]; cbn; intro C; injection C; intros; subst; auto; discriminate. }
  assert (G : get_connected_components m = (m, collect_components (ctrans m) (keys (ctrans m)) [])).
  { unfold get_connected_components, bind, gets, lift. reflexivity. }
  rewrite E. unfold bind, gets, lift, ret. rewrite G. destruct (collect_components (ctrans m) (keys (ctrans m)) []) as [cs|e]; [|reflexivity].
  destruct (rmap head_of cs) as [ids|e]; cbn [alone pbind]; [|reflexivity].
  assert (CL : forall x, alone (p_cl x) m = (m, t <-- dlookup x (ctrans m) ;;; Ok (t_cl t))) by reflexivity.
  rewrite alone_bind, (alone_filter _ (fun x => t <-- dlookup x (ctrans m) ;;; Ok (1 <? length (t_cl t)))).
  2:{ intros x _. unfold p_is_linked. rewrite alone_bind, CL. destruct (dlookup x (ctrans m)); reflexivity. }
  fold (linked_components (ctrans m) ids). destruct (linked_components (ctrans m) ids) as [linked|e]; [|reflexivity].
  rewrite alone_bind. unfold p_cannot_link_edges. rewrite alone_bind.
  rewrite (alone_filter _ (fun e => let '(p, q) := e in if fst p <? fst q then t <-- dlookup (snd p) (ctrans m) ;;; Ok (mem (snd q) (t_cl t)) else Ok false)).
  2:{ intros [[i x] [j y]] _. cbn [fst snd]. destruct (i <? j); [|reflexivity]. rewrite alone_bind, CL. destruct (dlookup x (ctrans m)); reflexivity. }
  unfold cannot_link_edges. destruct (rfilter _ (list_prod _ _)) as [es|e]; [|reflexivity]. cbn [rbind alone]. unfold range_of.
  repeat (match goal with |- context [colors_used order ?i ?g] => destruct (colors_used order i g); [|reflexivity] end; cbn [rbind]). reflexivity.
Qed.
(*EX
(** A triangle of CANNOT_LINKs, one of its data in a pair of linked data. *)
Definition E := str "d".
Definition ex : mgr := run [CallAddConstraint A E MUST_LINK 1%Q; CallAddConstraint A B CANNOT_LINK 1%Q; CallAddConstraint B C CANNOT_LINK 1%Q] (init [A; B; C; E]).
Lemma ex_reachable : reachable ex. Proof. apply run_reachable. Qed.
Lemma ex_has_ids : has_ids ex. Proof. exists A. apply managed_ids. change (In A [A; B; C; E]). left. auto. Qed.
Example C161_alone_ex : snd (alone (p_min_and_max node_order) ex) = Ok (2, 3) /\
  snd (alone (p_min_and_max node_order) (run [CallAddConstraint E C CANNOT_LINK 1%Q] ex)) = Ok (3, 3).
Proof. split; vm_compute; reflexivity. Qed.
EX*)

(** Threads that ask, while one thread adds constraints. *)
Lemma asking_watched m cs orders m' r rs : reachable m -> Forall only_adds_constraints cs ->
  interleaved m (p_left (p_wsession cs) :: map (fun order => p_right (p_min_and_max order)) orders) m' (r :: rs) ->
  (m' = run (map as_wcall cs) m /\ r = Ok (inl (snd (one_by_one (map as_wcall cs) m)))) /\
  Forall2 (fun order x => exists r0 lo hi, x = match r0 with Ok v => Ok (inr v) | Raise e => Raise e end /\ watch (stage m cs) lo (p_min_and_max order) r0 hi) orders rs.
Proof.
  intros R AC J. destruct (stage_trail m cs R AC cs 0 eq_refl (Nat.le_0_l _)) as [e T]. assert (PE := trail_end _ _ _ _ _ T).
  destruct (silent_watch (stage m cs) m (p_left (p_wsession cs)) _ m' r rs 0 e J) as [E W].
  { apply Forall_forall. intros p Ip. apply in_map_iff in Ip as (order & <- & _). apply silent_bind; [|intro; exact I]. unfold p_min_and_max. apply silent_bind.
    - unfold p_get_connected_components. apply silent_bind; [cbn; auto|intro; apply silent_collect].
    - intro. apply silent_bind; [exact I|intro]. apply silent_bind; [apply silent_filter; intro; apply silent_bind; [cbn; auto|intro; exact I]|intro]. apply silent_bind; [|intro; exact I].
      unfold p_cannot_link_edges. apply silent_bind; [apply silent_filter; intro x; destruct (_ <? _); [apply silent_bind; [cbn; auto|intro; exact I]|exact I]|intro; exact I]. }
  { unfold p_left. eapply trail_bind; [exact T|]. rewrite alone_wsession in *. cbn. auto. }
  unfold p_left in E. rewrite alone_bind, alone_wsession in E. cbn [alone] in E. injection E as <- <-. split; auto.
  clear J T PE. revert rs W. induction orders as [|o os IH]; intros rs W; inversion W as [|? ? ? ? [hi Hw] W']; subst; constructor; auto.
  unfold p_right in Hw. apply watch_bind in Hw as (x & n1 & H1 & H2). exists x, 0, n1. split; auto. destruct x as [v|e0]; [inversion H2; subst; auto|destruct H2; auto].
Qed.

(*PROP C161: one thread adds constraints, any number of calls, and any number of other threads ask for the numbers of clusters. However their reads and writes are interleaved, the additions end as when
    they are made alone, and each thread gets a least and a largest number: the least is at least 2, and not above the largest when this is at least 2; the largest is at least the number of
    components at the end, and at most the number of data. What is missing: the feasibility of these numbers, see below. *)
Lemma C161_range_partial_proof : forall m cs orders m' r rs l n,
    reachable m -> has_ids m -> Forall only_adds_constraints cs -> Forall valid_orders orders ->
    interleaved m (p_left (p_wsession cs) :: map (fun order => p_right (p_min_and_max order)) orders) m' (r :: rs) ->
    ask get_list_of_managed_data_IDs m = Ok l -> nb_components m' n ->
    m' = run (map as_wcall cs) m /\ r = Ok (inl (snd (one_by_one (map as_wcall cs) m))) /\
    Forall (fun x => exists least most, x = Ok (inr (least, most)) /\ 2 <= least <= Nat.max 2 most /\ n <= most <= length l) rs.
Proof.
  intros m cs orders m' r rs l n R HI AC VO J El En. destruct (asking_watched m cs orders m' r rs R AC J) as ((E1 & E2) & W). split; auto. split; auto. clear J E2.
  assert (EN : m' = ReadersThms.N m cs (length cs)) by (rewrite E1; unfold ReadersThms.N; rewrite firstn_all2; auto; rewrite map_length; auto).
  apply nb_components_spec in En; [|rewrite EN; apply ListingThms.N_inv; auto]. unfold ask in El. rewrite run_managed in El. injection El as <-. apply has_ids_spec in HI. subst n. rewrite EN. clear EN E1.
  revert VO. induction W as [|o x os rs (r0 & lo & hi & -> & H1) W IH]; intro VO; constructor; inversion VO; subst; auto.
  apply (ask_right m cs R AC o) in H1 as (least & most & -> & B1 & B2); auto. exists least, most. auto.
Qed.
(*EX
Definition all_of_them (cs : list wcall) (m : mgr) : nat := length (states (p_wsession cs) m).
(** [a] and [c] are linked once [a], [b] and [c] are listed; the component of [d] is read later. *)
Definition news : list wcall := [WAdd A C MUST_LINK 1%Q].
Example C161_range_ex : Forall only_adds_constraints news /\
  exists m', interleaved ex [p_left (p_wsession news); p_right (p_min_and_max node_order)] m' [Ok (inl [Ok (VBool true)]); Ok (inr (2, 4))] /\ nb_components m' 2 /\ nb_components ex 3.
Proof.
  split; [repeat constructor|]. exists (run (map as_wcall news) ex). split; [apply (play_interleaved (repeat 1 4 ++ repeat 0 (all_of_them news ex) ++ repeat 1 5)); vm_compute; reflexivity|].
  split; eexists; (split; [vm_compute; reflexivity|reflexivity]).
Qed.
EX*)

(*PROP C161: when nothing new is inferred as MUST_LINK by the end of the additions, in particular when only CANNOT_LINK constraints are added, the largest number is the number of components, and
    every number in the range is feasible with the constraints known at the start. *)
Lemma C161_feasible_partial_proof : forall m cs orders m' r rs n,
    reachable m -> has_ids m -> Forall only_adds_constraints cs -> Forall valid_orders orders -> no_new_links m (run (map as_wcall cs) m) -> nb_components m n ->
    interleaved m (p_left (p_wsession cs) :: map (fun order => p_right (p_min_and_max order)) orders) m' (r :: rs) ->
    Forall (fun x => exists least, x = Ok (inr (least, n)) /\ 2 <= least <= Nat.max 2 n /\ forall k, least <= k <= n -> feasible m k) rs.
Proof.
  intros m cs orders m' r rs n R HI AC VO NL En J. destruct (asking_watched m cs orders m' r rs R AC J) as (_ & W). clear J.
  apply nb_components_spec in En; [|apply reachable_inv; auto]. apply has_ids_spec in HI. subst n.
  assert (NL' : no_new_links m (ReadersThms.N m cs (length cs))) by (unfold ReadersThms.N; rewrite firstn_all2 by (rewrite map_length; auto); exact NL).
  revert VO. induction W as [|o x os rs (r0 & lo & hi & -> & H1) W IH]; intro VO; constructor; inversion VO; subst; auto.
  apply (ask_quiet m cs R AC o) in H1 as (least & -> & B); auto. exists least. auto.
Qed.
(*EX
(** One more CANNOT_LINK, added when the components are known. *)
Definition apart : list wcall := [WAdd C E CANNOT_LINK 1%Q].
Example C161_feasible_ex : Forall only_adds_constraints apart /\ no_new_links ex (run (map as_wcall apart) ex) /\ nb_components ex 3 /\
  exists m', interleaved ex [p_left (p_wsession apart); p_right (p_min_and_max node_order)] m' [Ok (inl [Ok (VBool true)]); Ok (inr (3, 3))].
Proof.
  split; [repeat constructor|]. split; [apply C154_cannot_links_partial; [apply ex_reachable|repeat constructor]|]. split; [eexists; split; [vm_compute; reflexivity|reflexivity]|].
  eexists. apply (play_interleaved (repeat 1 5 ++ repeat 0 (all_of_them apart ex) ++ repeat 1 6)). vm_compute. reflexivity.
Qed.
EX*)

(*PROP C161: in general the largest number is not feasible, neither with the constraints at the start nor with those at the end: with one MUST_LINK added meanwhile, a thread can count one component
    before and after it was merged. *)
Lemma C161_feasible_refuted_proof : exists m cs order m' r least most,
    reachable m /\ has_ids m /\ Forall only_adds_constraints cs /\ valid_orders order /\
    interleaved m [p_left (p_wsession cs); p_right (p_min_and_max order)] m' [r; Ok (inr (least, most))] /\
    ~ feasible m most /\ ~ feasible m' most.
Proof.
  set (A := str "a"). set (B := str "b"). set (Ck := str "c").
  pose (m := run [CallAddConstraint A Ck MUST_LINK 1%Q] (init [A; B; Ck])). pose (cs := [WAdd A B MUST_LINK 1%Q]). pose (order := fun (i : nat) (g : graph) => g_nodes g).
  exists m, cs, order, (run (map as_wcall cs) m), (Ok (inl [Ok (VBool true)])), 2, 3. assert (R : reachable m) by apply run_reachable.
  split; auto. split; [exists A; apply managed_ids; change (In A [A; B; Ck]); left; auto|]. split; [repeat constructor|]. split; [intros i g; apply Permutation_refl|].
  split; [apply (play_interleaved (repeat 1 3 ++ repeat 0 (length (states (p_wsession cs) m)) ++ repeat 1 4)); vm_compute; reflexivity|].
  split; intro F; apply feasible_le in F; try (apply reachable_inv; auto; apply run_reachable).
  - vm_compute in F. lia.
  - vm_compute in F. lia.
  - change (run (map as_wcall cs) m) with (run ([CallAddConstraint A Ck MUST_LINK 1%Q] ++ map as_wcall cs) (init [A; B; Ck])). apply reachable_inv, run_reachable.
Qed.
