(** * Proofs about [get_min_and_max_number_of_clusters] (C15-C18). *)

From Coq Require Import List Bool Arith NArith QArith Lia Permutation.
From Coq Require Import String.
From Verif Require Import Base Manager Spec Closure ManagerProofs ManagerInv ManagerQueries ManagerSem ManagerThms MinMax.
Import List.
Import ListNotations.
Open Scope nat_scope.
Open Scope py_scope.

(** ** Greedy colouring *)
Lemma first_free_spec used : forall fuel c,
  ~ In (first_free fuel c used) used \/ (forall i, c <= i < c + fuel -> In i used).
Proof.
  induction fuel as [|n IH]; intro c; simpl.
  - right. intros i H. lia.
  - destruct (mem c used) eqn:E.
    + apply mem_In in E. destruct (IH (S c)) as [H|H]; auto. right. intros i Hi.
      destruct (Nat.eq_dec i c); [subst; auto|apply H; lia].
    + left. apply mem_nIn; auto.
Qed.

Lemma first_free_fresh used : ~ In (first_free (S (length used)) 0 used) used.
Proof.
  destruct (first_free_spec used (S (length used)) 0) as [H|H]; auto. exfalso.
  assert (K : incl (seq 0 (S (length used))) used).
  { intros i Hi. apply in_seq in Hi. apply H. lia. }
  apply NoDup_incl_length in K; [|apply seq_NoDup]. rewrite seq_length in K. lia.
Qed.

Lemma adjacent_sym g u v : adjacent g u v = adjacent g v u.
Proof.
  unfold adjacent. induction (g_edges g) as [|e l IH]; simpl; auto. rewrite IH. f_equal. apply orb_comm.
Qed.

Definition proper (g : graph) (D : dict node nat) : Prop :=
  forall u v a b, u <> v -> adjacent g u v = true -> dget u D = Some a -> dget v D = Some b -> a <> b.

Lemma greedy_step_proper g D u : ~ In u (keys D) -> proper g D ->
  proper g (greedy_step g D u) /\ keys (greedy_step g D u) = keys D ++ [u].
Proof.
  intros N P. unfold greedy_step.
  set (used := map snd (filter (fun e => adjacent g u (fst e)) D)).
  assert (F := first_free_fresh used). set (c := first_free _ 0 used) in *. clearbody c.
  split; [|apply keys_dset_out; auto].
  assert (U : forall v b, adjacent g u v = true -> dget v D = Some b -> In b used).
  { intros v b A E. apply in_map_iff. exists (v, b). split; auto. apply filter_In. split; auto. apply dget_In; auto. }
  intros x y a b NE A Ex Ey. rewrite dget_dset in Ex, Ey.
  destruct (eqb_spec x u), (eqb_spec y u); subst; try congruence.
  - inversion Ex. intro E. apply F. rewrite H0, E. exact (U y b A Ey).
  - inversion Ey. intro E. apply F. rewrite H0, <- E. rewrite adjacent_sym in A. exact (U x a A Ex).
  - exact (P x y a b NE A Ex Ey).
Qed.

Lemma greedy_proper g l : forall D, NoDup (keys D ++ l) -> proper g D ->
  proper g (fold_left (greedy_step g) l D) /\ keys (fold_left (greedy_step g) l D) = keys D ++ l.
Proof.
  induction l as [|u l IH]; intros D N P; simpl.
  - rewrite app_nil_r. auto.
  - assert (Nu : ~ In u (keys D)).
    { apply NoDup_remove_2 in N. rewrite in_app_iff in N. tauto. }
    destruct (greedy_step_proper g D u Nu P) as [P' K].
    destruct (IH (greedy_step g D u)) as [P'' K']; auto.
    + rewrite K, <- app_assoc. auto.
    + split; auto. rewrite K', K, <- app_assoc. auto.
Qed.

Lemma fold_max_ge l : forall x y, y = x \/ In y l -> y <= fold_left Nat.max l x.
Proof.
  induction l as [|z l IH]; simpl; intros x y H.
  - destruct H as [->|[]]. lia.
  - destruct H as [->|[->|H]].
    + etransitivity; [|apply IH; left; reflexivity]. lia.
    + etransitivity; [|apply IH; left; reflexivity]. lia.
    + apply IH. auto.
Qed.

Lemma fold_max_in l : forall x, fold_left Nat.max l x = x \/ In (fold_left Nat.max l x) l.
Proof.
  induction l as [|z l IH]; simpl; intro x; auto.
  destruct (IH (Nat.max x z)) as [E|E]; auto. rewrite E.
  destruct (Nat.max_spec x z) as [[_ ->]|[_ ->]]; auto.
Qed.

Lemma py_max_spec l : l <> [] -> exists c, py_max l = Ok c /\ In c l /\ forall y, In y l -> y <= c.
Proof.
  destruct l as [|x l]; [congruence|]. intros _. simpl. eexists. split; [reflexivity|]. split.
  - destruct (fold_max_in l x) as [->|H]; auto.
  - intros y H. apply fold_max_ge. destruct H; auto.
Qed.

(** ** Running the method *)
Lemma rfilter_pure {A} (f : A -> res bool) g l : (forall x, In x l -> f x = Ok (g x)) -> rfilter f l = Ok (filter g l).
Proof.
  induction l as [|x l IH]; simpl; intro H; auto.
  rewrite (H x) by auto. simpl. rewrite IH by auto. simpl. destruct (g x); auto.
Qed.

Lemma rmap_pure {A B} (f : A -> res B) g l : (forall x, In x l -> f x = Ok (g x)) -> rmap f l = Ok (map g l).
Proof.
  induction l as [|x l IH]; simpl; intro H; auto.
  rewrite (H x) by auto. simpl. rewrite IH by auto. auto.
Qed.

Definition rep_of (m : mgr) (x : pystr) : pystr := hd [] (comp_of m x).
Definition heads (m : mgr) : list pystr := map (hd []) (comps m).
Definition kept (m : mgr) : list pystr := filter (fun x => 1 <? length (cl_of m x)) (heads m).
Definition edges (m : mgr) : list (nat * nat) :=
  map (fun e => (fst (fst e), fst (snd e)))
    (filter (fun e => (fst (fst e) <? fst (snd e)) && mem (snd (snd e)) (cl_of m (snd (fst e))))
       (list_prod (enumerate (kept m)) (enumerate (kept m)))).
Definition the_graph (m : mgr) : graph := make_graph (heads m) (edges m).

Lemma rep_of_spec m x : Inv m -> In x (ids m) -> In (rep_of m x) (comp_of m x).
Proof.
  intros I Ix. unfold rep_of. assert (S := self_comp m x I Ix). destruct (comp_of m x); [destruct S|left; auto].
Qed.

Lemma rep_of_linked m x : Inv m -> In x (ids m) -> linked (sml m) x (rep_of m x).
Proof. intros I Ix. apply comp_of_In; auto. apply rep_of_spec; auto. Qed.

Lemma rep_of_ids m x : Inv m -> In x (ids m) -> In (rep_of m x) (ids m).
Proof. intros I Ix. eapply linked_ids; eauto. apply rep_of_linked; auto. Qed.

Lemma rep_of_eq m x y : Inv m -> In x (ids m) -> In y (ids m) ->
  rep_of m x = rep_of m y <-> linked (sml m) x y.
Proof.
  intros I Ix Iy. split.
  - intro E. eapply linked_trans; [apply rep_of_linked; auto|]. rewrite E. apply linked_sym, rep_of_linked; auto.
  - intro L. unfold rep_of. rewrite (comp_of_share m x y I Ix); auto. apply comp_of_In; auto.
Qed.

Lemma heads_In m h : Inv m -> (In h (heads m) <-> exists x, In x (ids m) /\ h = rep_of m x).
Proof.
  intro I. unfold heads. rewrite in_map_iff. split.
  - intros (c & <- & H). apply comps_In in H. destruct H as (x & Ix & ->). exists x. auto.
  - intros (x & Ix & ->). exists (comp_of m x). split; auto. apply comps_In. exists x. auto.
Qed.

Lemma heads_ids m h : Inv m -> In h (heads m) -> In h (ids m).
Proof. intros I H. apply heads_In in H; auto. destruct H as (x & Ix & ->). apply rep_of_ids; auto. Qed.

Lemma NoDup_map_on {A B} (f : A -> B) l : NoDup l ->
  (forall x y, In x l -> In y l -> f x = f y -> x = y) -> NoDup (map f l).
Proof.
  induction l as [|c l IH]; simpl; intros N Inj. constructor. inversion N; subst. constructor.
  - intro H. apply in_map_iff in H. destruct H as (c' & E & H). assert (c' = c) by (apply Inj; auto). subst. tauto.
  - apply IH; auto.
Qed.

Lemma heads_NoDup m : Inv m -> NoDup (heads m).
Proof.
  intro I. apply NoDup_map_on; [apply comps_NoDup|].
  intros c1 c2 H1 H2 E. apply comps_In in H1 as (x & Ix & E1). apply comps_In in H2 as (y & Iy & E2). subst c1 c2.
  fold (rep_of m x) (rep_of m y) in E. apply rep_of_eq in E; auto. symmetry. apply comp_of_share; auto. apply comp_of_In; auto.
Qed.

Lemma heads_rep m h : Inv m -> In h (heads m) -> rep_of m h = h.
Proof.
  intros I H. apply heads_In in H; auto. destruct H as (x & Ix & ->).
  apply rep_of_eq; auto. apply rep_of_ids; auto. apply linked_sym, rep_of_linked; auto.
Qed.

Lemma dlookup_trans m x : Inv m -> In x (ids m) -> exists t, dlookup x (ctrans m) = Ok t /\ t_cl t = cl_of m x.
Proof.
  intros I Ix. rewrite <- (inv_keys m I) in Ix. apply dget_In_key in Ix. destruct Ix as (t & E).
  exists t. unfold dlookup, cl_of. rewrite E. auto.
Qed.

Lemma enumerate_In {A} (l : list A) i x : In (i, x) (enumerate l) <-> nth_error l i = Some x.
Proof.
  unfold enumerate.
  assert (H : forall s, In (i, x) (combine (seq s (length l)) l) <-> s <= i /\ nth_error l (i - s) = Some x).
  { induction l as [|y l IH]; intro s; simpl.
    - split; [tauto|]. intros [_ E]. destruct (i - s); discriminate.
    - rewrite IH. split.
      + intros [E|[H E]].
        * inversion E; subst. split; auto. rewrite Nat.sub_diag. auto.
        * split; [lia|]. replace (i - s) with (S (i - S s)) by lia. auto.
      + intros [H E]. destruct (Nat.eq_dec i s).
        * subst. rewrite Nat.sub_diag in E. simpl in E. left. congruence.
        * right. split; [lia|]. replace (i - s) with (S (i - S s)) in E by lia. auto. }
  rewrite H. rewrite Nat.sub_0_r. split; [tauto|]. split; [lia|auto].
Qed.

Section Orders.
  Variable order : nat -> graph -> list node.

  Definition tail_of (m : mgr) : mgr * res (nat * nat) :=
    (c0 <- lift (colors_used order 0 (the_graph m)) ;;
     c1 <- lift (colors_used order 1 (the_graph m)) ;;
     c2 <- lift (colors_used order 2 (the_graph m)) ;;
     c3 <- lift (colors_used order 3 (the_graph m)) ;;
     c4 <- lift (colors_used order 4 (the_graph m)) ;;
     ret (Nat.max 2 (1 + Nat.min (Nat.min (Nat.min (Nat.min c0 c1) c2) c3) c4), length (comps m))) m.

  Lemma run_minmax m : Inv m -> get_min_and_max_number_of_clusters order m = tail_of m.
  Proof.
    intro I. unfold get_min_and_max_number_of_clusters. unfold bind at 1. rewrite run_components by auto.
    unfold bind at 1, lift at 1.
    rewrite (rmap_pure head_of (hd [])).
    2:{ intros c H. apply comps_In in H. destruct H as (x & Ix & ->).
        assert (S := self_comp m x I Ix). destruct (comp_of m x); [destruct S|reflexivity]. }
    match goal with |- context[map ?f (comps m)] => change (map f (comps m)) with (heads m) end.
    unfold bind at 1, gets at 1. unfold bind at 1, lift at 1.
    assert (E1 : linked_components (ctrans m) (heads m) = Ok (kept m)).
    { unfold linked_components, kept. apply rfilter_pure. intros x H. apply heads_ids in H; auto.
      destruct (dlookup_trans m x I H) as (t & -> & E). simpl. rewrite E. auto. }
    rewrite E1. unfold bind at 1, gets at 1. unfold bind at 1, lift at 1.
    assert (E2 : cannot_link_edges (ctrans m) (kept m) = Ok (edges m)).
    { unfold cannot_link_edges.
      rewrite (rfilter_pure _ (fun e => (fst (fst e) <? fst (snd e)) && mem (snd (snd e)) (cl_of m (snd (fst e))))).
      - reflexivity.
      - intros [[i x] [j y]] H. simpl. apply in_prod_iff in H. destruct H as [H1 _].
        apply enumerate_In in H1. apply nth_error_In in H1. unfold kept in H1. apply filter_In in H1.
        destruct H1 as [H1 _]. apply heads_ids in H1; auto. destruct (i <? j); auto.
        destruct (dlookup_trans m x I H1) as (t & -> & E). simpl. rewrite E. auto. }
    rewrite E2. reflexivity.
  Qed.

  Hypothesis order_perm : forall i g, Permutation (order i g) (g_nodes g).

  Lemma order_nodup i m : NoDup (order i (the_graph m)).
  Proof.
    eapply Permutation_NoDup; [apply Permutation_sym, order_perm|]. apply dedup_NoDup.
  Qed.

  Definition coloring (i : nat) (m : mgr) : dict node nat := greedy_color (the_graph m) (order i (the_graph m)).

  Lemma coloring_proper i m : proper (the_graph m) (coloring i m) /\ keys (coloring i m) = order i (the_graph m).
  Proof.
    unfold coloring, greedy_color. apply greedy_proper.
    - apply order_nodup.
    - intros u v a b _ _ E. discriminate E.
  Qed.

  Lemma coloring_total i m u : In u (g_nodes (the_graph m)) -> exists a, dget u (coloring i m) = Some a.
  Proof.
    intro H. apply dget_In_key. rewrite (proj2 (coloring_proper i m)).
    eapply Permutation_in; [apply Permutation_sym, order_perm|]; auto.
  Qed.

  Lemma colors_used_ok i m : ids m <> [] -> Inv m ->
    exists c, colors_used order i (the_graph m) = Ok c /\ (forall u a, dget u (coloring i m) = Some a -> a <= c)
      /\ exists u, dget u (coloring i m) = Some c.
  Proof.
    intros N I. unfold colors_used. fold (coloring i m).
    destruct (py_max_spec (vals (coloring i m))) as (c & E & Hc & H).
    - intro E. destruct (ids m) as [|x l] eqn:Q; [congruence|].
      assert (Hx : In (NId (rep_of m x)) (g_nodes (the_graph m))).
      { unfold the_graph, make_graph. simpl. apply dedup_In. apply in_app_iff. left. apply in_map.
        apply heads_In; auto. exists x. rewrite Q. split; auto. left; auto. }
      destruct (coloring_total i m _ Hx) as (a & Ea). apply dget_In in Ea.
      assert (In a (vals (coloring i m))) by (apply (in_map snd) in Ea; exact Ea). rewrite E in *. auto.
    - exists c. split; auto. split.
      + intros u a Ea. apply H. apply dget_In in Ea. apply (in_map snd) in Ea. exact Ea.
      + apply in_map_iff in Hc. destruct Hc as ((u, a) & Ea & Hc). simpl in Ea. subst a. exists u.
        apply In_dget; auto. rewrite (proj2 (coloring_proper i m)). apply order_nodup.
  Qed.

  (** The range is (max 2 (1 + colours of one of the five colourings), #components). *)
  Lemma minmax_result m : Inv m -> ids m <> [] ->
    exists i c, get_min_and_max_number_of_clusters order m = (m, Ok (Nat.max 2 (1 + c), length (comps m))) /\
      (forall u a, dget u (coloring i m) = Some a -> a <= c) /\ exists u, dget u (coloring i m) = Some c.
  Proof.
    intros I N. rewrite run_minmax by auto. unfold tail_of, bind, lift, ret.
    destruct (colors_used_ok 0 m N I) as (c0 & -> & H0). destruct (colors_used_ok 1 m N I) as (c1 & -> & H1).
    destruct (colors_used_ok 2 m N I) as (c2 & -> & H2). destruct (colors_used_ok 3 m N I) as (c3 & -> & H3).
    destruct (colors_used_ok 4 m N I) as (c4 & -> & H4).
    assert (C : Nat.min (Nat.min (Nat.min (Nat.min c0 c1) c2) c3) c4 = c0 \/ Nat.min (Nat.min (Nat.min (Nat.min c0 c1) c2) c3) c4 = c1
       \/ Nat.min (Nat.min (Nat.min (Nat.min c0 c1) c2) c3) c4 = c2 \/ Nat.min (Nat.min (Nat.min (Nat.min c0 c1) c2) c3) c4 = c3
       \/ Nat.min (Nat.min (Nat.min (Nat.min c0 c1) c2) c3) c4 = c4) by lia.
    destruct C as [E|[E|[E|[E|E]]]]; rewrite E; [exists 0, c0|exists 1, c1|exists 2, c2|exists 3, c3|exists 4, c4]; auto.
  Qed.

  (** ** A colouring of all components with the colours of the kept ones *)
  Definition adj (m : mgr) (u v : pystr) : bool := mem v (cl_of m u).

  Lemma adj_spec m u v : Inv m -> In u (ids m) -> adj m u v = true <-> separated (sml m) (scl m) u v.
  Proof. intros I Iu. unfold adj. rewrite mem_In. apply cl_of_In; auto. Qed.

  Definition index_of (l : list pystr) (x : pystr) : nat := first_pos (fun y => eqb x y) l.

  Lemma index_of_nth l x : In x l -> nth_error l (index_of l x) = Some x.
  Proof.
    intro H. destruct (first_pos_hit (fun y => eqb x y) l) as (y & E & Q & _).
    - exists x. split; auto. apply eqb_refl.
    - apply eqb_eq in Q. subst. exact E.
  Qed.

  Definition kept_color (i : nat) (m : mgr) (x : pystr) : nat :=
    match dget (NIdx (index_of (kept m) x)) (coloring i m) with Some a => a | None => 0 end.

  Lemma kept_proper i m u v : Inv m -> In u (kept m) -> In v (kept m) -> separated (sml m) (scl m) u v ->
    kept_color i m u <> kept_color i m v.
  Proof.
    intros I Hu Hv S.
    assert (Iu : In u (ids m)) by (apply heads_ids; auto; unfold kept in Hu; apply filter_In in Hu; tauto).
    assert (Iv : In v (ids m)) by (apply heads_ids; auto; unfold kept in Hv; apply filter_In in Hv; tauto).
    assert (Hiu := index_of_nth _ _ Hu). assert (Hiv := index_of_nth _ _ Hv).
    set (a := index_of (kept m) u) in *. set (b := index_of (kept m) v) in *.
    assert (Nab : a <> b).
    { intro E. rewrite E in Hiu. assert (u = v) by congruence. subst v. eapply rep_excl; eauto. apply linked_refl. }
    assert (E : In (Nat.min a b, Nat.max a b) (edges m)).
    { unfold edges. apply in_map_iff. destruct (lt_dec a b) as [L|L].
      - exists ((a, u), (b, v)). split; [simpl; f_equal; lia|]. apply filter_In. split.
        + apply in_prod; apply enumerate_In; auto.
        + simpl. apply andb_true_iff. split; [apply Nat.ltb_lt; lia|]. apply mem_In, cl_of_In; auto.
      - exists ((b, v), (a, u)). split; [simpl; f_equal; lia|]. apply filter_In. split.
        + apply in_prod; apply enumerate_In; auto.
        + simpl. apply andb_true_iff. split; [apply Nat.ltb_lt; lia|]. apply mem_In, cl_of_In; auto. apply separated_sym; auto. }
    assert (Na : In (NIdx a) (g_nodes (the_graph m)) /\ In (NIdx b) (g_nodes (the_graph m))).
    { unfold the_graph, make_graph; simpl. rewrite !dedup_In, !in_app_iff, !in_flat_map.
      split; right; exists (Nat.min a b, Nat.max a b); (split; [exact E|]); simpl;
        destruct (Nat.max_spec a b) as [[? ->]|[? ->]]; destruct (Nat.min_spec a b) as [[? ->]|[? ->]]; auto; lia. }
    assert (A : adjacent (the_graph m) (NIdx a) (NIdx b) = true).
    { unfold adjacent. apply existsb_exists. exists (NIdx (Nat.min a b), NIdx (Nat.max a b)). split.
      - unfold the_graph, make_graph; simpl. apply in_map_iff. exists (Nat.min a b, Nat.max a b). auto.
      - simpl. apply orb_true_iff. rewrite !andb_true_iff, !eqb_eq.
        destruct (Nat.max_spec a b) as [[? ->]|[? ->]]; destruct (Nat.min_spec a b) as [[? ->]|[? ->]]; auto; lia. }
    destruct (coloring_total i m _ (proj1 Na)) as (x & Ex). destruct (coloring_total i m _ (proj2 Na)) as (y & Ey).
    unfold kept_color. fold a b. rewrite Ex, Ey.
    apply (proj1 (coloring_proper i m) (NIdx a) (NIdx b)); auto. congruence.
  Qed.

  (** Extending a colouring to vertices with at most one neighbour. *)
  Lemma extend_coloring (m : mgr) (L : nat) (K : list pystr) (c : pystr -> nat) (D : list pystr) :
    2 <= L -> Inv m -> incl K (heads m) -> incl D (heads m) ->
    (forall x, In x D -> length (cl_of m x) <= 1) ->
    (forall x, In x K -> c x < L) ->
    (forall x y, In x K -> In y K -> separated (sml m) (scl m) x y -> c x <> c y) ->
    exists c', (forall x, In x (K ++ D) -> c' x < L) /\
      (forall x y, In x (K ++ D) -> In y (K ++ D) -> separated (sml m) (scl m) x y -> c' x <> c' y).
  Proof.
    intros HL I HK HD. revert K c HK. induction D as [|d D IH]; intros K c HK Deg Bd Pr.
    - rewrite app_nil_r. exists c. auto.
    - assert (Id : In d (heads m)) by (apply HD; left; auto). assert (Id' := heads_ids m d I Id).
      destruct (in_dec (eq_dec_of) d K) as [Hd|Hd].
      + destruct (IH (fun x H => HD x (or_intror H)) K c HK) as (c' & B' & P').
        * intros x H. apply Deg. right; auto.
        * auto.
        * auto.
        * exists c'. split.
          -- intros x H. apply B'. rewrite in_app_iff in *. simpl in H. intuition. subst; auto.
          -- intros x y H1 H2. apply P'; rewrite in_app_iff in *; simpl in *; intuition; subst; auto.
      + set (k := match cl_of m d with n :: _ => if Nat.eqb (c n) 0 then 1 else 0 | [] => 0 end).
        set (c1 := fun x => if eqb d x then k else c x).
        destruct (IH (fun x H => HD x (or_intror H)) (d :: K) c1) as (c' & B' & P').
        * intros x [->|H]; auto.
        * intros x H. apply Deg. right; auto.
        * intros x H. unfold c1. destruct (eqb_spec d x).
          -- unfold k. destruct (cl_of m d); [lia|]. destruct (Nat.eqb (c p) 0); lia.
          -- apply Bd. destruct H; [congruence|auto].
        * assert (Nb : forall y, In y K -> separated (sml m) (scl m) d y -> k <> c y).
          { intros y Hy S. apply cl_of_In in S; auto. assert (L1 := Deg d (or_introl eq_refl)). unfold k.
            destruct (cl_of m d) as [|n [|n' l]]; [destruct S| |simpl in L1; lia].
            destruct S as [->|[]]. destruct (Nat.eqb_spec (c y) 0); lia. }
          intros x y Hx Hy S. unfold c1. destruct (eqb_spec d x), (eqb_spec d y); subst.
          -- exfalso. eapply (rep_excl m y y); eauto. apply linked_refl.
          -- apply Nb; auto. destruct Hy; [congruence|auto].
          -- apply not_eq_sym. apply Nb; [destruct Hx; [congruence|auto]|]. apply separated_sym; auto.
          -- apply Pr; auto; [destruct Hx|destruct Hy]; auto; congruence.
        * exists c'. split.
          -- intros x H. apply B'. rewrite in_app_iff in *. simpl in *. intuition.
          -- intros x y H1 H2. apply P'; rewrite in_app_iff in *; simpl in *; intuition.
  Qed.

  Lemma component_coloring m : Inv m -> ids m <> [] ->
    exists lo col, get_min_and_max_number_of_clusters order m = (m, Ok (lo, length (comps m))) /\ 2 <= lo /\
      (forall x, In x (heads m) -> col x < lo) /\
      (forall x y, In x (heads m) -> In y (heads m) -> separated (sml m) (scl m) x y -> col x <> col y).
  Proof.
    intros I N. destruct (minmax_result m I N) as (i & c & E & Bd & _).
    destruct (extend_coloring m (Nat.max 2 (1 + c)) (kept m) (kept_color i m)
               (filter (fun x => negb (1 <? length (cl_of m x))) (heads m))) as (col & B & P).
    - lia.
    - auto.
    - intros x H. apply filter_In in H. tauto.
    - intros x H. apply filter_In in H. tauto.
    - intros x H. apply filter_In in H. destruct H as [_ H]. apply negb_true_iff, Nat.ltb_ge in H. auto.
    - intros x H. unfold kept_color. destruct (dget (NIdx (index_of (kept m) x)) (coloring i m)) as [a|] eqn:Ea; [|lia].
      apply Bd in Ea. lia.
    - intros x y Hx Hy. apply kept_proper; auto.
    - exists (Nat.max 2 (1 + c)), col. split; auto. split; [lia|].
      assert (Cov : forall x, In x (heads m) -> In x (kept m ++ filter (fun x => negb (1 <? length (cl_of m x))) (heads m))).
      { intros x H. apply in_app_iff. unfold kept. rewrite !filter_In. destruct (1 <? length (cl_of m x)); auto. }
      split; auto.
  Qed.
End Orders.

(** ** Counting *)
Lemma nb_le ids f l : (forall x, In x ids -> In (f x) l) -> nb_of_clusters ids f <= length l.
Proof.
  intro H. unfold nb_of_clusters. apply NoDup_incl_length; [apply NoDup_nodup|].
  intros y Hy. apply nodup_In in Hy. apply in_map_iff in Hy. destruct Hy as (x & <- & Hx). auto.
Qed.

Lemma nb_ext ids f g : (forall x, In x ids -> f x = g x) -> nb_of_clusters ids f = nb_of_clusters ids g.
Proof. intro H. unfold nb_of_clusters. f_equal. f_equal. apply map_ext_in. auto. Qed.

Lemma nb_step ids f g z : (forall x, In x ids -> g x = f x \/ g x = z) -> nb_of_clusters ids g <= S (nb_of_clusters ids f).
Proof.
  intro H. change (S (nb_of_clusters ids f)) with (length (z :: nodup Nat.eq_dec (map f ids))). apply nb_le.
  intros x Hx. destruct (H x Hx) as [E|E]; rewrite E; simpl; auto. right. apply nodup_In. apply in_map; auto.
Qed.

(** A labelling that respects the constraints has at most as many clusters as components. *)
Lemma nb_max m f : Inv m -> satisfies (added_must m) (added_cannot m) f -> nb_of_clusters (ids m) f <= length (comps m).
Proof.
  intros I S. rewrite <- (map_length (fun c => f (hd [] c))). apply nb_le. intros x Hx.
  apply in_map_iff. exists (comp_of m x). split.
  - symmetry. eapply sat_linked; eauto. apply (rep_of_linked m x I Hx).
  - apply comps_In. exists x. auto.
Qed.

(** Labelling by components. *)
Lemma nb_comp_label m : Inv m -> nb_of_clusters (ids m) (comp_label m) = length (comps m).
Proof.
  intro I. apply Nat.le_antisymm; [apply nb_max; auto; apply comp_label_satisfies; auto|].
  replace (length (comps m)) with (length (map (comp_label m) (heads m))) by (unfold heads; rewrite !map_length; auto).
  unfold nb_of_clusters. apply NoDup_incl_length.
  - apply NoDup_map_on; [apply heads_NoDup; auto|]. intros x y Hx Hy E.
    assert (Ix := heads_ids m x I Hx). assert (Iy := heads_ids m y I Hy).
    apply comp_label_eq in E; auto. apply rep_of_eq in E; auto. rewrite !heads_rep in E; auto.
  - intros y H. apply in_map_iff in H. destruct H as (x & <- & H). apply nodup_In. apply in_map. apply heads_ids; auto.
Qed.

(** Discrete intermediate values. *)
Lemma intermediate (u : nat -> nat) n k : u 0 <= k -> k <= u n -> (forall i, i < n -> u (S i) <= S (u i)) ->
  exists i, i <= n /\ u i = k.
Proof.
  induction n as [|n IH]; intros H0 Hn St.
  - exists 0. split; auto. lia.
  - destruct (le_dec k (u n)) as [L|L].
    + destruct IH as (i & Hi & E); auto. exists i. auto.
    + exists (S n). split; auto. assert (H := St n ltac:(lia)). lia.
Qed.

Lemma comp_label_lt m x : Inv m -> In x (ids m) -> comp_label m x < length (ids m).
Proof.
  intros I Ix. unfold comp_label.
  match goal with |- first_pos ?p ?l < _ => destruct (first_pos_hit p l) as (y & E & _) end.
  - exists x. split; auto. apply is_ML; auto. apply linked_refl.
  - apply nth_error_Some. rewrite E. discriminate.
Qed.

Definition fresh_label (l : list pystr) (f : pystr -> nat) : nat := S (fold_left Nat.max (map f l) 0).

Lemma fresh_label_gt l f x : In x l -> f x < fresh_label l f.
Proof. intro H. unfold fresh_label. apply Nat.lt_succ_r. apply fold_max_ge. right. apply in_map; auto. Qed.

Definition split_label (m : mgr) (f : pystr -> nat) (i : nat) (x : pystr) : nat :=
  if comp_label m x <? i then fresh_label (ids m) f + comp_label m x else f x.

Lemma split_label_satisfies m f i : Inv m -> satisfies (added_must m) (added_cannot m) f ->
  satisfies (added_must m) (added_cannot m) (split_label m f i).
Proof.
  intros I [S1 S2]. destruct (comp_label_satisfies m I) as [L1 L2]. split; intros x y H; unfold split_label.
  - rewrite (L1 x y H). rewrite (S1 x y H). auto.
  - destruct (added_ids m _ x y I H) as [Ix Iy].
    assert (Fx := fresh_label_gt (ids m) f x Ix). assert (Fy := fresh_label_gt (ids m) f y Iy).
    specialize (S2 x y H). specialize (L2 x y H).
    destruct (comp_label m x <? i), (comp_label m y <? i); lia.
Qed.

(** Every number between that of a respecting labelling and the number of components is feasible. *)
Lemma feasible_between m f k : Inv m -> satisfies (added_must m) (added_cannot m) f ->
  nb_of_clusters (ids m) f <= k <= length (comps m) -> feasible m k.
Proof.
  intros I S [H1 H2].
  destruct (intermediate (fun i => nb_of_clusters (ids m) (split_label m f i)) (length (ids m)) k) as (i & _ & E).
  - simpl. rewrite (nb_ext _ _ f); auto.
  - rewrite <- (nb_comp_label m I) in H2. etransitivity; [exact H2|].
    (* all components have their own label *)
    unfold nb_of_clusters at 1.
    set (g := split_label m f (length (ids m))).
    assert (G : forall x, In x (ids m) -> g x = fresh_label (ids m) f + comp_label m x).
    { intros x Ix. unfold g, split_label. assert (L := comp_label_lt m x I Ix). apply Nat.ltb_lt in L. rewrite L. auto. }
    rewrite <- (map_length (fun n => fresh_label (ids m) f + n) (nodup Nat.eq_dec (map (comp_label m) (ids m)))).
    apply NoDup_incl_length.
    + apply NoDup_map_on; [apply NoDup_nodup|]. intros; lia.
    + intros y Hy. apply in_map_iff in Hy. destruct Hy as (n & <- & Hn). apply nodup_In in Hn.
      apply in_map_iff in Hn. destruct Hn as (x & <- & Hx). apply nodup_In. rewrite <- G by auto. apply in_map; auto.
  - intros j _. apply (nb_step _ _ _ (fresh_label (ids m) f + j)). intros x Hx. unfold split_label.
    destruct (Nat.ltb_spec (comp_label m x) (Datatypes.S j)), (Nat.ltb_spec (comp_label m x) j); auto; try lia.
  - exists (ids m), (split_label m f i). split; [reflexivity|]. split; auto. apply split_label_satisfies; auto.
Qed.

Lemma feasible_le m k : Inv m -> feasible m k -> k <= length (comps m).
Proof.
  intros I (l & f & E & S & <-). unfold ask in E. rewrite run_managed in E. simpl in E. inversion E; subst l.
  apply nb_max; auto.
Qed.

Lemma colored_feasible m lo col : Inv m -> ids m <> [] -> lo <= length (comps m) ->
  (forall x, In x (heads m) -> col x < lo) ->
  (forall x y, In x (heads m) -> In y (heads m) -> separated (sml m) (scl m) x y -> col x <> col y) ->
  forall k, lo <= k <= length (comps m) -> feasible m k.
Proof.
  intros I N Hlo Bd Pr k Hk.
  assert (HH : forall x, In x (ids m) -> In (rep_of m x) (heads m)) by (intros; apply heads_In; eauto).
  apply (feasible_between m (fun x => col (rep_of m x))); auto.
  - split; intros x y H; destruct (added_ids m _ x y I H) as [Ix Iy].
    + f_equal. apply rep_of_eq; auto. apply added_linked; auto. apply linked_one; auto.
    + apply Pr; auto.
      assert (S : separated (sml m) (scl m) x y).
      { apply added_separated; auto. exists x, y. split; [apply linked_refl|]. split; [apply linked_refl|auto]. }
      destruct S as (u & w & L1 & L2 & C). exists u, w.
      split; [eapply linked_trans; [apply linked_sym, rep_of_linked; auto|exact L1]|].
      split; [eapply linked_trans; [apply linked_sym, rep_of_linked; auto|exact L2]|auto].
  - split; [|lia]. etransitivity; [|apply (proj1 Hk)]. rewrite <- (seq_length lo 0). apply nb_le.
    intros x Hx. apply in_seq. specialize (Bd _ (HH x Hx)). lia.
Qed.

(** ** The minimum never exceeds the number of components *)
Lemma first_free_below used : forall fuel c i, c <= i < first_free fuel c used -> In i used.
Proof.
  induction fuel as [|n IH]; intros c i H; simpl in H; [lia|].
  destruct (mem c used) eqn:E; [|lia]. apply mem_In in E.
  destruct (Nat.eq_dec i c); [subst; auto|]. apply (IH (S c)). lia.
Qed.

Lemma first_free_le used : first_free (S (length used)) 0 used <= length used.
Proof.
  assert (K : incl (seq 0 (first_free (S (length used)) 0 used)) used).
  { intros i Hi. apply in_seq in Hi. apply (first_free_below used (S (length used)) 0). lia. }
  apply NoDup_incl_length in K; [|apply seq_NoDup]. rewrite seq_length in K. auto.
Qed.

(** Every colour is at most the number of possible neighbours. *)
Lemma greedy_bound g (nb : node -> list node) l : (forall u v, adjacent g u v = true -> In v (nb u)) ->
  forall D, NoDup (keys D ++ l) ->
  (forall u a, dget u D = Some a -> a <= length (nb u)) ->
  forall u a, dget u (fold_left (greedy_step g) l D) = Some a -> a <= length (nb u).
Proof.
  intros Nb. induction l as [|x l IH]; intros D N B; simpl; auto.
  assert (Nx : ~ In x (keys D)) by (apply NoDup_remove_2 in N; rewrite in_app_iff in N; tauto).
  assert (ND : NoDup (keys D)) by (apply NoDup_app_inv in N; tauto).
  assert (K : keys (greedy_step g D x) = keys D ++ [x]) by (apply keys_dset_out; auto).
  apply IH.
  - rewrite K, <- app_assoc. auto.
  - intros u a E. unfold greedy_step in E. rewrite dget_dset in E. destruct (eqb_spec u x) as [->|]; [|eapply B; eauto].
    inversion E as [E']. set (used := map snd (filter (fun e => adjacent g x (fst e)) D)) in *.
    etransitivity; [apply first_free_le|]. unfold used. rewrite map_length.
    rewrite <- (map_length fst). apply NoDup_incl_length.
    + clear - ND. induction D as [|[k v] D IHD]; simpl; [constructor|]. simpl in ND. inversion ND; subst.
      destruct (adjacent g x k); simpl; auto. constructor; auto.
      intro H. apply in_map_iff in H. destruct H as ((k', v') & E & H). apply filter_In in H. simpl in E. subst k'.
      apply H1. destruct H as [H _]. apply (in_map fst) in H. exact H.
    + intros v Hv. apply in_map_iff in Hv. destruct Hv as (e & <- & He). apply filter_In in He. apply Nb. tauto.
Qed.

Lemma edges_In m i j : In (i, j) (edges m) -> i < j /\ i < length (kept m) /\ j < length (kept m).
Proof.
  unfold edges. intro H. apply in_map_iff in H. destruct H as (((a, x), (b, y)) & E & H). simpl in E. inversion E; subst.
  apply filter_In in H. destruct H as [H1 H2]. simpl in H2. apply andb_true_iff in H2. destruct H2 as [H2 _].
  apply Nat.ltb_lt in H2. apply in_prod_iff in H1. destruct H1 as [H1 H3].
  apply enumerate_In in H1. apply enumerate_In in H3. split; auto. split; apply nth_error_Some; congruence.
Qed.

Definition neighbours (m : mgr) (u : node) : list node :=
  match u with
  | NId _ => []
  | NIdx i => if i <? length (kept m)
              then map NIdx (filter (fun j => negb (Nat.eqb j i)) (seq 0 (length (kept m))))
              else []
  end.

Lemma neighbours_spec m u v : adjacent (the_graph m) u v = true -> In v (neighbours m u).
Proof.
  intro A. unfold adjacent in A. apply existsb_exists in A. destruct A as (e & He & A).
  unfold the_graph, make_graph in He; simpl in He. apply in_map_iff in He. destruct He as ((i, j) & <- & He).
  apply edges_In in He. simpl in A. apply orb_true_iff in A. rewrite !andb_true_iff, !eqb_eq in A.
  destruct A as [[<- <-]|[<- <-]]; simpl.
  - destruct (Nat.ltb_spec i (length (kept m))); [|lia].
    apply in_map; apply filter_In; rewrite in_seq, negb_true_iff, Nat.eqb_neq; lia.
  - destruct (Nat.ltb_spec j (length (kept m))); [|lia].
    apply in_map; apply filter_In; rewrite in_seq, negb_true_iff, Nat.eqb_neq; lia.
Qed.

Lemma neighbours_length m u : length (neighbours m u) <= length (kept m) - 1.
Proof.
  destruct u as [x|i]; simpl; [lia|]. destruct (Nat.ltb_spec i (length (kept m))) as [L|L]; simpl; [|lia].
  rewrite map_length.
  assert (S (length (filter (fun j => negb (Nat.eqb j i)) (seq 0 (length (kept m))))) <= length (kept m)); [|lia].
  rewrite <- (seq_length (length (kept m)) 0) at 2.
  change (length (i :: filter (fun j => negb (Nat.eqb j i)) (seq 0 (length (kept m)))) <= length (seq 0 (length (kept m)))).
  apply NoDup_incl_length.
  - constructor.
    + rewrite filter_In, negb_true_iff, Nat.eqb_refl. intros [_ ?]; discriminate.
    + apply NoDup_filter, seq_NoDup.
  - intros j [<-|H]; [apply in_seq; lia|]. apply filter_In in H. tauto.
Qed.

Lemma filter_length_le {A} (f : A -> bool) l : length (filter f l) <= length l.
Proof. induction l; simpl; auto. destruct (f a); simpl; lia. Qed.

Lemma minmax_lo_le order m : (forall i g, Permutation (order i g) (g_nodes g)) -> Inv m -> ids m <> [] ->
  exists lo col, get_min_and_max_number_of_clusters order m = (m, Ok (lo, length (comps m))) /\ 2 <= lo /\
    lo <= Nat.max 2 (length (comps m)) /\
    (forall x, In x (heads m) -> col x < lo) /\
    (forall x y, In x (heads m) -> In y (heads m) -> separated (sml m) (scl m) x y -> col x <> col y).
Proof.
  intros P I N. destruct (component_coloring order P m I N) as (lo & col & E & H2 & B & Pr).
  exists lo, col. split; auto. split; auto. split; auto.
  destruct (minmax_result order P m I N) as (i & c & E' & _ & u & Eu). rewrite E in E'.
  assert (Elo : lo = Nat.max 2 (1 + c)) by congruence.
  assert (Hc : c <= length (neighbours m u)).
  { eapply (greedy_bound (the_graph m) (neighbours m) (order i (the_graph m))); [apply neighbours_spec| | |exact Eu].
    - simpl. apply order_nodup; auto.
    - intros v a Ea. discriminate Ea. }
  assert (K := neighbours_length m u). assert (F := filter_length_le (fun x => 1 <? length (cl_of m x)) (heads m)).
  fold (kept m) in F. unfold heads in F at 1. rewrite map_length in F.
  assert (C : comps m <> []).
  { destruct (ids m) as [|x l] eqn:Q; [congruence|]. intro Z.
    assert (H : In (comp_of m x) (comps m)) by (apply comps_In; exists x; rewrite Q; split; auto; left; auto).
    rewrite Z in H. destruct H. }
  assert (C1 : 1 <= length (comps m)) by (destruct (comps m); [congruence|simpl; lia]).
  assert (X : forall c n k l, c <= n -> n <= k - 1 -> k <= l -> 1 <= l -> Nat.max 2 (1 + c) <= Nat.max 2 l) by lia.
  rewrite Elo. exact (X _ _ _ _ Hc K F C1).
Qed.

(*HEADER
From Coq Require Import String List Bool Arith QArith Permutation.
From Verif Require Import Base Manager Spec MinMax ManagerThms MinMaxThms.
Import ListNotations.
Open Scope nat_scope.

Definition ids (m : mgr) (l : list pystr) : Prop := ask get_list_of_managed_data_IDs m = Ok l.

(** Running examples: a must-link b, b cannot-link c, c cannot-link d, d cannot-link a. *)
Definition a : pystr := str "a".
Definition b : pystr := str "b".
Definition c : pystr := str "c".
Definition d : pystr := str "d".
Definition ex : mgr :=
  run [CallAddConstraint a b MUST_LINK 1%Q; CallAddConstraint c b CANNOT_LINK 1%Q;
       CallAddConstraint c d CANNOT_LINK 1%Q; CallAddConstraint d a CANNOT_LINK 1%Q] (init [a; b; c; d; str "e"]).
Definition node_order (i : nat) (g : graph) : list node := g_nodes g.
Lemma node_order_valid : valid_orders node_order.
Proof. intros i g. apply Permutation_refl. Qed.

HEADER*)

(** ** Theorems *)

Lemma has_ids_spec m : has_ids m -> ids m <> [].
Proof. intros (x & H) E. apply managed_ids in H. rewrite E in H. destruct H. Qed.

Lemma nb_components_spec m n : Inv m -> nb_components m n <-> length (comps m) = n.
Proof.
  intro I. unfold nb_components, ask. rewrite run_components by auto. simpl. split.
  - intros (l & E & <-). congruence.
  - intro E. eauto.
Qed.

Lemma comps_nonempty m : Inv m -> 1 <= length (comps m) -> ids m <> [].
Proof. intros I H E. unfold comps in H. rewrite E in H. simpl in H. lia. Qed.

(*PROP C15: the returned maximum is the largest feasible number of clusters. *)
Lemma C15_maximum_exact_proof :
  forall order m, valid_orders order -> reachable m -> has_ids m ->
    exists lo hi, ask (get_min_and_max_number_of_clusters order) m = Ok (lo, hi) /\
      feasible m hi /\ (forall k, feasible m k -> k <= hi).
Proof.
  intros order m V R H. apply reachable_inv in R. apply has_ids_spec in H.
  destruct (minmax_lo_le order m V R H) as (lo & col & E & _).
  exists lo, (length (comps m)). unfold ask. rewrite E. split; auto. split.
  - apply (feasible_between m (comp_label m)); auto; [apply comp_label_satisfies; auto|]. rewrite nb_comp_label; auto.
  - intros k. apply feasible_le; auto.
Qed.

(*EX
Example C15_ex : has_ids ex /\ ask (get_min_and_max_number_of_clusters node_order) ex = Ok (3, 4).
Proof. split; [exists a, [a; b; c; d; str "e"]; split; [reflexivity|left; reflexivity]|reflexivity]. Qed.
EX*)

(*PROP C16: with at least two components, 2 <= lo <= hi and every k in between is feasible. *)
Lemma C16_range_feasible_proof :
  forall order m n, valid_orders order -> reachable m -> nb_components m n -> 2 <= n ->
    exists lo hi, ask (get_min_and_max_number_of_clusters order) m = Ok (lo, hi) /\
      2 <= lo <= hi /\ (forall k, lo <= k <= hi -> feasible m k).
Proof.
  intros order m n V R H Hn. apply reachable_inv in R. apply nb_components_spec in H; auto. subst n.
  assert (N : ids m <> []) by (apply comps_nonempty; auto; lia).
  destruct (minmax_lo_le order m V R N) as (lo & col & E & H2 & L & B & Pr).
  exists lo, (length (comps m)). unfold ask. rewrite E. split; auto. split; [lia|].
  intros k Hk. eapply (colored_feasible m lo col); eauto. lia.
Qed.

(*EX
Example C16_ex : nb_components ex 4 /\ feasible ex 3.
Proof.
  assert (N : nb_components ex 4) by (eexists; split; [vm_compute; reflexivity|reflexivity]).
  split; auto.
  destruct (C16_range_feasible node_order ex 4 node_order_valid) as (lo & hi & E & _ & F); auto.
  + apply run_reachable.
  + vm_compute in E. inversion E; subst. apply F. repeat constructor.
Qed.
EX*)

(** ** The minimum *)
Lemma two_ids_inv : Inv (init [str "a"; str "b"]).
Proof. apply init_inv. Qed.

(*PROP C17: the returned minimum is NOT always a true minimum: for two unconstrained IDs it is 2 although one cluster respects all constraints. *)
Lemma C17_minimum_refuted_proof :
  exists m, reachable m /\ has_ids m /\ nb_components m 2 /\
    (forall order, valid_orders order -> ask (get_min_and_max_number_of_clusters order) m = Ok (2, 2)) /\
    feasible m 1.
Proof.
  exists (init [str "a"; str "b"]). split; [apply reach_init|]. split; [|split; [|split]].
  - exists (str "a"). exists [str "a"; str "b"]. split; [reflexivity|left; reflexivity].
  - eexists. split; [vm_compute; reflexivity|reflexivity].
  - intros order V. assert (I := two_ids_inv).
    assert (N : ids (init [str "a"; str "b"]) <> []) by (vm_compute; discriminate).
    destruct (minmax_lo_le order _ V I N) as (lo & col & E & H2 & L & _).
    change (length (comps (init [str "a"; str "b"]))) with 2 in *. unfold ask. rewrite E. simpl. f_equal. f_equal. simpl in L. lia.
  - exists [str "a"; str "b"], (fun _ => 0). split; [reflexivity|]. split; [|reflexivity].
    split; [reflexivity|]. intros x y H. exfalso. apply added_stored in H; [|apply two_ids_inv].
    assert (K : forall p q, stored (cdict (init [str "a"; str "b"])) CANNOT_LINK p q -> False).
    { intros p q (v & S). rewrite sget_init in S.
      destruct (_ && _ && _); [|discriminate]. destruct (eqb p q); inversion S. }
    destruct H as [H|H]; eapply K; eauto.
Qed.


(*PROP C17 (what does hold): when every pair is decided (at least two components), lo = hi and it is the only feasible number; and whenever some pair is inferred CANNOT_LINK, no clustering with fewer than two clusters is feasible, so lo = 2 is then a true minimum.  Missing: minimality of lo > 2 on incomplete constraints (greedy colouring is a heuristic). *)
Lemma C17_minimum_partial_proof :
  forall order m n, valid_orders order -> reachable m -> nb_components m n -> 2 <= n ->
    exists lo hi, ask (get_min_and_max_number_of_clusters order) m = Ok (lo, hi) /\
      (complete m -> lo = hi /\ forall k, feasible m k -> k = lo) /\
      ((exists a b, managed m a /\ managed m b /\ inferred m a b (Some CANNOT_LINK)) ->
         forall k, feasible m k -> 2 <= k).
Proof.
  intros order m n V R H Hn. assert (I := reachable_inv _ R). apply nb_components_spec in H; auto. subst n.
  assert (N : ids m <> []) by (apply comps_nonempty; auto; lia).
  destruct (minmax_lo_le order m V I N) as (lo & col & E & H2 & L & B & Pr).
  exists lo, (length (comps m)). unfold ask. rewrite E. split; auto. split.
  - intro C. unfold complete, ask in C. destruct (run_completude m I) as (b & Run & Hb). rewrite Run in C. simpl in C.
    inversion C; subst b. assert (Hc := proj1 Hb eq_refl).
    assert (Sep : forall x y, In x (heads m) -> In y (heads m) -> x <> y -> separated (sml m) (scl m) x y).
    { intros x y Hx Hy Nxy. assert (Ix := heads_ids m x I Hx). assert (Iy := heads_ids m y I Hy).
      destruct (infer_cases m x y) as [Q|[Q|Q]].
      - apply infer_ML in Q; auto. apply rep_of_eq in Q; auto. rewrite !heads_rep in Q; auto. congruence.
      - apply infer_CL; auto.
      - exfalso. exact (Hc x y Ix Iy Q). }
    assert (LB : forall (f : pystr -> nat) (S : list nat),
       (forall x y, In x (heads m) -> In y (heads m) -> separated (sml m) (scl m) x y -> f x <> f y) ->
       (forall x, In x (heads m) -> In (f x) S) -> length (comps m) <= length S).
    { intros f S Hf HS. replace (length (comps m)) with (length (map f (heads m))) by (unfold heads; rewrite !map_length; auto).
      apply NoDup_incl_length.
      - apply NoDup_map_on; [apply heads_NoDup; auto|]. intros x y Hx Hy Ef.
        destruct (eq_dec_of x y) as [|Nxy]; auto. exfalso. exact (Hf x y Hx Hy (Sep x y Hx Hy Nxy) Ef).
      - intros z Hz. apply in_map_iff in Hz. destruct Hz as (x & <- & Hx). auto. }
    assert (Elo : lo = length (comps m)).
    { assert (length (comps m) <= length (seq 0 lo)).
      { apply (LB col); auto. intros x Hx. apply in_seq. specialize (B x Hx). lia. }
      rewrite seq_length in *. lia. }
    split; auto. intros k F. apply Nat.le_antisymm; [rewrite Elo; apply feasible_le; auto|].
    destruct F as (l & f & El & S & <-). rewrite Elo. unfold nb_of_clusters. apply (LB f).
    + intros x y _ _ Hxy. eapply sat_separated; eauto.
    + intros x Hx. apply nodup_In. apply in_map. unfold ask in El. rewrite run_managed in El. simpl in El.
      inversion El; subst l. apply heads_ids; auto.
  - intros (a & b & Ma & Mb & Q) k (l & f & El & S & <-).
    apply managed_ids in Ma. apply managed_ids in Mb. apply inferred_spec in Q; auto. apply infer_CL in Q; auto.
    assert (D := sat_separated m f a b I S Q).
    unfold ask in El. rewrite run_managed in El. simpl in El. inversion El; subst l.
    change 2 with (length [f a; f b]). unfold nb_of_clusters. apply NoDup_incl_length.
    + constructor; [intros [?|[]]; congruence|]. constructor; [intros []|constructor].
    + intros z [<-|[<-|[]]]; apply nodup_In, in_map; auto.
Qed.

(*EX
Example C17_ex : let m := run [CallAddConstraint a (str "e") CANNOT_LINK 1%Q; CallAddConstraint c (str "e") CANNOT_LINK 1%Q;
     CallAddConstraint d (str "e") CANNOT_LINK 1%Q] ex in
  complete m /\ ask (get_min_and_max_number_of_clusters node_order) m = Ok (4, 4).
Proof. split; reflexivity. Qed.
EX*)

(*PROP C18: the returned range CAN be empty: one managed ID gives (2, 1); without any ID the method fails. *)
Lemma C18_range_refuted_proof :
  (exists m, reachable m /\ has_ids m /\
    forall order, valid_orders order -> ask (get_min_and_max_number_of_clusters order) m = Ok (2, 1)) /\
  (exists m, reachable m /\
    forall order, valid_orders order -> ask (get_min_and_max_number_of_clusters order) m = Raise ValueError).
Proof.
  split.
  - exists (init [str "a"]). split; [apply reach_init|]. split.
    + exists (str "a"). exists [str "a"]. split; [reflexivity|left; reflexivity].
    + intros order V. assert (N : ids (init [str "a"]) <> []) by (vm_compute; discriminate).
      destruct (minmax_lo_le order _ V (init_inv [str "a"]) N) as (lo & col & E & H2 & L & _).
      change (length (comps (init [str "a"]))) with 1 in *. unfold ask. rewrite E. simpl. f_equal. f_equal. simpl in L. lia.
  - exists (init []). split; [apply reach_init|]. intros order V. unfold ask. rewrite run_minmax by apply init_inv.
    unfold tail_of, colors_used. assert (E : order 0 (the_graph (init [])) = []).
    { apply Permutation_nil. apply Permutation_sym. apply (V 0 (the_graph (init []))). }
    unfold bind, lift. rewrite E. reflexivity.
Qed.

(*PROP C18 (exact): the method fails only without any ID, never changes the manager, and the range is non-empty exactly when there are at least two components. *)
Lemma C18_range_exact_partial_proof :
  forall order m n, valid_orders order -> reachable m -> nb_components m n ->
    fst (get_min_and_max_number_of_clusters order m) = m /\
    (n = 0 <-> ~ has_ids m) /\
    (n = 0 -> ask (get_min_and_max_number_of_clusters order) m = Raise ValueError) /\
    (1 <= n -> exists lo, ask (get_min_and_max_number_of_clusters order) m = Ok (lo, n) /\ 2 <= lo /\ (lo <= n <-> 2 <= n)).
Proof.
  intros order m n V R H. assert (I := reachable_inv _ R). apply nb_components_spec in H; auto. subst n.
  assert (Z : length (comps m) = 0 <-> ids m = []).
  { split.
    - intro Z. destruct (ids m) as [|x l] eqn:Q; auto. exfalso.
      assert (K : In (comp_of m x) (comps m)) by (apply comps_In; exists x; rewrite Q; split; auto; left; auto).
      destruct (comps m); [destruct K|discriminate].
    - intro Q. unfold comps. rewrite Q. reflexivity. }
  assert (Fail : length (comps m) = 0 -> get_min_and_max_number_of_clusters order m = (m, Raise ValueError)).
  { intro Q. apply Z in Q. rewrite run_minmax by auto. unfold tail_of, colors_used.
    assert (E : order 0 (the_graph m) = []).
    { apply Permutation_nil. apply Permutation_sym. assert (P := V 0 (the_graph m)).
      replace (g_nodes (the_graph m)) with (@nil node) in P; auto.
      unfold the_graph, edges, kept, heads, comps. rewrite Q. reflexivity. }
    unfold bind, lift. rewrite E. reflexivity. }
  split; [|split; [|split]].
  - destruct (Nat.eq_dec (length (comps m)) 0) as [Q|Q].
    + rewrite Fail; auto.
    + destruct (minmax_lo_le order m V I) as (lo & col & E & _); [rewrite <- Z; auto|]. rewrite E. auto.
  - rewrite Z. split.
    + intros Q (x & Mx). apply managed_ids in Mx. rewrite Q in Mx. destruct Mx.
    + intro Nh. destruct (ids m) as [|x l] eqn:Q; auto. exfalso. apply Nh. exists x. apply managed_ids. rewrite Q. left; auto.
  - intro Q. unfold ask. rewrite Fail; auto.
  - intro Q. destruct (minmax_lo_le order m V I) as (lo & col & E & H2 & L & _); [rewrite <- Z; lia|].
    exists lo. unfold ask. rewrite E. split; auto. split; auto. split; intro; lia.
Qed.

(*EX
Example C18_ex : nb_components ex 4 /\ reachable ex.
Proof. split; [eexists; split; [vm_compute; reflexivity|reflexivity]|apply run_reachable]. Qed.
EX*)
