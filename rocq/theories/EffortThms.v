(** * How many annotations are needed *)

From Coq Require Import String List Bool Arith QArith Permutation Lia.
From Verif Require Import Base Manager Spec Closure ManagerProofs ManagerInv ManagerSem ManagerQueries ManagerThms MinMaxThms EffortSpec.
Import ListNotations.
Open Scope nat_scope.

(*HEADER
(** * Properties of the number of annotations (C100) *)

From Coq Require Import String List Bool Arith QArith Lia.
From Verif Require Import Base Manager Spec EffortSpec ManagerThms EffortThms.
Import ListNotations.
Open Scope nat_scope.

Definition a := str "a". Definition b := str "b". Definition c := str "c". Definition d := str "d".
HEADER*)

(** ** Pairs *)
Lemma pairs_In {A} (l : list A) x y : In (x, y) (pairs l) -> In x l /\ In y l.
Proof.
  induction l as [|z l IH]; [intros []|]. cbn [pairs]. rewrite in_app_iff, in_map_iff. intros [(w & E & Iw)|H].
  - inversion E; subst. simpl. auto.
  - destruct (IH H). simpl. auto.
Qed.

Lemma pairs_neq {A} (l : list A) x y : NoDup l -> In (x, y) (pairs l) -> x <> y.
Proof.
  induction 1 as [|z l N ND IH]; [intros []|]. cbn [pairs]. rewrite in_app_iff, in_map_iff. intros [(w & E & Iw)|H]; auto.
  inversion E; subst. intros ->. auto.
Qed.

Lemma pairs_total {A} (l : list A) x y : In x l -> In y l -> x <> y -> In (x, y) (pairs l) \/ In (y, x) (pairs l).
Proof.
  induction l as [|z l IH]; [intros []|]. intros [->|Ix] [->|Iy] N; cbn [pairs]; rewrite !in_app_iff, !in_map_iff; try congruence; eauto.
  destruct (IH Ix Iy N); auto.
Qed.

Lemma pairs_NoDup {A} (l : list A) : NoDup l -> NoDup (pairs l).
Proof.
  induction 1 as [|z l N ND IH]; [constructor|]. cbn [pairs]. apply NoDup_app_intro; auto.
  - apply FinFun.Injective_map_NoDup; auto. intros p q E. congruence.
  - intros [x y] I1 I2. apply in_map_iff in I1. destruct I1 as (w & E & Iw). inversion E; subst. apply pairs_In in I2. tauto.
Qed.

Lemma pairs_once {A} (l : list A) x y : NoDup l -> In (x, y) (pairs l) -> ~ In (y, x) (pairs l).
Proof.
  induction 1 as [|z l N ND IH]; [intros []|]. cbn [pairs]. rewrite !in_app_iff, !in_map_iff.
  intros [(w & E & Iw)|H] [(w' & E' & Iw')|H'].
  - inversion E; subst. inversion E'; subst. auto.
  - inversion E; subst. apply pairs_In in H'. tauto.
  - inversion E'; subst. apply pairs_In in H. tauto.
  - apply IH; auto.
Qed.

Lemma pairs_length {A} (l : list A) : 2 * length (pairs l) = length l * (length l - 1).
Proof.
  induction l as [|z l IH]; auto. cbn [pairs length]. rewrite app_length, map_length. destruct (length l) as [|n]; simpl in *; lia.
Qed.

Lemma filter_true {A} (f : A -> bool) l : (forall x, In x l -> f x = true) -> filter f l = l.
Proof. induction l as [|x l IH]; intro H; auto. cbn [filter]. rewrite H by (left; auto). f_equal. apply IH. intros; apply H; right; auto. Qed.

(** ** Counting *)
Lemma is_added_spec m t x y : is_added m t (x, y) = true <-> added m t x y.
Proof.
  unfold is_added, added. cbn [fst snd]. destruct (ask (get_added_constraint x y) m) as [[[u v]|]|e].
  - rewrite eqb_eq. split; [intros ->; eauto|intros (w & E); congruence].
  - split; [discriminate|intros (w & E); congruence].
  - split; [discriminate|intros (w & E); congruence].
Qed.

Lemma is_inferred_spec m t x y : is_inferred m t (x, y) = true <-> inferred m x y (Some t).
Proof.
  unfold is_inferred, inferred. cbn [fst snd]. destruct (ask (get_inferred_constraint x y) m) as [[u|]|e].
  - rewrite eqb_eq. split; [intros ->; auto|congruence].
  - split; discriminate.
  - split; discriminate.
Qed.

Lemma effort_eq m t : effort m t = length (filter (is_added m t) (pairs (ids m))).
Proof. unfold effort, ask. rewrite run_managed. reflexivity. Qed.

Lemma added_sym m t x y : Inv m -> added m t x y -> added m t y x.
Proof. intros I A. apply addf_added in A; auto. apply addf_added; auto. rewrite addf_sym. tauto. Qed.

Lemma edges_In m t x y : Inv m -> x <> y -> added m t x y ->
  In (x, y) (filter (is_added m t) (pairs (ids m))) \/ In (y, x) (filter (is_added m t) (pairs (ids m))).
Proof.
  intros I N A. assert (A' := added_sym m t x y I A). destruct (added_ids m t x y I A) as [Ix Iy].
  rewrite !filter_In, !is_added_spec. destruct (pairs_total (ids m) x y Ix Iy N); auto.
Qed.

(** ** MUST_LINK: merging labels edge by edge *)
Definition merge (f : pystr -> nat) (e : pystr * pystr) : pystr -> nat :=
  fun z => if Nat.eqb (f z) (f (snd e)) then f (fst e) else f z.

Lemma merge_nb ids f e : nb_of_clusters ids f <= S (nb_of_clusters ids (merge f e)).
Proof.
  unfold nb_of_clusters at 2. change (S (length ?l)) with (length (f (snd e) :: l)). apply nb_le.
  intros x Ix. destruct (Nat.eqb_spec (f x) (f (snd e))) as [E|E]; [left; auto|right].
  apply nodup_In. apply in_map_iff. exists x. split; auto. unfold merge. apply Nat.eqb_neq in E. rewrite E. auto.
Qed.

Lemma merge_keeps f e x y : f x = f y -> merge f e x = merge f e y.
Proof. intro E. unfold merge. rewrite E. auto. Qed.

Lemma merge_same f e : merge f e (fst e) = merge f e (snd e).
Proof. unfold merge. rewrite Nat.eqb_refl. destruct (Nat.eqb_spec (f (fst e)) (f (snd e))); auto. Qed.

Lemma merges_nb ids E : forall f, nb_of_clusters ids f <= length E + nb_of_clusters ids (fold_left merge E f).
Proof.
  induction E as [|e E IH]; intro f; [simpl; auto|]. cbn [fold_left length]. specialize (IH (merge f e)). assert (H := merge_nb ids f e). lia.
Qed.

Lemma merges_keep E : forall f x y, f x = f y -> fold_left merge E f x = fold_left merge E f y.
Proof. induction E as [|e E IH]; intros f x y H; auto. cbn [fold_left]. apply IH, merge_keeps, H. Qed.

Lemma merges_same E : forall f x y, In (x, y) E -> fold_left merge E f x = fold_left merge E f y.
Proof.
  induction E as [|e E IH]; intros f x y []; cbn [fold_left]; auto. subst e. apply merges_keep. apply (merge_same f (x, y)).
Qed.

(** Labels that are constant on the components. *)
Lemma nb_must m f : Inv m -> (forall x y, added_must m x y -> f x = f y) -> nb_of_clusters (ids m) f <= length (comps m).
Proof.
  intros I H. assert (HL : forall x y, linked (added_must m) x y -> f x = f y).
  { intros x y L. induction L as [|x y z L IH [S|S]]; auto; rewrite IH; [|symmetry]; apply H; auto. }
  rewrite <- (map_length (fun c => match c with x :: _ => f x | [] => 0 end) (comps m)). apply nb_le.
  intros x Ix. apply in_map_iff. exists (comp_of m x). split; [|apply comps_In; eauto].
  assert (S := self_comp m x I Ix). destruct (comp_of m x) as [|y l] eqn:Q; [destruct S|].
  symmetry. apply HL. apply added_linked; auto. apply comp_of_In; auto. rewrite Q. left. auto.
Qed.

Definition position (l : list pystr) (x : pystr) : nat := first_pos (fun y => eqb x y) l.

Lemma position_inj l : forall x y, In x l -> In y l -> position l x = position l y -> x = y.
Proof.
  induction l as [|z l IH]; [intros x y []|]. unfold position. cbn [first_pos]. intros x y Ix Iy.
  destruct (eqb_spec x z) as [->|Nx], (eqb_spec y z) as [->|Ny]; intro E; try discriminate; auto.
  destruct Ix as [->|Ix]; [congruence|]. destruct Iy as [->|Iy]; [congruence|]. apply IH; auto.
Qed.

Lemma nb_injective l (f : pystr -> nat) : NoDup l -> (forall x y, In x l -> In y l -> f x = f y -> x = y) -> nb_of_clusters l f = length l.
Proof.
  intros N H. unfold nb_of_clusters. rewrite nodup_fixed_point; [apply map_length|].
  induction N as [|x l N ND IH]; [constructor|]. cbn [map]. constructor.
  - intro X. apply in_map_iff in X. destruct X as (y & E & Iy). apply N. replace x with y; auto. apply H; simpl; auto.
  - apply IH. intros; apply H; simpl; auto.
Qed.

Lemma must_effort m : Inv m -> length (ids m) <= effort m MUST_LINK + length (comps m).
Proof.
  intro I. rewrite effort_eq. set (E := filter _ _).
  rewrite <- (nb_injective (ids m) (position (ids m))) by (try apply inv_nodup; auto; intros; eapply position_inj; eauto).
  assert (H := merges_nb (ids m) E (position (ids m))).
  assert (K : nb_of_clusters (ids m) (fold_left merge E (position (ids m))) <= length (comps m)); [|lia].
  apply nb_must; auto. intros x y A. destruct (eqb_spec x y) as [->|N]; auto.
  destruct (edges_In m MUST_LINK x y I N A) as [H1|H1]; [|symmetry]; apply merges_same; auto.
Qed.

(*PROP C100: with n IDs in k components, at least n - k MUST_LINK constraints have been added. *)
Lemma C100_must_links_needed_proof :
  forall m, reachable m -> forall l cs,
    ask get_list_of_managed_data_IDs m = Ok l -> ask get_connected_components m = Ok cs ->
    length l - length cs <= effort m MUST_LINK.
Proof.
  intros m R l cs El Ec. apply reachable_inv in R. unfold ask in El, Ec. rewrite run_managed in El. rewrite run_components in Ec by auto.
  simpl in El, Ec. inversion El; subst l. inversion Ec; subst cs. assert (H := must_effort m R). lia.
Qed.

(** ** CANNOT_LINK *)
Definition listed (cc : list pystr * list pystr) (l : list (list pystr * list pystr)) : bool :=
  existsb (fun p => eqb (fst cc) (fst p) && eqb (snd cc) (snd p)) l.
Lemma listed_In cc l : listed cc l = true <-> In cc l.
Proof.
  unfold listed. rewrite existsb_exists. split.
  - intros (p & Ip & E). apply andb_true_iff in E. rewrite !eqb_eq in E. destruct E as [E1 E2]. destruct cc, p. simpl in *. subst. auto.
  - intro H. exists cc. split; auto. rewrite !eqb_refl. auto.
Qed.

Definition joins (m : mgr) (e : pystr * pystr) : list pystr * list pystr :=
  let cc := (comp_of m (fst e), comp_of m (snd e)) in
  if listed cc (pairs (comps m)) then cc else (comp_of m (snd e), comp_of m (fst e)).

Lemma cannot_effort m : Inv m -> length (filter (known_different m) (pairs (comps m))) <= effort m CANNOT_LINK.
Proof.
  intro I. rewrite effort_eq. rewrite <- (map_length (joins m) (filter (is_added m CANNOT_LINK) (pairs (ids m)))).
  apply NoDup_incl_length; [apply NoDup_filter, pairs_NoDup, comps_NoDup|].
  intros [c1 c2] H. apply filter_In in H. destruct H as [P K].
  assert (P' := pairs_In _ _ _ P). destruct P' as [P1 P2].
  unfold known_different in K. cbn [fst snd] in K. apply existsb_exists in K. destruct K as (a & Ia & K). apply existsb_exists in K. destruct K as (b & Ib & K).
  apply is_inferred_spec in K.
  apply comps_In in P1. destruct P1 as (a0 & Ia0 & ->). apply comps_In in P2. destruct P2 as (b0 & Ib0 & ->).
  assert (Ka : In a (ids m)) by (apply (linked_ids m a0); auto; apply comp_of_In; auto).
  assert (Kb : In b (ids m)) by (apply (linked_ids m b0); auto; apply comp_of_In; auto).
  apply inferred_spec in K; auto. apply infer_CL in K; auto. apply added_separated in K; auto.
  destruct K as (x & y & Lx & Ly & C). apply added_linked in Lx; auto. apply added_linked in Ly; auto.
  assert (Cx : comp_of m x = comp_of m a0).
  { rewrite <- (comp_of_share m a0 a) by auto. apply comp_of_share; auto. apply comp_of_In; auto. }
  assert (Cy : comp_of m y = comp_of m b0).
  { rewrite <- (comp_of_share m b0 b) by auto. apply comp_of_share; auto. apply comp_of_In; auto. }
  assert (C' : added_cannot m x y) by (destruct C; auto; apply added_sym; auto).
  assert (NE : x <> y).
  { intros ->. apply (pairs_neq (comps m) _ _ (comps_NoDup m)) in P. congruence. }
  apply in_map_iff. destruct (edges_In m CANNOT_LINK x y I NE C') as [H|H].
  - exists (x, y). split; auto. unfold joins. cbn [fst snd]. rewrite Cx, Cy. apply listed_In in P. rewrite P. auto.
  - exists (y, x). split; auto. unfold joins. cbn [fst snd]. rewrite Cx, Cy.
    assert (N := pairs_once _ _ _ (comps_NoDup m) P). rewrite <- listed_In in N. apply not_true_is_false in N. rewrite N. auto.
Qed.

(*PROP C100: two components are known to be different only if a CANNOT_LINK was added for this pair of components. *)
Lemma C100_cannot_links_needed_proof :
  forall m, reachable m -> forall cs, ask get_connected_components m = Ok cs ->
    length (filter (known_different m) (pairs cs)) <= effort m CANNOT_LINK.
Proof.
  intros m R cs Ec. apply reachable_inv in R. unfold ask in Ec. rewrite run_components in Ec by auto.
  inversion Ec; subst cs. apply cannot_effort; auto.
Qed.

(*PROP C100: so complete constraints on n IDs in k groups need (n - k) + k(k - 1)/2 annotations. *)
Lemma C100_complete_effort_proof :
  forall m, reachable m -> complete m -> forall l cs,
    ask get_list_of_managed_data_IDs m = Ok l -> ask get_connected_components m = Ok cs ->
    2 * (length l - length cs) + length cs * (length cs - 1) <= 2 * (effort m MUST_LINK + effort m CANNOT_LINK).
Proof.
  intros m R C l cs El Ec. assert (A := C100_must_links_needed_proof m R l cs El Ec). assert (B := C100_cannot_links_needed_proof m R cs Ec).
  assert (I := reachable_inv m R).
  assert (F : filter (known_different m) (pairs cs) = pairs cs).
  { unfold ask in Ec. rewrite run_components in Ec by auto. inversion Ec; subst cs. apply filter_true. intros [c1 c2] P.
    assert (P' := pairs_In _ _ _ P). destruct P' as [P1 P2]. apply (pairs_neq _ _ _ (comps_NoDup m)) in P.
    apply comps_In in P1. destruct P1 as (a & Ia & ->). apply comps_In in P2. destruct P2 as (b & Ib & ->).
    apply existsb_exists. exists a. split; [apply self_comp; auto|]. apply existsb_exists. exists b. split; [apply self_comp; auto|].
    apply is_inferred_spec. destruct (C14_completude_exact_proof m R) as (r & Er & H). unfold complete in C. assert (r = true) by congruence.
    destruct (proj1 H H0 a b) as [Q|Q]; auto; [apply managed_ids; auto|apply managed_ids; auto|].
    exfalso. apply P. apply inferred_spec in Q; auto. apply infer_ML in Q; auto. symmetry. apply comp_of_share; auto. apply comp_of_In; auto. }
  rewrite F in B. assert (L := pairs_length cs). lia.
Qed.

(*EX
(** Four IDs in two groups, three annotations. *)
Definition ex_annotations : list (pystr * pystr * pystr) := [(a, b, MUST_LINK); (b, c, CANNOT_LINK); (c, d, MUST_LINK)].
Definition ex_complete : mgr := run (annotations ex_annotations) (init [a; b; c; d]).
Example C100_ex : reachable ex_complete /\ complete ex_complete /\ ask get_connected_components ex_complete = Ok [[a; b]; [c; d]] /\
  effort ex_complete MUST_LINK = 2 /\ effort ex_complete CANNOT_LINK = 1.
Proof. split; [apply run_reachable|]. repeat split. Qed.
EX*)

(** ** Annotations of pairs about which nothing is known *)
Lemma count_one {A} (p p' : A -> bool) (e : A) l : NoDup l -> In e l -> p e = false -> p' e = true ->
  (forall x, In x l -> x <> e -> p' x = p x) -> length (filter p' l) = S (length (filter p l)).
Proof.
  induction 1 as [|x l N ND IH]; [intros []|]. intros I P P' H. cbn [filter].
  destruct I as [->|I].
  - rewrite P, P'. cbn [length]. f_equal. f_equal. apply filter_ext_in. intros y Iy. apply H; [right; auto|intros ->; auto].
  - assert (x <> e) by (intros ->; auto). rewrite (H x) by (simpl; auto). assert (G := IH I P P' (fun y Iy => H y (or_intror Iy))).
    destruct (p x); cbn [length]; rewrite G; auto.
Qed.

Lemma infer_None_accepts m a b t : In a (ids m) -> In b (ids m) -> allowed t -> infer m a b = None -> accepts m a b t = true.
Proof.
  intros Ia Ib T E. unfold accepts. assert (both m a b = true) as -> by (apply both_true; auto).
  assert (mem t allowed_types = true) as -> by (apply allowed_spec; auto). rewrite E. reflexivity.
Qed.

Lemma effort_step m a b t u : Inv m -> In a (ids m) -> In b (ids m) -> allowed t -> infer m a b = None ->
  effort (fst (exec (CallAddConstraint a b t 1%Q) m)) u = effort m u + (if eqb u t then 1 else 0).
Proof.
  intros I Ia Ib T E. assert (A := infer_None_accepts m a b t Ia Ib T E). assert (AA := add_added m a b t 1%Q I A).
  assert (K : ids (fst (exec (CallAddConstraint a b t 1%Q) m)) = ids m).
  { destruct (run_add_constraint m a b t 1%Q I A) as (m1 & Run & _ & K & _). cbn [exec]. unfold bind. rewrite Run. exact K. }
  set (m' := fst _) in *. rewrite !effort_eq, K. apply infer_None in E as E'; auto. destruct E' as [NL NS].
  assert (Nab : a <> b) by (intros ->; apply NL; constructor).
  assert (NA : forall w, ~ added m w a b).
  { intros w W. assert (W' := W). apply addf_added in W'; auto. destruct W' as (_ & _ & W').
    apply addf_infer in W'; auto; [congruence|apply both_true; auto]. }
  assert (NB : forall w, ~ added m w b a) by (intros w W; apply (NA w), added_sym; auto).
  destruct (eqb_spec u t) as [->|Nut].
  - rewrite Nat.add_1_r.
    assert (G : forall x y, In (x, y) (pairs (ids m)) -> same_unordered a b x y ->
              length (filter (is_added m' t) (pairs (ids m))) = S (length (filter (is_added m t) (pairs (ids m))))).
    { intros x y P S. apply (count_one _ _ (x, y)); auto.
      - apply pairs_NoDup, inv_nodup; auto.
      - apply not_true_is_false. rewrite is_added_spec. destruct S as [[-> ->]|[-> ->]]; auto.
      - apply is_added_spec, AA. auto.
      - intros [x' y'] P' N. apply eq_true_iff_eq. rewrite !is_added_spec, AA. split; [|auto].
        intros [H|[_ S']]; auto. exfalso. apply N. destruct S as [[-> ->]|[-> ->]], S' as [[-> ->]|[-> ->]]; auto;
          exfalso; eapply (pairs_once (ids m)); eauto; apply inv_nodup; auto. }
    destruct (pairs_total (ids m) a b Ia Ib Nab) as [P|P]; apply (G _ _ P); unfold same_unordered; auto.
  - rewrite Nat.add_0_r. f_equal. apply filter_ext. intros [x y]. apply eq_true_iff_eq. rewrite !is_added_spec, AA. intuition congruence.
Qed.

Lemma comps_step m a b t : Inv m -> In a (ids m) -> In b (ids m) -> allowed t -> infer m a b = None ->
  let m' := fst (exec (CallAddConstraint a b t 1%Q) m) in
  length (comps m') + (if eqb t MUST_LINK then 1 else 0) <= length (comps m).
Proof.
  intros I Ia Ib T E m'. assert (A := infer_None_accepts m a b t Ia Ib T E). assert (AA := add_added m a b t 1%Q I A). fold m' in AA.
  assert (K : ids m' = ids m).
  { destruct (run_add_constraint m a b t 1%Q I A) as (m1 & Run & _ & K & _). unfold m'. cbn [exec]. unfold bind. rewrite Run. exact K. }
  assert (I' : Inv m') by apply exec_inv, I.
  assert (Mono : forall x y, linked (sml m) x y -> linked (sml m') x y).
  { intros x y L. apply added_linked in L; auto. apply added_linked; auto. eapply linked_mono; [|exact L]. intros p q H. left. apply AA. left. exact H. }
  set (g := fun c : list pystr => match c with x :: _ => comp_of m' x | [] => [] end).
  assert (Hit : forall x, In x (ids m) -> g (comp_of m x) = comp_of m' x).
  { intros x Ix. assert (S := self_comp m x I Ix). unfold g. destruct (comp_of m x) as [|y l] eqn:Q; [destruct S|].
    assert (L : linked (sml m) x y) by (apply comp_of_In; auto; rewrite Q; left; auto).
    apply comp_of_share; auto; try (rewrite K; auto; fail). apply comp_of_In; auto; try (rewrite K; auto; fail). }
  destruct (eqb_spec t MUST_LINK) as [->|NT].
  - assert (L : linked (sml m') a b).
    { apply added_linked; auto. econstructor; [constructor|]. left. apply AA. right. split; auto. left. auto. }
    assert (Db : In (comp_of m b) (comps m)) by (apply comps_In; eauto).
    destruct (in_split _ _ Db) as (l1 & l2 & Sp).
    assert (Len : length (comps m) = S (length (l1 ++ l2))) by (rewrite Sp, !app_length; simpl; lia).
    rewrite Len, Nat.add_1_r. apply le_n_S. rewrite <- (map_length g (l1 ++ l2)). apply NoDup_incl_length; [apply comps_NoDup|].
    intros c H. apply comps_In in H. destruct H as (x & Ix & ->). rewrite K in Ix.
    assert (Q : exists y, In y (ids m) /\ comp_of m y <> comp_of m b /\ comp_of m' y = comp_of m' x).
    { destruct (eqb_spec (comp_of m x) (comp_of m b)) as [Ex|Nx]; [|exists x; auto].
      exists a. split; auto. split.
      - intro Z. apply infer_None in E; auto. apply (proj1 E). apply comp_of_In; auto. rewrite Z. apply self_comp; auto.
      - symmetry. apply comp_of_share; auto; [rewrite K; auto|]. apply comp_of_In; auto; [rewrite K; auto|].
        eapply linked_trans; [exact L|]. apply Mono. apply comp_of_In; auto. rewrite <- Ex. apply self_comp; auto. }
    destruct Q as (y & Iy & Ny & Ey). rewrite <- Ey, <- (Hit y Iy). apply in_map.
    assert (D : In (comp_of m y) (comps m)) by (apply comps_In; eauto). rewrite Sp in D. apply in_app_iff in D. apply in_app_iff.
    destruct D as [D|[D|D]]; auto. congruence.
  - rewrite Nat.add_0_r. rewrite <- (map_length g (comps m)). apply NoDup_incl_length; [apply comps_NoDup|].
    intros c H. apply comps_In in H. destruct H as (x & Ix & ->). rewrite K in Ix. rewrite <- (Hit x Ix). apply in_map. apply comps_In. eauto.
Qed.

Lemma comps_le m : Inv m -> length (comps m) <= length (ids m).
Proof. intro I. rewrite <- nb_comp_label by auto. rewrite <- (map_length (comp_label m) (ids m)). apply nb_le. intros x. apply in_map. Qed.

Lemma init_effort l u : effort (init l) u = 0.
Proof.
  rewrite effort_eq. assert (I := init_inv l). rewrite (proj2 (length_zero_iff_nil (filter _ _))); auto.
  destruct (filter (is_added (init l) u) (pairs (ids (init l)))) as [|[x y] r] eqn:Q; auto. exfalso.
  assert (H : In (x, y) (filter (is_added (init l) u) (pairs (ids (init l))))) by (rewrite Q; left; auto).
  apply filter_In in H. destruct H as [P A]. apply is_added_spec in A. apply pairs_neq in P; [|apply inv_nodup; auto].
  destruct (a_init_shows l) as [S C]. apply (shows_added _ _ u x y I S C) in A. cbn [a_init a_con] in A.
  apply eqb_neq in P. rewrite P, andb_false_r in A. discriminate.
Qed.

Lemma frugal_run l : forall m, Inv m -> frugal l m ->
  let m' := run (annotations l) m in
  Inv m' /\ ids m' = ids m /\
  effort m' MUST_LINK + length (comps m') <= effort m MUST_LINK + length (comps m) /\
  effort m' MUST_LINK + effort m' CANNOT_LINK = effort m MUST_LINK + effort m CANNOT_LINK + length l.
Proof.
  induction l as [|[[a b] t] l IH]; intros m I F; cbn [annotations map run fold_left length fst snd].
  - cbv zeta. simpl. repeat (split; auto).
  - destruct F as (N & T & F). set (m1 := fst (exec (CallAddConstraint a b t 1%Q) m)) in *. assert (I1 : Inv m1) by apply exec_inv, I.
    destruct (IH m1 I1 F) as (I' & K & B1 & B2). fold (annotations l). fold (run (annotations l) m1). cbv zeta in *. set (m' := run (annotations l) m1) in *.
    assert (B : both m a b = true).
    { unfold inferred, ask in N. rewrite run_inferred in N by auto. destruct (both m a b); auto; discriminate. }
    apply both_true in B. destruct B as [Ia Ib]. apply inferred_spec in N; auto.
    assert (K1 : ids m1 = ids m).
    { destruct (run_add_constraint m a b t 1%Q I (infer_None_accepts m a b t Ia Ib T N)) as (m2 & Run & _ & K2 & _). unfold m1. cbn [exec]. unfold bind. rewrite Run. exact K2. }
    assert (E1 := effort_step m a b t MUST_LINK I Ia Ib T N). assert (E2 := effort_step m a b t CANNOT_LINK I Ia Ib T N). fold m1 in E1, E2.
    assert (C := comps_step m a b t I Ia Ib T N). cbv zeta in C. fold m1 in C.
    split; auto. split; [congruence|].
    destruct T as [-> | ->].
    + change (eqb MUST_LINK MUST_LINK) with true in *. change (eqb CANNOT_LINK MUST_LINK) with false in *. cbv iota in *. lia.
    + change (eqb MUST_LINK CANNOT_LINK) with false in *. change (eqb CANNOT_LINK MUST_LINK) with false in *. change (eqb CANNOT_LINK CANNOT_LINK) with true in *. cbv iota in *. lia.
Qed.

(*PROP C100: if nothing was known about a pair when it was annotated, no annotation is refused, none is wasted, and exactly n - k of them are MUST_LINK. *)
Lemma C100_frugal_proof :
  forall ids l, frugal l (init ids) -> forall il cs,
    ask get_list_of_managed_data_IDs (run (annotations l) (init ids)) = Ok il ->
    ask get_connected_components (run (annotations l) (init ids)) = Ok cs ->
    effort (run (annotations l) (init ids)) MUST_LINK = length il - length cs /\
    length l = effort (run (annotations l) (init ids)) MUST_LINK + effort (run (annotations l) (init ids)) CANNOT_LINK.
Proof.
  intros ids l F il cs Ei Ec. destruct (frugal_run l _ (init_inv ids) F) as (I' & K & B1 & B2). cbv zeta in *. set (m' := run _ _) in *.
  unfold ask in Ei, Ec. rewrite run_managed in Ei. rewrite run_components in Ec by auto. cbn [snd] in Ei, Ec. inversion Ei; subst il. inversion Ec; subst cs.
  assert (L := must_effort m' I'). assert (Z := comps_le _ (init_inv ids)). rewrite !init_effort in *. rewrite <- K in Z. lia.
Qed.

(*EX
Example C100_frugal_ex : frugal ex_annotations (init [a; b; c; d]).
Proof. repeat split; (left; reflexivity) || (right; reflexivity). Qed.
EX*)

(** ** The bound is attained: a star in each group, one CANNOT_LINK for each two groups *)
Lemma split_length {A} (p : A -> bool) (l : list A) : length (filter p l) + length (filter (fun x => negb (p x)) l) = length l.
Proof. induction l as [|x l IH]; auto. cbn [filter]. destruct (p x); cbn [negb length]; lia. Qed.

Section Star.
  Variable truth : pystr -> nat.
  Variable l : list pystr.

  Definition centre (x : pystr) : pystr := match find (fun y => Nat.eqb (truth y) (truth x)) l with Some y => y | None => x end.
  Definition centres : list pystr := filter (fun x => eqb (centre x) x) l.
  Definition stars : list (pystr * pystr * pystr) :=
    map (fun x => (centre x, x, MUST_LINK)) (filter (fun x => negb (eqb (centre x) x)) l) ++
    map (fun e => (fst e, snd e, CANNOT_LINK)) (pairs centres).

  Lemma centre_spec x : In x l -> In (centre x) l /\ truth (centre x) = truth x.
  Proof.
    intro Ix. unfold centre. destruct (find _ l) as [y|] eqn:F.
    - apply find_some in F. destruct F as [Iy E]. apply Nat.eqb_eq in E. auto.
    - apply (find_none _ _ F) in Ix. rewrite Nat.eqb_refl in Ix. discriminate.
  Qed.

  Lemma centre_same x y : truth x = truth y -> In x l -> centre x = centre y.
  Proof.
    intros E Ix. assert (F : find (fun z => Nat.eqb (truth z) (truth x)) l = find (fun z => Nat.eqb (truth z) (truth y)) l) by (rewrite E; auto).
    unfold centre. rewrite <- F. destruct (find _ l) as [z|] eqn:Q; auto. apply (find_none _ _ Q) in Ix. rewrite Nat.eqb_refl in Ix. discriminate.
  Qed.

  Lemma centre_centres x : In x l -> In (centre x) centres.
  Proof.
    intro Ix. destruct (centre_spec x Ix) as [Ic E]. apply filter_In. split; auto. apply eqb_eq. apply centre_same; auto.
  Qed.

  Lemma centres_inj x y : In x centres -> In y centres -> truth x = truth y -> x = y.
  Proof.
    intros Ix Iy E. apply filter_In in Ix. apply filter_In in Iy. rewrite eqb_eq in *. destruct Ix as [Ix <-], Iy as [Iy Cy]. rewrite <- Cy.
    destruct (centre_spec x Ix) as [_ Ex]. apply centre_same; [congruence|auto].
  Qed.

  Lemma centres_length : NoDup l -> length centres = nb_of_clusters l truth.
  Proof.
    intro N. assert (H : nb_of_clusters centres truth = length centres).
    { apply nb_injective; [apply NoDup_filter; auto|apply centres_inj]. }
    rewrite <- H. unfold nb_of_clusters. apply Nat.le_antisymm; apply NoDup_incl_length; try apply NoDup_nodup; intros z Z; apply nodup_In in Z; apply nodup_In; apply in_map_iff in Z; apply in_map_iff; destruct Z as (x & <- & Ix).
    - exists x. split; auto. apply filter_In in Ix. tauto.
    - exists (centre x). split; [apply centre_spec; auto|apply centre_centres; auto].
  Qed.

  Lemma stars_length : NoDup l -> 2 * length stars = 2 * (length l - length centres) + length centres * (length centres - 1).
  Proof.
    intro N. unfold stars. rewrite app_length, !map_length. assert (P := pairs_length centres).
    assert (S : length (filter (fun x => negb (eqb (centre x) x)) l) + length centres = length l).
    { unfold centres. rewrite Nat.add_comm. apply (split_length (fun x => eqb (centre x) x) l). }
    lia.
  Qed.
End Star.

Lemma same_list_nb l1 l2 f : (forall x, In x l1 <-> In x l2) -> nb_of_clusters l1 f = nb_of_clusters l2 f.
Proof.
  intro H. apply Nat.le_antisymm; unfold nb_of_clusters at 2; apply nb_le; intros x Ix; apply nodup_In, in_map, H, Ix.
Qed.

(*PROP C100: and for every ground truth there are that many annotations that are all accepted and decide everything. *)
Lemma C100_effort_attained_proof :
  forall ids (truth : pystr -> nat), NoDup ids -> exists l m,
    2 * length l = 2 * (length ids - nb_of_clusters ids truth) + nb_of_clusters ids truth * (nb_of_clusters ids truth - 1) /\
    add_all l (init ids) = (m, Ok tt) /\ complete m /\
    forall x y, In x ids -> In y ids -> inferred m x y (Some MUST_LINK) <-> truth x = truth y.
Proof.
  intros il truth N. exists (stars truth il).
  assert (I0 := init_inv il). assert (K0 : keys (cdict (init il)) = il) by (rewrite init_ids; apply dedup_id; auto).
  destruct (a_init_shows il) as [S0 C0].
  assert (A0 : forall t x y, added (init il) t x y -> t = MUST_LINK /\ x = y).
  { intros t x y A. apply (shows_added _ _ t x y I0 S0 C0) in A. cbn [a_init a_con] in A. destruct (mem x il); [|discriminate]. cbn [andb] in A.
    destruct (eqb_spec x y); [|discriminate]. split; congruence. }
  assert (Stars : forall a b t, In (a, b, t) (stars truth il) -> In a il /\ In b il /\
     ((t = MUST_LINK /\ truth a = truth b) \/ (t = CANNOT_LINK /\ truth a <> truth b))).
  { intros a b t H. unfold stars in H. apply in_app_iff in H. destruct H as [H|H]; apply in_map_iff in H.
    - destruct H as (x & E & Ix). inversion E; subst. apply filter_In in Ix. destruct Ix as [Ix _].
      destruct (centre_spec truth il b Ix). auto.
    - destruct H as ([x y] & E & P). cbn [fst snd] in E. injection E as <- <- <-. assert (P' := pairs_In _ _ _ P). destruct P' as [P1 P2].
      assert (Ix := P1). assert (Iy := P2). apply filter_In in Ix. apply filter_In in Iy. split; [tauto|]. split; [tauto|]. right. split; auto.
      intro T. apply (pairs_neq _ x y) in P; [|apply NoDup_filter; auto]. apply P. eapply centres_inj; eauto. }
  assert (B : satisfies (batch_added (stars truth il) MUST_LINK) (batch_added (stars truth il) CANNOT_LINK) truth).
  { assert (MC := ML_neq_CL). split; intros x y (a & b & H & S); apply Stars in H; destruct H as (_ & _ & [[E T]|[E T]]); try congruence;
      destruct S as [[-> ->]|[-> ->]]; auto. }
  destruct (add_all_succeeds (stars truth il) (init il) I0) as (m & Run).
  - rewrite K0. intros a b t H. apply Stars in H. unfold allowed. tauto.
  - exists truth. split; auto. assert (MC := ML_neq_CL). split; intros x y A; apply A0 in A; destruct A as [A1 A2]; congruence.
  - exists m. destruct (add_all_ok _ _ _ I0 Run) as (I' & K & AA & _). rewrite K0 in K.
    assert (Rm : reachable m).
    { assert (G : forall l m0 m1, reachable m0 -> add_all l m0 = (m1, Ok tt) -> reachable m1).
      { clear. induction l as [|[[a b] t] l IH]; intros m0 m1 R; unfold add_all; simpl; unfold bind, ret; [intro E; inversion E; subst; auto|].
        assert (R' := run_reachable_from [CallAddConstraint a b t 1%Q] m0 R). cbn [run fold_left exec] in R'. unfold bind in R'.
        destruct (add_constraint a b t 1%Q m0) as [m2 [v|e]]; [|discriminate]. apply IH. exact R'. }
      apply (G _ _ _ (run_reachable il []) Run). }
    assert (AM : forall a b t, In (a, b, t) (stars truth il) -> added m t a b) by (intros a b t H; apply AA; right; exists a, b; split; auto; left; auto).
    assert (LC : forall x, In x il -> linked (sml m) x (centre truth il x)).
    { intros x Ix. destruct (eqb_spec (centre truth il x) x) as [E|E]; [rewrite E; constructor|]. apply added_linked; auto.
      econstructor; [constructor|]. right. apply AM. unfold stars. apply in_app_iff. left. apply in_map_iff. exists x. split; auto.
      apply filter_In. split; auto. apply eqb_neq in E. rewrite E. auto. }
    assert (Sat : forall x y, linked (sml m) x y -> truth x = truth y).
    { intros x y L. eapply (sat_linked m truth); eauto. assert (MC := ML_neq_CL). destruct B as [B1 B2]. split; intros p q A; apply AA in A; destruct A as [A|A]; auto; apply A0 in A; destruct A; congruence. }
    assert (Must : forall x y, In x il -> In y il -> truth x = truth y -> linked (sml m) x y).
    { intros x y Ix Iy T. eapply linked_trans; [apply LC; auto|]. rewrite (centre_same truth il x y T Ix). apply linked_sym. apply LC; auto. }
    split; [rewrite <- (centres_length truth il) by auto; apply stars_length; auto|]. split; auto. split.
    + unfold complete. destruct (C14_completude_exact_proof m Rm) as (r & Er & H). rewrite Er. f_equal. apply H.
      intros x y Mx My. apply managed_ids in Mx. apply managed_ids in My. rewrite !inferred_spec by auto. rewrite K in Mx, My.
      destruct (Nat.eq_dec (truth x) (truth y)) as [T|T].
      * left. apply infer_ML; rewrite ?K; auto.
      * right. apply infer_CL; rewrite ?K; auto. apply added_separated; auto. exists (centre truth il x), (centre truth il y).
        rewrite !added_linked by auto. split; [apply LC; auto|]. split; [apply LC; auto|].
        destruct (pairs_total (centres truth il) (centre truth il x) (centre truth il y)) as [P|P]; try (apply centre_centres; auto).
        -- intro E. apply T. destruct (centre_spec truth il x Mx) as [_ <-]. destruct (centre_spec truth il y My) as [_ <-]. congruence.
        -- left. apply AM. unfold stars. apply in_app_iff. right. apply in_map_iff. exists (centre truth il x, centre truth il y). auto.
        -- right. apply AM. unfold stars. apply in_app_iff. right. apply in_map_iff. exists (centre truth il y, centre truth il x). auto.
    + intros x y Ix Iy. rewrite inferred_spec, infer_ML by (rewrite ?K; auto). split; [apply Sat|apply Must; auto].
Qed.
