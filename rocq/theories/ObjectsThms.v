(** * Properties of clusters as objects: [to_dict] and [add_new_children] (C91, C92). *)

From Coq Require Import String List Bool Arith ZArith NArith QArith Lia Permutation Decimal DecimalZ DecimalPos DecimalFacts.
From Verif Require Import Base Manager Spec Closure ManagerProofs ManagerInv ManagerQueries ManagerThms
  Json JsonSpec JsonProofs JsonThms Sampling SamplingSpec SamplingProofs SamplingThms Rename ClusterSpec RenameThms ClusterProofs
  KMeans KMeansSpec KMeansProofs KMeansThms Hierarchical HierSpec HierProofs HierRun HierTree HierThms Objects ObjectsSpec.
Import ListNotations.
Open Scope nat_scope.
Open Scope py_scope.

(*HEADER
From Coq Require Import String List Bool Arith ZArith NArith QArith Lia.
From Verif Require Import Base Manager Spec ManagerThms Json JsonSpec SamplingSpec ClusterSpec KMeansSpec Hierarchical HierSpec Objects ObjectsSpec ObjectsThms.
Import ListNotations.
Open Scope nat_scope.

(** An instance for the examples: points on a line. *)
Definition A := str "a". Definition B := str "b". Definition C := str "c".
Definition points : dict pystr Z := [(A, 0); (B, 1); (C, 10)]%Z.
Definition zmean (l : list Z) : Z := (fold_right Z.add 0 l / Z.of_nat (length l))%Z.
Definition hier_Z := cluster Z Z (fun X i j => Z.abs (nth i X 0 - nth j X 0)%Z) (fun x y => Z.abs (x - y)%Z) Z.ltb (fold_right Z.add 0%Z)
  (fun d n => (d / Z.of_nat n)%Z) 1000000%Z zmean.
(** One object per ID. *)
Definition leaves_of (l : list pystr) : heap Z := fold_left (fun h x => fst (construct Z zmean points 0 0 None (Some [x]) h)) l [].
Definition three : heap Z :=
  fst (construct Z zmean points 2 1 (Some [0; 1]) None
    (fst (construct Z zmean points (-7) 0 None (Some [B]) (fst (construct Z zmean points 0 0 None (Some [A]) []))))).

HEADER*)

(** ** Integers *)
Lemma read_acc u : forall p, read_digits (Zpos p) (uint_text u) = Some (Zpos (Pos.of_uint_acc u p)).
Proof.
  induction u; intro p; cbn [uint_text read_digits Pos.of_uint_acc]; [reflexivity|..];
    match goal with |- context [if ?b then _ else _] => change b with true end; cbv iota;
    match goal with |- read_digits ?z _ = _ => 
      match goal with |- _ = Some (Zpos (Pos.of_uint_acc _ ?q)) => replace z with (Zpos q) by lia end end; apply IHu.
Qed.

Lemma read_uint u : read_digits 0 (uint_text u) = Some (Z.of_N (Pos.of_uint u)).
Proof.
  induction u; cbn [uint_text read_digits Pos.of_uint]; [reflexivity| |..];
    match goal with |- context [if ?b then _ else _] => change b with true end; cbv iota; [exact IHu|..]; apply read_acc.
Qed.

Lemma uint_text_digits u c : In c (uint_text u) -> is_digit c = true.
Proof. induction u; cbn [uint_text]; [intros []|..]; intros [<-|K]; auto. Qed.

Lemma pos_text_front p : exists c s, uint_text (Pos.to_uint p) = c :: s /\ is_digit c = true /\ (c =? 48)%N = false.
Proof.
  assert (U : unorm (Pos.to_uint p) = Pos.to_uint p).
  { rewrite <- DecimalPos.Unsigned.to_of, DecimalPos.Unsigned.of_to. reflexivity. }
  assert (N0 := DecimalPos.Unsigned.to_uint_nonnil p). assert (NZ := DecimalPos.Unsigned.to_uint_nonzero p).
  assert (D0 : forall u, Pos.to_uint p <> D0 u).
  { intros u E. rewrite E in U, NZ. unfold unorm in U. destruct (nzhead (D0 u)) eqn:Q; try discriminate.
    - congruence.
    - apply nzhead_nonzero in Q; auto. }
  destruct (Pos.to_uint p); [congruence|congruence|..]; cbn [uint_text]; eexists; eexists; (split; [reflexivity|auto]).
Qed.

Lemma read_int_text z : read_int (int_text z) = Some z.
Proof.
  unfold int_text, Z.to_int. destruct z as [|p|p]; [reflexivity| |].
  - destruct (pos_text_front p) as (c & s & E & Dg & Z0). unfold read_int. rewrite E.
    assert (M : (c =? 45)%N = false). { apply digit_range in Dg. apply N.eqb_neq. lia. } rewrite M, <- E, read_uint.
    rewrite DecimalPos.Unsigned.of_to. reflexivity.
  - destruct (pos_text_front p) as (c & s & E & Dg & Z0). unfold read_int. cbn [N.eqb Pos.eqb]. rewrite E. cbv iota.
    rewrite <- E, read_uint, DecimalPos.Unsigned.of_to. reflexivity.
Qed.

Lemma span_all s : (forall c, In c s -> is_digit c = true) -> span_digits s = (s, []).
Proof. induction s as [|c s IH]; intro Q; cbn [span_digits]; auto. rewrite (Q c) by (left; auto). rewrite IH; auto. intros; apply Q; right; auto. Qed.

Lemma scan_pos p : scan_int (uint_text (Pos.to_uint p)) = Some (uint_text (Pos.to_uint p), []).
Proof.
  destruct (pos_text_front p) as (c & s & E & Dg & Z0). assert (Q := uint_text_digits (Pos.to_uint p)). rewrite E in *.
  unfold scan_int. rewrite Z0, Dg. rewrite span_all; auto. intros x X. apply Q. right; auto.
Qed.

Lemma scan_int_text z : scan_number (int_text z) = Some (int_text z, []).
Proof.
  unfold int_text, Z.to_int. destruct z as [|p|p]; [reflexivity| |].
  - unfold scan_number. destruct (pos_text_front p) as (c & s & E & Dg & Z0).
    assert (M : scan_minus (uint_text (Pos.to_uint p)) = ([], uint_text (Pos.to_uint p))).
    { rewrite E. unfold scan_minus. replace (c =? 45)%N with false; auto. symmetry. apply digit_range in Dg. apply N.eqb_neq. lia. }
    rewrite M, scan_pos. cbn [scan_frac scan_exp]. rewrite !List.app_nil_r. auto.
  - unfold scan_number. cbn [scan_minus N.eqb Pos.eqb]. rewrite scan_pos. cbn [scan_frac scan_exp]. rewrite !List.app_nil_r. auto.
Qed.

(** ** Descriptions *)
Section OutlineInd.
  Variable P : outline -> Prop.
  Hypothesis step : forall id it c d l, Forall P c -> P (Outline id it c d l).
  Lemma outline_ind_strong : forall t, P t.
  Proof.
    fix IH 1. intros [id it c d l]. apply step. induction c as [|x c IHc]; constructor; [apply IH|exact IHc].
  Qed.
End OutlineInd.

Lemma describes_fun : forall t v t', describes v t -> describes v t' -> t = t'.
Proof.
  intro t. induction t as [id it c d l IH] using outline_ind_strong. intros v t' X Y.
  inversion X as [fs id1 it1 cs vs d1 l1 A1 A2 A3 A4 A5 A6]; subst.
  inversion Y as [fs' id2 it2 cs' vs' d2 l2 B1 B2 B3 B4 B5 B6]; subst.
  assert (vs' = vs) by congruence. subst vs'.
  assert (c = cs').
  { clear - IH A4 B4. revert c cs' IH A4 B4. induction vs as [|v vs IHv]; intros c c' IH F F'; inversion F; inversion F'; subst; auto.
    inversion IH; subst. f_equal; eauto. }
  congruence.
Qed.

Lemma collect_strings l : collect (fun x => match x with JStr s => Some s | _ => None end) (map JStr l) = Some l.
Proof. induction l as [|s l IH]; cbn [map collect]; auto. rewrite IH. auto. Qed.

Section Objects.
  Context {vec : Type}.
  Variable mean : list vec -> vec.
  Notation heap := (heap vec).
  Notation tree := (tree vec).
  Implicit Types h : heap.
  Implicit Types t : tree.

  Lemma height_eq t : height t = match t_children vec t with [] => 0 | _ => S (list_max (map height (t_children vec t))) end.
  Proof. destruct t; reflexivity. Qed.

  Lemma height_child t c : In c (t_children vec t) -> height c < height t.
  Proof.
    intro C. rewrite (height_eq t). destruct (t_children vec t) as [|x l] eqn:E; [destruct C|]. rewrite <- E in *. clear E.
    assert (Q := proj1 (list_max_le (map height (t_children vec t)) _) (le_n _)). rewrite Forall_forall in Q.
    specialize (Q (height c) (in_map height _ _ C)). lia.
  Qed.

  Lemma deref_ok h a o : nth_error h a = Some o -> deref vec h a = Ok o.
  Proof. unfold deref. intros ->. auto. Qed.

  Definition fields (o : obj vec) vs : json :=
    JObj [(str "cluster_ID", JNum (int_text (o_id vec o)));
          (str "clustering_iteration", JNum (int_text (o_iteration vec o)));
          (str "children", JArr vs);
          (str "cluster_inverse_depth", JNum (int_text (Z.of_nat (o_depth vec o))));
          (str "members", JArr (map JStr (o_members vec o)))].

  Lemma to_dict_eq limit h a o : nth_error h a = Some o ->
    to_dict vec (S limit) h a = rbind (rmap (to_dict vec limit h) (o_children vec o)) (fun vs => Ok (fields o vs)).
  Proof. intro E. cbn [to_dict]. rewrite (deref_ok _ _ _ E). reflexivity. Qed.

  Lemma fields_describe o vs cs : Forall2 describes vs cs ->
    describes (fields o vs) (Outline (o_id vec o) (o_iteration vec o) cs (Z.of_nat (o_depth vec o)) (o_members vec o)).
  Proof.
    intro F. eapply describes_node; eauto; try reflexivity.
    - change (read_int (int_text (o_id vec o)) = Some (o_id vec o)). apply read_int_text.
    - change (read_int (int_text (o_iteration vec o)) = Some (o_iteration vec o)). apply read_int_text.
    - change (read_int (int_text (Z.of_nat (o_depth vec o))) = Some (Z.of_nat (o_depth vec o))). apply read_int_text.
    - change (collect (fun x => match x with JStr s => Some s | _ => None end) (map JStr (o_members vec o)) = Some (o_members vec o)).
      apply collect_strings.
  Qed.

  Lemma fields_wf o vs : Forall wf_json vs -> Forall text_ok (o_members vec o) -> wf_json (fields o vs).
  Proof.
    intros W T. unfold fields. apply wf_obj. repeat constructor; cbn [fst snd]; try (apply text_ok_ascii; reflexivity);
      try (cbn [wf_json]; apply scan_int_text); apply wf_arr; auto.
    apply Forall_forall. intros v V. apply in_map_iff in V as (s & <- & S). rewrite Forall_forall in T. exact (T s S).
  Qed.

  Lemma rmap_ok_F2 {A B} (f : A -> res B) l r : rmap f l = Ok r -> Forall2 (fun x y => f x = Ok y) l r.
  Proof.
    revert r. induction l as [|x l IH]; intros r E; cbn [rmap] in E; [injection E as <-; auto|].
    destruct (f x) eqn:Ex; cbn [rbind] in E; [|discriminate]. destruct (rmap f l) eqn:El; cbn [rbind] in E; [|discriminate].
    injection E as <-. auto.
  Qed.

  Lemma rmap_F2 {A B} (f : A -> res B) l r : Forall2 (fun x y => f x = Ok y) l r -> rmap f l = Ok r.
  Proof. induction 1 as [|x y l r E F IH]; cbn [rmap]; auto. rewrite E. cbn [rbind]. rewrite IH. auto. Qed.

  (** Only one error comes out when every failure is that error. *)
  Lemma rmap_error {A B} (f : A -> res B) e l : (forall x, In x l -> f x = Raise e \/ exists y, f x = Ok y) ->
    (exists x, In x l /\ f x = Raise e) -> rmap f l = Raise e.
  Proof.
    induction l as [|x l IH]; intros Q (y & Y & E); [destruct Y|]. cbn [rmap]. destruct (Q x (or_introl eq_refl)) as [->|[z Z]]; auto.
    rewrite Z. cbn [rbind]. rewrite IH; auto; [intros; apply Q; right; auto|]. destruct Y as [->|Y]; [congruence|eauto].
  Qed.

  (** [to_dict] of a tree. *)
  Lemma to_dict_tree vectors h : forall t a limit, represents vectors h a t ->
    (height t < limit -> exists v, to_dict vec limit h a = Ok v /\ describes v (outline_of t) /\
       ((forall u x, subtree u t -> In x (t_members vec u) -> text_ok x) -> wf_json v)) /\
    (limit <= height t -> to_dict vec limit h a = Raise RecursionError).
  Proof.
    intro t. induction t as [t IH] using (tree_ind_strong (vec := vec)). intros a limit R.
    inversion R as [a' o id it c d l v E EV E1 E2 F E3 E4 E5]. subst a' t. cbn [t_children] in IH.
    destruct limit as [|limit]; [split; [lia|reflexivity]|]. rewrite (to_dict_eq _ _ _ _ E). split; intro L.
    - assert (G : exists vs, rmap (to_dict vec limit h) (o_children vec o) = Ok vs /\ Forall2 describes vs (map outline_of c) /\
                ((forall u x, (exists t, In t c /\ subtree u t) -> In x (t_members vec u) -> text_ok x) -> Forall wf_json vs)).
      { assert (HC : forall x, In x c -> height x < limit).
        { intros x X. apply (height_child (Node vec id it c d l v)) in X. lia. }
        clear - IH F HC. induction F as [|b x bs c RX F IHF]; [exists []; cbn; auto|].
        destruct IHF as (vs & R & D & W); [intros; apply IH; auto; right; auto|intros; apply HC; right; auto|].
        destruct (proj1 (IH x (or_introl eq_refl) b limit RX) (HC x (or_introl eq_refl))) as (v & Rv & Dv & Wv).
        exists (v :: vs). cbn [rmap]. rewrite Rv. cbn [rbind]. rewrite R. split; auto. split; [constructor; auto|].
        intro T. constructor; [apply Wv; intros u y U; apply T; exists x; split; auto; left; auto|].
        apply W. intros u y (t & Tt & U). apply T. exists t. split; auto. right; auto. }
      destruct G as (vs & -> & D & W). cbn [rbind]. exists (fields o vs). split; auto. split.
      + cbn [outline_of]. rewrite <- E1, <- E2, <- E3, <- E4. apply fields_describe; auto.
      + intro T. apply fields_wf.
        * apply W. intros u x (t & Tt & U). apply T. apply subtree_child with t; auto.
        * rewrite E4. apply Forall_forall. intros x X. apply (T (Node vec id it c d l v)); auto. constructor.
    - rewrite (rmap_error _ RecursionError); [reflexivity| |].
      + clear - IH F. intros b B. assert (exists x, In x c /\ represents vectors h b x) as (x & X & RX).
        { induction F as [|b' x bs c RX F IHF]; [destruct B|]; destruct B as [->|B]; [exists x; split; auto; left; auto|].
          destruct IHF as (y & Y & RY); [intros; apply IH; auto; right; auto|auto|]. exists y. split; auto. right; auto. }
        destruct (le_lt_dec limit (height x)) as [K|K]; [left; apply (IH x X b limit RX); auto|].
        destruct (proj1 (IH x X b limit RX) K) as (v & V & _). right. eauto.
      + rewrite height_eq in L. cbn [t_children] in L. destruct c as [|x0 c0]; [lia|]. set (c := x0 :: c0) in *.
        assert (exists x, In x c /\ limit <= height x) as (x & X & HX).
        { assert (K : In (list_max (map height c)) (map height c)).
          { clear. subst c. generalize x0. induction c0 as [|y c IHc]; intro x; cbn [map list_max fold_right]; [rewrite Nat.max_0_r; left; auto|].
            specialize (IHc y). cbn [map] in IHc. unfold list_max in IHc.
            destruct (Nat.max_spec (height x) (fold_right Init.Nat.max 0 (height y :: map height c))) as [[_ M]|[_ M]].
            - right. unfold list_max. cbn [fold_right] in *. rewrite M. exact IHc.
            - left. unfold list_max. cbn [fold_right] in *. rewrite M. reflexivity. }
          apply in_map_iff in K as (x & EX & X). exists x. split; auto. lia. }
        assert (exists b, In b (o_children vec o) /\ represents vectors h b x) as (b & B & RX).
        { clear - F X. induction F as [|b' y bs c RX F IHF]; [destruct X|]; destruct X as [->|X]; [exists b'; split; auto; left; auto|].
          destruct IHF as (b & B & RB); auto. exists b. split; auto. right; auto. }
        exists b. split; auto. apply (IH x X b limit RX); auto.
  Qed.

  Lemma Forall2_impl' {A B} (P Q : A -> B -> Prop) l r : (forall x y, P x y -> Q x y) -> Forall2 P l r -> Forall2 Q l r.
  Proof. induction 2; auto. Qed.

  (** ** Constructor *)
  Lemma nth_error_old {A} (l : list A) x a y : nth_error l a = Some y -> nth_error (l ++ [x]) a = Some y.
  Proof. intro E. rewrite nth_error_app1; auto. apply nth_error_Some. congruence. Qed.

  Lemma represents_grow vectors h o : forall t a, represents vectors h a t -> represents vectors (h ++ [o]) a t.
  Proof.
    intro t. induction t as [t IH] using (tree_ind_strong (vec := vec)). intros a R.
    inversion R as [a' o' id it c d l v E EV E1 E2 F E3 E4 E5]. subst a' t. cbn [t_children] in IH.
    apply represents_node with o'; auto; [apply nth_error_old; auto|].
    clear - IH F. induction F; constructor; auto; [apply IH; auto; left; auto|]. apply IHF. intros; apply IH; auto. right; auto.
  Qed.

  Lemma represents_objs vectors h cs ts : Forall2 (represents vectors h) cs ts -> exists objs,
    rmap (deref vec h) cs = Ok objs /\ map (o_depth vec) objs = map (t_depth vec) ts /\
    flat_map (o_members vec) objs = flat_map (t_members vec) ts /\ Forall2 (fun c oc => nth_error h c = Some oc) cs objs.
  Proof.
    induction 1 as [|b t cs ts R F (objs & E & E1 & E2 & E3)]; [exists []; auto|].
    inversion R as [a' o id it c d l v Q EV Q1 Q2 F' Q3 Q4 Q5]. exists (o :: objs). cbn [rmap map flat_map].
    rewrite (deref_ok _ _ _ Q). cbn [rbind]. rewrite E, E1, E2. cbn [t_depth t_members]. subst d l. auto.
  Qed.

  Lemma construct_sim vectors h children ctrees members id it :
    children_are vectors h children ctrees ->
    match new_cluster vec mean vectors id it ctrees members with
    | Ok t => exists o, construct vec mean vectors id (Z.of_nat it) children members h = (h ++ [o], Ok (length h)) /\
                represents vectors (h ++ [o]) (length h) t
    | Raise e => construct vec mean vectors id (Z.of_nat it) children members h = (h, Raise e)
    end.
  Proof.
    intro Q. unfold new_cluster, construct, bind, gets, lift, modify, ret, raise, centroid_of, children_are in *.
    destruct children as [cs|], ctrees as [ts|]; try contradiction.
    - destruct members as [l|]; auto. destruct (represents_objs _ _ _ _ Q) as (objs & E & E1 & E2 & _). rewrite E, E1, E2.
      assert (EN : (match objs with [] => 0 | _ => list_max (map (t_depth vec) ts) + 1 end) =
                   match ts with [] => 0 | _ => list_max (map (t_depth vec) ts) + 1 end).
      { destruct objs, ts; auto; discriminate. }
      rewrite EN. destruct (rmap (fun x => dlookup x vectors) (flat_map (t_members vec) ts)) as [[|r rows]|e]; cbn [rbind]; auto.
      eexists. split; [reflexivity|]. eapply represents_node; [rewrite nth_error_app2, Nat.sub_diag by auto; reflexivity|..]; try reflexivity.
      cbn [o_children]. eapply Forall2_impl'; [|exact Q]. intros; apply represents_grow; auto.
    - destruct members as [l|]; auto. cbn [rmap rbind].
      destruct (rmap (fun x => dlookup x vectors) l) as [[|r rows]|e]; cbn [rbind]; auto.
      eexists. split; [reflexivity|]. eapply represents_node; [rewrite nth_error_app2, Nat.sub_diag by auto; reflexivity|..]; try reflexivity. constructor.
  Qed.

  (** A tree built bottom-up can be built by constructor calls. *)
  Definition buildable vectors t : Prop := forall u, subtree u t ->
    (t_children vec u <> [] -> t_members vec u = flat_map (t_members vec) (t_children vec u)) /\
    t_depth vec u = match t_children vec u with [] => 0 | c => S (list_max (map (t_depth vec) c)) end /\
    centroid_ok mean vectors u /\ (t_children vec u = [] -> t_members vec u <> []).

  Lemma subtree_trans (u t r : tree) : subtree u t -> subtree t r -> subtree u r.
  Proof. intros U T. induction T; auto. eapply subtree_child; eauto. Qed.

  Lemma buildable_members vectors t : buildable vectors t -> t_members vec t <> [].
  Proof.
    induction t as [t IH] using (tree_ind_strong (vec := vec)). intro B. destruct (B t (subtree_self t)) as (M & _ & _ & L).
    destruct (t_children vec t) as [|c cs] eqn:E; [apply L; auto|]. rewrite M by discriminate. cbn [flat_map].
    assert (Q : t_members vec c <> []).
    { apply IH; [left; auto|]. intros u U. apply B. apply subtree_child with c; auto. rewrite E. left; auto. }
    destruct (t_members vec c); [congruence|discriminate].
  Qed.

  Lemma rows_lookup (vectors : dict pystr vec) l rows : vectors_are vectors l rows -> rmap (fun x => dlookup x vectors) l = Ok rows.
  Proof.
    unfold vectors_are. revert rows. induction l as [|x l IH]; intros [|r rows] E; try discriminate; auto. cbn [map] in E. injection E as E1 E2.
    cbn [rmap]. unfold dlookup at 1. rewrite E1. cbn [rbind]. rewrite (IH rows) by auto. auto.
  Qed.

  Lemma build_ok vectors t : buildable vectors t ->
    new_cluster vec mean vectors (t_id vec t) (t_iteration vec t)
      (match t_children vec t with [] => None | c => Some c end)
      (match t_children vec t with [] => Some (t_members vec t) | _ => None end) = Ok t.
  Proof.
    intro B. assert (NM := buildable_members vectors t B).
    destruct (B t (subtree_self t)) as (M & Dp & (rows & R & C) & L). apply rows_lookup in R.
    destruct t as [id it c d l v]. cbn [t_id t_iteration t_children t_members t_depth t_centroid] in *. subst v d.
    assert (NR : rows <> []) by (intros ->; destruct l; [congruence|]; cbn [rmap] in R; destruct (dlookup _ _); [|discriminate]; cbn [rbind] in R; destruct (rmap _ _); discriminate).
    unfold new_cluster. destruct c as [|c cs].
    - rewrite R. cbn [rbind]. destruct rows; [congruence|]. reflexivity.
    - rewrite <- M by discriminate. rewrite R. cbn [rbind]. destruct rows; [congruence|]. rewrite Nat.add_1_r. reflexivity.
  Qed.

  Lemma build vectors : forall t h, buildable vectors t -> constructed mean h -> exists h' a, constructed mean h' /\
    represents vectors h' a t /\ forall b u, represents vectors h b u -> represents vectors h' b u.
  Proof.
    intro t. induction t as [t IH] using (tree_ind_strong (vec := vec)). intros h B C.
    assert (G : exists h1 cs, constructed mean h1 /\ Forall2 (represents vectors h1) cs (t_children vec t) /\
                forall b u, represents vectors h b u -> represents vectors h1 b u).
    { assert (BC : forall x, In x (t_children vec t) -> buildable vectors x).
      { intros x X u U. apply B. apply subtree_child with x; auto. }
      revert BC IH. generalize (t_children vec t). intros l. revert h C. induction l as [|x l IHl]; intros h C BC IH; [exists h, []; auto|].
      destruct (IH x (or_introl eq_refl) h (BC x (or_introl eq_refl)) C) as (h1 & a & C1 & R1 & K1).
      destruct (IHl h1 C1) as (h2 & cs & C2 & F2 & K2); [intros; apply BC; right; auto|intros; apply IH; auto; right; auto|].
      exists h2, (a :: cs). auto. }
    destruct G as (h1 & cs & C1 & F & K1).
    assert (BO := build_ok vectors t B).
    set (ct := match t_children vec t with [] => None | c => Some c end) in BO.
    set (ms := match t_children vec t with [] => Some (t_members vec t) | _ => None end) in BO.
    assert (S := construct_sim vectors h1 (match t_children vec t with [] => None | _ => Some cs end) ct ms (t_id vec t) (t_iteration vec t)).
    rewrite BO in S. destruct S as (o & E & R); [subst ct; unfold children_are; destruct (t_children vec t); auto|].
    exists (h1 ++ [o]), (length h1). split; [|split; auto].
    - replace (h1 ++ [o]) with (fst (construct vec mean vectors (t_id vec t) (Z.of_nat (t_iteration vec t)) (match t_children vec t with [] => None | _ => Some cs end) ms h1)) by (rewrite E; auto).
      constructor; auto.
    - intros b u Q. apply represents_grow. auto.
  Qed.

  (** ** Height of a dendrogram *)
  Lemma leaves_pos t : 1 <= length (leaves t).
  Proof.
    induction t as [t IH] using (tree_ind_strong (vec := vec)). rewrite leaves_eq. destruct (t_children vec t) as [|c cs]; [cbn; lia|].
    cbn [flat_map]. rewrite app_length. specialize (IH c (or_introl eq_refl)). lia.
  Qed.

  Lemma flat_leaves (l : list tree) : length l <= length (flat_map leaves l).
  Proof. induction l as [|t l IH]; cbn [flat_map length]; auto. rewrite app_length. pose proof (leaves_pos t). lia. Qed.

  Lemma height_leaves t : (forall u, subtree u t -> t_children vec u = [] \/ 2 <= length (t_children vec u)) -> height t < length (leaves t).
  Proof.
    induction t as [t IH] using (tree_ind_strong (vec := vec)). intro B. rewrite height_eq, leaves_eq.
    destruct (t_children vec t) as [|c0 cs0] eqn:E; [cbn; lia|]. set (l := c0 :: cs0) in *.
    assert (L2 : 2 <= length l). { destruct (B t (subtree_self t)) as [Q|Q]; rewrite E in Q; [discriminate|auto]. }
    assert (HL : forall x, In x l -> height x < length (leaves x)).
    { intros x X. apply IH; auto. intros u U. apply B. apply subtree_child with x; auto. rewrite E; auto. }
    assert (G : forall x, In x l -> height x + 1 < length (flat_map leaves l)).
    { intros x X. apply in_split in X as (l1 & l2 & El). specialize (HL x). rewrite El in HL, L2 |- *. rewrite flat_map_app. cbn [flat_map].
      rewrite !app_length in *. cbn [length] in L2. pose proof (flat_leaves l1). pose proof (flat_leaves l2).
      specialize (HL ltac:(apply in_or_app; right; left; auto)). lia. }
    assert (M : list_max (map height l) < length (flat_map leaves l) - 1); [|lia].
    apply list_max_map_lt; [|subst l; discriminate]. intros x X. specialize (G x X). lia.
  Qed.

  (** ** [add_new_children] *)
  Notation live h := (fun c oc => nth_error h c = Some oc).

  Lemma assign_same h a o o' : nth_error h a = Some o -> nth_error (assign vec h a o') a = Some o'.
  Proof.
    intro E. assert (L : a < length h) by (apply nth_error_Some; congruence). unfold assign.
    rewrite nth_error_app2 by (rewrite firstn_length; lia). rewrite firstn_length, Nat.min_l, Nat.sub_diag by lia. auto.
  Qed.

  Lemma nth_error_firstn' {A} (l : list A) : forall n b, b < n -> nth_error (firstn n l) b = nth_error l b.
  Proof. induction l as [|x l IH]; intros [|n] [|b] L; cbn; auto; try lia. apply IH. lia. Qed.
  Lemma nth_error_skipn' {A} (l : list A) : forall n b, nth_error (skipn n l) b = nth_error l (n + b).
  Proof. induction l as [|x l IH]; intros [|n] b; cbn; auto. destruct b; auto. Qed.

  Lemma assign_other h a o b : a < length h -> b <> a -> nth_error (assign vec h a o) b = nth_error h b.
  Proof.
    intros L N. unfold assign. destruct (lt_dec b a) as [K|K].
    - rewrite nth_error_app1 by (rewrite firstn_length; lia). apply nth_error_firstn'; auto.
    - rewrite nth_error_app2 by (rewrite firstn_length; lia). rewrite firstn_length, Nat.min_l by lia.
      destruct (b - a) as [|k] eqn:E; [lia|]. cbn [nth_error]. rewrite nth_error_skipn'. f_equal. lia.
  Qed.

  Lemma assign_length h a o : a < length h -> length (assign vec h a o) = length h.
  Proof. intro L. unfold assign. rewrite app_length. cbn [length]. rewrite firstn_length, skipn_length. lia. Qed.

  Lemma assign_twice h a o o' : a < length h -> assign vec (assign vec h a o) a o' = assign vec h a o'.
  Proof.
    intro L. unfold assign. f_equal.
    - rewrite firstn_app, firstn_firstn, firstn_length, Nat.min_id, Nat.min_l by lia. rewrite Nat.sub_diag. cbn [firstn]. apply List.app_nil_r.
    - f_equal. rewrite skipn_app, firstn_length, Nat.min_l by lia. rewrite (skipn_all2 (firstn a h)) by (rewrite firstn_length; lia).
      replace (S a - a) with 1 by lia. reflexivity.
  Qed.

  Lemma update_run h a o f : nth_error h a = Some o -> update vec a f h = (assign vec h a (f o), Ok tt).
  Proof. intro E. unfold update, bind, gets, lift, modify, deref. rewrite E. reflexivity. Qed.

  Definition with_children o it cs := set_children vec cs (set_iteration vec it o).
  Definition with_members o it cs (objs : list (obj vec)) :=
    set_members vec (flat_map (o_members vec) objs) (set_depth vec (list_max (map (o_depth vec) objs) + 1) (with_children o it cs)).

  Lemma live_deref h cs objs : Forall2 (live h) cs objs -> rmap (deref vec h) cs = Ok objs.
  Proof. intro F. apply rmap_F2. eapply Forall2_impl'; [|exact F]. intros c oc. apply deref_ok. Qed.

  Lemma add_run h a o new it objs : nth_error h a = Some o ->
    let cs := o_children vec o ++ filter (fun c => negb (mem c (o_children vec o))) new in
    Forall2 (live (assign vec h a (with_children o it cs))) cs objs ->
    add_new_children vec mean a new it h =
    match objs with
    | [] => (assign vec h a (with_children o it cs), Raise ValueError)
    | _ => match centroid_of vec mean (o_vectors vec o) (flat_map (o_members vec) objs) with
           | Ok v => (assign vec h a (set_centroid vec v (with_members o it cs objs)), Ok tt)
           | Raise e => (assign vec h a (with_members o it cs objs), Raise e)
           end
    end.
  Proof.
    intros E cs F. assert (L : a < length h) by (apply nth_error_Some; congruence).
    unfold add_new_children. unfold bind at 1. rewrite (update_run _ _ _ _ E).
    assert (E1 := assign_same h a o (set_iteration vec it o) E).
    unfold bind at 1. rewrite (update_run _ _ _ _ E1). rewrite (assign_twice h a) by auto.
    change (set_children vec _ (set_iteration vec it o)) with (with_children o it cs).
    assert (E2 := assign_same h a o (with_children o it cs) E).
    unfold bind at 1, gets at 1. unfold bind at 1, lift at 1. rewrite (deref_ok _ _ _ E2).
    change (o_children vec (with_children o it cs)) with cs.
    unfold bind at 1, lift at 1. rewrite (live_deref _ _ _ F).
    unfold bind at 1, lift at 1. destruct objs as [|o1 objs']; [reflexivity|]. set (objs := o1 :: objs') in *.
    unfold bind at 1. rewrite (update_run _ _ _ _ E2), (assign_twice h a) by auto.
    assert (E3 := assign_same h a o (set_depth vec (list_max (map (o_depth vec) objs) + 1) (with_children o it cs)) E).
    unfold bind at 1. rewrite (update_run _ _ _ _ E3), (assign_twice h a) by auto.
    change (set_members vec _ (set_depth vec (list_max (map (o_depth vec) objs) + 1) (with_children o it cs))) with (with_members o it cs objs).
    assert (E4 := assign_same h a o (with_members o it cs objs) E).
    change (o_vectors vec (with_children o it cs)) with (o_vectors vec o).
    unfold bind, lift. destruct (centroid_of vec mean (o_vectors vec o) (flat_map (o_members vec) objs)) as [v|e]; auto.
    rewrite (update_run _ _ _ _ E4), (assign_twice h a) by auto. reflexivity.
  Qed.

  Lemma live_all h cs : (forall c, In c cs -> c < length h) -> exists objs, Forall2 (live h) cs objs.
  Proof.
    induction cs as [|c cs IH]; intro Q; [exists []; auto|]. destruct IH as [objs F]; [intros; apply Q; right; auto|].
    destruct (nth_error h c) eqn:E; [eauto|]. apply nth_error_None in E. specialize (Q c (or_introl eq_refl)). lia.
  Qed.

  Lemma live_assign h a o' cs objs : a < length h -> ~ In a cs -> Forall2 (live h) cs objs <-> Forall2 (live (assign vec h a o')) cs objs.
  Proof.
    intros L N. split; intro F; induction F; constructor; auto; try (apply IHF; intro; apply N; right; auto).
    - rewrite assign_other; auto. intros ->. apply N. left; auto.
    - rewrite assign_other in H; auto. intros ->. apply N. left; auto.
  Qed.

  Lemma live_fun h cs objs objs' : Forall2 (live h) cs objs -> Forall2 (live h) cs objs' -> objs = objs'.
  Proof.
    intro F. revert objs'. induction F; intros objs' F'; inversion F'; subst; auto. f_equal; auto. congruence.
  Qed.

  Lemma live_lt h cs objs : Forall2 (live h) cs objs -> forall c, In c cs -> c < length h.
  Proof. induction 1; intros d []; subst; auto. apply nth_error_Some. congruence. Qed.

  (** ** Objects built from the leaves up *)
  Record sound h : Prop := {
    so_inner : forall a o, nth_error h a = Some o -> o_children vec o <> [] -> up_to_date h o;
    so_leaf : forall a o, nth_error h a = Some o -> o_children vec o = [] -> o_depth vec o = 0 }.

  Lemma live_grow h o cs objs : Forall2 (live h) cs objs -> Forall2 (live (h ++ [o])) cs objs.
  Proof. apply Forall2_impl'. intros; apply nth_error_old; auto. Qed.

  Lemma up_to_date_grow h o o' : up_to_date h o -> up_to_date (h ++ [o']) o.
  Proof. intros (objs & F & Q). exists objs. split; auto. apply live_grow; auto. Qed.

  Lemma construct_cases vectors id it children members h :
    (exists e, construct vec mean vectors id it children members h = (h, Raise e)) \/
    exists o objs rows, construct vec mean vectors id it children members h = (h ++ [o], Ok (length h)) /\
      Forall2 (live h) (o_children vec o) objs /\
      o_depth vec o = match objs with [] => 0 | _ => list_max (map (o_depth vec) objs) + 1 end /\
      (members = None -> o_members vec o = flat_map (o_members vec) objs) /\
      o_children vec o = match children with Some c => c | None => [] end /\
      (members <> None -> children = None) /\
      vectors_are vectors (o_members vec o) rows /\ o_centroid vec o = mean rows.
  Proof.
    assert (DL : forall l rows, rmap (fun x => dlookup x vectors) l = Ok rows -> vectors_are vectors l rows).
    { intros l rows E. unfold vectors_are. apply dlookup_map; auto. }
    unfold construct, bind, gets, lift, modify, ret, raise, centroid_of.
    destruct children as [cs|], members as [l|]; eauto; cbn [rmap].
    - destruct (rmap (deref vec h) cs) as [objs|e] eqn:Ed; eauto.
      destruct (rmap (fun x => dlookup x vectors) (flat_map (o_members vec) objs)) as [[|r rows]|e] eqn:Er; cbn [rbind]; eauto.
      right. eexists; exists objs, (r :: rows). split; [reflexivity|]. cbn [o_children o_depth o_members o_centroid].
      repeat split; auto; try congruence. apply rmap_ok_F2 in Ed. eapply Forall2_impl'; [|exact Ed]. intros c oc. unfold deref.
      destruct (nth_error h c); congruence.
    - destruct (rmap (fun x => dlookup x vectors) l) as [[|r rows]|e] eqn:Er; cbn [rbind]; eauto.
      right. eexists; exists [], (r :: rows). split; [reflexivity|]. cbn [o_children o_depth o_members o_centroid].
      repeat split; auto; try congruence.
  Qed.

  Lemma sound_construct h vectors id it children members : sound h -> sound (fst (construct vec mean vectors id it children members h)).
  Proof.
    intros [SI SL]. destruct (construct_cases vectors id it children members h) as [[e ->]|(o & objs & rows & E & F & Ed & Em & Ec & Eo & _)]; [constructor; auto|].
    rewrite E. cbn [fst]. constructor.
    - intros a o' A N. destruct (lt_dec a (length h)) as [L|L].
      + rewrite nth_error_app1 in A by auto. apply up_to_date_grow. eauto.
      + rewrite nth_error_app2 in A by lia. destruct (a - length h) as [|k] eqn:K; [|destruct k; discriminate]. cbn in A. injection A as <-.
        exists objs. split; [apply live_grow; auto|]. destruct members as [l|]; [rewrite Ec, Eo in N by discriminate; congruence|].
        split; [apply Em; auto|]. rewrite Ed. destruct objs; [inversion F; congruence|]. lia.
    - intros a o' A N. destruct (lt_dec a (length h)) as [L|L].
      + rewrite nth_error_app1 in A by auto. eauto.
      + rewrite nth_error_app2 in A by lia. destruct (a - length h) as [|k] eqn:K; [|destruct k; discriminate]. cbn in A. injection A as <-.
        rewrite N in F. inversion F; subst. auto.
  Qed.

  (** What a call changes, when the object is not added to itself. *)
  Lemma add_effect h a o new it : nth_error h a = Some o -> (forall c, In c (o_children vec o ++ new) -> c < length h) ->
    ~ In a (o_children vec o ++ new) ->
    exists objs, let cs := o_children vec o ++ filter (fun c => negb (mem c (o_children vec o))) new in
      Forall2 (live h) cs objs /\
      add_new_children vec mean a new it h =
      match objs with
      | [] => (assign vec h a (with_children o it cs), Raise ValueError)
      | _ => match centroid_of vec mean (o_vectors vec o) (flat_map (o_members vec) objs) with
             | Ok v => (assign vec h a (set_centroid vec v (with_members o it cs objs)), Ok tt)
             | Raise e => (assign vec h a (with_members o it cs objs), Raise e)
             end
      end.
  Proof.
    intros E L N. assert (La : a < length h) by (apply nth_error_Some; congruence).
    set (cs := o_children vec o ++ filter (fun c => negb (mem c (o_children vec o))) new).
    assert (IN : incl cs (o_children vec o ++ new)).
    { intros c C. apply in_app_or in C as [C|C]; apply in_or_app; auto. apply filter_In in C. tauto. }
    destruct (live_all h cs) as [objs F]; [intros c C; apply L, IN; auto|].
    exists objs. split; auto. apply add_run; auto. apply live_assign; auto.
  Qed.

  Lemma up_to_date_assign h a o' o : a < length h -> ~ In a (o_children vec o) -> up_to_date h o -> up_to_date (assign vec h a o') o.
  Proof. intros L N (objs & F & Q). exists objs. split; auto. apply live_assign; auto. Qed.

  Lemma sound_add h a o new it : sound h -> nth_error h a = Some o -> o_children vec o <> [] -> no_parent h a -> ~ In a new ->
    (forall c, In c new -> c < length h) -> sound (fst (add_new_children vec mean a new it h)).
  Proof.
    intros [SI SL] E NE NP NI L. assert (La : a < length h) by (apply nth_error_Some; congruence).
    destruct (SI a o E NE) as (objs0 & F0 & _).
    destruct (add_effect h a o new it E) as (objs & F & R).
    { intros c C. apply in_app_or in C as [C|C]; auto. eapply live_lt; eauto. }
    { intro C. apply in_app_or in C as [C|C]; auto. apply (NP a o E C). }
    set (cs := o_children vec o ++ filter (fun c => negb (mem c (o_children vec o))) new) in *. cbn zeta in R.
    assert (NC : ~ In a cs).
    { intro C. apply in_app_or in C as [C|C]; [apply (NP a o E C)|]. apply filter_In in C. tauto. }
    assert (NN : cs <> []) by (unfold cs; destruct (o_children vec o); [congruence|discriminate]).
    assert (NO : objs <> []) by (intros ->; inversion F; congruence).
    assert (G : exists o', fst (add_new_children vec mean a new it h) = assign vec h a o' /\ o_children vec o' = cs /\
                o_members vec o' = flat_map (o_members vec) objs /\ o_depth vec o' = S (list_max (map (o_depth vec) objs))).
    { rewrite R. destruct objs as [|o1 objs']; [congruence|]. set (objs := o1 :: objs') in *.
      destruct (centroid_of vec mean (o_vectors vec o) (flat_map (o_members vec) objs)) as [v|e];
        eexists; (split; [reflexivity|]); cbn [o_children o_members o_depth set_centroid set_members set_depth with_members with_children set_children set_iteration];
        repeat split; lia. }
    destruct G as (o' & -> & C' & M' & D'). constructor.
    - intros b ob B NB. destruct (Nat.eq_dec b a) as [->|Nb].
      + rewrite (assign_same h a o o' E) in B. injection B as <-. exists objs. rewrite C'. split; [apply live_assign; auto|auto].
      + rewrite assign_other in B by auto. apply up_to_date_assign; eauto.
    - intros b ob B NB. destruct (Nat.eq_dec b a) as [->|Nb].
      + rewrite (assign_same h a o o' E) in B. injection B as <-. congruence.
      + rewrite assign_other in B by auto. eauto.
  Qed.

  Lemma bottom_up_sound h : bottom_up mean h -> sound h.
  Proof.
    induction 1 as [|h vectors id it children members B IH|h a o new it B IH E NE NP NI L].
    - constructor; intros [|a]; discriminate.
    - apply sound_construct; auto.
    - eapply sound_add; eauto.
  Qed.

  Lemma sound_to_dict h : sound h -> forall n a o limit, o_depth vec o <= n -> nth_error h a = Some o ->
    (o_depth vec o < limit -> exists v, to_dict vec limit h a = Ok v) /\
    (limit <= o_depth vec o -> to_dict vec limit h a = Raise RecursionError).
  Proof.
    intros [SI SL] n. induction n as [|n IH]; intros a o limit Ln E;
      (destruct limit as [|limit]; [split; [lia|reflexivity]|]); rewrite (to_dict_eq _ _ _ _ E);
      (destruct (list_eq_dec Nat.eq_dec (o_children vec o) []) as [E0|NE]; [rewrite (SL a o E E0), E0; cbn [rmap rbind]; split; [eauto|lia]|]);
      destruct (SI a o E NE) as (objs & F & _ & Dp); [lia|].
    assert (CH : forall c, In c (o_children vec o) -> exists oc, nth_error h c = Some oc /\ In oc objs).
    { clear - F. induction F; intros b []; subst; [exists y; split; auto; left; auto|]. destruct (IHF b) as (oc & ? & ?); auto. exists oc. split; auto. right; auto. }
    assert (HC : forall oc, In oc objs -> exists c, In c (o_children vec o) /\ nth_error h c = Some oc).
    { clear - F. induction F; intros b []; subst; [exists x; split; auto; left; auto|]. destruct (IHF b) as (oc & ? & ?); auto. exists oc. split; auto. right; auto. }
    assert (MX : forall oc, In oc objs -> o_depth vec oc <= list_max (map (o_depth vec) objs)).
    { intros oc O. assert (Q := proj1 (list_max_le (map (o_depth vec) objs) _) (le_n _)). rewrite Forall_forall in Q. apply Q, in_map; auto. }
    split; intro K.
    - destruct (rmap_total (to_dict vec limit h) (o_children vec o)) as [vs ->]; [|cbn [rbind]; eauto].
      intros c C. destruct (CH c C) as (oc & Ec & O). specialize (MX oc O). apply (IH c oc); auto; lia.
    - rewrite (rmap_error _ RecursionError); auto.
      + intros c C. destruct (CH c C) as (oc & Ec & O). specialize (MX oc O). destruct (IH c oc limit) as [I1 I2]; auto; [lia|].
        destruct (le_lt_dec limit (o_depth vec oc)); auto.
      + assert (NO : objs <> []) by (intros ->; inversion F; congruence).
        assert (X : exists oc, In oc objs /\ o_depth vec oc = list_max (map (o_depth vec) objs)).
        { clear - NO. induction objs as [|o1 objs IHo]; [congruence|]. destruct objs as [|o2 objs]; [exists o1; split; [left; auto|cbn; lia]|].
          destruct IHo as (oc & O & Eo); [discriminate|]. set (l := o2 :: objs) in *.
          change (list_max (map (o_depth vec) (o1 :: l))) with (Nat.max (o_depth vec o1) (list_max (map (o_depth vec) l))).
          destruct (Nat.max_spec (o_depth vec o1) (list_max (map (o_depth vec) l))) as [[_ ->]|[_ ->]]; [exists oc|exists o1]; split; auto; [right|left]; auto. }
        destruct X as (oc & O & Eo). destruct (HC oc O) as (c & C & Ec). exists c. split; auto. apply (IH c oc); auto; lia.
  Qed.
End Objects.

Lemma nat_total : strict_total_order Nat.ltb.
Proof.
  split; [split; [|split]|]; intros; rewrite ?Nat.ltb_lt, ?Nat.ltb_ge in *; try lia; auto using Nat.ltb_irrefl.
Qed.

Lemma lookup_error {vec} (vectors : dict pystr vec) l e : rmap (fun x => dlookup x vectors) l = Raise e ->
  e = KeyError /\ exists x, In x l /\ ~ In x (keys vectors).
Proof.
  induction l as [|x l IH]; cbn [rmap]; [discriminate|]. unfold dlookup at 1. destruct (dget x vectors) eqn:E; cbn [rbind].
  - destruct (rmap (fun x => dlookup x vectors) l); cbn [rbind]; [discriminate|]. intro Q. injection Q as ->.
    destruct IH as (-> & y & Y & N); auto. split; auto. exists y. split; auto. right; auto.
  - intro Q. injection Q as <-. split; auto. exists x. split; [left; auto|]. apply dget_None; auto.
Qed.

(** A node below the root is the root or another node. *)
Lemma classic_node {vec} (u r : tree vec) : subtree u r -> u = r \/ u <> r.
Proof.
  intro U. assert (HH : height u = height r \/ height u <> height r) by lia. destruct HH as [HH|HH]; [|right; congruence].
  left. inversion U as [|t c Cc Uc]; auto. subst t. exfalso.
  assert (G : forall t, subtree u t -> height u <= height t).
  { clear. intros t T. induction T as [|t c Cc T IH]; auto. apply height_child in Cc. lia. }
  apply G in Uc. apply height_child in Cc. lia.
Qed.

Lemma comps_at_most m : Inv m -> length (comps m) <= length (ids m).
Proof.
  intro I. unfold comps. assert (G : forall l acc, length (comps_aux m l acc) <= length l + length acc).
  { induction l as [|x l IH]; intro acc; cbn [comps_aux length]; auto. specialize (IH (if mem (comp_of m x) acc then acc else acc ++ [comp_of m x])).
    destruct (mem (comp_of m x) acc); [lia|]. rewrite app_length in IH. cbn [length] in IH. lia. }
  specialize (G (ids m) []). cbn [length] in G. lia.
Qed.

(** ** Deep trees: [n] data, each one farther from all the previous ones *)
Definition far (X : list nat) (i j : nat) : nat := if nth i X 0 =? nth j X 0 then 0 else Nat.max (nth i X 0) (nth j X 0).
Definition datum (i : nat) : pystr := [N.of_nat i].
Definition data (n : nat) : list pystr := map datum (seq 0 n).
Definition places (n : nat) : dict pystr nat := map (fun i => (datum i, i)) (seq 0 n).

Lemma datum_inj i j : datum i = datum j -> i = j.
Proof. intro E. injection E as E. lia. Qed.

Lemma data_NoDup n : NoDup (data n).
Proof. apply FinFun.Injective_map_NoDup; [exact datum_inj|apply seq_NoDup]. Qed.

Lemma data_ids n : ids (init (data n)) = data n.
Proof. rewrite init_ids. apply dedup_id, data_NoDup. Qed.

Lemma In_data n x : In x (data n) <-> exists i, i < n /\ x = datum i.
Proof.
  unfold data. rewrite in_map_iff. split.
  - intros (i & <- & I). apply in_seq in I. exists i. split; [lia|auto].
  - intros (i & L & ->). exists i. split; auto. apply in_seq. lia.
Qed.

Lemma data_nth n i x : nth_error (data n) i = Some x -> i < n /\ x = datum i.
Proof.
  intro E. assert (L : i < n) by (apply (f_equal (fun o => match o with Some _ => true | None => false end)) in E; assert (i < length (data n)) by (apply nth_error_Some; intro Q; rewrite Q in E; discriminate); unfold data in *; rewrite map_length, seq_length in *; auto).
  split; auto. unfold data in E. rewrite nth_error_map in E. rewrite (nth_error_nth' _ 0) in E by (rewrite seq_length; auto). rewrite seq_nth in E by auto. cbn in E. congruence.
Qed.

Lemma nth_data n i : i < n -> nth_error (data n) i = Some (datum i).
Proof. intro L. unfold data. rewrite nth_error_map. rewrite (nth_error_nth' _ 0) by (rewrite seq_length; auto). rewrite seq_nth by auto. reflexivity. Qed.

Lemma place_of n i : i < n -> dget (datum i) (places n) = Some i.
Proof.
  intro L. unfold places. assert (I : In i (seq 0 n)) by (apply in_seq; lia). revert I. generalize (seq 0 n). intro l.
  induction l as [|j l IH]; intros I; [destruct I|]. cbn [map dget]. destruct (eqb_spec (datum i) (datum j)) as [E|N].
  - apply datum_inj in E. congruence.
  - apply IH. destruct I as [->|I]; [congruence|auto].
Qed.

Lemma data_rows n rows : map (fun x => dget x (places n)) (data n) = map Some rows -> rows = seq 0 n.
Proof.
  intro E. assert (Q : map (fun x => dget x (places n)) (data n) = map Some (seq 0 n)).
  { unfold data. rewrite map_map. apply map_ext_in. intros i I. apply in_seq in I. apply place_of. lia. }
  rewrite Q in E. clear Q. revert rows E. generalize (seq 0 n). induction l as [|i l IH]; intros [|r rows] E; try discriminate; auto.
  cbn [map] in E. injection E as -> E. f_equal; auto.
Qed.

Lemma far_is n p d : distance_is far (init (data n)) (places n) p d ->
  exists i j, i < n /\ j < n /\ fst p = datum i /\ snd p = datum j /\ d = (if i =? j then 0 else Nat.max i j).
Proof.
  intros (l & rows & i & j & A & R & I & J & ->). rewrite ask_managed in A by apply init_inv. rewrite data_ids in A. assert (l = data n) by congruence. subst l.
  apply data_rows in R. subst rows. apply data_nth in I as [Li I]. apply data_nth in J as [Lj J].
  exists i, j. repeat split; auto. unfold far. rewrite (@seq_nth n 0 i 0 Li), (@seq_nth n 0 j 0 Lj). reflexivity.
Qed.

Lemma is_far n i j : i < n -> j < n -> distance_is far (init (data n)) (places n) (datum i, datum j) (if i =? j then 0 else Nat.max i j).
Proof.
  intros Li Lj. exists (data n), (seq 0 n), i, j. split; [rewrite ask_managed by apply init_inv; rewrite data_ids; auto|].
  split; [|split; [apply nth_data; auto|split; [apply nth_data; auto|unfold far; rewrite (@seq_nth n 0 i 0 Li), (@seq_nth n 0 j 0 Lj); reflexivity]]].
  unfold data. rewrite map_map. apply map_ext_in. intros k K. apply in_seq in K. apply place_of. lia.
Qed.

Lemma comp_alone l x : In x l -> comp_of (init l) x = [x].
Proof. intro X. unfold comp_of, init. cbn [ctrans]. rewrite dget_dcomp. apply mem_In in X. rewrite X. reflexivity. Qed.

Lemma comps_alone n : comps (init (data n)) = map (fun x => [x]) (data n).
Proof.
  unfold comps. rewrite data_ids.
  assert (G : forall l acc, incl l (data n) -> NoDup (acc ++ map (fun x => [x]) l) -> comps_aux (init (data n)) l acc = acc ++ map (fun x => [x]) l).
  { induction l as [|x l IH]; intros acc I ND; cbn [comps_aux map]; [rewrite List.app_nil_r; auto|].
    rewrite comp_alone by (apply I; left; auto). cbn [map] in ND.
    assert (N : mem [x] acc = false). { apply mem_nIn. intro K. apply NoDup_remove_2 in ND. apply ND. apply in_or_app. auto. }
    rewrite N. rewrite IH; [rewrite <- app_assoc; auto|intros y Y; apply I; right; auto|rewrite <- app_assoc; auto]. }
  apply (G (data n) []); [apply incl_refl|]. cbn [app]. apply FinFun.Injective_map_NoDup; [intros a b E; congruence|apply data_NoDup].
Qed.

Lemma data_no_cl n a b : ~ inferred (init (data n)) a b (Some CANNOT_LINK).
Proof.
  intro Q. assert (I := init_inv (data n)). destruct (inferred_inI _ I a b _ Q) as [A B].
  assert (R : reachable (init (data n))) by apply (run_reachable (data n) []).
  destruct (C01_inferred_is_closure_proof _ R a b) as (_ & C & _); [apply managed_ids; auto|apply managed_ids; auto|].
  apply C in Q. destruct Q as (x & y & _ & _ & K). destruct K as [K|K]; apply init_added in K; destruct K as (_ & _ & K); discriminate.
Qed.

Section Deep.
  Variable n : nat.
  Variable cdistance : nat -> nat -> nat.
  Variable dsum : list nat -> nat.
  Variable ddiv : nat -> nat -> nat.
  Variable mean : list nat -> nat.
  Notation m := (init (data n)).
  Notation tree := (tree nat).
  Notation members := (t_members nat).
  Notation linkd := (linkage_distance far cdistance Nat.ltb dsum ddiv n (str "single") m (places n)).
  Notation agg := (agglomerates mean (places n) (closest far cdistance Nat.ltb dsum ddiv n (str "single") m (places n))
                     (stopped far cdistance Nat.ltb dsum ddiv n (str "single") m (places n))).

  Lemma linkd_inv (t1 t2 : tree) d : linkd t1 t2 d -> exists i j, i < n /\ j < n /\ In (datum i) (members t1) /\ In (datum j) (members t2) /\
    d = (if i =? j then 0 else Nat.max i j).
  Proof.
    intros [[(a & b & _ & _ & Q) _]|(_ & [[Q _]|[(_ & (a & b & A & B & Q) & _)|[[Q _]|[Q _]]]])]; try discriminate.
    - exfalso. apply data_no_cl in Q. auto.
    - apply far_is in Q as (i & j & Li & Lj & Ea & Eb & ->). cbn [fst snd] in *. subst a b. exists i, j. auto.
  Qed.

  Lemma linkd_intro (t1 t2 : tree) k : (exists i, In (datum i) (members t1) /\ i < n) -> (exists j, In (datum j) (members t2) /\ j < n) ->
    (forall i j, In (datum i) (members t1) -> In (datum j) (members t2) -> i <> j /\ Nat.max i j = k) -> linkd t1 t2 k.
  Proof.
    intros (i & I & Li) (j & J & Lj) Q. right. split; [intros (a & b & _ & _ & K); apply data_no_cl in K; auto|].
    right. left. split; auto. split.
    - exists (datum i), (datum j). split; auto. split; auto. assert (K := is_far n i j Li Lj). destruct (Q i j I J) as [N <-].
      destruct (Nat.eqb_spec i j); [congruence|auto].
    - intros a b d A B K. apply far_is in K as (i' & j' & _ & _ & Ea & Eb & ->). cbn [fst snd] in *. subst a b.
      destruct (Q i' j' A B) as [N <-]. destruct (Nat.eqb_spec i' j'); [congruence|]. apply Nat.ltb_irrefl.
  Qed.

  Definition lone i (t : tree) : Prop := members t = [datum i] /\ t_children nat t = [].
  Definition chain k (T : tree) : Prop := (forall x, In x (members T) -> exists i, i <= k /\ x = datum i) /\ members T <> [] /\ height T = k.

  Lemma lones_In k l rest : Forall2 lone (seq k l) rest -> forall t, In t rest -> exists i, k <= i < k + l /\ lone i t.
  Proof.
    revert k rest. induction l as [|l IH]; intros k rest F t T; cbn [seq] in F; inversion F as [|i u is us Lu F']; subst; [destruct T|].
    destruct T as [->|T]; [exists k; split; [lia|auto]|]. destruct (IH _ _ F' t T) as (i & Li & Q). exists i. split; [lia|auto].
  Qed.

  Lemma lones_eq k l rest : Forall2 lone (seq k l) rest -> forall t u i, In t rest -> In u rest -> lone i t -> lone i u -> t = u.
  Proof.
    revert k rest. induction l as [|l IH]; intros k rest F t u i T U Lt Lu; cbn [seq] in F; inversion F as [|i0 w is us Lw F']; subst; [destruct T|].
    assert (G : forall t, In t us -> lone k t -> False).
    { intros v V [Lv _]. destruct (lones_In _ _ _ F' v V) as (j & J & [Lj _]). rewrite Lj in Lv. injection Lv as Lv. lia. }
    assert (S : forall j, lone j w -> j = k). { intros j [Lj _]. destruct Lw as [Lw _]. rewrite Lw in Lj. injection Lj as Lj. lia. }
    destruct T as [->|T], U as [->|U]; auto.
    - exfalso. apply (G u U). rewrite <- (S i); auto.
    - exfalso. apply (G t T). rewrite <- (S i); auto.
    - eapply IH; eauto.
  Qed.

  Lemma lones_NoDup k l rest : Forall2 lone (seq k l) rest -> NoDup rest.
  Proof.
    revert k rest. induction l as [|l IH]; intros k rest F; cbn [seq] in F; inversion F as [|i0 w is us Lw F']; subst; constructor; eauto.
    intro K. destruct (lones_In _ _ _ F' w K) as (j & J & [Lj _]). destruct Lw as [Lw _]. rewrite Lw in Lj. injection Lj as Lj. lia.
  Qed.

  Lemma chain_height it ts root : agg it ts root -> forall k T rest, k < n -> Permutation ts (T :: rest) ->
    chain k T -> Forall2 lone (seq (S k) (n - S k)) rest -> S (height root) = n.
  Proof.
    induction 1 as [it t|it l1 t1 l2 t2 l3 t root CL NO A IH|it forest root L FIN NO]; intros k T rest Lk P (CT & NT & HT) F.
    - apply Permutation_length_1_inv in P. injection P as -> ->. destruct (n - S k) as [|q] eqn:E; [|cbn [seq] in F; inversion F]. lia.
    - set (ts := l1 ++ t1 :: l2 ++ t2 :: l3) in *.
      assert (P2 : Permutation (t1 :: t2 :: l1 ++ l2 ++ l3) (T :: rest)).
      { rewrite <- P. symmetry. apply (proj1 (perm_merge l1 l2 l3 t1 t2 t1)). }
      assert (NTr : ~ In T rest).
      { intro K. destruct (lones_In _ _ _ F T K) as (j & J & [Lj _]). destruct (CT (datum j)) as (i & Li & E); [rewrite Lj; left; auto|]. apply datum_inj in E. lia. }
      assert (ND : NoDup (t1 :: t2 :: l1 ++ l2 ++ l3)).
      { apply (Permutation_NoDup (Permutation_sym P2)). constructor; auto. eapply lones_NoDup; eauto. }
      assert (NE : t1 <> t2). { apply NoDup_cons_iff in ND as [ND _]. intros ->. apply ND. left; auto. }
      destruct (n - S k) as [|q] eqn:E.
      { cbn [seq] in F. inversion F; subst. apply Permutation_length in P2. discriminate. }
      cbn [seq] in F. inversion F as [|i0 w is rest' LW F']; subst i0 is rest. rename w into W.
      assert (SKn : S k < n) by lia.
      assert (LWT : forall u v, (u = T /\ v = W) \/ (u = W /\ v = T) -> linkd u v (S k)).
      { destruct LW as [LW _].
        assert (ET : exists i, In (datum i) (members T) /\ i < n).
        { destruct (members T) as [|x l]; [congruence|]. destruct (CT x (or_introl eq_refl)) as (i & Li & ->). exists i. split; [left; auto|lia]. }
        assert (EW : exists i, In (datum i) (members W) /\ i < n) by (exists (S k); rewrite LW; split; [left; auto|auto]).
        intros u v [[-> ->]|[-> ->]]; apply linkd_intro; auto; intros i j I J; rewrite LW in *.
        - destruct J as [J|[]]. apply datum_inj in J. destruct (CT _ I) as (i' & Li & Q). apply datum_inj in Q. lia.
        - destruct I as [I|[]]. apply datum_inj in I. destruct (CT _ J) as (i' & Li & Q). apply datum_inj in Q. lia. }
      destruct CL as (d & Ld & Dn & MIN).
      assert (Dk : d <= S k).
      { assert (IT : In T ts) by (apply (Permutation_in _ (Permutation_sym P)); left; auto).
        assert (IW : In W ts) by (apply (Permutation_in _ (Permutation_sym P)); right; left; auto).
        assert (NTW : T <> W) by (intros ->; apply NTr; left; auto).
        destruct (before_total ts T W IT IW NTW) as [B|B].
        - destruct (MIN T W (S k) B) as (Q & _); [apply LWT; auto|]. apply Nat.ltb_ge in Q. auto.
        - destruct (MIN W T (S k) B) as (Q & _); [apply LWT; auto|]. apply Nat.ltb_ge in Q. auto. }
      destruct (linkd_inv _ _ _ Ld) as (i & j & Li & Lj & I & J & Ed).
      assert (I1 : In t1 (T :: W :: rest')) by (apply (Permutation_in _ P2); left; auto).
      assert (I2 : In t2 (T :: W :: rest')) by (apply (Permutation_in _ P2); right; left; auto).
      assert (LN : forall u, In u (W :: rest') -> (exists a, lone a u /\ S k <= a) /\ (forall a, In (datum a) (members u) -> lone a u) /\ (lone (S k) u -> u = W)).
      { intros u U. destruct (lones_In (S k) (S q) (W :: rest')) with (t := u) as (a & La & Lu); [constructor; auto|auto|].
        split; [exists a; split; auto; lia|]. split.
        - intros b B. destruct Lu as [Lu Lc]. rewrite Lu in B. destruct B as [B|[]]. apply datum_inj in B. subst b. split; auto.
        - intro Q. eapply (lones_eq (S k) (S q) (W :: rest')); [constructor; auto|auto|left; auto|exact Q|auto]. }
      assert (G : (t1 = T /\ t2 = W) \/ (t1 = W /\ t2 = T)).
      { destruct I1 as [<-|I1], I2 as [<-|I2].
        - congruence.
        - left. split; auto. destruct (LN t2 I2) as ((b & Lb & Kb) & L2 & U). apply U. assert (Q := L2 _ J). destruct (CT _ I) as (i' & Li' & Ei). apply datum_inj in Ei. subst i'.
          assert (S k <= j). { destruct Lb as [Lb _]. rewrite Lb in J. destruct J as [J|[]]. apply datum_inj in J. lia. }
          assert (j = S k) by (destruct (Nat.eqb_spec i j); lia). subst j. auto.
        - right. split; auto. destruct (LN t1 I1) as ((b & Lb & Kb) & L2 & U). apply U. assert (Q := L2 _ I). destruct (CT _ J) as (i' & Li' & Ei). apply datum_inj in Ei. subst i'.
          assert (S k <= i). { destruct Lb as [Lb _]. rewrite Lb in I. destruct I as [I|[]]. apply datum_inj in I. lia. }
          assert (i = S k) by (destruct (Nat.eqb_spec i j); lia). subst i. auto.
        - exfalso. destruct (LN t1 I1) as ((b & Lb & Kb) & L1 & _). destruct (LN t2 I2) as ((c & Lc & Kc) & L2 & _).
          assert (K1 := L1 _ I). assert (K2 := L2 _ J).
          assert (i = b). { destruct K1 as [K1 _]. destruct Lb as [Lb _]. rewrite Lb in K1. injection K1 as K1. lia. }
          assert (j = c). { destruct K2 as [K2 _]. destruct Lc as [Lc _]. rewrite Lc in K2. injection K2 as K2. lia. }
          assert (i <> j). { intros ->. apply NE. eapply (lones_eq (S k) (S q) (W :: rest')); [constructor; auto|auto|auto|exact K1|exact K2]. }
          destruct (Nat.eqb_spec i j); lia. }
      assert (P3 : Permutation (l1 ++ l2 ++ l3) rest').
      { apply (Permutation_cons_inv (a := W)), (Permutation_cons_inv (a := T)). rewrite <- P2.
        destruct G as [[-> ->]|[-> ->]]; [reflexivity|apply perm_swap]. }
      destruct NO as (Ech & _ & Eme & _).
      apply (IH (S k) t rest'); auto.
      + rewrite (proj2 (perm_merge l1 l2 l3 t t t)). constructor. auto.
      + assert (HW : height W = 0) by (rewrite height_eq; destruct LW as [_ ->]; auto). destruct LW as [LW _].
        split; [|split].
        * intros x X. rewrite Eme in X. cbn [flat_map] in X. rewrite List.app_nil_r in X. apply in_app_or in X.
          assert (Q : In x (members T) \/ In x (members W)) by (destruct G as [[-> ->]|[-> ->]]; tauto).
          destruct Q as [Q|Q]; [destruct (CT x Q) as (i' & Li' & ->); exists i'; split; auto|]. rewrite LW in Q. destruct Q as [<-|[]]. exists (S k). auto.
        * rewrite Eme. cbn [flat_map]. rewrite List.app_nil_r. intro Q. apply app_eq_nil in Q as [Q1 Q2]. destruct G as [[-> ->]|[-> ->]]; congruence.
        * rewrite height_eq, Ech. cbn [map list_max fold_right]. unfold list_max. cbn [fold_right]. destruct G as [[-> ->]|[-> ->]]; lia.
      + replace (n - S (S k)) with q by lia. auto.
    - exfalso. destruct FIN as (_ & t1 & t2 & B & Q). apply linkd_inv in Q as (i & j & Li & Lj & _ & _ & Ed). destruct (Nat.eqb_spec i j); lia.
  Qed.

  Lemma deep_root root : 1 <= n -> agglomerative far cdistance Nat.ltb dsum ddiv n mean (str "single") m (places n) root -> S (height root) = n.
  Proof.
    intros N1 (forest & (components & EC & F & _) & A). rewrite ask_components in EC by apply init_inv. injection EC as <-. rewrite comps_alone in F.
    assert (G : Forall2 lone (seq 0 n) forest).
    { unfold data in F. revert forest F A. generalize (seq 0 n). intros l forest F _. revert forest F. induction l as [|i l IH]; intros forest F; cbn [map] in F; inversion F as [|c t cs ts Lt F']; subst; constructor; auto.
      destruct Lt as (Q1 & _ & Q2 & _). split; auto. }
    destruct n as [|n'] eqn:En; [lia|]. cbn [seq] in G. inversion G as [|i0 T is rest LT F']; subst i0 is. rewrite <- En in *.
    assert (LT' := LT). destruct LT as [LT LC]. subst forest. apply (chain_height 1 (T :: rest) root A 0 T rest); auto; try lia.
    - split; [|split].
      + rewrite LT. intros x [<-|[]]. exists 0. auto.
      + rewrite LT. discriminate.
      + rewrite height_eq, LC. auto.
    - replace (n - 1) with n' by lia. auto.
  Qed.
End Deep.

(** ** C91 *)
(*PROP C91: the constructor makes the objects that Hierarchical.v models as trees: the new object is the tree described there, the others are unchanged, and the errors are the same. *)
Lemma C91_constructor_proof :
  forall vec (mean : list vec -> vec) vectors h children trees members id it,
    children_are vectors h children trees ->
    match new_cluster vec mean vectors id it trees members with
    | Ok t => exists o, construct vec mean vectors id (Z.of_nat it) children members h = (h ++ [o], Ok (length h)) /\
                represents vectors (h ++ [o]) (length h) t /\
                forall a u, represents vectors h a u -> represents vectors (h ++ [o]) a u
    | Raise e => construct vec mean vectors id (Z.of_nat it) children members h = (h, Raise e)
    end.
Proof.
  intros vec mean vectors h children trees members id it Q.
  assert (S := construct_sim mean vectors h children trees members id it Q).
  destruct (new_cluster vec mean vectors id it trees members) as [t|e]; auto.
  destruct S as (o & E & R). exists o. split; auto. split; auto. intros a u. apply represents_grow.
Qed.

(*EX
(** The parent of two leaves; and a parent of nothing. *)
Example C91_constructor_ex :
  let h2 := fst (construct Z zmean points 1 0 None (Some [B]) (fst (construct Z zmean points 0 0 None (Some [A]) []))) in
  snd (construct Z zmean points 2 1 (Some [0; 1]) None h2) = Ok 2 /\
  map (o_members Z) (fst (construct Z zmean points 2 1 (Some [0; 1]) None h2)) = [[A]; [B]; [A; B]] /\
  construct Z zmean points 2 1 (Some []) None h2 = (h2, Raise ZeroDivisionError) /\
  construct Z zmean points 2 1 None None h2 = (h2, Raise ValueError).
Proof. vm_compute; auto. Qed.
EX*)

(*PROP C91: to_dict of a tree of objects describes that tree and nothing else; it fails exactly when the tree has as many levels as nested calls are allowed, and then with RecursionError. *)
Lemma C91_description_proof :
  forall vec vectors (h : heap vec) a t limit,
    represents vectors h a t ->
    (height t < limit -> exists v, to_dict vec limit h a = Ok v /\ describes v (outline_of t) /\
       forall other, describes v other -> other = outline_of t) /\
    (limit <= height t -> to_dict vec limit h a = Raise RecursionError).
Proof.
  intros vec vectors h a t limit R. destruct (to_dict_tree vectors h t a limit R) as [P Q]. split; auto.
  intro L. destruct (P L) as (v & E & D & _). exists v. split; auto. split; auto. intros other D'. eapply describes_fun; eauto.
Qed.

(*EX
(** Three objects, two levels. *)
Example C91_description_ex :
  represents points three 2 (Node Z 2 1 [Node Z 0 0 [] 0 [A] 0%Z; Node Z (-7) 0 [] 0 [B] 1%Z] 1 [A; B] 0%Z) /\
  to_dict Z 1 three 2 = Raise RecursionError /\
  to_dict Z 2 three 2 = Ok (JObj
    [(str "cluster_ID", JNum (str "2")); (str "clustering_iteration", JNum (str "1"));
     (str "children", JArr
        [JObj [(str "cluster_ID", JNum (str "0")); (str "clustering_iteration", JNum (str "0")); (str "children", JArr []);
               (str "cluster_inverse_depth", JNum (str "0")); (str "members", JArr [JStr A])];
         JObj [(str "cluster_ID", JNum (str "-7")); (str "clustering_iteration", JNum (str "0")); (str "children", JArr []);
               (str "cluster_inverse_depth", JNum (str "0")); (str "members", JArr [JStr B])]]);
     (str "cluster_inverse_depth", JNum (str "1")); (str "members", JArr [JStr A; JStr B])]).
Proof.
  split; [|split; vm_compute; reflexivity].
  eapply represents_node; try reflexivity. repeat constructor; eapply represents_node; try reflexivity; constructor.
Qed.
EX*)

(*PROP C91: the tree kept by a hierarchical clustering can be made of objects; its description takes at most one nested call per ID, and written as JSON text and read again it still describes the tree. *)
Lemma C91_clustering_description_proof :
  forall vec D (eqD : EqB D) pairwise cdistance ltb dsum ddiv inf mean name linkage m vectors nb s s' d ids,
    reachable m -> make_hierarchical name = Ok linkage ->
    cluster vec D pairwise cdistance ltb dsum ddiv inf mean linkage m vectors nb s = (s', Ok d) ->
    ask get_list_of_managed_data_IDs m = Ok ids ->
    exists root, h_root vec s' = Some root /\
      (exists h a, constructed mean h /\ represents vectors h a root) /\
      forall h a limit, represents vectors h a root -> length ids <= limit ->
        exists v, to_dict vec limit h a = Ok v /\ describes v (outline_of root) /\
          ((forall x, In x ids -> python_string x /\ ~ splits_a_character x) -> loads (dump 0 v) = Ok v).
Proof.
  intros vec D eqD pairwise cdistance ltb dsum ddiv inf mean name linkage m vectors nb s s' d l R MK E EI.
  destruct (C38_dendrogram_proof vec D eqD pairwise cdistance ltb dsum ddiv inf mean name linkage m vectors nb s s' d R MK E)
    as (root & ER & DG & _). exists root. split; auto.
  apply reachable_inv in R. rewrite ask_managed in EI by auto. injection EI as <-.
  destruct DG as [d1 (components & EC & PL) d3 d4 d5 d6 d7 (d8 & d8') d9 d10 d11].
  rewrite ask_components in EC by auto. injection EC as <-.
  assert (SUB : forall t, subtree t root -> incl (t_members vec t) (t_members vec root)).
  { intros t T. assert (G : forall r, subtree r root -> subtree t r -> incl (t_members vec t) (t_members vec r)).
    { intros r Rr Tr. induction Tr as [|r c Cc Tr IH]; [apply incl_refl|].
      intros x X. rewrite (d3 r Rr) by (intro K; rewrite K in Cc; destruct Cc). apply in_flat_map. exists c. split; auto.
      apply IH; auto. eapply subtree_trans; [eapply subtree_child; [exact Cc|constructor]|auto]. }
    apply G; [constructor|auto]. }
  assert (B : buildable mean vectors root).
  { intros u U. split; [auto|]. split; [auto|]. split; [auto|]. intro L.
    assert (IL : In (t_members vec u) (comps m)).
    { apply (Permutation_in _ (Permutation_sym PL)). apply in_map. unfold leaves. apply filter_In. split; [apply nodes_subtree; auto|]. rewrite L. auto. }
    destruct (proj1 (comps_In _ _) IL) as (x & X & Ex). assert (K := self_comp m x R X). rewrite <- Ex in K. intro Q. rewrite Q in K. destruct K. }
  split; [destruct (build mean vectors root [] B) as (h & a & C & Rp & _); [constructor|exists h, a; auto]|].
  intros h a limit Rp L.
  assert (HL : height root < length (leaves root)).
  { apply height_leaves. intros u U. destruct (t_children vec u) eqn:Eu; [left; auto|right]. rewrite <- Eu.
    destruct (classic_node u root U) as [->|N]; [destruct d9 as [Q|Q]; [rewrite Q in Eu; discriminate|auto]|].
    destruct (d10 u U N) as [Q|Q]; [rewrite Q in Eu; discriminate|lia]. }
  assert (LL : length (leaves root) <= length (ids m)).
  { rewrite <- (map_length (t_members vec)). rewrite <- (Permutation_length PL). apply comps_at_most; auto. }
  destruct (proj1 (to_dict_tree vectors h root a limit Rp)) as (v & Ev & Dv & Wv); [lia|].
  exists v. split; auto. split; auto. intro T. apply loads_dump. apply Wv. intros u x U X. apply text_ok_spec. apply T.
  apply managed_ids; auto. apply d8'. apply (SUB u U). auto.
Qed.

(*EX
Example C91_clustering_ex :
  exists root d, fst (hier_Z (str "single") (init [A; B; C]) points (Some 2%Z) (fresh_hier Z)) = mkHier Z (Some [A; B; C]) (Some root) (Some d) /\
    height root = 2 /\ python_string A /\ ~ splits_a_character A.
Proof.
  eexists. eexists. split; [vm_compute; reflexivity|]. split; [vm_compute; reflexivity|]. split.
  - intros c [<-|[]]. reflexivity.
  - intros (p & hi & lo & q & Q & _). destruct p as [|x [|y p]]; discriminate.
Qed.
EX*)

(*PROP C91: no smaller number of nested calls is enough in general: for every number of data some clustering keeps a tree whose description takes that many. *)
Lemma C91_deep_clusterings_proof :
  forall n limit, 1 <= n -> limit < n ->
    exists m vectors inf s d root ids, reachable m /\ ask get_list_of_managed_data_IDs m = Ok ids /\ length ids = n /\
      cluster nat nat (fun X i j => if nth i X 0 =? nth j X 0 then 0 else Nat.max (nth i X 0) (nth j X 0)) (fun x y => x - y + (y - x))
        Nat.ltb (fold_right Nat.add 0) Nat.div inf (fun l => Nat.div (fold_right Nat.add 0 l) (length l)) (str "single")
        m vectors (Some 2%Z) (fresh_hier nat) = (s, Ok d) /\
      h_root nat s = Some root /\
      forall h a, represents vectors h a root -> to_dict nat limit h a = Raise RecursionError.
Proof.
  intros n limit N1 L. set (cd := fun x y => x - y + (y - x)). set (ds := fold_right Nat.add 0).
  set (mn := fun l => Nat.div (fold_right Nat.add 0 l) (length l)).
  assert (R : reachable (init (data n))) by apply (run_reachable (data n) []).
  assert (MK : make_hierarchical (str "single") = Ok (str "single")) by reflexivity.
  assert (LD : length (data n) = n) by (unfold data; rewrite map_length, seq_length; auto).
  destruct (C61_hierarchical_total_proof nat nat _ far cd Nat.ltb ds Nat.div n mn (str "single") (str "single")
              (init (data n)) (places n) 2%Z (fresh_hier nat) R MK) as (d & E & _).
  - apply has_ids_spec. rewrite data_ids. intro K. rewrite K in LD. cbn in LD. lia.
  - exists (places n). split; auto. intros x X. apply managed_ids in X. rewrite data_ids in X. apply In_data in X as (i & Li & ->).
    unfold places, keys. rewrite map_map. cbn [fst]. apply in_map. apply in_seq. lia.
  - lia.
  - unfold result in E. destruct (cluster nat nat far cd Nat.ltb ds Nat.div n mn (str "single") (init (data n)) (places n) (Some 2%Z) (fresh_hier nat)) as [s r] eqn:Er.
    cbn [snd] in E. subst r.
    destruct (C62_agglomerative_proof nat nat _ far cd Nat.ltb ds Nat.div n mn (str "single") (str "single") (init (data n)) (places n) _ _ _ _ nat_total R MK Er)
      as (root & ER & A & _).
    exists (init (data n)), (places n), n, s, d, root, (data n). split; auto. split; [rewrite ask_managed by apply init_inv; rewrite data_ids; auto|].
    split; auto. split; [exact Er|]. split; auto. intros h a Rp.
    apply (to_dict_tree (places n) h root a limit Rp).
    assert (Q := deep_root n cd ds Nat.div mn root N1 A). lia.
Qed.

(*EX
(** Python allows 1000 nested calls by default. *)
Example C91_deep_ex : exists m vectors inf s d root ids, reachable m /\ ask get_list_of_managed_data_IDs m = Ok ids /\ length ids = 1001 /\
      cluster nat nat (fun X i j => if nth i X 0 =? nth j X 0 then 0 else Nat.max (nth i X 0) (nth j X 0)) (fun x y => x - y + (y - x))
        Nat.ltb (fold_right Nat.add 0) Nat.div inf (fun l => Nat.div (fold_right Nat.add 0 l) (length l)) (str "single")
        m vectors (Some 2%Z) (fresh_hier nat) = (s, Ok d) /\
      h_root nat s = Some root /\
      forall h a, represents vectors h a root -> to_dict nat 1000 h a = Raise RecursionError.
Proof. apply (C91_deep_clusterings_proof 1001 1000); lia. Qed.
EX*)

(** ** C92 *)
(*PROP C92, what holds of one call: for an object that agrees with its children and is not added to itself, the call appends the new children that it did not have, their members, and updates the level; nothing else changes in the other objects. An error comes from the centroid only, which then keeps its old value. *)
Lemma C92_add_children_partial_proof :
  forall vec (mean : list vec -> vec) h a o new_children it,
    nth_error h a = Some o -> o_children vec o <> [] -> up_to_date h o ->
    (forall c, In c new_children -> c < length h) -> ~ In a (o_children vec o) -> ~ In a new_children ->
    let added := filter (fun c => if in_dec Nat.eq_dec c (o_children vec o) then false else true) new_children in
    exists objs h' r o', Forall2 (fun c oc => nth_error h c = Some oc) added objs /\
      add_new_children vec mean a new_children it h = (h', r) /\
      length h' = length h /\ (forall b, b <> a -> nth_error h' b = nth_error h b) /\
      nth_error h' a = Some o' /\ up_to_date h' o' /\
      o_vectors vec o' = o_vectors vec o /\ o_id vec o' = o_id vec o /\ o_iteration vec o' = it /\
      o_children vec o' = o_children vec o ++ added /\
      o_members vec o' = o_members vec o ++ flat_map (o_members vec) objs /\
      o_depth vec o' = Nat.max (o_depth vec o) (S (list_max (map (o_depth vec) objs))) /\
      match r with
      | Ok _ => exists rows, vectors_are (o_vectors vec o) (o_members vec o') rows /\ rows <> [] /\ o_centroid vec o' = mean rows
      | Raise e => o_centroid vec o' = o_centroid vec o /\
                   ((e = KeyError /\ exists x, In x (o_members vec o') /\ ~ In x (keys (o_vectors vec o))) \/
                    (e = ZeroDivisionError /\ o_members vec o' = []))
      end.
Proof.
  intros vec mean h a o new it E NE (objs0 & F0 & EM & ED) L NC NN added.
  assert (La : a < length h) by (apply nth_error_Some; congruence).
  destruct (add_effect mean h a o new it E) as (objs & F & R).
  { intros c C. apply in_app_or in C as [C|C]; auto. eapply live_lt; eauto. }
  { intro C. apply in_app_or in C as [C|C]; auto. }
  cbn zeta in R.
  assert (EA : filter (fun c => negb (mem c (o_children vec o))) new = added).
  { unfold added. apply filter_ext. intro c. destruct (in_dec Nat.eq_dec c (o_children vec o)) as [I|I].
    - apply mem_In in I. rewrite I. auto.
    - apply mem_nIn in I. rewrite I. auto. }
  rewrite EA in *. clearbody added. apply Forall2_app_inv_l in F as (q0 & q1 & F1 & F2 & ->).
  assert (q0 = objs0) by (eapply live_fun; eauto). subst q0. rename q1 into objs1.
  assert (N0 : objs0 <> []) by (intros ->; inversion F0; congruence).
  set (objs := objs0 ++ objs1) in *.
  assert (NO : objs <> []) by (unfold objs; destruct objs0; [congruence|discriminate]).
  assert (NA : ~ In a (o_children vec o ++ added)).
  { intro C. apply in_app_or in C as [C|C]; auto. rewrite <- EA in C. apply filter_In in C. tauto. }
  assert (MM : flat_map (o_members vec) objs = o_members vec o ++ flat_map (o_members vec) objs1) by (unfold objs; rewrite flat_map_app, EM; auto).
  assert (DD : list_max (map (o_depth vec) objs) + 1 = Nat.max (o_depth vec o) (S (list_max (map (o_depth vec) objs1)))).
  { unfold objs. rewrite map_app, list_max_app, ED. lia. }
  assert (UP : forall o', o_children vec o' = o_children vec o ++ added -> o_members vec o' = flat_map (o_members vec) objs ->
             o_depth vec o' = list_max (map (o_depth vec) objs) + 1 -> up_to_date (assign vec h a o') o').
  { intros o' C M Dp. exists objs. rewrite C. split; [apply live_assign; auto; apply Forall2_app; auto|]. split; auto. rewrite Dp. lia. }
  exists objs1. destruct objs as [|o1 objs'] eqn:EO; [congruence|]. rewrite <- EO in *. clear EO.
  destruct (centroid_of vec mean (o_vectors vec o) (flat_map (o_members vec) objs)) as [v|e] eqn:EC.
  - eexists. eexists. eexists. split; [exact F2|]. split; [exact R|]. split; [apply assign_length; auto|].
    split; [intros b Nb; apply assign_other; auto|]. split; [eapply assign_same; eauto|].
    split; [apply UP; reflexivity|].
    cbn [o_vectors o_id o_iteration o_children o_members o_depth o_centroid set_centroid set_members set_depth with_members with_children set_children set_iteration].
    repeat (split; auto). unfold centroid_of in EC. rewrite MM in *.
    destruct (rmap _ _) as [rows|] eqn:ER; cbn [rbind] in EC; [|discriminate]. exists rows. split; [apply dlookup_map; auto|].
    destruct rows; [discriminate|]. split; [discriminate|congruence].
  - eexists. eexists. eexists. split; [exact F2|]. split; [exact R|]. split; [apply assign_length; auto|].
    split; [intros b Nb; apply assign_other; auto|]. split; [eapply assign_same; eauto|].
    split; [apply UP; reflexivity|].
    cbn [o_vectors o_id o_iteration o_children o_members o_depth o_centroid set_centroid set_members set_depth with_members with_children set_children set_iteration].
    repeat (split; auto). unfold centroid_of in EC. 
    destruct (rmap _ _) as [rows|e'] eqn:ER; cbn [rbind] in EC.
    + right. destruct rows; [|discriminate]. split; [congruence|]. destruct (flat_map (o_members vec) objs); auto. apply rmap_length in ER. discriminate.
    + left. injection EC as ->. destruct (lookup_error _ _ _ ER) as (K & x & X & NX). split; auto. exists x. auto.
Qed.

(*EX
(** Object 3 gets object 2, which it did not have, and object 0, which it had. *)
Example C92_add_ex :
  let h := fst (construct Z zmean points 2 1 (Some [0; 1]) None (leaves_of [A; B; C])) in
  nth_error (fst (add_new_children Z zmean 3 [2; 0] 5 h)) 3 = Some (mkObj Z points 2 5 [0; 1; 2] 1 [A; B; C] 3%Z).
Proof. vm_compute; auto. Qed.
EX*)

(*PROP C92, what holds of histories: if children are only added to objects that have some already, are nobody's child and are not their own new children, then after any calls, failed ones included, every object agrees with its children and can be described with as many nested calls as it has levels. *)
Lemma C92_bottom_up_partial_proof :
  forall vec (mean : list vec -> vec) h a o limit,
    bottom_up mean h -> nth_error h a = Some o ->
    (o_children vec o <> [] -> up_to_date h o) /\ (o_children vec o = [] -> o_depth vec o = 0) /\
    (o_depth vec o < limit -> exists v, to_dict vec limit h a = Ok v) /\
    (limit <= o_depth vec o -> to_dict vec limit h a = Raise RecursionError).
Proof.
  intros vec mean h a o limit B E. assert (S := bottom_up_sound mean h B). split; [apply S with a; auto|]. split; [apply S with a; auto|].
  apply (sound_to_dict h S (o_depth vec o) a o limit); auto.
Qed.

(*EX
(** The call fails ("z" has no vector); the level and the members are those of the children. *)
Example C92_bottom_up_ex :
  let h0 := fst (construct Z zmean points 2 1 (Some [0; 1]) None (leaves_of [A; B])) in
  let h := fst (construct Z zmean [(str "z", 0%Z)] 3 1 None (Some [str "z"]) h0) in
  snd (add_new_children Z zmean 2 [3] 5 h) = Raise KeyError /\ bottom_up zmean (fst (add_new_children Z zmean 2 [3] 5 h)) /\
  option_map (o_members Z) (nth_error (fst (add_new_children Z zmean 2 [3] 5 h)) 2) = Some [A; B; str "z"].
Proof.
  cbn zeta. split; [vm_compute; auto|]. split; [|vm_compute; auto].
  eapply bottom_up_add with (o := mkObj Z points 2 1 [0; 1] 1 [A; B] 0%Z).
  - repeat (eapply bottom_up_construct); constructor.
  - vm_compute; reflexivity.
  - discriminate.
  - intros [|[|[|[|b]]]] o E; vm_compute in E; try discriminate; try (destruct b; discriminate); injection E as <-; cbn; intuition discriminate.
  - intros [K|[]]. discriminate.
  - intros c [<-|[]]. vm_compute. lia.
Qed.
EX*)

(*PROP C92, refuted: a successful call can lose members (of an object made from members). *)
Lemma C92_members_lost_refuted_proof :
  exists (mean : list Z -> Z) h a o new_children it h' o', constructed mean h /\ nth_error h a = Some o /\
    (forall c, In c new_children -> c < length h /\ c <> a) /\
    add_new_children Z mean a new_children it h = (h', Ok tt) /\ nth_error h' a = Some o' /\
    exists x, In x (o_members Z o) /\ ~ In x (o_members Z o').
Proof.
  set (mean := fun l => fold_right Z.add 0%Z l). set (vs := [(str "a", 0%Z); (str "b", 1%Z)]).
  set (h := fst (construct Z mean vs 1 0 None (Some [str "b"]) (fst (construct Z mean vs 0 0 None (Some [str "a"]) [])))).
  exists mean, h, 0, (mkObj Z vs 0 0 [] 0 [str "a"] 0%Z), [1], 1%Z, (fst (add_new_children Z mean 0 [1] 1%Z h)), (mkObj Z vs 0 1 [1] 1 [str "b"] 1%Z).
  split; [repeat constructor|]. split; [reflexivity|]. split; [intros c [<-|[]]; split; [vm_compute; lia|discriminate]|]. split; [reflexivity|].
  split; [reflexivity|]. exists (str "a"). split; [left; auto|]. intros [K|[]]. discriminate.
Qed.

(*PROP C92, refuted: after a successful call an object can disagree with its child (the parent of the changed one is not told). *)
Lemma C92_parent_stale_refuted_proof :
  exists (mean : list Z -> Z) h a o new_children it h' b ob oa, constructed mean h /\ nth_error h a = Some o /\
    o_children Z o <> [] /\ up_to_date h o /\ (forall c, In c new_children -> c < length h /\ c <> a) /\
    add_new_children Z mean a new_children it h = (h', Ok tt) /\
    nth_error h' b = Some ob /\ In a (o_children Z ob) /\ nth_error h' a = Some oa /\
    (exists x, In x (o_members Z oa) /\ ~ In x (o_members Z ob)) /\ ~ up_to_date h' ob.
Proof.
  set (mean := fun l => fold_right Z.add 0%Z l). set (vs := [(str "a", 0%Z); (str "b", 1%Z)]).
  set (h2 := fst (construct Z mean vs 1 0 None (Some [str "b"]) (fst (construct Z mean vs 0 0 None (Some [str "a"]) [])))).
  set (h := fst (construct Z mean vs 3 2 (Some [2]) None (fst (construct Z mean vs 2 1 (Some [0]) None h2)))).
  exists mean, h, 2, (mkObj Z vs 2 1 [0] 1 [str "a"] 0%Z), [1], 3%Z, (fst (add_new_children Z mean 2 [1] 3%Z h)), 3,
    (mkObj Z vs 3 2 [2] 2 [str "a"] 0%Z), (mkObj Z vs 2 3 [0; 1] 1 [str "a"; str "b"] 1%Z).
  split; [repeat constructor|]. split; [reflexivity|]. split; [discriminate|].
  split; [exists [mkObj Z vs 0 0 [] 0 [str "a"] 0%Z]; repeat constructor|].
  split; [intros c [<-|[]]; split; [vm_compute; lia|discriminate]|]. split; [reflexivity|]. split; [reflexivity|]. split; [left; auto|]. split; [reflexivity|].
  split; [exists (str "b"); split; [right; left; auto|]; intros [K|[]]; discriminate|].
  intros (objs & F & M & _). cbn [o_children o_members] in *. inversion F as [|c oc cs ocs Q F' E1 E2]; subst. inversion F'; subst.
  vm_compute in Q. injection Q as <-. discriminate.
Qed.

(*PROP C92, refuted: a failed call can leave the object changed. *)
Lemma C92_failed_call_refuted_proof :
  exists (mean : list Z -> Z) h a o h' o' e, constructed mean h /\ nth_error h a = Some o /\
    add_new_children Z mean a [] 7 h = (h', Raise e) /\ nth_error h' a = Some o' /\ o_iteration Z o' <> o_iteration Z o.
Proof.
  set (mean := fun l => fold_right Z.add 0%Z l). set (vs := [(str "a", 0%Z)]).
  set (h := fst (construct Z mean vs 0 0 None (Some [str "a"]) [])).
  exists mean, h, 0, (mkObj Z vs 0 0 [] 0 [str "a"] 0%Z), (fst (add_new_children Z mean 0 [] 7 h)), (mkObj Z vs 0 7 [] 0 [str "a"] 0%Z), ValueError.
  split; [repeat constructor|]. repeat split; try reflexivity. discriminate.
Qed.

(*PROP C92, refuted: a child given twice is added twice, and so are its members. *)
Lemma C92_duplicates_refuted_proof :
  exists (mean : list Z -> Z) h a o c new_children it h' o', constructed mean h /\ nth_error h a = Some o /\
    o_children Z o <> [] /\ up_to_date h o /\ NoDup (o_members Z o) /\ new_children = [c; c] /\ c < length h /\ c <> a /\
    add_new_children Z mean a new_children it h = (h', Ok tt) /\ nth_error h' a = Some o' /\
    ~ NoDup (o_children Z o') /\ ~ NoDup (o_members Z o').
Proof.
  set (mean := fun l => fold_right Z.add 0%Z l). set (vs := [(str "a", 0%Z); (str "b", 1%Z)]).
  set (h2 := fst (construct Z mean vs 1 0 None (Some [str "b"]) (fst (construct Z mean vs 0 0 None (Some [str "a"]) [])))).
  set (h := fst (construct Z mean vs 2 1 (Some [0]) None h2)).
  exists mean, h, 2, (mkObj Z vs 2 1 [0] 1 [str "a"] 0%Z), 1, [1; 1], 3%Z, (fst (add_new_children Z mean 2 [1; 1] 3%Z h)),
    (mkObj Z vs 2 3 [0; 1; 1] 1 [str "a"; str "b"; str "b"] 2%Z).
  split; [repeat constructor|]. split; [reflexivity|]. split; [discriminate|].
  split; [exists [mkObj Z vs 0 0 [] 0 [str "a"] 0%Z]; repeat constructor|].
  split; [repeat constructor; auto|]. split; [reflexivity|]. split; [vm_compute; lia|]. split; [discriminate|]. split; [reflexivity|]. split; [reflexivity|].
  cbn [o_children o_members].
  split; intro K; repeat rewrite NoDup_cons_iff in K; cbn [In] in K; intuition.
Qed.

(*PROP C92, refuted: two successful calls can make a cycle, and then no number of nested calls is enough to describe the object. *)
Lemma C92_cycle_refuted_proof :
  exists (mean : list Z -> Z) h h' h'' a b, constructed mean h /\ a < length h /\ b < length h /\ a <> b /\
    add_new_children Z mean a [b] 1 h = (h', Ok tt) /\ add_new_children Z mean b [a] 1 h' = (h'', Ok tt) /\
    forall limit, to_dict Z limit h'' a = Raise RecursionError.
Proof.
  set (mean := fun l => fold_right Z.add 0%Z l). set (vs := [(str "a", 0%Z); (str "b", 1%Z)]).
  set (h := fst (construct Z mean vs 1 0 None (Some [str "b"]) (fst (construct Z mean vs 0 0 None (Some [str "a"]) [])))).
  exists mean, h, (fst (add_new_children Z mean 0 [1] 1 h)), (fst (add_new_children Z mean 1 [0] 1 (fst (add_new_children Z mean 0 [1] 1 h)))), 0, 1.
  split; [repeat constructor|]. split; [vm_compute; lia|]. split; [vm_compute; lia|]. split; [discriminate|]. split; [reflexivity|]. split; [reflexivity|].
  set (h'' := fst (add_new_children Z mean 1 [0] 1 (fst (add_new_children Z mean 0 [1] 1 h)))).
  assert (E0 : exists o, nth_error h'' 0 = Some o /\ o_children Z o = [1]) by (eexists; split; reflexivity).
  assert (E1 : exists o, nth_error h'' 1 = Some o /\ o_children Z o = [0]) by (eexists; split; reflexivity).
  clearbody h''. destruct E0 as (o0 & E0 & C0). destruct E1 as (o1 & E1 & C1).
  assert (G : forall limit, to_dict Z limit h'' 0 = Raise RecursionError /\ to_dict Z limit h'' 1 = Raise RecursionError).
  { induction limit as [|limit [IH0 IH1]]; [auto|]. rewrite (to_dict_eq _ _ _ _ E0), (to_dict_eq _ _ _ _ E1), C0, C1. cbn [rmap]. rewrite IH0, IH1. auto. }
  intro limit. apply G.
Qed.
