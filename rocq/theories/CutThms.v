(** * Cuts by iteration undo merges (C108); single linkage (C109). *)

From Coq Require Import String List Bool Arith ZArith QArith Lia Permutation Relations.
(*HEADER
From Coq Require Import String List Bool Arith ZArith QArith Permutation Lia Relations.
From Verif Require Import Base Manager Spec ManagerInv ManagerQueries ManagerThms SamplingSpec ClusterSpec ClusterProofs KMeansSpec Hierarchical HierSpec CutSpec CutThms.
Import ListNotations.
Open Scope nat_scope.

(** An instance for the examples: points on a line. *)
Definition pw (X : list Z) (i j : nat) : Z := Z.abs (nth i X 0 - nth j X 0)%Z.
Definition zmean (l : list Z) : Z := (fold_right Z.add 0 l / Z.of_nat (length l))%Z.
Definition zsum (l : list Z) : Z := fold_right Z.add 0%Z l.
Definition hier_Z := cluster Z Z pw (fun x y => Z.abs (x - y)%Z) Z.ltb zsum (fun d n => (d / Z.of_nat n)%Z) 1000000%Z zmean.
Definition A := str "a". Definition B := str "b". Definition C := str "c". Definition E := str "d". Definition F := str "e".
HEADER*)
From Verif Require Import Base Manager Spec Closure ManagerProofs ManagerInv ManagerQueries ManagerThms
  Sampling SamplingSpec SamplingProofs SamplingThms Rename ClusterSpec RenameThms ClusterProofs KMeans KMeansSpec KMeansProofs KMeansThms
  Hierarchical HierSpec HierProofs HierRun HierTree HierThms CutSpec.
Import ListNotations.
Open Scope nat_scope.
Open Scope py_scope.

Section Back.
  Context {vec : Type}.
  Variable mean : list vec -> vec.
  Variable vectors : dict pystr vec.
  Notation tree := (tree vec).
  Notation members := (t_members vec).
  Notation children := (t_children vec).
  Notation iteration := (t_iteration vec).
  Variable mergeable : list tree -> tree -> tree -> Prop.
  Variable finished : list tree -> Prop.
  Notation trace_ := (run_trace mean vectors mergeable finished).
  Notation byi := (str "iteration").

  Lemma key_iteration (t : tree) : key_of byi t = iteration t.
  Proof. reflexivity. Qed.

  Lemma agglomerates_trace it forest root : agglomerates mean vectors mergeable finished it forest root -> exists tr, trace_ it forest root tr.
  Proof.
    induction 1 as [it t|it l1 t1 l2 t2 l3 t root CL NO A [tr IH]|it ts root L ST NO].
    - eexists. constructor.
    - eexists. econstructor; eauto.
    - eexists. apply tr_finished; auto.
  Qed.

  Lemma split_len k (l l' : list tree) : split_run byi k l l' -> (k <= Z.of_nat (length l))%Z -> l' = l.
  Proof. intros S L. inversion S; subst; auto. rewrite app_length in *. simpl in *. lia. Qed.

  Lemma trace_head it forest root tr : trace_ it forest root tr -> In forest tr.
  Proof. inversion 1; subst; left; auto. Qed.
  Lemma trace_len it forest root tr : trace_ it forest root tr -> forall F, In F tr -> length F <= length forest.
  Proof.
    induction 1 as [it t|it l1 t1 l2 t2 l3 t root tr CL NO A IH|it ts root L ST NO]; intros F J.
    - destruct J as [<-|[]]; auto.
    - destruct J as [<-|J]; auto. specialize (IH F J). rewrite !app_length in *. simpl in *. rewrite !app_length in *. simpl in *. lia.
    - destruct J as [<-|[<-|[]]]; auto; simpl; lia.
  Qed.

  (** Splitting from the root goes back through the forest. *)
  Lemma back it forest root tr : trace_ it forest root tr -> (forall u, In u forest -> iteration u < it) -> forall k l,
    split_run byi k [root] l -> (Z.of_nat (length forest) <= k)%Z -> exists forest', Permutation forest' forest /\ split_run byi k forest' l.
  Proof.
    induction 1 as [it t|it l1 t1 l2 t2 l3 t root tr CL NO A IH|it ts root L ST NO]; intros Lt k l S Lk.
    - exists [t]. auto.
    - assert (It : iteration t = it) by apply NO. assert (Ch : children t = [t1; t2]) by apply NO.
      destruct (IH) with (k := k) (l := l) as (f & P & S'); auto.
      { intros u U. rewrite !in_app_iff in U. simpl in U. destruct U as [U|[U|[U|[<-|[]]]]]; try lia.
        all: assert (iteration u < it) by (apply Lt; rewrite in_app_iff; simpl; rewrite in_app_iff; simpl; tauto); lia. }
      { rewrite !app_length in *. simpl in *. rewrite !app_length in *. simpl in *. lia. }
      assert (LT : (Z.of_nat (length f) < k)%Z).
      { rewrite (Permutation_length P). rewrite !app_length in *. simpl in *. rewrite !app_length in *. simpl in *. lia. }
      assert (Big : forall a u b, f = a ++ u :: b -> first_biggest byi a u b -> u = t /\ Permutation (a ++ b) (l1 ++ l2 ++ l3)).
      { intros a u b E FB. assert (Ju : In u (l1 ++ l2 ++ l3 ++ [t])) by (apply (Permutation_in _ P); rewrite E; apply in_elt).
        assert (Jt : In t (a ++ u :: b)) by (rewrite <- E; apply (Permutation_in _ (Permutation_sym P)); rewrite !in_app_iff; simpl; tauto).
        assert (Ge := first_biggest_all _ _ _ _ FB t Jt). rewrite !key_iteration in Ge.
        assert (Eu : u = t).
        { rewrite !in_app_iff in Ju. simpl in Ju. destruct Ju as [U|[U|[U|[<-|[]]]]]; auto; exfalso;
          assert (iteration u < it) by (apply Lt; rewrite in_app_iff; simpl; rewrite in_app_iff; simpl; tauto); lia. }
        split; auto. subst u. rewrite <- (app_nil_r (l1 ++ l2 ++ l3)). apply (Permutation_app_inv a b (l1 ++ l2 ++ l3) [] t). rewrite <- E. etransitivity; [exact P|].
        rewrite <- !app_assoc. reflexivity. }
      inversion S' as [l0 Hk|a u b FB Hc|a u b fin Hl FB Hc S2]; subst.
      + lia.
      + destruct (Big a u b eq_refl FB) as [-> _]. congruence.
      + destruct (Big a u b eq_refl FB) as [-> Pab]. rewrite Ch in S2. exists (a ++ b ++ [t1; t2]). split; auto.
        rewrite app_assoc. etransitivity; [apply Permutation_app_tail; exact Pab|].
        rewrite <- !app_assoc. simpl. apply Permutation_app_head.
        symmetry. etransitivity; [apply perm_skip; symmetry; apply Permutation_middle|].
        rewrite app_assoc. apply (Permutation_app_comm [t1; t2] (l2 ++ l3)).
    - assert (Ch : children root = ts) by apply NO. exists ts. split; auto.
      inversion S as [l0 Hk|a u b FB Hc E|a u b fin Hl FB Hc S2 E]; subst.
      + simpl in Hk. lia.
      + destruct a as [|? [|? ?]]; try discriminate. injection E as -> ->. simpl in *. rewrite Hc in L. simpl in L. lia.
      + destruct a as [|? [|? ?]]; try discriminate. injection E as -> ->. exact S2.
  Qed.

  Lemma cut_visited it forest root tr : trace_ it forest root tr -> (forall u, In u forest -> iteration u < it) -> forall k l,
    split_run byi k [root] l -> (k <= Z.of_nat (length forest))%Z ->
    exists F, In F tr /\ Permutation l F /\ (k <= Z.of_nat (length F))%Z /\ forall F', In F' tr -> (k <= Z.of_nat (length F'))%Z -> length F <= length F'.
  Proof.
    induction 1 as [it t|it l1 t1 l2 t2 l3 t root tr CL NO A IH|it ts root L ST NO]; intros Lt k l S Lk.
    - rewrite (split_len _ _ _ S Lk). exists [t]. split; [left; auto|]. split; auto. split; auto. intros F' [<-|[]] _. auto.
    - set (ts := l1 ++ t1 :: l2 ++ t2 :: l3) in *. set (ts' := l1 ++ l2 ++ l3 ++ [t]) in *.
      assert (LL : length ts = Datatypes.S (length ts')) by (unfold ts, ts'; rewrite !app_length; simpl; rewrite !app_length; simpl; lia).
      assert (It : iteration t = it) by apply NO.
      assert (Lt' : forall u, In u ts' -> iteration u < Datatypes.S it).
      { intros u U. unfold ts' in U. rewrite !in_app_iff in U. simpl in U. destruct U as [U|[U|[U|[<-|[]]]]]; try lia.
        all: assert (iteration u < it) by (apply Lt; unfold ts; rewrite in_app_iff; simpl; rewrite in_app_iff; simpl; tauto); lia. }
      destruct (Z.leb_spec k (Z.of_nat (length ts'))) as [Le|Gt].
      + destruct (IH Lt' k l S Le) as (F & J & P & Lf & Min). exists F. split; [right; auto|]. split; auto. split; auto.
        intros F' [<-|J'] LF'; auto. specialize (Min ts' (trace_head _ _ _ _ A) Le). lia.
      + destruct (back it ts root (ts :: tr)) with (k := k) (l := l) as (f & P & S'); auto; [econstructor; eauto|lia|].
        rewrite (split_len _ _ _ S') by (rewrite (Permutation_length P); auto).
        exists ts. split; [left; auto|]. split; auto. split; auto. intros F' [<-|J'] LF'; auto. assert (X := trace_len _ _ _ _ A F' J'). lia.
    - destruct (Z.leb_spec k 1) as [Le|Gt].
      + rewrite (split_len _ _ _ S) by (simpl; lia). exists [root]. split; [right; left; auto|]. split; auto. split; [simpl; lia|].
        intros F' [<-|[<-|[]]] _; simpl; lia.
      + assert (Ch : children root = ts) by apply NO.
        assert (El : l = ts).
        { inversion S as [l0 Hk|a u b FB Hc E|a u b fin Hl FB Hc S2 E]; subst.
          - simpl in Hk. lia.
          - destruct a as [|? [|? ?]]; try discriminate. injection E as -> ->. rewrite Hc in L. simpl in L. lia.
          - destruct a as [|? [|? ?]]; try discriminate. injection E as -> ->. apply (split_len _ _ _ S2). auto. }
        subst l. exists ts. split; [left; auto|]. split; auto. split; auto. intros F' [<-|[<-|[]]] LF'; auto. simpl in LF'. lia.
  Qed.

  Lemma cut_last_with it forest root tr : trace_ it forest root tr -> (forall u, In u forest -> iteration u < it /\ children u = []) -> forall k l,
    split_run byi k [root] l -> exists F, last_with k forest tr F /\ Permutation l F.
  Proof.
    intros T Lf k l S. destruct (Z.leb_spec k (Z.of_nat (length forest))) as [Le|Gt].
    - destruct (cut_visited it forest root tr T) with (k := k) (l := l) as (F & J & P & Lk & Min); auto; [intros u U; apply (Lf u U)|].
      exists F. split; auto. split; auto.
    - destruct (back it forest root tr T) with (k := k) (l := l) as (f & P & S'); auto; [intros u U; apply (Lf u U)|lia|].
      assert (El : l = f).
      { inversion S' as [l0 Hk|a u b FB Hc|a u b fin Hl FB Hc S2]; subst; auto. exfalso. apply Hc, Lf.
        apply (Permutation_in _ P), in_elt. }
      subst l. exists forest. split; auto. split; [eapply trace_head; eauto|]. split; auto.
      intros F' J' LF'. assert (X := trace_len _ _ _ _ T F' J'). lia.
  Qed.

  Lemma groups_as_perm (l l' : list tree) d : Permutation l l' -> groups_as l d -> groups_as l' d.
  Proof.
    intros P [A B]. assert (X : forall t, In t l <-> In t l') by (intro t; split; apply Permutation_in; auto using Permutation_sym). split.
    - intro x. rewrite A. split; intros (t & T & M); exists t; split; auto; apply X; auto.
    - intros x y Jx Jy. rewrite (B x y Jx Jy). split; intros (t & T & M); exists t; split; auto; apply X; auto.
  Qed.
End Back.

Section Single.
  Context {vec D : Type}.
  Variable pairwise : list vec -> nat -> nat -> D.
  Variable cdistance : vec -> vec -> D.
  Variable ltb : D -> D -> bool.
  Variable dsum : list D -> D.
  Variable ddiv : D -> nat -> D.
  Variable inf : D.
  Variable mean : list vec -> vec.
  Variable m : mgr.
  Variable vectors : dict pystr vec.
  Hypothesis I : Inv m.
  Hypothesis TO : strict_total_order ltb.
  Hypothesis SYM : forall X i j, pairwise X i j = pairwise X j i.
  Notation tree := (tree vec).
  Notation members := (t_members vec).
  Notation single := (str "single").
  Notation ldist := (linkage_distance pairwise cdistance ltb dsum ddiv inf single m vectors).
  Notation nearest := (closest pairwise cdistance ltb dsum ddiv inf single m vectors).
  Notation halted := (stopped pairwise cdistance ltb dsum ddiv inf single m vectors).
  Notation dis := (distance_is pairwise m vectors).
  Notation trace_ := (run_trace mean vectors nearest halted).
  Notation forest_ok := (forest_ok mean m vectors).

  Lemma dis_sym a b d : dis (a, b) d -> dis (b, a) d.
  Proof using SYM. intros (l & rows & i & j & E & R & Na & Nb & ->). exists l, rows, j, i. rewrite SYM. auto. Qed.
  Lemma dis_total u v d : dis (u, v) d -> forall a b, In a (ids m) -> In b (ids m) -> exists d', dis (a, b) d'.
  Proof using I.
    intros (l & rows & i & j & E & R & _) a b A B. rewrite ask_managed in E by auto. injection E as <-.
    destruct (In_nth_error _ _ A) as [p P], (In_nth_error _ _ B) as [q Q]. exists (pairwise rows p q). exists (ids m), rows, p, q. rewrite ask_managed by auto. auto 6.
  Qed.

  Lemma least (l : list (pystr * pystr)) : l <> [] -> (forall p, In p l -> exists d, dis p d) ->
    exists p d, In p l /\ dis p d /\ forall p' d', In p' l -> dis p' d' -> ltb d' d = false.
  Proof using I TO.
    destruct TO as [[IR [TR NT]] _]. induction l as [|p l IH]; [congruence|]. intros _ H. destruct (H p (or_introl eq_refl)) as (d & Dp).
    destruct l as [|p0 l].
    { exists p, d. split; [left; auto|]. split; auto. intros p' d' [<-|[]] D'. destruct p. rewrite (distance_unique _ _ _ _ _ _ I D' Dp). apply IR. }
    destruct IH as (q & e & Jq & Dq & Min); [discriminate|intros; apply H; right; auto|].
    destruct (ltb d e) eqn:L.
    - exists p, d. split; [left; auto|]. split; auto. intros p' d' [<-|J] D'.
      + destruct p. rewrite (distance_unique _ _ _ _ _ _ I D' Dp). apply IR.
      + destruct (ltb d' d) eqn:L'; auto. specialize (Min p' d' J D'). rewrite (TR _ _ _ L' L) in Min. discriminate.
    - exists q, e. split; [right; auto|]. split; auto. intros p' d' [<-|J] D'; [|eauto].
      destruct p. rewrite (distance_unique _ _ _ _ _ _ I D' Dp). auto.
  Qed.

  Lemma incompatible_dec (t1 t2 : tree) : in_ids m t1 -> in_ids m t2 -> incompatible m t1 t2 \/ ~ incompatible m t1 t2.
  Proof using I.
    intros A B. assert (S := incompatible_spec m I t1 t2 A B).
    destruct (existsb (cl_pair m) (list_prod (members t1) (members t2))); [left|right]; [apply S; auto|intro Q; apply S in Q; discriminate].
  Qed.

  Lemma ldist_below t1 t2 u v d : in_ids m t1 -> in_ids m t2 -> ~ incompatible m t1 t2 -> In u (members t1) -> In v (members t2) -> dis (u, v) d ->
    exists d', ldist t1 t2 d' /\ ltb d d' = false.
  Proof using I TO.
    intros [N1 I1] [N2 I2] NC U V Duv. destruct (least (list_prod (members t1) (members t2))) as ([a b] & d' & J & Dab & Min).
    - intro E. assert (X : In (u, v) (list_prod (members t1) (members t2))) by (apply in_prod; auto). rewrite E in X. destruct X.
    - intros [a b] J. apply in_prod_iff in J as [A B]. eapply dis_total; eauto.
    - apply in_prod_iff in J as [A B]. exists d'. split.
      + right. split; auto. right; left. split; auto. split; [exists a, b; auto|]. intros a' b' e A' B' De. apply (Min (a', b')); auto. apply in_prod; auto.
      + apply (Min (u, v)); auto. apply in_prod; auto.
  Qed.

  (** Some cluster of the forest holds both. *)
  Definition together (F : list tree) x y : Prop := exists t, In t F /\ In x (members t) /\ In y (members t).

  Lemma in_forest it F x : forest_ok it F -> In x (ids m) -> exists t, In t F /\ In x (members t) /\ in_ids m t.
  Proof.
    intros FO X. apply (Permutation_in x (Permutation_sym (fo_members _ _ _ _ _ FO))) in X. apply in_flat_map in X as (t & T & M0). exists t. split; auto. split; auto.
    assert (G := trees_inids _ _ _ _ _ FO). rewrite Forall_forall in G. auto.
  Qed.

  Lemma before_total (F : list tree) t u : In t F -> In u F -> t <> u -> before F t u \/ before F u t.
  Proof.
    induction F as [|y F IH]; intros T U N; [destruct T|]. destruct T as [->|T], U as [->|U]; [congruence|left|right|].
    - exists [], F. auto.
    - exists [], F. auto.
    - destruct (IH T U N) as [B|B]; [left|right]; destruct B as (a & b & -> & J); exists (y :: a), b; auto.
  Qed.

  Lemma merge_compatible F t1 t2 : nearest F t1 t2 -> ~ incompatible m t1 t2.
  Proof. intros (d & [[_ E]|[N _]] & NI & _); congruence. Qed.

  (** The distance of the pair merged is at most that of any two clusters that could be merged. *)
  Lemma nearest_least it F t1 t2 u v d : forest_ok it F -> nearest F t1 t2 -> In u (ids m) -> In v (ids m) -> ~ together F u v -> dis (u, v) d ->
    (exists a b d0, In a (members t1) /\ In b (members t2) /\ dis (a, b) d0 /\ ltb d d0 = false) \/
    (exists tu tv, In tu F /\ In tv F /\ In u (members tu) /\ In v (members tv) /\ incompatible m tu tv).
  Proof using I TO SYM.
    intros FO NE U V NT Duv. destruct (in_forest it F u FO U) as (tu & Tu & Mu & Gu), (in_forest it F v FO V) as (tv & Tv & Mv & Gv).
    destruct (incompatible_dec tu tv Gu Gv) as [IN|NI]; [right; exists tu, tv; auto 6|]. left.
    assert (NQ : tu <> tv) by (intros ->; apply NT; exists tv; auto).
    assert (K : exists d', ltb d d' = false /\ exists u1 u2, before F u1 u2 /\ ldist u1 u2 d').
    { destruct (before_total F tu tv Tu Tv NQ) as [B|B].
      - destruct (ldist_below tu tv u v d Gu Gv NI Mu Mv Duv) as (d' & L & Q). eauto 6.
      - assert (NI' : ~ incompatible m tv tu).
        { intros (a & b & A & Bb & Q). apply NI. exists b, a. split; auto. split; auto.
          assert (Ia : In a (ids m)) by (apply Gv; auto). assert (Ib : In b (ids m)) by (apply Gu; auto).
          apply inferred_cl in Q; auto. apply inferred_cl; auto. rewrite cl_sym; auto. }
        destruct (ldist_below tv tu v u d Gv Gu NI' Mv Mu (dis_sym _ _ _ Duv)) as (d' & L & Q). eauto 6. }
    destruct K as (d' & Q & u1 & u2 & B & L). destruct NE as (d0 & L0 & NI0 & Min). destruct (Min u1 u2 d' B L) as [Q0 _].
    destruct L0 as [[_ E]|[_ [(E & _)|[(_ & (a & b & A & B0 & Dab) & _)|[(E & _)|(E & _)]]]]]; try congruence; try discriminate.
    exists a, b, d0. split; auto. split; auto. split; auto. destruct TO as [[_ [_ NTR]] _].
    destruct (ltb d d0) eqn:X; auto. destruct (NTR _ d' _ X); congruence.
  Qed.

  Lemma start_ml F : start mean m vectors F -> forall x y, together F x y -> inferred m x y (Some MUST_LINK).
  Proof using I.
    intros (cs & E & FF & _) x y (t & T & X & Y). rewrite ask_components in E by auto. injection E as <-.
    destruct (Forall2_In_r _ _ _ _ FF T) as (c & Cc & (_ & _ & Em & _)). rewrite Em in *.
    destruct (comps_good m I c Cc) as [_ IC]. apply inferred_ml; auto. apply ml_linked; auto. apply (comps_common m x y I); auto. exists c. auto.
  Qed.

  Lemma together_up it l1 t1 l2 t2 l3 t x y : node_over mean vectors it (l1 ++ t1 :: l2 ++ t2 :: l3) [t1; t2] t ->
    together (l1 ++ t1 :: l2 ++ t2 :: l3) x y -> together (l1 ++ l2 ++ l3 ++ [t]) x y.
  Proof.
    intros NO (u & U & X & Y). assert (M0 : members t = members t1 ++ members t2) by (destruct NO as (_ & _ & -> & _); simpl; rewrite app_nil_r; auto).
    assert (Q : In u (l1 ++ l2 ++ l3) \/ u = t1 \/ u = t2).
    { rewrite !in_app_iff in *. simpl in U. rewrite in_app_iff in U. simpl in U. intuition. }
    destruct Q as [Q|Q].
    - exists u. rewrite !in_app_iff in *. intuition.
    - exists t. rewrite M0, !in_app_iff. simpl. destruct Q as [-> | ->]; auto 10.
  Qed.

  (** Against a clustering that respects the constraints. *)
  Section Against.
    Variable e : dict pystr Z.
    Hypothesis RE : respects m e.
    Definition within (F : list tree) : Prop := forall x y, together F x y -> dget x e = dget y e.
    Definition spaced (F : list tree) : Prop := forall u v d, In u (ids m) -> In v (ids m) -> ~ together F u v -> dis (u, v) d ->
      exists a b d0, In a (ids m) /\ In b (ids m) /\ dget a e <> dget b e /\ dis (a, b) d0 /\ ltb d d0 = false.

    Lemma spacing it F root tr : trace_ it F root tr -> forest_ok it F -> within F \/ spaced F -> forall F', In F' tr -> within F' \/ spaced F'.
    Proof using I TO SYM RE.
      induction 1 as [it t|it l1 t1 l2 t2 l3 t root tr CL NO A IH|it ts root L ST NO]; intros FO OK F' J.
      - destruct J as [<-|[]]; auto.
      - destruct J as [<-|J]; auto. set (ts := l1 ++ t1 :: l2 ++ t2 :: l3) in *.
        assert (T1 : In t1 ts) by (apply in_elt). assert (T2 : In t2 ts) by (apply in_or_app; right; right; apply in_elt).
        assert (G := trees_inids _ _ _ _ _ FO). rewrite Forall_forall in G.
        apply IH; auto.
        { apply (merge_ok mean m vectors I it l1 t1 l2 t2 l3 t); auto. apply (merge_compatible ts); auto. }
        assert (Up : forall x y, together ts x y -> together (l1 ++ l2 ++ l3 ++ [t]) x y) by (intros x y; apply (together_up it); auto).
        destruct OK as [W|SP].
        2:{ right. intros u v d U V NT Duv. apply (SP u v d); auto. }
        assert (M0 : members t = members t1 ++ members t2) by (destruct NO as (_ & _ & -> & _); simpl; rewrite app_nil_r; auto).
        assert (Ne : exists x1 x2, In x1 (members t1) /\ In x2 (members t2)).
        { destruct (G t1 T1) as [N1 _], (G t2 T2) as [N2 _]. destruct (members t1) as [|x1], (members t2) as [|x2]; try congruence. exists x1, x2. split; left; auto. }
        destruct Ne as (x1 & x2 & X1 & X2).
        assert (C1 : forall x, In x (members t1) -> dget x e = dget x1 e) by (intros x X; apply W; exists t1; auto).
        assert (C2 : forall x, In x (members t2) -> dget x e = dget x2 e) by (intros x X; apply W; exists t2; auto).
        assert (DE : dget x1 e = dget x2 e \/ dget x1 e <> dget x2 e).
        { destruct (dget x1 e) as [p|], (dget x2 e) as [q|]; try (right; congruence); auto. destruct (Z.eq_dec p q); [left|right]; congruence. }
        destruct DE as [Eq|Ne].
        + left. intros x y (u & U & X & Y). rewrite !in_app_iff in U. simpl in U.
          assert (Q : In u ts \/ u = t) by (unfold ts; rewrite !in_app_iff; simpl; rewrite in_app_iff; simpl; intuition).
          destruct Q as [Q| ->]; [apply W; exists u; auto|]. rewrite M0 in X, Y. apply in_app_or in X, Y.
          assert (Z0 : forall z, In z (members t1) \/ In z (members t2) -> dget z e = dget x1 e) by (intros z [Q|Q]; [auto|rewrite Eq; auto]).
          rewrite (Z0 x X), (Z0 y Y). auto.
        + right. intros u v d U V NT Duv. assert (NT' : ~ together ts u v) by auto.
          destruct (nearest_least it ts t1 t2 u v d FO CL U V NT' Duv) as [(a & b & d0 & Ma & Mb & Dab & Q)|(tu & tv & Tu & Tv & Mu & Mv & (a & b & Ma & Mb & Q))].
          * exists a, b, d0. split; [apply (G t1 T1); auto|]. split; [apply (G t2 T2); auto|]. split; auto. rewrite (C1 a Ma), (C2 b Mb). auto.
          * exists u, v, d. split; auto. split; auto. split; [|split; auto; apply TO].
            rewrite (W u a) by (exists tu; auto). rewrite (W v b) by (exists tv; auto). apply RE; auto; apply managed_ids; auto; [apply (G tu Tu)|apply (G tv Tv)]; auto.
      - destruct J as [<-|[<-|[]]]; auto. right. intros u v d U V NT. exfalso. apply NT.
        assert (M0 : members root = flat_map members ts) by apply NO.
        assert (Z0 : forall z, In z (ids m) -> In z (members root)) by (intros z Z0; rewrite M0; apply (Permutation_in z (Permutation_sym (fo_members _ _ _ _ _ FO))); auto).
        exists root. split; [left; auto|auto].
    Qed.
  End Against.

  (** Without CANNOT_LINK constraints, clusters are joined by steps shorter than the distances between them. *)
  Section Chains.
    Hypothesis NOCL : forall a b, ~ inferred m a b (Some CANNOT_LINK).
    Notation joined_ := (joined pairwise ltb m vectors).
    Definition chained (F : list tree) : Prop := forall x y u v d h, together F x y -> In u (ids m) -> In v (ids m) -> ~ together F u v ->
      dis (u, v) d -> ltb h d = false -> joined_ h x y.

    Lemma chains it F root tr : trace_ it F root tr -> forest_ok it F -> chained F -> forall F', In F' tr -> chained F'.
    Proof using I TO SYM NOCL.
      induction 1 as [it t|it l1 t1 l2 t2 l3 t root tr CL NO A IH|it ts root L ST NO]; intros FO OK F' J.
      - destruct J as [<-|[]]; auto.
      - destruct J as [<-|J]; auto. set (ts := l1 ++ t1 :: l2 ++ t2 :: l3) in *.
        assert (T1 : In t1 ts) by (apply in_elt). assert (T2 : In t2 ts) by (apply in_or_app; right; right; apply in_elt).
        assert (G := trees_inids _ _ _ _ _ FO). rewrite Forall_forall in G.
        apply IH; auto.
        { apply (merge_ok mean m vectors I it l1 t1 l2 t2 l3 t); auto. apply (merge_compatible ts); auto. }
        assert (M0 : members t = members t1 ++ members t2) by (destruct NO as (_ & _ & -> & _); simpl; rewrite app_nil_r; auto).
        intros x y u v d h (w & Jw & X & Y) U V NT Duv Hd.
        assert (NT' : ~ together ts u v) by (intro Q; apply NT; eapply together_up; eauto).
        assert (Q : In w ts \/ w = t) by (unfold ts; rewrite !in_app_iff in *; simpl in *; rewrite in_app_iff; simpl; intuition).
        destruct Q as [Q| ->]; [apply (OK x y u v d h); auto; exists w; auto|].
        destruct (nearest_least it ts t1 t2 u v d FO CL U V NT' Duv) as [(a & b & d0 & Ma & Mb & Dab & Q)|(tu & tv & Tu & Tv & Mu & Mv & (a & b & Ma & Mb & Q))].
        2:{ exfalso. exact (NOCL _ _ Q). }
        assert (Ia : In a (ids m)) by (apply (G t1 T1); auto). assert (Ib : In b (ids m)) by (apply (G t2 T2); auto).
        assert (H0 : ltb h d0 = false) by (destruct TO as [[_ [_ NTR]] _]; destruct (ltb h d0) eqn:X0; auto; destruct (NTR _ d _ X0); congruence).
        assert (K1 : forall p q, In p (members t1) -> In q (members t1) -> joined_ h p q) by (intros p q Jp Jq; apply (OK p q u v d h); auto; exists t1; auto).
        assert (K2 : forall p q, In p (members t2) -> In q (members t2) -> joined_ h p q) by (intros p q Jp Jq; apply (OK p q u v d h); auto; exists t2; auto).
        assert (Sab : joined_ h a b) by (apply rt_step; split; [apply managed_ids; auto|]; split; [apply managed_ids; auto|]; right; exists d0; auto).
        assert (Sba : joined_ h b a) by (apply rt_step; split; [apply managed_ids; auto|]; split; [apply managed_ids; auto|]; right; exists d0; split; auto; apply dis_sym; auto).
        rewrite M0 in X, Y. apply in_app_or in X, Y. destruct X as [X|X], Y as [Y|Y]; auto.
        + eapply rt_trans; [apply (K1 x a); auto|]. eapply rt_trans; [exact Sab|apply (K2 b y); auto].
        + eapply rt_trans; [apply (K2 x b); auto|]. eapply rt_trans; [exact Sba|apply (K1 a y); auto].
      - destruct J as [<-|[<-|[]]]; auto. intros x y u v d h _ U V NT. exfalso. apply NT.
        assert (M0 : members root = flat_map members ts) by apply NO.
        assert (Z0 : forall z, In z (ids m) -> In z (members root)) by (intros z Z0; rewrite M0; apply (Permutation_in z (Permutation_sym (fo_members _ _ _ _ _ FO))); auto).
        exists root. split; [left; auto|auto].
    Qed.

    Lemma start_chained F : start mean m vectors F -> chained F.
    Proof using I.
      intros ST x y u v d h T _ _ _ _ _. assert (Q := start_ml F ST x y T). destruct (inferred_inI m I x y _ Q) as [X Y].
      apply rt_step. split; [apply managed_ids; auto|]. split; [apply managed_ids; auto|]. auto.
    Qed.
  End Chains.
End Single.

(** A clustering within another one with at least as many clusters is the same. *)
Lemma within_count (d e : dict pystr Z) : NoDup (keys d) -> NoDup (keys e) -> (forall x, In x (keys d) <-> In x (keys e)) ->
  (forall x y, In x (keys d) -> In y (keys d) -> dget x d = dget y d -> dget x e = dget y e) -> nb_clusters_of d <= nb_clusters_of e ->
  forall x y, In x (keys d) -> In y (keys d) -> dget x e = dget y e -> dget x d = dget y d.
Proof.
  intros ND NE K W Le x y X Y E.
  assert (KD : forall z, In z (keys d) -> exists c, dget z d = Some c).
  { intros z J. destruct (dget z d) eqn:Q; eauto. apply dget_None in Q. tauto. }
  destruct (KD x X) as (cx & Ex), (KD y Y) as (cy & Ey). rewrite Ex, Ey. destruct (Z.eq_dec cx cy) as [->|N]; auto. exfalso.
  set (g := fun c : Z => match find (fun z => match dget z d with Some c' => Z.eqb c' c | None => false end) (keys d) with
    | Some z => match dget z e with Some c' => c' | None => 0%Z end | None => 0%Z end).
  assert (G : forall z c, In z (keys d) -> dget z d = Some c -> dget z e = Some (g c)).
  { intros z c J Q. unfold g. destruct (find _ _) as [w|] eqn:Fi.
    - apply find_some in Fi as [Jw Qw]. destruct (dget w d) as [c'|] eqn:Qd; [|discriminate]. apply Z.eqb_eq in Qw as ->.
      rewrite (W z w J Jw) by congruence. destruct (dget w e) eqn:Qe; auto. apply dget_None in Qe. apply K in Jw. tauto.
    - exfalso. assert (Z0 := find_none _ _ Fi z J). cbn in Z0. rewrite Q, Z.eqb_refl in Z0. discriminate. }
  set (L := nodup Z.eq_dec (vals d)) in *.
  assert (IncL : incl (nodup Z.eq_dec (vals e)) (map g (remove Z.eq_dec cy L))).
  { intros v V. apply nodup_In in V. apply vals_dget in V as [z Ez]; auto. assert (J : In z (keys d)) by (apply K; eapply dget_Some_key; eauto).
    destruct (KD z J) as (c & Ec). assert (Gz := G z c J Ec). rewrite Ez in Gz. injection Gz as ->.
    destruct (Z.eq_dec c cy) as [->|Nc].
    - assert (Gx := G x cx X Ex). assert (Gy := G y cy Y Ey). rewrite E, Gy in Gx. injection Gx as ->. apply in_map. apply in_in_remove; auto.
      apply nodup_In. eapply dget_vals; eauto.
    - apply in_map. apply in_in_remove; auto. apply nodup_In. eapply dget_vals; eauto. }
  assert (Len := NoDup_incl_length (NoDup_nodup _ _) IncL). rewrite map_length in Len.
  assert (Lt : length (remove Z.eq_dec cy L) < length L) by (apply remove_length_lt, nodup_In; eapply dget_vals; eauto).
  unfold nb_clusters_of in Le. fold L in Le. lia.
Qed.

Lemma start_zero {vec} mean m (vectors : dict pystr vec) F : start mean m vectors F -> forall u, In u F -> t_iteration vec u < 1 /\ t_children vec u = [].
Proof. intros (cs & E & FF & _) u U. destruct (Forall2_In_r _ _ _ _ FF U) as (c & _ & (A & B & _)). rewrite B. auto. Qed.

Lemma trace_of_run {vec D} (eqD : EqB D) pairwise cdistance ltb dsum ddiv inf mean linkage m vectors nb s s' d :
  strict_total_order ltb -> Inv m -> make_hierarchical linkage = Ok linkage ->
  cluster vec D pairwise cdistance ltb dsum ddiv inf mean linkage m vectors nb s = (s', Ok d) ->
  exists root first trace, h_root vec s' = Some root /\ start mean m vectors first /\
    run_trace mean vectors (closest pairwise cdistance ltb dsum ddiv inf linkage m vectors) (stopped pairwise cdistance ltb dsum ddiv inf linkage m vectors) 1 first root trace /\
    forall k, exists d' F, compute_predicted_clusters vec k (str "iteration") s' = (s', Ok d') /\ last_with k first trace F /\ groups_as F d' /\
      canonical d' /\ covers_exactly m d'.
Proof.
  intros TO I MK E.
  destruct (recut pairwise cdistance ltb dsum ddiv inf mean linkage m vectors nb s s' d 1%Z (str "size") I MK E) as (root & _ & _ & Es & _ & BU & _).
  destruct BU as (_ & _ & A). destruct (A TO) as (first & ST & AG). destruct (agglomerates_trace mean vectors _ _ _ _ _ AG) as (tr & T).
  exists root, first, tr. split; [rewrite Es; auto|]. split; auto. split; auto. intro k.
  destruct (recut pairwise cdistance ltb dsum ddiv inf mean linkage m vectors nb s s' d k (str "iteration") I MK E) as (root' & l & d' & Es' & Ec & _ & SR & C & Can & G & Co).
  rewrite Es in Es'. injection Es' as <-.
  destruct (cut_last_with mean vectors _ _ 1 first root tr T (start_zero mean m vectors first ST) k l SR) as (F & LW & P).
  exists d', F. split; auto. split; auto. split; [apply (groups_as_perm l); auto|auto].
Qed.

(*PROP Cutting by iteration shows the agglomeration as it was when it had [k] clusters: the last forest with at least [k] clusters, or the
    first one (the connected components) when there are fewer. *)
Lemma C108_cut_undoes_merges_proof :
  forall vec D (eqD : EqB D) pairwise cdistance ltb dsum ddiv inf mean name linkage m vectors nb s s' d,
    strict_total_order ltb -> reachable m -> make_hierarchical name = Ok linkage ->
    cluster vec D pairwise cdistance ltb dsum ddiv inf mean linkage m vectors nb s = (s', Ok d) ->
    exists root first trace, h_root vec s' = Some root /\ start mean m vectors first /\
      run_trace mean vectors (closest pairwise cdistance ltb dsum ddiv inf linkage m vectors)
        (stopped pairwise cdistance ltb dsum ddiv inf linkage m vectors) 1 first root trace /\
      forall k, exists d' forest, compute_predicted_clusters vec k (str "iteration") s' = (s', Ok d') /\
        last_with k first trace forest /\ groups_as forest d'.
Proof.
  intros vec D eqD pairwise cdistance ltb dsum ddiv inf mean name linkage m vectors nb s s' d TO R MK E.
  apply reachable_inv in R. apply make_linkage in MK.
  destruct (trace_of_run eqD pairwise cdistance ltb dsum ddiv inf mean linkage m vectors nb s s' d TO R MK E) as (root & first & tr & Er & ST & T & Q).
  exists root, first, tr. split; auto. split; auto. split; auto. intro k. destruct (Q k) as (d' & F & A & B & G & _). eauto.
Qed.

(*EX
(** Five points on a line: three close together, two not. *)
Definition line5 : mgr := init [A; B; C; E; F].
Definition points5 : dict pystr Z := [(A, 0); (B, 1); (C, 2); (E, 10); (F, 15)]%Z.
Definition done5 : hier Z := fst (hier_Z (str "single") line5 points5 (Some 3%Z) (fresh_hier Z)).
Example C108_ex :
  reachable line5 /\
  (** by iteration *)
  result (compute_predicted_clusters Z 3 (str "iteration")) done5 = Ok [(A, 0); (B, 0); (C, 0); (E, 1); (F, 2)]%Z /\
  (** by size, as [cluster] does *)
  h_predicted Z done5 = Some [(A, 0); (B, 0); (C, 1); (E, 2); (F, 2)]%Z.
Proof. split; [exact (run_reachable _ [])|]. split; vm_compute; reflexivity. Qed.
EX*)

(*PROP Single linkage has the largest spacing: compared with any clustering that respects the constraints and has at least as many clusters,
    two data in different clusters are never closer than some two data in different clusters of the other. *)
Lemma C109_maximum_spacing_proof :
  forall vec D (eqD : EqB D) pairwise cdistance ltb dsum ddiv inf mean m vectors nb s s' d k d' e,
    strict_total_order ltb -> (forall X i j, pairwise X i j = pairwise X j i) -> reachable m ->
    cluster vec D pairwise cdistance ltb dsum ddiv inf mean (str "single") m vectors nb s = (s', Ok d) ->
    compute_predicted_clusters vec k (str "iteration") s' = (s', Ok d') ->
    NoDup (keys e) -> covers_exactly m e -> respects m e -> nb_clusters_of d' <= nb_clusters_of e ->
    forall u v du, managed m u -> managed m v -> dget u d' <> dget v d' -> distance_is pairwise m vectors (u, v) du ->
      exists a b da, managed m a /\ managed m b /\ dget a e <> dget b e /\ distance_is pairwise m vectors (a, b) da /\ ltb du da = false.
Proof.
  intros vec D eqD pairwise cdistance ltb dsum ddiv inf mean m vectors nb s s' d k d' e TO SYM R E Ec NDe CE RE Le u v du U V N Duv.
  apply reachable_inv in R.
  destruct (trace_of_run eqD pairwise cdistance ltb dsum ddiv inf mean (str "single") m vectors nb s s' d TO R eq_refl E) as (root & first & tr & Er & ST & T & Q).
  destruct (Q k) as (d0 & F & Ec' & [J _] & [K G] & Can & Co). rewrite Ec in Ec'. injection Ec' as <-.
  assert (TG : forall x y, managed m x -> managed m y -> (dget x d' = dget y d' <-> together F x y)) by (intros x y X Y; apply G; apply Co; auto).
  assert (NT : ~ together F u v) by (intro X; apply N; apply TG; auto).
  assert (FO := start_ok mean m vectors R first ST).
  assert (W0 : within e first).
  { intros x y X. assert (X' := start_ml mean m vectors R first ST x y X). destruct (inferred_inI m R x y _ X'). apply RE; auto; apply managed_ids; auto. }
  destruct (spacing pairwise cdistance ltb dsum ddiv inf mean m vectors R TO SYM e RE 1 first root tr T FO (or_introl W0) F J) as [W|SP].
  - exists u, v, du. split; auto. split; auto. split; [|split; auto; apply TO]. intro X. apply N.
    apply (within_count d' e); auto; try (apply Co; auto); try lia.
    + destruct Can as [SS _]. clear - SS. induction SS as [|x l SS IH Fa]; constructor; auto. intro X. rewrite Forall_forall in Fa. specialize (Fa x X).
      rewrite str_ltb_irrefl in Fa. discriminate.
    + intro x. rewrite (Co x), (CE x). tauto.
    + intros x y Xx Yy Exy. apply W, TG; auto; apply Co; auto.
  - destruct (SP u v du) as (a & b & da & A & B & Nab & Dab & Lt); auto; try (apply managed_ids; auto).
    exists a, b, da. split; [apply managed_ids; auto|]. split; [apply managed_ids; auto|auto].
Qed.

(*EX
(** With a CANNOT_LINK between "b" and "c". *)
Definition split5 : mgr := run [CallAddConstraint B C CANNOT_LINK 1%Q] (init [A; B; C; E; F]).
Definition rival : dict pystr Z := [(A, 0); (B, 1); (C, 2); (E, 2); (F, 2)]%Z.
Example C109_ex :
  strict_total_order Z.ltb /\ (forall X i j, pw X i j = pw X j i) /\ reachable split5 /\ inferred split5 B C (Some CANNOT_LINK) /\
  result (compute_predicted_clusters Z 3 (str "iteration")) (fst (hier_Z (str "single") split5 points5 (Some 3%Z) (fresh_hier Z))) =
    Ok [(A, 0); (B, 0); (C, 1); (E, 2); (F, 2)]%Z /\
  NoDup (keys rival) /\ covers_exactly split5 rival /\ respects split5 rival /\ nb_clusters_of rival = 3.
Proof.
  split; [split; [split; [|split]|]; intros; rewrite ?Z.ltb_lt, ?Z.ltb_ge, ?Z.ltb_irrefl in *; try lia; auto|].
  split; [intros; unfold pw; lia|]. split; [apply run_reachable|].
  assert (In5 : forall x, managed split5 x <-> In x [A; B; C; E; F]) by (intro x; rewrite managed_ids by (apply reachable_inv, run_reachable); reflexivity).
  split; [vm_compute; reflexivity|]. split; [vm_compute; reflexivity|]. split; [repeat constructor; simpl; intuition discriminate|].
  split; [intro x; rewrite In5; reflexivity|]. split; [|vm_compute; reflexivity].
  split; intros a b Ma Mb Q; apply In5 in Ma, Mb; simpl in Ma, Mb; repeat destruct Ma as [<-|Ma]; try tauto; repeat destruct Mb as [<-|Mb]; try tauto;
    vm_compute in Q; try discriminate; vm_compute; congruence.
Qed.
EX*)

(*PROP Without CANNOT_LINK constraints, two data of one cluster are joined by steps no longer than those needed between any two clusters. *)
Lemma C109_chains_proof :
  forall vec D (eqD : EqB D) pairwise cdistance ltb dsum ddiv inf mean m vectors nb s s' d k d',
    strict_total_order ltb -> (forall X i j, pairwise X i j = pairwise X j i) -> reachable m ->
    (forall a b, ~ inferred m a b (Some CANNOT_LINK)) ->
    cluster vec D pairwise cdistance ltb dsum ddiv inf mean (str "single") m vectors nb s = (s', Ok d) ->
    compute_predicted_clusters vec k (str "iteration") s' = (s', Ok d') ->
    forall x y u v h, managed m x -> managed m y -> managed m u -> managed m v ->
      dget x d' = dget y d' -> dget u d' <> dget v d' ->
      joined pairwise ltb m vectors h u v -> joined pairwise ltb m vectors h x y.
Proof.
  intros vec D eqD pairwise cdistance ltb dsum ddiv inf mean m vectors nb s s' d k d' TO SYM R NOCL E Ec x y u v h X Y U V Exy Nuv Juv.
  apply reachable_inv in R.
  destruct (trace_of_run eqD pairwise cdistance ltb dsum ddiv inf mean (str "single") m vectors nb s s' d TO R eq_refl E) as (root & first & tr & Er & ST & T & Q).
  destruct (Q k) as (d0 & F & Ec' & [J _] & [K G] & Can & Co). rewrite Ec in Ec'. injection Ec' as <-.
  assert (TG : forall x y, managed m x -> managed m y -> (dget x d' = dget y d' <-> together F x y)) by (intros x' y' X' Y'; apply G; apply Co; auto).
  assert (FO := start_ok mean m vectors R first ST).
  assert (CH := chains pairwise cdistance ltb dsum ddiv inf mean m vectors R TO SYM NOCL 1 first root tr T FO (start_chained pairwise ltb mean m vectors R first ST) F J).
  assert (W : forall p q, inferred m p q (Some MUST_LINK) -> managed m p -> managed m q -> dget p d' = dget q d').
  { destruct (recut pairwise cdistance ltb dsum ddiv inf mean (str "single") m vectors nb s s' d k (str "iteration") R eq_refl E) as (root' & l & d1 & _ & Ec1 & BU & SR & _ & _ & G1 & _).
    rewrite Ec in Ec1. injection Ec1 as <-. intros p q Pq Mp Mq.
    apply (proj1 (cut_respects pairwise cdistance ltb dsum ddiv inf mean (str "single") m vectors root' (str "iteration") k l d' R BU SR G1)); auto. }
  apply clos_rt_rt1n in Juv. revert U V Nuv. induction Juv as [u|u w v (Mu & Mw & St) _ IH]; intros U V N; [congruence|].
  assert (DE : dget u d' = dget w d' \/ dget u d' <> dget w d').
  { destruct (dget u d') as [p|], (dget w d') as [q|]; try (right; congruence); auto. destruct (Z.eq_dec p q); [left|right]; congruence. }
  destruct DE as [Eq|Ne]; [apply IH; auto; congruence|]. destruct St as [Ml|(dd & Duw & Lt)]; [exfalso; apply Ne; apply W; auto|].
  apply (CH x y u w dd h); auto; try (apply managed_ids; auto).
  - apply TG; auto.
  - intro X'. apply Ne, TG; auto.
Qed.

(*EX
(** Without constraints, "a" and "c" (distance 2) are joined by steps of length 1. *)
Example C109_chains_ex :
  (forall a b, ~ inferred line5 a b (Some CANNOT_LINK)) /\
  result (compute_predicted_clusters Z 3 (str "iteration")) done5 = Ok [(A, 0); (B, 0); (C, 0); (E, 1); (F, 2)]%Z /\
  joined pw Z.ltb line5 points5 1%Z A C.
Proof.
  assert (Ml : forall x, In x [A; B; C; E; F] -> managed line5 x) by (intros x X; exists [A; B; C; E; F]; split; [vm_compute; reflexivity|auto]).
  split; [|split; [vm_compute; reflexivity|]].
  - intros a b Q. assert (Qa : In a [A; B; C; E; F] /\ In b [A; B; C; E; F]).
    { exact (inferred_inI line5 (reachable_inv _ (run_reachable _ [])) a b _ Q). }
    destruct Qa as [Ia Ib]. simpl in Ia, Ib. repeat destruct Ia as [<-|Ia]; try tauto; repeat destruct Ib as [<-|Ib]; try tauto; vm_compute in Q; discriminate.
  - eapply rt_trans with (y := B); apply rt_step; split; try (apply Ml; simpl; auto); split; try (apply Ml; simpl; auto); right; exists 1%Z; split; try reflexivity.
    + exists [A; B; C; E; F], [0; 1; 2; 10; 15]%Z, 0, 1. repeat split.
    + exists [A; B; C; E; F], [0; 1; 2; 10; 15]%Z, 1, 2. repeat split.
Qed.
EX*)

(** Five points on a line, three close together and two not. *)
Definition line (X : list Z) (i j : nat) : Z := Z.abs (nth i X 0 - nth j X 0)%Z.
Definition five : mgr := init [str "a"; str "b"; str "c"; str "d"; str "e"].
Definition five_points : dict pystr Z := [(str "a", 0); (str "b", 1); (str "c", 2); (str "d", 10); (str "e", 15)]%Z.

(*PROP The cut that [cluster] makes, by size, can do worse: a clustering with as many clusters has all its clusters farther apart. *)
Lemma C109_default_cut_spacing_proof :
  exists pairwise cdistance dsum ddiv mean m vectors d e,
    (forall X i j, pairwise X i j = pairwise X j i) /\ reachable m /\
    result (cluster Z Z pairwise cdistance Z.ltb dsum ddiv 1000%Z mean (str "single") m vectors (Some 3%Z)) (fresh_hier Z) = Ok d /\
    NoDup (keys e) /\ covers_exactly m e /\ respects m e /\ nb_clusters_of d <= nb_clusters_of e /\
    exists u v du, managed m u /\ managed m v /\ dget u d <> dget v d /\ distance_is pairwise m vectors (u, v) du /\
      forall a b da, managed m a -> managed m b -> dget a e <> dget b e -> distance_is pairwise m vectors (a, b) da -> (du < da)%Z.
Proof.
  exists line, (fun x y => Z.abs (x - y)%Z), (fold_right Z.add 0%Z), (fun d n => (d / Z.of_nat n)%Z), (fun l => nth 0 l 0%Z), five, five_points.
  exists [(str "a", 0); (str "b", 0); (str "c", 1); (str "d", 2); (str "e", 2)]%Z, [(str "a", 0); (str "b", 0); (str "c", 0); (str "d", 1); (str "e", 2)]%Z.
  assert (R : reachable five) by (exact (run_reachable _ [])).
  assert (In5 : forall x, managed five x <-> In x [str "a"; str "b"; str "c"; str "d"; str "e"]).
  { intro x. rewrite managed_ids by (apply reachable_inv; auto). reflexivity. }
  split; [intros; unfold line; lia|]. split; auto. split; [vm_compute; reflexivity|].
  split; [repeat constructor; simpl; intuition discriminate|]. split; [intro x; rewrite In5; reflexivity|]. split.
  { split; intros a b A B Q; apply In5 in A, B; simpl in A, B; repeat destruct A as [<-|A]; try tauto; repeat destruct B as [<-|B]; try tauto;
    vm_compute in Q; try discriminate; vm_compute; congruence. }
  split; [vm_compute; lia|]. exists (str "b"), (str "c"), 1%Z. split; [apply In5; simpl; auto|]. split; [apply In5; simpl; auto|].
  split; [vm_compute; discriminate|]. split.
  { exists (ids five), [0; 1; 2; 10; 15]%Z, 1, 2. repeat split. }
  intros a b da A B N (l & rows & i & j & El & Er & Ni & Nj & ->). vm_compute in El. injection El as <-.
  assert (rows = [0; 1; 2; 10; 15]%Z) as ->.
  { vm_compute in Er. do 5 (destruct rows as [|? rows]; [discriminate|]). destruct rows; [|discriminate]. injection Er as <- <- <- <- <-. auto. }
  cbn [fst snd] in Ni, Nj. do 5 try (destruct i as [|i]); try (destruct i; discriminate); do 5 try (destruct j as [|j]); try (destruct j; discriminate);
    vm_compute in Ni, Nj; injection Ni as <-; injection Nj as <-; try (exfalso; apply N; reflexivity); vm_compute; reflexivity.
Qed.
