(** * MPCKMeans: the constraint graphs. *)

From Coq Require Import String List Bool Arith ZArith Lia Permutation.
From Verif Require Import Base Manager Spec Closure ManagerProofs ManagerInv ManagerQueries ManagerThms
  Sampling SamplingSpec SamplingProofs SamplingThms Rename ClusterSpec RenameThms ClusterProofs KMeans KMeansProofs Spectral SpectralThms AffinityProofs
  Mpckmeans MpckSpec.
Import ListNotations.
Open Scope nat_scope.
Open Scope py_scope.

Lemma set_add_In x y s : In y (set_add x s) <-> y = x \/ In y s.
Proof.
  unfold set_add. destruct (mem x s) eqn:E.
  - apply mem_In in E. split; auto. intros [->|]; auto.
  - rewrite in_app_iff. simpl. intuition.
Qed.
Lemma set_add_NoDup x s : NoDup s -> NoDup (set_add x s).
Proof.
  unfold set_add. destruct (mem x s) eqn:E; auto. apply mem_nIn in E. intro N. apply NoDup_app_intro; auto.
  - constructor; auto. constructor.
  - intros y Y [<-|[]]. auto.
Qed.
Lemma set_add_id x s : In x s -> set_add x s = s.
Proof. intro X. unfold set_add. apply mem_In in X. rewrite X. auto. Qed.

Lemma rfold_id {A B} (f : B -> A -> res B) l b : (forall x, In x l -> f b x = Ok b) -> rfold f l b = Ok b.
Proof. induction l as [|x l IH]; simpl; auto. intro E. rewrite E by auto. cbn. apply IH. auto. Qed.
Lemma rfold_app {A B} (f : B -> A -> res B) l1 l2 b : rfold f (l1 ++ l2) b = rbind (rfold f l1 b) (rfold f l2).
Proof. revert b. induction l1 as [|x l1 IH]; intro b; simpl; auto. destruct (f b x); simpl; auto. Qed.

Lemma enum_iff {A} (l : list A) i x : In (i, x) (enum l) <-> nth_error l i = Some x.
Proof.
  split; [|apply enum_In]. unfold enum. intro J. apply (In_nth _ _ (0, x)) in J as (k & L & E). rewrite combine_length, seq_length, Nat.min_id in L.
  rewrite combine_nth in E by apply seq_length. rewrite seq_nth in E by auto. injection E as <- E. rewrite (nth_error_nth' l x L). congruence.
Qed.

(** ** Graphs *)
(** [g] has the vertices below [n] and the edges [P]. *)
Definition graph_of (n : nat) (P : nat -> nat -> Prop) (g : graph) : Prop :=
  keys g = seq 0 n /\ forall i, i < n -> exists s, dget i g = Some s /\ NoDup s /\ forall j, In j s <-> P i j.

Lemma add_one_graph n P g i j : graph_of n P g -> i < n ->
  exists g', add_one g i j = Ok g' /\ graph_of n (fun a b => P a b \/ (a = i /\ b = j)) g'.
Proof.
  intros [K G] L. destruct (G i L) as (s & E & N & S). unfold add_one, dlookup. rewrite E. cbn [rbind]. eexists. split; [reflexivity|]. split.
  - rewrite keys_dset_in; auto. rewrite K. apply in_seq. lia.
  - intros a La. rewrite dget_dset. destruct (eqb_spec a i) as [Q|Q].
    + eexists. split; [reflexivity|]. split; [apply set_add_NoDup; auto|]. intro b. rewrite set_add_In, S, Q. intuition.
    + destruct (G a La) as (s' & E' & N' & S'). exists s'. split; auto. split; auto. intro b. rewrite S'. intuition.
Qed.
Lemma add_one_id n P g i j : graph_of n P g -> i < n -> P i j -> add_one g i j = Ok g.
Proof.
  intros [K G] L H. destruct (G i L) as (s & E & N & S). unfold add_one, dlookup. rewrite E. cbn [rbind]. rewrite set_add_id by (apply S; auto). rewrite dset_same_id; auto.
Qed.
Lemma add_both_id n P g i j : graph_of n P g -> i < n -> j < n -> P i j -> P j i -> add_both g i j = Ok g.
Proof. intros G Li Lj H1 H2. unfold add_both. rewrite (add_one_id n P) by auto. cbn. apply (add_one_id n P); auto. Qed.
Lemma graph_of_ext n P Q g : graph_of n P g -> (forall i j, i < n -> P i j <-> Q i j) -> graph_of n Q g.
Proof.
  intros [K G] E. split; auto. intros i L. destruct (G i L) as (s & A & B & C). exists s. split; auto. split; auto. intro j. rewrite C. apply E; auto.
Qed.
Lemma add_pairs n ps : forall P g, graph_of n P g -> (forall i j, In (i, j) ps -> i < n /\ j < n) ->
  exists g', rfold (fun g e => add_both g (fst e) (snd e)) ps g = Ok g' /\ graph_of n (fun a b => P a b \/ In (a, b) ps \/ In (b, a) ps) g'.
Proof.
  induction ps as [|[i j] ps IH]; intros P g G B; cbn [rfold].
  - exists g. split; auto. eapply graph_of_ext; eauto. simpl. intuition.
  - destruct (B i j (or_introl eq_refl)) as [Li Lj]. unfold add_both at 1. cbn [fst snd]. destruct (add_one_graph n P g i j G Li) as (g1 & E1 & G1). rewrite E1. cbn [rbind].
    destruct (add_one_graph n _ g1 j i G1 Lj) as (g2 & E2 & G2). rewrite E2. cbn [rbind].
    destruct (IH _ g2 G2) as (g3 & E3 & G3); [intros a b J; apply B; simpl; auto|]. exists g3. split; auto.
    eapply graph_of_ext; [exact G3|]. intros a b _. cbn [In]. split.
    + intros [[[H|[-> ->]]|[-> ->]]|[H|H]]; auto.
    + intros [H|[[H|H]|[H|H]]]; auto; injection H as -> ->; auto.
Qed.
Lemma empty_graph n : graph_of n (fun _ _ => False) (map (fun k => (k, [])) (seq 0 n)).
Proof.
  split; [unfold keys; rewrite map_map; apply map_id|]. intros i L. exists []. split; [|split; [constructor|simpl; tauto]].
  apply In_dget; [unfold keys; rewrite map_map, map_id; apply seq_NoDup|]. apply in_map_iff. exists i. split; auto. apply in_seq. lia.
Qed.

(** ** Depth-first search in a graph that is an equivalence *)
Section Dfs.
  Variable order : list nat -> list nat.
  Hypothesis ORD : valid_order order.
  Variable n : nat.
  Variable R : nat -> nat -> bool.
  Hypothesis Rrefl : forall i, i < n -> R i i = true.
  Hypothesis Rsym : forall i j, i < n -> j < n -> R i j = true -> R j i = true.
  Hypothesis Rtrans : forall i j k, i < n -> j < n -> k < n -> R i j = true -> R j k = true -> R i k = true.
  Variable g : graph.
  Hypothesis G : graph_of n (fun i j => j < n /\ R i j = true) g.

  Notation seen v j := (nth j v false).
  Definition unseen (v : list bool) (i : nat) : list nat := filter (fun j => R i j && negb (seen v j)) (seq 0 n).
  Lemma unseen_In v i j : In j (unseen v i) <-> j < n /\ R i j = true /\ seen v j = false.
  Proof. unfold unseen. rewrite filter_In, in_seq, andb_true_iff, negb_true_iff. intuition lia. Qed.
  Lemma unseen_NoDup v i : NoDup (unseen v i).
  Proof. apply NoDup_filter_list, seq_NoDup. Qed.

  Lemma py_nth_seen v j : j < length v -> py_nth v j = Ok (seen v j).
  Proof. intro L. unfold py_nth. rewrite (nth_error_nth' v false L). auto. Qed.

  Definition marks (v : list bool) (U : list nat) (v' : list bool) : Prop :=
    length v' = n /\ forall j, j < n -> (seen v' j = true <-> seen v j = true \/ In j U).

  Lemma unseen_step v i j : length v = n -> i < n -> j < n -> R i j = true -> seen v i = false ->
    Permutation (unseen v i) (i :: unseen (list_set v i true) j).
  Proof.
    intros L Li Lj Rij Si. apply NoDup_Permutation; [apply unseen_NoDup| |].
    - constructor; [|apply unseen_NoDup]. rewrite unseen_In. intros (_ & _ & Q). rewrite nth_list_set, Nat.eqb_refl in Q by lia. discriminate.
    - intro x. cbn [In]. rewrite !unseen_In. rewrite nth_list_set by lia. destruct (Nat.eqb_spec x i) as [->|Nx].
      + split; auto. 
      + split.
        * intros (A & B & C). right. split; auto. split; auto. eapply Rtrans; [| |exact A| |exact B]; auto.
        * intros [Q|(A & B & C)]; [congruence|]. split; auto. split; auto. eapply Rtrans; [| |exact A|exact Rij|exact B]; auto.
  Qed.

  Lemma dfs_run depth : forall i v comp, length v = n -> i < n -> seen v i = false ->
    (length (unseen v i) <= depth -> exists v' C, dfs order depth g i (v, comp) = Ok (v', comp ++ C) /\ Permutation C (unseen v i) /\ marks v C v') /\
    (depth < length (unseen v i) -> dfs order depth g i (v, comp) = Raise RecursionError).
  Proof.
    induction depth as [|depth IH]; intros i v comp L Li Si.
    - split; [|intros _; auto]. intro Q. exfalso. assert (J : In i (unseen v i)) by (apply unseen_In; auto). destruct (unseen v i); [destruct J|simpl in Q; lia].
    - destruct (proj2 G i Li) as (s & Es & Ns & Hs). cbn [dfs]. unfold dlookup. rewrite Es. cbn [rbind fst snd].
      set (v1 := list_set v i true). assert (L1 : length v1 = n) by (unfold v1; rewrite list_set_length; auto).
      assert (S1 : forall j, seen v1 j = if Nat.eqb j i then true else seen v j) by (intro j; apply nth_list_set; lia).
      set (F := fun (s0 : list bool * list nat) (j : nat) => seen0 <-- py_nth (fst s0) j;;; (if seen0 : bool then Ok s0 else dfs order depth g j s0)).
      assert (HO : forall j, In j (order s) <-> j < n /\ R i j = true).
      { intro j. rewrite <- Hs. split; apply Permutation_in; [apply Permutation_sym|]; apply ORD. }
      assert (SK : forall js st, length (fst st) = n -> (forall j, In j js -> j < n /\ seen (fst st) j = true) -> rfold F js st = Ok st).
      { intros js st Ls H. apply rfold_id. intros j J. destruct (H j J) as [Lj Sj]. unfold F. rewrite py_nth_seen by lia. rewrite Sj. auto. }
      assert (DEC : (forall j, In j (order s) -> seen v1 j = true) \/ exists a j b, order s = a ++ j :: b /\ (forall x, In x a -> seen v1 x = true) /\ seen v1 j = false).
      { clear. induction (order s) as [|x l IH]; [left; simpl; tauto|]. destruct (seen v1 x) eqn:E.
        - destruct IH as [IH|(a & j & b & -> & A & B)].
          + left. intros j [<-|J]; auto.
          + right. exists (x :: a), j, b. split; auto. split; auto. intros y [<-|Y]; auto.
        - right. exists [], x, l. split; auto. }
      destruct DEC as [ALL|(a & j & b & EO & Pa & Sj)].
      + (* i was the last one *)
        rewrite (SK (order s)); [cbn [rbind fst snd]|exact L1|intros j J; split; [apply HO in J; tauto|apply ALL; exact J]].
        assert (U : Permutation [i] (unseen v i)).
        { apply NoDup_Permutation; [constructor; auto; constructor|apply unseen_NoDup|]. intro x. rewrite unseen_In. cbn [In]. split.
          - intros [<-|[]]. auto.
          - intros (A & B & C). left. assert (X : seen v1 x = true) by (apply ALL, HO; auto). rewrite S1 in X. destruct (Nat.eqb_spec x i); auto. congruence. }
        split.
        * intros _. exists v1, [i]. split; auto. split; auto. split; auto. intros x Lx. rewrite S1. cbn [In]. destruct (Nat.eqb_spec x i) as [->|]; intuition.
        * intro Q. apply Permutation_length in U. cbn in U. lia.
      + (* the first unseen neighbour takes all the others *)
        assert (Lj : j < n /\ R i j = true) by (apply HO; rewrite EO; apply in_or_app; simpl; auto). destruct Lj as [Lj Rij].
        assert (Pa' : forall x, In x a -> x < n /\ seen v1 x = true) by (intros x X; split; auto; apply (HO x); rewrite EO; apply in_or_app; auto).
        assert (RUN : rfold F (order s) (v1, comp) = rbind (dfs order depth g j (v1, comp)) (rfold F b)).
        { rewrite EO, rfold_app, (SK a) by (try exact L1; exact Pa'). cbn [rbind rfold]. unfold F at 1. cbn [fst]. rewrite py_nth_seen by lia. rewrite Sj. reflexivity. }
        rewrite RUN.
        pose proof (unseen_step v i j L Li Lj Rij Si) as U. fold v1 in U. destruct (IH j v1 comp L1 Lj Sj) as [IH1 IH2]. pose proof (Permutation_length U) as UL. cbn [length] in UL.
        split.
        * intro Q. destruct IH1 as (v' & C & E & PC & [Lv' Mv']); [lia|]. rewrite E. cbn [rbind].
          rewrite SK; cbn [fst snd rbind]; auto.
          2: { intros x X. assert (Lx : x < n /\ R i x = true) by (apply HO; rewrite EO; apply in_or_app; simpl; auto). destruct Lx as [Lx Rx]. split; auto.
               apply Mv'; auto. destruct (seen v1 x) eqn:Sx; auto. right. apply (Permutation_in _ (Permutation_sym PC)), unseen_In. split; auto. split; auto.
               eapply Rtrans; [| |exact Lx| |exact Rx]; auto. }
          exists v', (C ++ [i]). rewrite app_assoc. split; auto. split.
          -- etransitivity; [|symmetry; exact U]. etransitivity; [apply Permutation_app_comm|]. cbn. constructor. auto.
          -- split; auto. intros x Lx. rewrite Mv', S1 by auto. rewrite in_app_iff. cbn [In]. destruct (Nat.eqb_spec x i) as [->|]; intuition.
        * intro Q. rewrite IH2 by lia. auto.
  Qed.
End Dfs.

(** ** The whole preprocessing *)
Section Preprocess.
  Variable order : list nat -> list nat.
  Hypothesis ORD : valid_order order.
  Variable limit : nat.
  Variable m : mgr.
  Hypothesis I : Inv m.
  Notation l := (ids m).
  Notation n := (length (ids m)).
  Definition at_ (i : nat) : pystr := nth i l [].
  Definition mli (i j : nat) : bool := ml m (at_ i) (at_ j).
  Definition cli (i j : nat) : bool := cl m (at_ i) (at_ j).

  Lemma at_In i : i < n -> In (at_ i) l.
  Proof. apply nth_In. Qed.
  Lemma at_nth i x : nth_error l i = Some x <-> i < n /\ x = at_ i.
  Proof.
    split.
    - intro E. assert (L : i < n) by (apply nth_error_Some; congruence). split; auto. symmetry. apply (nth_error_nth l i [] E).
    - intros [L ->]. apply nth_error_nth'. auto.
  Qed.

  Lemma index_pairs_run t : exists ps, index_pairs m l t = Ok ps /\ forall i j, In (i, j) ps <-> i < n /\ j < n /\ infer m (at_ i) (at_ j) = Some t.
  Proof.
    unfold index_pairs. rewrite (rfilter_pure _ (fun e => opt_is (infer m (snd (snd e)) (snd (fst e))) t)).
    - cbn [rbind]. eexists. split; [reflexivity|]. intros i j. rewrite in_map_iff. split.
      + intros ([[a x] [b y]] & E & J). cbn [fst snd] in E. injection E as -> ->. apply filter_In in J as [J Q]. apply in_prod_iff in J as [J1 J2].
        apply enum_iff in J1, J2. apply at_nth in J1 as [L1 ->]. apply at_nth in J2 as [L2 ->]. cbn [fst snd] in Q. apply opt_is_spec in Q. rewrite infer_sym by (auto using at_In). auto.
      + intros (L1 & L2 & Q). exists ((i, at_ i), (j, at_ j)). split; auto. apply filter_In. split.
        * apply in_prod_iff. split; apply enum_iff, at_nth; auto.
        * cbn [fst snd]. apply opt_is_spec. rewrite infer_sym; auto using at_In.
    - intros [[a x] [b y]] J. apply in_prod_iff in J as [J1 J2]. apply enum_iff in J1, J2. apply at_nth in J1 as [L1 ->]. apply at_nth in J2 as [L2 ->]. cbn [fst snd].
      unfold inferred_is. rewrite ask_inferred by auto using at_In. auto.
  Qed.

  Definition class (i : nat) : list nat := filter (mli i) (seq 0 n).
  Definition small : Prop := forall i, i < n -> length (class i) <= limit.
  Notation MG := (graph_of n (fun i j => j < n /\ mli i j = true)).
  Notation CG := (graph_of n (fun i j => j < n /\ cli i j = true)).

  Lemma mli_refl i : i < n -> mli i i = true.
  Proof. intro L. apply ml_refl; auto using at_In. Qed.
  Lemma mli_sym i j : i < n -> j < n -> mli i j = true -> mli j i = true.
  Proof. intros A B C. unfold mli. rewrite ml_sym; auto using at_In. Qed.
  Lemma mli_trans i j k : i < n -> j < n -> k < n -> mli i j = true -> mli j k = true -> mli i k = true.
  Proof. intros A B C. apply ml_trans; auto using at_In. Qed.
  Lemma class_In i j : In j (class i) <-> j < n /\ mli i j = true.
  Proof. unfold class. rewrite filter_In, in_seq. intuition lia. Qed.
  Lemma class_NoDup i : NoDup (class i).
  Proof. apply NoDup_filter_list, seq_NoDup. Qed.
  Lemma class_eq i j : i < n -> j < n -> mli i j = true -> class i = class j.
  Proof.
    intros A B C. apply filter_ext_in. intros k K. apply in_seq in K. apply eq_true_iff_eq. split; intro Q.
    - eapply mli_trans; [| | |apply mli_sym; [| |exact C]|exact Q]; auto; lia.
    - eapply mli_trans; [| | |exact C|exact Q]; auto; lia.
  Qed.

  (** After the turns below [k]: exactly the classes of the positions below [k]. *)
  Record turned (k : nat) (visited : list bool) (cs : list (list nat)) : Prop := {
    td_len : length visited = n;
    td_seen : forall j, j < n -> nth j visited false = true <-> In j (concat cs);
    td_below : forall j, j < k -> j < n -> In j (concat cs);
    td_nodup : NoDup (concat cs);
    td_class : forall c, In c cs -> exists i, i < n /\ In i c /\ forall j, In j c <-> j < n /\ mli i j = true;
    td_order : forall a c b, cs = a ++ c :: b -> exists i, In i c /\ forall j, j < i -> In j (concat a) }.

  Lemma neighborhoods_run g : MG g -> forall todo k visited cs, k + todo = n -> turned k visited cs ->
    (small -> exists visited' cs', rfold (neighborhood_step limit order) (seq k todo) (visited, g, cs) = Ok (visited', g, cs') /\ turned n visited' cs') /\
    ((exists i, k <= i < n /\ ~ In i (concat cs) /\ limit < length (class i)) -> rfold (neighborhood_step limit order) (seq k todo) (visited, g, cs) = Raise RecursionError).
  Proof.
    intro G. induction todo as [|todo IH]; intros k visited cs K T; cbn [seq rfold].
    - split; [|intros (i & L & _); lia]. intros _. exists visited, cs. split; auto. replace n with k by lia. auto.
    - assert (Lk : k < n) by lia. assert (T' := T). destruct T' as [T1 T2 T3 T4 T5 T6]. unfold neighborhood_step at 1 3. unfold py_nth. rewrite (nth_error_nth' visited false) by lia. cbn [rbind].
      destruct (nth k visited false) eqn:Sk.
      + (* already in a component *)
        cbn [rbind]. assert (Ck : In k (concat cs)) by (apply T2; auto).
        destruct (IH (S k) visited cs) as [IH1 IH2]; [lia| |].
        { split; auto. intros j Lj Ln. destruct (Nat.eq_dec j k) as [->|]; auto. apply T3; auto. lia. }
        split; auto. intros (i & Li & Ni & Q). apply IH2. exists i. split; auto. destruct (Nat.eq_dec i k) as [->|]; [tauto|lia].
      + assert (Nk : ~ In k (concat cs)) by (intro J; apply T2 in J; auto; congruence).
        destruct (proj2 G k Lk) as (s & Es & Ns & Hs). unfold dlookup. rewrite Es. cbn [rbind].
        assert (Sn : In k s) by (apply Hs; split; auto; apply mli_refl; auto).
        destruct s as [|s0 s1]; [destruct Sn|]. clear Sn.
        assert (UN : unseen n mli visited k = class k).
        { apply filter_ext_in. intros j J. apply in_seq in J. apply eq_true_iff_eq. rewrite andb_true_iff, negb_true_iff. split; [tauto|]. intro Q. split; auto.
          destruct (nth j visited false) eqn:Sj; auto. exfalso. apply Nk. apply T2 in Sj; [|lia]. apply in_concat in Sj as (c & C1 & C2). destruct (T5 c C1) as (i & Li & Ci & Hi).
          apply in_concat. exists c. split; auto. apply Hi. split; auto. apply Hi in C2. destruct C2 as [_ C3]. eapply mli_trans; [| | |exact C3|]; auto; [lia|]. apply mli_sym; auto; lia. }
        destruct (dfs_run order ORD n mli mli_refl mli_sym mli_trans g G limit k visited [] T1 Lk Sk) as [D1 D2]. rewrite UN in D1, D2.
        destruct (le_lt_dec (length (class k)) limit) as [LE|GT].
        * destruct (D1 LE) as (v' & C & E & PC & [Lv' Mv']). rewrite E. cbn [rbind fst snd]. rewrite app_nil_l.
          assert (HC : forall j, In j C <-> j < n /\ mli k j = true).
          { intro j. rewrite <- class_In. split; apply Permutation_in; auto. apply Permutation_sym; auto. }
          rewrite rfold_id.
          2: { intros [x1 x2] J. apply in_prod_iff in J as [J1 J2]. cbn [fst snd]. destruct (Nat.eqb_spec x1 x2) as [|N12]; auto. apply HC in J1 as [L1 M1], J2 as [L2 M2].
               apply (add_one_id _ _ g x1 x2 G L1). split; auto. eapply mli_trans; [| | | |exact M2]; auto. apply mli_sym; auto. }
          cbn [rbind]. destruct (IH (S k) v' (cs ++ [C])) as [IH1 IH2]; [lia| |].
          { assert (CC : forall j, In j (concat (cs ++ [C])) <-> In j (concat cs) \/ In j C) by (intro j; rewrite concat_app, in_app_iff; cbn [concat]; rewrite app_nil_r; tauto).
            split; auto.
            - intros j Lj. rewrite Mv', T2, CC by auto. tauto.
            - intros j Lj Ln. rewrite CC. destruct (Nat.eq_dec j k) as [->|]; [right; apply HC; split; auto; apply mli_refl; auto|]. left. apply T3; auto. lia.
            - rewrite concat_app. cbn [concat]. rewrite app_nil_r. apply NoDup_app_intro; auto.
              + apply (Permutation_NoDup (Permutation_sym PC)), class_NoDup.
              + intros j J1 J2. apply Nk. apply HC in J2 as [Lj Mj]. apply in_concat in J1 as (c & C1 & C2). destruct (T5 c C1) as (i & Li & Ci & Hi).
                apply in_concat. exists c. split; auto. apply Hi. split; auto. apply Hi in C2. destruct C2 as [_ C3]. eapply mli_trans; [| | |exact C3|]; auto. apply mli_sym; auto.
            - intros c J. apply in_app_or in J as [J|[<-|[]]]; auto. exists k. split; auto. split; auto. apply HC. split; auto. apply mli_refl; auto.
            - intros a c b Q. destruct (@exists_last _ (c :: b)) as (b' & z & Eb); [discriminate|]. rewrite Eb, app_assoc in Q. apply app_inj_tail in Q as [Q ->].
              destruct b' as [|c' b'].
              + cbn in Eb. injection Eb as -> ->. rewrite app_nil_r in Q. subst a. exists k. split; [apply HC; split; auto; apply mli_refl; auto|]. intros j Lj. apply T3; auto. lia.
              + cbn in Eb. injection Eb as <- Eb. apply (T6 a c b'). auto. }
          split; auto. intros (i & Li & Ni & Q). apply IH2. exists i. split; [|split; auto].
          -- destruct (Nat.eq_dec i k) as [->|]; lia.
          -- rewrite concat_app, in_app_iff. cbn [concat]. rewrite app_nil_r. intros [J|J]; auto. apply HC in J as [_ J]. rewrite <- (class_eq k i) in Q by (auto; lia). lia.
        * rewrite D2 by auto. cbn [rbind]. split; auto. intro S. specialize (S k Lk). lia.
  Qed.

  Lemma cli_ext i j a b : i < n -> j < n -> a < n -> b < n -> cli i j = true -> mli i a = true -> mli j b = true -> cli a b = true.
  Proof.
    intros Li Lj La Lb C A B. apply (cl_ml_r m I (at_ a) (at_ j) (at_ b)); auto using at_In.
    apply (cl_ml_l m I (at_ a) (at_ i) (at_ j)); auto using at_In. apply mli_sym; auto.
  Qed.

  Lemma constraint_graphs_run :
    (small -> exists mg cg cs v, constraint_graphs limit order m l = Ok (mg, cg, cs) /\ MG mg /\ CG cg /\ turned n v cs) /\
    (~ small -> constraint_graphs limit order m l = Raise RecursionError).
  Proof.
    unfold constraint_graphs. destruct (index_pairs_run MUST_LINK) as (mls & EM & HM). destruct (index_pairs_run CANNOT_LINK) as (cls & EC & HC).
    rewrite EM, EC. cbn [rbind]. unfold preprocess_constraints.
    destruct (add_pairs n mls _ _ (empty_graph n)) as (mg & E1 & G1); [intros i j J; apply HM in J; tauto|].
    destruct (add_pairs n cls _ _ (empty_graph n)) as (cg & E2 & G2); [intros i j J; apply HC in J; tauto|].
    rewrite E1, E2. cbn [rbind]. clear E1 E2.
    assert (GM : MG mg).
    { eapply graph_of_ext; [exact G1|]. intros i j Li. cbv beta. unfold mli. rewrite ml_spec. split.
      - intros [[]|[J|J]]; apply HM in J as (A & B & C); split; auto. rewrite infer_sym; auto using at_In.
      - intros [A B]. right. left. apply HM. auto. }
    assert (GC : CG cg).
    { eapply graph_of_ext; [exact G2|]. intros i j Li. cbv beta. unfold cli. rewrite cl_spec. split.
      - intros [[]|[J|J]]; apply HC in J as (A & B & C); split; auto. rewrite infer_sym; auto using at_In.
      - intros [A B]. right. left. apply HC. auto. }
    clear G1 G2.
    destruct (neighborhoods_run mg GM n 0 (repeat false n) []) as [N1 N2]; auto.
    { split; cbn [concat]; auto.
      - apply repeat_length.
      - intros j Lj. split; [|intros []]. intro Q. exfalso. assert (J : In (nth j (repeat false n) false) (repeat false n)) by (apply nth_In; rewrite repeat_length; auto).
        apply repeat_spec in J. congruence.
      - intros; lia.
      - constructor.
      - intros c [].
      - intros [|] c b; discriminate. }
    split.
    - intro SM. destruct (N1 SM) as (v & cs & E & T). rewrite E. cbn [rbind].
      assert (OI : forall s x, In x (order s) <-> In x s) by (intros s x; split; apply Permutation_in; [apply Permutation_sym|]; apply ORD).
      rewrite rfold_id.
      2: { intros [i j] J. apply HC in J as (Li & Lj & Q). apply cl_spec in Q. fold (cli i j) in Q. unfold cannot_step.
           destruct (proj2 GM i Li) as (si & Ei & _ & Hi). destruct (proj2 GM j Lj) as (sj & Ej & _ & Hj). unfold dlookup. rewrite Ei, Ej. cbn [rbind].
           assert (AB : forall a b, In a si -> In b sj -> add_both cg a b = Ok cg).
           { intros a b A B. apply Hi in A as [La Ma]. apply Hj in B as [Lb Mb]. assert (cli a b = true) by (apply (cli_ext i j); auto).
             apply (add_both_id n _ cg a b GC); auto. split; auto. unfold cli. rewrite cl_sym; auto using at_In. }
           assert (Ii : In i si) by (apply Hi; split; auto; apply mli_refl; auto). assert (Jj : In j sj) by (apply Hj; split; auto; apply mli_refl; auto).
           rewrite (rfold_id (fun g x => add_both g x j)) by (intros x X; apply (proj1 (OI _ _)) in X; apply AB; auto). cbn [rbind]. rewrite (rfold_id (fun g y => add_both g i y)) by (intros x X; apply (proj1 (OI _ _)) in X; apply AB; auto). cbn [rbind].
           apply rfold_id. intros [a b] X. apply in_prod_iff in X as [A B]. apply (proj1 (OI _ _)) in A; apply (proj1 (OI _ _)) in B. apply AB; auto. }
      cbn [rbind]. rewrite rfold_id; [cbn [rbind]; exists mg, cg, cs, v; auto|].
      intros [i j] J. unfold check_step. cbn [fst snd]. destruct (Nat.eqb_spec j i) as [|Nij]; auto.
      apply in_flat_map in J as ((k & s) & J1 & J2). cbn [fst snd] in J2. apply in_map_iff in J2 as (j' & Q & J2). injection Q as -> ->. apply (proj1 (OI _ _)) in J2.
      assert (Li : i < n). { assert (K : In i (keys mg)) by (apply in_map_iff; exists (i, s); auto). rewrite (proj1 GM) in K. apply in_seq in K. lia. }
      destruct (proj2 GM i Li) as (si & Ei & _ & Hi).
      assert (s = si). { apply (In_dget (K := nat)) in J1; [congruence|]. rewrite (proj1 GM). apply seq_NoDup. }
      subst s. apply Hi in J2 as [Lj Mij]. destruct (proj2 GC i Li) as (ci & Ec & _ & Hc). unfold dlookup. rewrite Ec. cbn [rbind].
      destruct (mem j ci) eqn:Q; auto. apply mem_In, Hc in Q as [_ Q]. exfalso. eapply ml_cl; [exact Mij|exact Q].
    - intro NS. rewrite N2; auto. assert (X : exists i, i < n /\ limit < length (class i)).
      { destruct (existsb (fun i => limit <? length (class i)) (seq 0 n)) eqn:E.
        - apply existsb_exists in E as (i & J & Q). apply in_seq in J. apply Nat.ltb_lt in Q. exists i. split; auto. lia.
        - exfalso. apply NS. intros i Li. destruct (le_lt_dec (length (class i)) limit); auto.
          assert (Z : existsb (fun i => limit <? length (class i)) (seq 0 n) = true); [|congruence]. apply existsb_exists. exists i. split; [apply in_seq; lia|apply Nat.ltb_lt; auto]. }
      destruct X as (i & Li & Q). exists i. split; [lia|]. cbn. auto.
  Qed.
End Preprocess.
