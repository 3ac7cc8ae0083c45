(** * The preprocessing of MPCKMeans on lists of constraints that were read at different times (for C159). *)

From Coq Require Import String List Bool Arith ZArith Lia Permutation.
From Verif Require Import Base Manager Spec Closure ManagerProofs ManagerInv ManagerQueries ManagerThms
  Sampling SamplingSpec SamplingProofs SamplingThms Rename ClusterSpec RenameThms ClusterProofs KMeans KMeansProofs Spectral SpectralThms AffinityProofs
  Mpckmeans MpckSpec MpckGraph.
Import ListNotations.
Open Scope nat_scope.
Open Scope py_scope.

Section Mixed.
  Variable order : list nat -> list nat.
  Hypothesis ORD : valid_order order.
  Variable limit n : nat.
  (** What is known at the end. *)
  Variables R Cn : nat -> nat -> bool.
  Hypothesis Rsym : forall i j, i < n -> j < n -> R i j = true -> R j i = true.
  Hypothesis Rtrans : forall i j k, i < n -> j < n -> k < n -> R i j = true -> R j k = true -> R i k = true.
  Hypothesis Csym : forall i j, i < n -> j < n -> Cn i j = true -> Cn j i = true.
  Hypothesis Cext : forall i j a b, i < n -> j < n -> a < n -> b < n -> Cn i j = true -> R i a = true -> R j b = true -> Cn a b = true.
  Hypothesis RC : forall i j, i < n -> j < n -> R i j = true -> Cn i j = true -> False.

  Notation seen v j := (nth j v false).
  Notation unseen := (unseen n R).
  Notation marks := (marks n).
  (** The edges that are used are known at the end. *)
  Record good (P : nat -> nat -> Prop) : Prop := {
    g_R : forall i j, P i j -> i < n /\ j < n /\ R i j = true;
    g_refl : forall i, i < n -> P i i;
    g_sym : forall i j, P i j -> P j i }.

  Lemma order_In s x : In x (order s) <-> In x s.
  Proof. split; apply Permutation_in; [apply Permutation_sym|]; apply ORD. Qed.

  Lemma dfs_any P g : good P -> graph_of n P g -> forall depth i v comp, length v = n -> i < n -> seen v i = false ->
    (dfs order depth g i (v, comp) = Raise RecursionError /\ depth < length (unseen v i)) \/
    exists v' C, dfs order depth g i (v, comp) = Ok (v', comp ++ C) /\ In i C /\ NoDup C /\ incl C (unseen v i) /\ marks v C v' /\ forall a b, In a C -> P a b -> seen v' b = true.
  Proof.
    intros GP G. assert (Rr : forall i, i < n -> R i i = true) by (intros i L; apply (g_R _ GP), (g_refl _ GP); auto).
    induction depth as [|depth IH]; intros i v comp L Li Si.
    { left. split; auto. assert (J : In i (unseen v i)) by (apply unseen_In; auto). destruct (unseen v i); [destruct J|cbn; lia]. }
    destruct (proj2 G i Li) as (s & Es & Ns & Hs). cbn [dfs]. unfold dlookup. rewrite Es. cbn [rbind fst snd].
    set (v1 := list_set v i true). assert (L1 : length v1 = n) by (unfold v1; rewrite list_set_length; auto).
    assert (S1 : forall j, seen v1 j = if Nat.eqb j i then true else seen v j) by (intro j; apply nth_list_set; lia).
    set (F := fun (s0 : list bool * list nat) (j : nat) => seen0 <-- py_nth (fst s0) j;;; (if seen0 : bool then Ok s0 else dfs order depth g j s0)).
    assert (LESS : length (unseen v1 i) < length (unseen v i)).
    { pose proof (unseen_step n R Rr Rsym Rtrans v i i L Li Li (Rr i Li) Si) as U. apply Permutation_length in U. cbn [length] in U. fold v1 in U. lia. }
    assert (LOOP : forall js v2 C2, (forall j, In j js -> P i j) -> marks v (i :: C2) v2 -> NoDup C2 -> incl C2 (unseen v1 i) -> (forall a b, In a C2 -> P a b -> seen v2 b = true) ->
      (rfold F js (v2, comp ++ C2) = Raise RecursionError /\ depth < length (unseen v1 i)) \/
      exists v' C, rfold F js (v2, comp ++ C2) = Ok (v', comp ++ C) /\ marks v (i :: C) v' /\ NoDup C /\ incl C (unseen v1 i) /\ (forall a b, In a C -> P a b -> seen v' b = true) /\
        (forall j, j < n -> seen v2 j = true -> seen v' j = true) /\ forall j, In j js -> seen v' j = true).
    { induction js as [|j js IHj]; intros v2 C2 HP [Lv2 Mv2] ND IC CL; cbn [rfold].
      - right. exists v2, C2. split; [reflexivity|]. split; [split; assumption|]. repeat (split; [assumption|]). split; [auto|intros j []].
      - destruct (g_R _ GP i j (HP j (or_introl eq_refl))) as (_ & Lj & Rij). assert (FE : F (v2, comp ++ C2) j = if seen v2 j then Ok (v2, comp ++ C2) else dfs order depth g j (v2, comp ++ C2)) by (unfold F; cbn [fst]; rewrite py_nth_seen by lia; reflexivity).
        rewrite FE. destruct (seen v2 j) eqn:Sj.
        + cbn [rbind]. destruct (IHj v2 C2) as [Q|(v' & C & Q1 & Q2 & Q3 & Q4 & Q5 & Q6 & Q7)]; auto; [intros x X; apply HP; right; auto|split; auto|]. right. exists v', C.
          repeat (split; [assumption|]). intros x [<-|X]; auto.
        + assert (SUB : incl (unseen v2 j) (unseen v1 i)).
          { intros x X. apply unseen_In in X as (Lx & Rx & Sx). apply unseen_In. split; auto. split; [eapply Rtrans; [| | |exact Rij|exact Rx]; auto|].
            destruct (seen v1 x) eqn:Q; auto. rewrite S1 in Q. assert (T : seen v2 x = true); [|congruence]. apply Mv2; auto. destruct (Nat.eqb_spec x i) as [->|]; [right; left; auto|left; auto]. }
          destruct (IH j v2 (comp ++ C2) Lv2 Lj Sj) as [[Q1 Q2]|(v3 & C3 & Q1 & Q2 & Q3 & Q4 & [Lv3 Mv3] & Q6)].
          * left. rewrite Q1. split; auto. pose proof (NoDup_incl_length (unseen_NoDup n R v2 j) SUB). lia.
          * rewrite Q1. cbn [rbind]. rewrite <- app_assoc. assert (MON : forall x, x < n -> seen v2 x = true -> seen v3 x = true) by (intros x Lx X; apply Mv3; auto).
            destruct (IHj v3 (C2 ++ C3)) as [Q|(v' & C & T1 & T2 & T3 & T4 & T5 & T6 & T7)].
            -- intros x X. apply HP. right; auto.
            -- split; auto. intros x Lx. rewrite Mv3, Mv2 by auto. cbn [In]. rewrite in_app_iff. tauto.
            -- apply NoDup_app_intro; auto. intros x X1 X2. apply Q4, unseen_In in X2 as (Lx & _ & X2). assert (seen v2 x = true) by (apply Mv2; auto; right; right; auto). congruence.
            -- apply incl_app; auto. intros x X. apply SUB, Q4. auto.
            -- intros a b X Pab. apply in_app_iff in X as [X|X]; [|eapply Q6; eauto]. destruct (g_R _ GP a b Pab) as (_ & Lb & _). apply MON; auto. eapply CL; eauto.
            -- left. auto.
            -- right. exists v', C. repeat (split; [assumption|]). split; [intros x Lx X; apply T6; auto|]. intros x [<-|X]; auto. apply T6; auto. apply Mv3; auto. }
    destruct (LOOP (order s) v1 []) as [[Q1 Q2]|(v' & C & Q1 & [Lv' Mv'] & Q3 & Q4 & Q5 & Q6 & Q7)].
    - intros j J. apply Hs, order_In. auto.
    - split; auto. intros j Lj. rewrite S1. cbn [In]. destruct (Nat.eqb_spec j i) as [->|N]; [tauto|]. split; [auto|]. intros [?|[?|[]]]; [auto|congruence].
    - constructor.
    - intros ? [].
    - intros ? ? [].
    - left. rewrite app_nil_r in Q1. rewrite Q1. split; [reflexivity|lia].
    - right. rewrite app_nil_r in Q1. rewrite Q1. cbn [rbind fst snd]. exists v', (C ++ [i]). rewrite app_assoc. split; auto. split; [apply in_or_app; right; left; auto|].
      assert (NI : ~ In i C). { intro J. apply Q4, unseen_In in J as (_ & _ & J). rewrite S1, Nat.eqb_refl in J. discriminate. }
      split; [apply NoDup_app_intro; auto; [constructor; auto; constructor|intros x X [<-|[]]; auto]|]. split; [|split].
      + intros x X. apply in_app_iff in X as [X|[<-|[]]]; [|apply unseen_In; auto]. apply Q4, unseen_In in X as (Lx & Rx & Sx). apply unseen_In. split; auto. split; auto.
        rewrite S1 in Sx. destruct (Nat.eqb x i); [discriminate|auto].
      + split; auto. intros j Lj. rewrite Mv' by auto. rewrite in_app_iff. cbn [In]. tauto.
      + intros a b X Pab. apply in_app_iff in X as [X|[<-|[]]]; [eapply Q5; eauto|]. apply Q7, order_In, Hs. auto.
  Qed.

  Lemma add_ones ps : forall P g, graph_of n P g -> (forall i j, In (i, j) ps -> i < n) ->
    exists g', rfold (fun g e => if Nat.eqb (fst e) (snd e) then Ok g else add_one g (fst e) (snd e)) ps g = Ok g' /\ graph_of n (fun a b => P a b \/ (a <> b /\ In (a, b) ps)) g'.
  Proof.
    induction ps as [|[i j] ps IH]; intros P g G B; cbn [rfold].
    - exists g. split; auto. eapply graph_of_ext; eauto. cbn. tauto.
    - cbn [fst snd]. destruct (Nat.eqb_spec i j) as [E|NE]; cbn [rbind].
      + destruct (IH P g G) as (g' & E' & G'); [intros; apply (B i0 j0); right; auto|]. exists g'. split; auto. eapply graph_of_ext; eauto. intros a b La. cbn [In]. split; [tauto|].
        intros [?|[N [Q|J]]]; auto. congruence.
      + destruct (add_one_graph n P g i j G) as (g1 & E1 & G1); [apply (B i j); left; auto|]. rewrite E1. cbn [rbind].
        destruct (IH _ g1 G1) as (g' & E' & G'); [intros; apply (B i0 j0); right; auto|]. exists g'. split; auto. eapply graph_of_ext; eauto. intros a b La. cbn [In]. split.
        * intros [[?|[-> ->]]|[N J]]; auto.
        * intros [?|[N [Q|J]]]; auto. injection Q as -> ->. auto.
  Qed.

  (** After the turns below [k]. *)
  Record turn (k : nat) (P : nat -> nat -> Prop) (visited : list bool) (cs : list (list nat)) : Prop := {
    tu_len : length visited = n;
    tu_seen : forall j, j < n -> seen visited j = true <-> In j (concat cs);
    tu_bound : forall j, In j (concat cs) -> j < n;
    tu_below : forall j, j < k -> j < n -> In j (concat cs);
    tu_nodup : NoDup (concat cs);
    tu_full : forall c i j, In c cs -> In i c -> In j c -> P i j;
    tu_closed : forall c i j, In c cs -> In i c -> P i j -> In j c;
    tu_order : forall a c b, cs = a ++ c :: b -> exists i, In i c /\ forall j, j < i -> In j (concat a) }.

  Lemma turns todo : forall k P g visited cs, k + todo = n -> graph_of n P g -> good P -> turn k P visited cs ->
    (rfold (neighborhood_step limit order) (seq k todo) (visited, g, cs) = Raise RecursionError /\ exists i, i < n /\ limit < length (filter (R i) (seq 0 n))) \/
    exists v' g' cs' P', rfold (neighborhood_step limit order) (seq k todo) (visited, g, cs) = Ok (v', g', cs') /\ graph_of n P' g' /\ good P' /\ turn n P' v' cs' /\ forall i j, P i j -> P' i j.
  Proof.
    induction todo as [|todo IH]; intros k P g visited cs K G GP T; cbn [seq rfold].
    - right. exists visited, g, cs, P. replace n with k by lia. replace k with n by lia. split; auto. split; auto. split; auto. split; auto. replace n with k by lia. auto.
    - assert (Lk : k < n) by lia. assert (T' := T). destruct T' as [T1 T2 TB T3 T4 T5 T5' T6]. unfold neighborhood_step at 1 3. unfold py_nth. rewrite (nth_error_nth' visited false) by lia. cbn [rbind].
      destruct (seen visited k) eqn:Sk.
      { cbn [rbind]. apply IH; auto; [lia|]. split; auto. intros j Lj Ln. destruct (Nat.eq_dec j k) as [->|]; [apply T2; auto|apply T3; auto; lia]. }
      assert (Nk : ~ In k (concat cs)) by (intro J; apply T2 in J; auto; congruence).
      destruct (proj2 G k Lk) as (s & Es & Ns & Hs). unfold dlookup. rewrite Es. cbn [rbind].
      assert (Sn : In k s) by (apply Hs, g_refl; auto). destruct s as [|s0 s1]; [destruct Sn|]. clear Sn.
      destruct (dfs_any P g GP G limit k visited [] T1 Lk Sk) as [[D1 D2]|(v' & C & D1 & D2 & D3 & D4 & [Lv' Mv'] & D6)]; rewrite D1.
      { left. split; auto. exists k. split; auto. eapply Nat.lt_le_trans; [exact D2|]. apply NoDup_incl_length; [apply unseen_NoDup|]. intros x X. apply unseen_In in X as (Lx & Rx & _). apply filter_In. split; auto. apply in_seq. lia. }
      cbn [rbind fst snd]. rewrite app_nil_l.
      assert (HC : forall a, In a C -> a < n /\ R k a = true /\ seen visited a = false) by (intros a A; apply unseen_In, D4; auto).
      assert (NC : forall a, In a C -> ~ In a (concat cs)). { intros a A J. destruct (HC a A) as (La & _ & Sa). apply T2 in J; auto. congruence. }
      destruct (add_ones (list_prod C C) P g G) as (g' & Eg & Gg); [intros i j J; apply in_prod_iff in J as [J _]; apply HC; auto|]. rewrite Eg. cbn [rbind].
      set (P' := fun a b => P a b \/ (In a C /\ In b C)).
      assert (G' : graph_of n P' g').
      { eapply graph_of_ext; [exact Gg|]. intros a b La. unfold P'. rewrite in_prod_iff. split; [tauto|]. intros [?|[A B]]; auto. destruct (Nat.eq_dec a b) as [->|]; [left; apply g_refl; auto|auto]. }
      assert (GP' : good P').
      { split.
        - intros a b [Q|[A B]]; [apply (g_R _ GP); auto|]. destruct (HC a A) as (La & Ra & _), (HC b B) as (Lb & Rb & _). split; auto. split; auto. eapply Rtrans; [| | | |exact Rb]; auto.
        - intros a La. left. apply g_refl; auto.
        - intros a b [Q|[A B]]; [left; apply g_sym; auto|right; auto]. }
      assert (CC : forall j, In j (concat (cs ++ [C])) <-> In j (concat cs) \/ In j C) by (intro j; rewrite concat_app, in_app_iff; cbn [concat]; rewrite app_nil_r; tauto).
      destruct (IH (S k) P' g' v' (cs ++ [C])) as [[Q1 Q2]|(v2 & g2 & cs2 & P2 & Q1 & Q2 & Q3 & Q4 & Q5)]; auto; [lia| |].
      + split; auto.
        * intros j Lj. rewrite Mv', T2, CC by auto. tauto.
        * intros j J. apply CC in J as [J|J]; auto. apply HC; auto.
        * intros j Lj Ln. rewrite CC. destruct (Nat.eq_dec j k) as [->|]; auto. left. apply T3; auto. lia.
        * rewrite concat_app. cbn [concat]. rewrite app_nil_r. apply NoDup_app_intro; auto. intros x X1 X2. apply (NC x X2 X1).
        * intros c i j J Ii Ij. apply in_app_iff in J as [J|[<-|[]]]; [left; eapply T5; eauto|right; auto].
        * intros c i j J Ii [Pij|[Ci Cj]]; apply in_app_iff in J as [J|[<-|[]]]; auto.
          -- eapply T5'; eauto.
          -- destruct (g_R _ GP i j Pij) as (_ & Lj & _). assert (X := D6 i j Ii Pij). apply Mv' in X as [X|X]; auto. exfalso. apply T2 in X; auto. apply in_concat in X as (c & C1 & C2).
             apply (NC i Ii). apply in_concat. exists c. split; auto. eapply T5'; [exact C1|exact C2|]. apply g_sym; auto.
          -- exfalso. apply (NC i Ci). apply in_concat. eauto.
        * intros a c b Q. destruct (@exists_last _ (c :: b)) as (b' & z & Eb); [discriminate|]. rewrite Eb, app_assoc in Q. apply app_inj_tail in Q as [Q ->].
          destruct b' as [|c' b'].
          -- cbn in Eb. injection Eb as -> ->. rewrite app_nil_r in Q. subst a. exists k. split; auto. intros j Lj. apply T3; auto. lia.
          -- cbn in Eb. injection Eb as <- Eb. apply (T6 a c b'). auto.
      + right. exists v2, g2, cs2, P2. repeat (split; [assumption|]). intros i j Pij. apply Q5. left. auto.
  Qed.

  Lemma rfold_map {A B S} (f : S -> B -> res S) (h : A -> B) l : forall s, rfold f (map h l) s = rfold (fun s x => f s (h x)) l s.
  Proof. induction l as [|x l IH]; intro s; cbn [map rfold]; auto. destruct (f s (h x)); cbn [rbind]; auto. Qed.

  (** The edges that [cannot_step] adds for the pairs [ps]. *)
  Definition spread (M : nat -> nat -> Prop) (ps : list (nat * nat)) (a b : nat) : Prop :=
    exists i j, In (i, j) ps /\ ((M i a /\ M j b) \/ (M i b /\ M j a)).
  Lemma cannots M mg ps : good M -> graph_of n M mg -> (forall i j, In (i, j) ps -> i < n /\ j < n) -> forall Q g, graph_of n Q g ->
    exists g', rfold (cannot_step order mg) ps g = Ok g' /\ graph_of n (fun a b => Q a b \/ spread M ps a b) g'.
  Proof.
    intros GM GG. induction ps as [|[i j] ps IH]; intros B Q g G; cbn [rfold].
    - exists g. split; auto. eapply graph_of_ext; eauto. intros a b _. unfold spread. split; [auto|]. intros [?|(i & j & [] & _)]; auto.
    - destruct (B i j (or_introl eq_refl)) as [Li Lj]. unfold cannot_step at 1.
      destruct (proj2 GG i Li) as (si & Ei & _ & Hi). destruct (proj2 GG j Lj) as (sj & Ej & _ & Hj). unfold dlookup. rewrite Ei, Ej. cbn [rbind].
      assert (Oi : forall x, In x (order si) <-> M i x) by (intro x; rewrite order_In; apply Hi). assert (Oj : forall x, In x (order sj) <-> M j x) by (intro x; rewrite order_In; apply Hj).
      assert (LM : forall a b, M a b -> b < n) by (intros a b X; apply (g_R _ GM) in X; tauto).
      rewrite <- (rfold_map (fun g e => add_both g (fst e) (snd e)) (fun x => (x, j)) (order si)).
      destruct (add_pairs n (map (fun x => (x, j)) (order si)) Q g G) as (g1 & E1 & G1). { intros a b J. apply in_map_iff in J as (x & X & J). injection X as <- <-. apply Oi in J. eauto. }
      rewrite E1. cbn [rbind]. rewrite <- (rfold_map (fun g e => add_both g (fst e) (snd e)) (fun y => (i, y)) (order sj)).
      destruct (add_pairs n (map (fun y => (i, y)) (order sj)) _ g1 G1) as (g2 & E2 & G2). { intros a b J. apply in_map_iff in J as (x & X & J). injection X as <- <-. apply Oj in J. eauto. }
      rewrite E2. cbn [rbind]. destruct (add_pairs n (list_prod (order si) (order sj)) _ g2 G2) as (g3 & E3 & G3). { intros a b J. apply in_prod_iff in J as [J1 J2]. apply Oi in J1. apply Oj in J2. eauto. }
      rewrite E3. cbn [rbind]. destruct (IH (fun a b J => B a b (or_intror J)) _ g3 G3) as (g' & E' & G'). exists g'. split; auto. eapply graph_of_ext; [exact G'|]. intros a b La. cbv beta.
      assert (Mi : M i i) by (apply g_refl; auto). assert (Mj : M j j) by (apply g_refl; auto). unfold spread. split.
      + intros [[[[X|X]|X]|X]|(i' & j' & J & X)]; auto; [| | |right; exists i', j'; split; [right; auto|auto]]; right; exists i, j; (split; [left; auto|]).
        * destruct X as [X|X]; apply in_map_iff in X as (x & E & X); injection E as <- <-; apply Oi in X; auto.
        * destruct X as [X|X]; apply in_map_iff in X as (x & E & X); injection E as <- <-; apply Oj in X; auto.
        * destruct X as [X|X]; apply in_prod_iff in X as [X1 X2]; apply Oi in X1; apply Oj in X2; auto.
      + intros [X|(i' & j' & [E|J] & X)]; auto.
        * injection E as <- <-. left. right. rewrite !in_prod_iff, !Oi, !Oj. tauto.
        * right. eauto.
  Qed.

  (** Lists of pairs that are known at the end. *)
  Variables mls cls : list (nat * nat).
  Hypothesis ML : forall i j, In (i, j) mls -> i < n /\ j < n /\ R i j = true.
  Hypothesis MLr : forall i, i < n -> In (i, i) mls.
  Hypothesis CL : forall i j, In (i, j) cls -> i < n /\ j < n /\ Cn i j = true.

  Lemma preprocess_any :
    (preprocess_constraints limit order n mls cls = Raise RecursionError /\ exists i, i < n /\ limit < length (filter (R i) (seq 0 n))) \/
    exists mg cg cs must cannot, preprocess_constraints limit order n mls cls = Ok (mg, cg, cs) /\ graph_of n must mg /\ graph_of n cannot cg /\
      (forall i j, In (i, j) mls -> must i j) /\ (forall i j, must i j -> i < n /\ j < n /\ R i j = true) /\
      (forall i j, In (i, j) cls -> cannot i j) /\ (forall i j, cannot i j -> i < n /\ j < n /\ Cn i j = true) /\
      NoDup (concat cs) /\ (forall i, In i (concat cs) <-> i < n) /\ (forall i j, must i j <-> exists c, In c cs /\ In i c /\ In j c) /\
      (forall i j, cannot i j -> cannot j i) /\ (forall i j i' j', cannot i j -> must i i' -> must j j' -> cannot i' j') /\
      forall a c b, cs = a ++ c :: b -> exists i, In i c /\ forall j, j < i -> In j (concat a).
  Proof.
    unfold preprocess_constraints.
    destruct (add_pairs n mls _ _ (empty_graph n)) as (mg & E1 & G1); [intros i j J; apply ML in J; tauto|].
    destruct (add_pairs n cls _ _ (empty_graph n)) as (cg & E2 & G2); [intros i j J; apply CL in J; tauto|].
    rewrite E1, E2. cbn [rbind]. clear E1 E2. set (P0 := fun a b => False \/ In (a, b) mls \/ In (b, a) mls) in *.
    assert (GP : good P0).
    { split; unfold P0.
      - intros a b [[]|[J|J]]; apply ML in J as (A & B & C); auto.
      - intros a La. auto.
      - intros a b. tauto. }
    destruct (turns n 0 P0 mg (repeat false n) []) as [[Q1 Q2]|(v & g' & cs & P & Q1 & Q2 & Q3 & Q4 & Q5)]; auto.
    { split; cbn [concat]; auto.
      - apply repeat_length.
      - intros j Lj. split; [|intros []]. intro Q. exfalso. assert (J : In (nth j (repeat false n) false) (repeat false n)) by (apply nth_In; rewrite repeat_length; auto).
        apply repeat_spec in J. congruence.
      - intros j [].
      - intros; lia.
      - constructor.
      - intros c i j [].
      - intros c i j [].
      - intros [|] c b; discriminate. }
    { left. rewrite Q1. auto. }
    right. rewrite Q1. cbn [rbind].
    assert (CLn : forall i j, In (i, j) cls -> i < n /\ j < n) by (intros i j J; apply CL in J; tauto).
    destruct (cannots P g' cls Q3 Q2 CLn _ cg G2) as (cg' & E & Gc). rewrite E. cbn [rbind].
    set (cannot := spread P cls).
    assert (Gc' : graph_of n cannot cg').
    { eapply graph_of_ext; [exact Gc|]. intros a b La. cbv beta. split; [|auto]. intros [[[]|[J|J]]|X]; auto; [exists a, b|exists b, a]; (split; [exact J|]); apply CL in J as (A & B & _); [left|right]; auto using (g_refl P Q3). }
    assert (CS : forall a b, cannot a b -> a < n /\ b < n /\ Cn a b = true).
    { intros a b (i & j & J & X). apply CL in J as (Li & Lj & C). destruct X as [[X Y]|[X Y]]; apply (g_R _ Q3) in X as (_ & Lx & X); apply (g_R _ Q3) in Y as (_ & Ly & Y); (split; [auto|]); (split; [auto|]).
      - eapply Cext; [exact Li|exact Lj| | |exact C| |]; auto.
      - apply Csym; auto. eapply Cext; [exact Li|exact Lj| | |exact C| |]; auto. }
    assert (MG : forall i j, P i j <-> exists c, In c cs /\ In i c /\ In j c).
    { intros i j. split.
      - intro X. destruct (g_R _ Q3 i j X) as (Li & _). apply (tu_below _ _ _ _ Q4 i Li) in Li. apply in_concat in Li as (c & C1 & C2). exists c. split; auto. split; auto. eapply tu_closed; eauto.
      - intros (c & C1 & C2 & C3). eapply tu_full; eauto. }
    assert (MT : forall i j k, P i j -> P j k -> P i k).
    { intros i j k X Y. apply MG in X as (c & C1 & C2 & C3). apply MG. exists c. split; auto. split; auto. eapply tu_closed; eauto. }
    rewrite rfold_id.
    2: { intros [i j] J. unfold check_step. cbn [fst snd]. destruct (Nat.eqb_spec j i) as [|Nij]; auto.
      apply in_flat_map in J as ((k & s) & J1 & J2). cbn [fst snd] in J2. apply in_map_iff in J2 as (j' & Q & J2). injection Q as -> ->. apply (proj1 (order_In _ _)) in J2.
      assert (Li : i < n). { assert (K : In i (keys g')) by (apply in_map_iff; exists (i, s); auto). rewrite (proj1 Q2) in K. apply in_seq in K. lia. }
      destruct (proj2 Q2 i Li) as (si & Ei & _ & Hi).
      assert (s = si). { apply (In_dget (K := nat)) in J1; [congruence|]. rewrite (proj1 Q2). apply seq_NoDup. }
      subst s. apply Hi in J2. destruct (proj2 Gc' i Li) as (ci & Ec & _ & Hc). unfold dlookup. rewrite Ec. cbn [rbind].
      destruct (mem j ci) eqn:Q; auto. apply mem_In, Hc in Q. exfalso. apply (g_R _ Q3) in J2 as (_ & Lj & J2). apply CS in Q as (_ & _ & Q). eapply RC; [| |exact J2|exact Q]; auto. }
    cbn [rbind]. exists g', cg', cs, P, cannot. split; auto. split; auto. split; auto. split; [intros i j J; apply Q5; right; left; auto|]. split; [apply (g_R _ Q3)|].
    split. { intros i j J. exists i, j. split; auto. apply CL in J as (A & B & _). left. auto using (g_refl P Q3). }
    split; auto. split; [apply Q4|]. split. { intro i. split; [apply Q4|]. intro Li. apply (tu_below _ _ _ _ Q4); auto. }
    split; auto. split; [|split; [|apply Q4]].
    - intros a b (i & j & J & X). exists i, j. tauto.
    - intros a b a' b' (i & j & J & X) Y Z. exists i, j. split; auto. destruct X as [[X1 X2]|[X1 X2]]; [left|right]; split; eapply MT; eauto.
  Qed.
End Mixed.
