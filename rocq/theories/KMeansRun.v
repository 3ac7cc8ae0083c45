(** * Executing KMeans: assignment of a round, centroids, iteration. *)

From Coq Require Import String List Bool Arith ZArith Lia Permutation.
From Verif Require Import Base Manager Spec Closure ManagerProofs ManagerInv ManagerQueries ManagerThms
  Sampling SamplingSpec SamplingProofs SamplingThms Rename ClusterSpec RenameThms ClusterProofs KMeans KMeansSpec KMeansProofs.
Import ListNotations.
Open Scope nat_scope.
Open Scope py_scope.

Section Assign.
  Context {vec D : Type} `{EqB D}.
  Variable pairwise : list vec -> list vec -> nat -> nat -> D.
  Variable ltb : D -> D -> bool.
  Variable m : mgr.
  Hypothesis I : Inv m.
  Variable vectors : dict pystr vec.
  Variable nb : nat.
  Variable centroids : dict Z vec.
  Variable table : dict pystr (dict Z D).
  Hypothesis NDC : NoDup (keys centroids).
  Hypothesis POS : forall c, In c (keys centroids) -> (0 <= c)%Z.
  Hypothesis GT : good_table pairwise m vectors centroids table.
  Notation inI x := (In x (ids m)).
  Notation dist := (distance_to pairwise (ids m) vectors centroids).

  Definition blk (new : dict pystr Z) (x : pystr) (c : Z) : Prop :=
    exists y, inI y /\ label new y = c /\ c <> (-1)%Z /\ cl m x y = true.
  Definition lead (x : pystr) : Prop := inI x /\ forall y, inI y -> ml m x y = true -> y = x \/ before (ids m) y x.
  Definition just (new : dict pystr Z) (x : pystr) : Prop :=
    let c := label new x in
    (In c (keys centroids) /\
     (strict_weak_order ltb -> forall c' d d', dist x c d -> dist x c' d' ->
        ltb d' d = true \/ (d' = d /\ before (keys centroids) c c') -> blk new x c'))
    \/ (~ In c (keys centroids) /\ (forall c', In c' (keys centroids) -> blk new x c') /\
        forall y, inI y -> label new y = c -> ml m x y = true).

  Record st_ok (todo : list pystr) (new : dict pystr Z) : Prop := {
    st_todo : exists P, todo = filter P (ids m);
    st_keys : keys new = ids m;
    st_free : forall y, In y todo -> label new y = (-1)%Z;
    st_pos : forall y, inI y -> ~ In y todo -> (0 <= label new y)%Z;
    st_closed : forall y z, inI y -> inI z -> ml m y z = true -> In y todo -> In z todo;
    st_ml : forall y z, inI y -> inI z -> ml m y z = true -> ~ In y todo -> label new y = label new z;
    st_cl : forall y z, inI y -> inI z -> cl m y z = true -> ~ In y todo -> ~ In z todo -> label new y <> label new z;
    st_just : forall x, lead x -> ~ In x todo -> just new x }.

  Lemma lead_unique x y : lead x -> lead y -> ml m x y = true -> x = y.
  Proof.
    intros [X Lx] [Y Ly] M0. assert (M1 : ml m y x = true) by (rewrite ml_sym; auto).
    destruct (Lx y Y M0) as [|B1]; auto. destruct (Ly x X M1) as [|B2]; auto.
    exfalso. eapply before_asym; [apply inv_nodup; eauto|exact B1|exact B2].
  Qed.

  Lemma step_ok todo x new c new' : st_ok (todo ++ [x]) new ->
    choose_cluster vec D ltb m (ids m) nb centroids table new x = Ok c ->
    propagate m (ids m) x todo (dset x c new) = Ok (filter (fun y => negb (ml m x y)) todo, new') ->
    keys new' = ids m -> (forall y, inI y -> label new' y = if ml m x y then c else label new y) ->
    st_ok (filter (fun y => negb (ml m x y)) todo) new'.
  Proof.
    intros [[P ET] K F Pos Cl ML CL J] Ch _ K' G.
    assert (ND : NoDup (todo ++ [x])) by (rewrite ET; apply NoDup_filter_list, inv_nodup; auto).
    assert (INC : forall y, In y (todo ++ [x]) -> inI y).
    { intros y Y. rewrite ET in Y. apply filter_In in Y. tauto. }
    assert (X0 : In x (todo ++ [x])) by (apply in_or_app; right; left; auto).
    assert (X : inI x) by auto.
    assert (InT : forall y, inI y -> (In y (filter (fun y => negb (ml m x y)) todo) <-> In y (todo ++ [x]) /\ ml m x y = false)).
    { intros y Y. rewrite filter_In, negb_true_iff, in_app_iff. simpl. split; [tauto|].
      intros [[A|[A|[]]] B]; auto. subst. rewrite ml_refl in B; auto. discriminate. }
    assert (Todo : forall y, inI y -> ml m x y = true -> In y (todo ++ [x])).
    { intros y Y M0. apply (Cl x y); auto. }
    destruct (choose_run pairwise ltb m I vectors nb centroids table new x NDC GT K X) as (c0 & Ec & Alt).
    rewrite Ch in Ec. injection Ec; intros; subst c0. clear Ec Ch.
    assert (C0 : (0 <= c)%Z) by (destruct Alt as [(Q & _)|(_ & Q & _)]; auto).
    (* blocked clusters stay blocked *)
    assert (BM : forall z c', blk new z c' -> blk new' z c').
    { intros z c' (y & Y & Ly & N & C). exists y. split; auto. split; auto. rewrite G by auto.
      destruct (ml m x y) eqn:M0; auto. exfalso. apply N. rewrite <- Ly. apply F. apply Todo; auto. }
    (* x is the last of its component *)
    assert (LX : lead x).
    { split; auto. intros y Y M0. assert (T := Todo y Y M0). apply in_app_or in T. destruct T as [T|[T|[]]]; auto.
      right. apply (before_filter P). rewrite <- ET. apply before_app_m; simpl; auto. }
    constructor.
    - exists (fun y => P y && negb (ml m x y)).
      rewrite <- filter_filter, <- ET, filter_app. simpl. rewrite ml_refl by auto. simpl. rewrite app_nil_r. auto.
    - auto.
    - intros y Y. assert (Y' : inI y) by (apply INC, in_or_app; left; apply filter_In in Y; tauto).
      apply InT in Y; auto. rewrite G by auto. destruct Y as [Y M0]. rewrite M0. apply F; auto.
    - intros y Y N. rewrite G by auto. destruct (ml m x y) eqn:M0; auto. apply Pos; auto.
      intro T. apply N. apply InT; auto.
    - intros y z Y Z M0 T. apply InT in T; auto. apply InT; auto. destruct T as [T1 T2]. split.
      + apply (Cl y z); auto.
      + destruct (ml m x z) eqn:E; auto. exfalso. assert (E2 : ml m x y = true).
        { apply (ml_trans m I x z y); auto. rewrite ml_sym; auto. }
        congruence.
    - intros y z Y Z M0 T. rewrite !G by auto.
      assert (E : ml m x y = ml m x z).
      { destruct (ml m x y) eqn:E1.
        - symmetry. apply (ml_trans m I x y z); auto.
        - destruct (ml m x z) eqn:E2; auto. rewrite <- E1. apply (ml_trans m I x z y); auto. rewrite ml_sym; auto. }
      rewrite <- E. destruct (ml m x y) eqn:E1; auto. apply (ML y z); auto.
      intro T'. apply T. apply InT; auto.
    - assert (HH : forall y z, inI y -> inI z -> cl m y z = true -> ~ In z (filter (fun y => negb (ml m x y)) todo) ->
                     ml m x y = true -> ml m x z = false -> c <> label new z).
      { intros y z Y Z C T E1 E2 E. assert (T' : ~ In z (todo ++ [x])) by (intro; apply T; apply InT; auto).
        assert (Cz : cl m x z = true) by (apply (cl_ml_l m I x y z); auto).
        assert (Pz := Pos z Z T'). destruct Alt as [(Q1 & Q2 & _)|(_ & _ & Q)].
        - apply Q2. exists z. rewrite <- E. repeat split; auto. lia.
        - specialize (Q z Z). lia. }
      intros y z Y Z C T1 T2. rewrite !G by auto.
      destruct (ml m x y) eqn:E1, (ml m x z) eqn:E2.
      + exfalso. apply (ml_cl m y z); auto. apply (ml_trans m I y x z); auto. rewrite ml_sym; auto.
      + apply (HH y z); auto.
      + intro E. symmetry in E. revert E. apply (HH z y); auto. rewrite cl_sym; auto.
      + apply CL; auto; intro; [apply T1|apply T2]; apply InT; auto.
    - intros z Lz T. assert (Z : inI z) by apply Lz. unfold just. rewrite G by auto. destruct (ml m x z) eqn:E.
      + assert (x = z) by (apply lead_unique; auto). subst z. destruct Alt as [(Q1 & Q2 & Q3)|(Q1 & Q2 & Q3)].
        * left. split; auto. intros S c' d d' D1 D2 L. apply BM. apply (Q3 S c' d d'); auto.
        * right. assert (NK : ~ In c (keys centroids)).
          { intro Kc. destruct (Q1 c Kc) as (y & Y & Ly & _). specialize (Q3 y Y). lia. }
          split; auto. split; [intros; apply BM; apply Q1; auto|].
          intros y Y Ly. rewrite G in Ly by auto. destruct (ml m x y); auto. specialize (Q3 y Y). lia.
      + assert (T' : ~ In z (todo ++ [x])) by (intro; apply T; apply InT; auto).
        destruct (J z Lz T') as [(Q1 & Q2)|(Q1 & Q2 & Q3)].
        * left. split; auto. intros S c' d d' D1 D2 L. apply BM. apply (Q2 S c' d d'); auto.
        * right. split; auto. split; [intros; apply BM; apply Q2; auto|].
          intros y Y Ly. rewrite G in Ly by auto. destruct (ml m x y) eqn:E2; [|apply Q3; auto].
          exfalso. destruct Alt as [(A1 & _)|(A1 & _ & A3)].
          -- apply Q1. rewrite <- Ly. auto.
          -- specialize (A3 z Z). lia.
  Qed.

  Lemma assign_loop_run fuel : forall todo new, length todo <= fuel -> st_ok todo new ->
    exists new', assign_loop vec D ltb m (ids m) nb fuel centroids table todo new = Ok new' /\ st_ok [] new'.
  Proof.
    induction fuel as [|fuel IH]; intros todo new L S.
    - destruct todo; [|simpl in L; lia]. exists new. split; auto.
    - cbn [assign_loop]. destruct (pop_last todo) as [[todo' x]|] eqn:E.
      2:{ apply pop_last_None in E. subst. exists new. auto. }
      apply pop_last_Some in E. subst todo. rewrite app_length in L. simpl in L.
      assert (S' := S). destruct S' as [[P ET] K F Pos Cl ML CL J].
      assert (ND : NoDup (todo' ++ [x])) by (rewrite ET; apply NoDup_filter_list, inv_nodup; auto).
      assert (INC : forall y, In y (todo' ++ [x]) -> inI y).
      { intros y Y. rewrite ET in Y. apply filter_In in Y. tauto. }
      assert (X : inI x) by (apply INC; apply in_or_app; right; left; auto).
      destruct (choose_run pairwise ltb m I vectors nb centroids table new x NDC GT K X) as (c & Ec & _).
      rewrite Ec. cbn [rbind].
      assert (K1 : keys (dset x c new) = ids m) by (rewrite keys_dset_in; auto; rewrite K; auto).
      destruct (propagate_run m I x todo' (dset x c new) X) as (new' & R & K' & G); auto.
      { apply NoDup_app_inv in ND. tauto. }
      { intros y Y. apply INC, in_or_app. auto. }
      rewrite R. cbn [rbind fst snd].
      assert (G' : forall y, inI y -> label new' y = if ml m x y then c else label new y).
      { intros y Y. rewrite G by auto. unfold label at 1 2. rewrite !dget_dset, eqb_refl. unfold label.
        destruct (ml m x y) eqn:E; auto. destruct (eqb_spec y x); subst; auto. rewrite ml_refl in E; auto. discriminate. }
      apply IH.
      + assert (length (filter (fun y => negb (ml m x y)) todo') <= length todo').
        { clear. induction todo' as [|z l IH]; simpl; auto. destruct (negb (ml m x z)); simpl; lia. }
        lia.
      + eapply step_ok; eauto.
  Qed.

  Lemma initial_ok : st_ok (ids m) (dcomp (fun _ => (-1)%Z) (ids m)).
  Proof.
    assert (ND := inv_nodup _ I).
    constructor.
    - exists (fun _ => true). symmetry. apply filter_all. auto.
    - rewrite keys_dcomp. apply dedup_id; auto.
    - intros y Y. unfold label. rewrite dget_dcomp. apply mem_In in Y. rewrite Y. auto.
    - intros; tauto.
    - auto.
    - intros; tauto.
    - intros; tauto.
    - intros x [X _]. tauto.
  Qed.
End Assign.

Section Run.
  Context {vec D : Type} `{EqB D}.
  Variable pairwise : list vec -> list vec -> nat -> nat -> D.
  Variable ltb : D -> D -> bool.
  Variable dsum : list D -> D.
  Variable mean : list vec -> vec.
  Variable shuffle : list pystr -> list pystr.
  Variable set_order : list Z -> list Z.
  Variable p : kparams D.
  Variable m : mgr.
  Hypothesis I : Inv m.
  Variable vectors : dict pystr vec.
  Variable nb : nat.
  Hypothesis SO : valid_set_order set_order.
  Hypothesis NE : ids m <> [].
  Hypothesis COV : forall x, In x (ids m) -> In x (keys vectors).
  Notation inI x := (In x (ids m)).

  (** What every round yields. *)
  Definition sound (raw : dict pystr Z) : Prop :=
    keys raw = ids m /\ respects m raw /\ forall c, In c (vals raw) -> (0 <= c)%Z.

  Definition good_centroids (centroids : dict Z vec) : Prop :=
    NoDup (keys centroids) /\ keys centroids <> [] /\ forall c, In c (keys centroids) -> (0 <= c)%Z.

  Lemma assign_run centroids : good_centroids centroids ->
    exists raw, assign vec D pairwise ltb m (ids m) vectors nb centroids = Ok raw /\ sound raw /\
      (strict_weak_order ltb -> nearest_assignment pairwise ltb m (ids m) vectors centroids raw).
  Proof.
    intros (ND & NEC & POS). unfold assign.
    destruct (distance_table_run pairwise m I vectors centroids NE COV ND NEC) as (table & -> & GT). cbn [rbind].
    destruct (assign_loop_run pairwise ltb m I vectors nb centroids table ND POS GT (length (ids m)) (ids m)
                (dcomp (fun _ => (-1)%Z) (ids m)) (le_n _) (initial_ok pairwise ltb m I vectors centroids)) as (raw & -> & S).
    exists raw. split; auto. destruct S as [_ K F Pos Cl ML CL J].
    assert (R : respects m raw).
    { split.
      - intros a b A B Hh. apply managed_ids in A. apply managed_ids in B. apply inferred_ml in Hh; auto.
        rewrite !(label_get m) by auto. f_equal. apply ML; auto.
      - intros a b A B Hh. apply managed_ids in A. apply managed_ids in B. apply inferred_cl in Hh; auto.
        rewrite !(label_get m) by auto. intro E. injection E. apply CL; auto. }
    split.
    - split; auto. split; auto. intros c C. apply vals_dget in C; [|rewrite K; apply inv_nodup; auto].
      destruct C as [y E]. assert (Y : inI y) by (rewrite <- K; eapply dget_Some_key; eauto).
      assert (Q := Pos y Y (fun x => x)). rewrite (label_get m) in E by auto. injection E as <-. auto.
    - intro SWO. split; auto. split; auto. intros x [X L].
      apply managed_ids in X. assert (LX : lead m x).
      { split; auto. intros y Y M0. apply L; [apply managed_ids; auto|apply inferred_ml; auto]. }
      assert (BK : forall z c, inI z -> blk m raw z c -> blocked m raw z c).
      { intros z c Z (y & Y & Ly & _ & C). exists y. split; [apply managed_ids; auto|]. split; [apply inferred_cl; auto|].
        rewrite (label_get m) by auto. congruence. }
      exists (label raw x). rewrite (label_get m) by auto. split; auto.
      destruct (J x LX (fun f => f)) as [(Q1 & Q2)|(Q1 & Q2 & Q3)].
      + left. split; auto. intros c' d d' D1 D2 Lt. apply BK; auto. apply (Q2 SWO c' d d'); auto.
      + right. split; auto. split; [intros; apply BK; auto|].
        intros y E. assert (Y : inI y) by (rewrite <- K; eapply dget_Some_key; eauto).
        apply inferred_ml; auto. apply Q3; auto. rewrite (label_get m) in E by auto. congruence.
  Qed.

  Lemma compute_centroids_total raw : keys raw = ids m -> (forall c, In c (vals raw) -> (0 <= c)%Z) ->
    exists centroids, compute_centroids vec mean set_order m vectors raw = Ok centroids /\
      centroids_of mean (ids m) vectors raw centroids /\ good_centroids centroids.
  Proof.
    intros K Pos. assert (NDK : NoDup (keys raw)) by (rewrite K; apply inv_nodup; auto).
    unfold compute_centroids. destruct (SO (vals raw)) as [ND EQ].
    set (mem_of c := filter (fun x => match dget x raw with Some c' => Z.eqb c' c | None => false end) (ids m)).
    assert (Step : forall c, In c (vals raw) -> exists r rows, r :: rows = map (fun x => match dget x vectors with Some v => v | None => mean [] end) (mem_of c) /\
       vectors_are vectors (mem_of c) (r :: rows) /\
       (managed <-- ask get_list_of_managed_data_IDs m ;;;
        members <-- rfilter (fun x => c' <-- dlookup x raw ;;; Ok (Z.eqb c' c)) managed ;;;
        rmap (fun x => dlookup x vectors) members) = Ok (r :: rows)).
    { intros c C. apply vals_dget in C; auto. destruct C as [y E].
      assert (Y : inI y) by (rewrite <- K; eapply dget_Some_key; eauto).
      assert (YM : In y (mem_of c)) by (apply filter_In; split; auto; rewrite E; apply Z.eqb_refl).
      assert (V : vectors_are vectors (mem_of c) (map (fun x => match dget x vectors with Some v => v | None => mean [] end) (mem_of c))).
      { unfold vectors_are. rewrite map_map. apply map_ext_in. intros x X. apply filter_In in X. destruct X as [X _].
        destruct (dget_In_key x vectors (COV x X)) as [v Ev]. rewrite Ev. auto. }
      destruct (map (fun x => match dget x vectors with Some v => v | None => mean [] end) (mem_of c)) as [|r rows] eqn:EM.
      { destruct (mem_of c); [destruct YM|discriminate]. }
      exists r, rows. split; auto. split; auto. rewrite ask_managed. cbn [rbind].
      rewrite (rfilter_pure _ (fun x => match dget x raw with Some c' => Z.eqb c' c | None => false end)).
      2:{ intros x X. rewrite (label_lookup m) by auto. rewrite (label_get m) by auto. reflexivity. }
      cbn [rbind]. rewrite <- EM. apply rmap_pure. intros x X. apply filter_In in X. destruct X as [X _].
      destruct (dget_In_key x vectors (COV x X)) as [v Ev]. unfold dlookup. rewrite Ev. auto. }
    assert (Go : forall l d0, (forall c, In c l -> In c (vals raw)) ->
      exists d, rfold (fun centroids cluster_ID =>
               managed <-- ask get_list_of_managed_data_IDs m ;;;
               members <-- rfilter (fun x => c <-- dlookup x raw ;;; Ok (Z.eqb c cluster_ID)) managed ;;;
               members <-- rmap (fun x => dlookup x vectors) members ;;;
               match members with
               | [] => Raise ZeroDivisionError
               | _ => Ok (dset cluster_ID (mean members) centroids)
               end) l d0 = Ok d /\
        (NoDup (keys d0) -> NoDup (keys d)) /\
        (forall c, In c (keys d) <-> In c (keys d0) \/ In c l) /\
        forall c v, dget c d = Some v -> (exists rows, vectors_are vectors (mem_of c) rows /\ v = mean rows) \/ dget c d0 = Some v).
    { induction l as [|c l IH]; intros d0 Hl.
      - exists d0. simpl. split; auto. split; auto. split; [tauto|auto].
      - destruct (Step c (Hl c (or_introl eq_refl))) as (r & rows & _ & V & E). cbn [rfold].
        revert E. rewrite ask_managed. cbn [rbind]. intro E.
        destruct (rfilter (fun x => c' <-- dlookup x raw;;; Ok (c' =? c)%Z) (ids m)) as [mb|e]; cbn [rbind] in *; [|discriminate].
        rewrite E. cbn [rbind].
        destruct (IH (dset c (mean (r :: rows)) d0)) as (d & R & N & KK & G).
        { intros; apply Hl; right; auto. }
        exists d. split; auto. split.
        + intro. apply N. apply NoDup_keys_dset; auto.
        + split.
          * intro c'. rewrite KK, In_keys_dset. simpl. split; [intros [[?|?]|?]; auto|intros [?|[?|?]]; auto].
          * intros c' v E'. destruct (G c' v E') as [?|E2]; auto. rewrite dget_dset in E2.
            destruct (eqb_spec c' c); subst; auto. injection E2 as <-. left. exists (r :: rows). auto. }
    destruct (Go (set_order (vals raw)) []) as (d & -> & N & KK & G).
    { intros c C. apply EQ; auto. }
    exists d. split; auto.
    assert (KE : forall c, In c (keys d) <-> In c (vals raw)).
    { intro c. rewrite KK, EQ. simpl. tauto. }
    assert (N' : NoDup (keys d)) by (apply N; constructor).
    split.
    - split; auto. split; auto. intros c v E. destruct (G c v E) as [?|E2]; auto. discriminate.
    - split; auto. split.
      + intro E. destruct (ids m) as [|x0 l0] eqn:EI; [congruence|].
        assert (X0 : In x0 (keys raw)) by (rewrite K; left; auto).
        destruct (dget_In_key _ _ X0) as [v Ev]. apply dget_vals in Ev. apply KE in Ev. rewrite E in Ev. destruct Ev.
      + intros c C. apply Pos. apply KE; auto.
  Qed.

  Lemma compute_centroids_run raw : sound raw ->
    exists centroids, compute_centroids vec mean set_order m vectors raw = Ok centroids /\
      centroids_of mean (ids m) vectors raw centroids /\ good_centroids centroids.
  Proof. intros (K & _ & Pos). apply compute_centroids_total; auto. Qed.

  Lemma initialize_run : (forall l, Permutation l (shuffle l)) -> nb <= length (ids m) -> 1 <= nb ->
    exists centroids, initialize_centroids vec shuffle (ids m) vectors nb = Ok centroids /\
      initial_centroids (ids m) vectors nb centroids /\ good_centroids centroids.
  Proof.
    intros SH LE GE. unfold initialize_centroids. set (chosen := firstn nb (shuffle (ids m))).
    assert (LC : length chosen = nb).
    { unfold chosen. rewrite firstn_length. rewrite <- (Permutation_length (SH (ids m))). lia. }
    assert (IC : incl chosen (ids m)).
    { intros x X. apply (Permutation_in x (Permutation_sym (SH (ids m)))). unfold chosen in X.
      rewrite <- (firstn_skipn nb (shuffle (ids m))). apply in_or_app; auto. }
    assert (NC : NoDup chosen).
    { assert (N := Permutation_NoDup (SH (ids m)) (inv_nodup _ I)). rewrite <- (firstn_skipn nb (shuffle (ids m))) in N.
      apply NoDup_app_inv in N. tauto. }
    assert (Go : forall n k d0, k + n <= length chosen -> keys d0 = map Z.of_nat (seq 0 k) ->
      exists d, rfold (fun d i =>
               x <-- (match nth_error chosen i with Some x => Ok x | None => Raise IndexError end) ;;;
               v <-- dlookup x vectors ;;;
               Ok (dset (Z.of_nat i) v d)) (seq k n) d0 = Ok d /\ keys d = map Z.of_nat (seq 0 (k + n)) /\
        (vectors_are vectors (firstn k chosen) (vals d0) -> vectors_are vectors (firstn (k + n) chosen) (vals d))).
    { clear - IC COV. induction n as [|n IH]; intros k d0 L K; simpl.
      - exists d0. rewrite Nat.add_0_r. auto.
      - destruct (nth_error chosen k) as [x|] eqn:E; [|apply nth_error_None in E; lia]. cbn [rbind].
        assert (X : In x (keys vectors)) by (apply COV, IC; eapply nth_error_In; eauto).
        destruct (dget_In_key _ _ X) as [v Ev]. unfold dlookup at 1. rewrite Ev. cbn [rbind].
        assert (Out : ~ In (Z.of_nat k) (keys d0)).
        { rewrite K, in_map_iff. intros (j & Ej & J). apply in_seq in J. lia. }
        destruct (IH (S k) (dset (Z.of_nat k) v d0)) as (d & R & Kd & Vd); [lia| |].
        + rewrite keys_dset_out, K by auto. rewrite seq_S, map_app. auto.
        + exists d. rewrite <- Nat.add_succ_comm. split; auto. split; auto. intro V. apply Vd.
          assert (EF : firstn (S k) chosen = firstn k chosen ++ [x]).
          { clear - E. revert k E. induction chosen as [|y l IHl]; intros [|k] E; simpl in *; try discriminate.
            - congruence.
            - f_equal. apply IHl; auto. }
          rewrite EF, dset_out by auto. unfold vectors_are, vals in *. rewrite !map_app, V. simpl. rewrite Ev. auto. }
    destruct (Go nb 0 []) as (d & R & K & V); [lia|reflexivity|].
    exists d. rewrite R. split; auto. split.
    - exists chosen. repeat split; auto. simpl in V. rewrite <- LC in V. rewrite firstn_all in V. apply V. reflexivity.
    - simpl in K. split; [|split].
      + rewrite K. apply FinFun.Injective_map_NoDup; [intros a b; apply Nat2Z.inj|apply seq_NoDup].
      + rewrite K. destruct nb; [lia|discriminate].
      + intros c C. rewrite K, in_map_iff in C. destruct C as (j & <- & _). lia.
  Qed.

  Lemma set_eqb_spec a b : set_eqb a b = true <-> (forall x, In x a <-> In x b).
  Proof using Type.
    clear. unfold set_eqb. rewrite andb_true_iff, !forallb_forall. split.
    - intros [A B] x. split; intro X; [apply A in X|apply B in X]; apply mem_In in X; auto.
    - intro E. split; intros x X; apply mem_In, E; auto.
  Qed.

  Definition follows (prev : option (dict pystr Z)) (old : dict pystr Z) (centroids : dict Z vec) : Prop :=
    (prev = None /\ exists v l, vals old = v :: l /\ (v < 0)%Z) \/
    (prev = Some old /\ forall c, In c (keys centroids) <-> In c (vals old)).

  Lemma has_converged_total prev old raw centroids new_centroids : follows prev old centroids -> good_centroids centroids ->
    (forall c, In c (vals raw) -> (0 <= c)%Z) -> centroids_of mean (ids m) vectors raw new_centroids ->
    exists b, has_converged vec D pairwise ltb dsum p old raw centroids new_centroids = Ok b /\
      (b = true <-> stable pairwise ltb dsum (kp_tolerance D p) prev raw centroids new_centroids).
  Proof.
    intros Fo (ND & NEC & POS) Pos (N1 & K1 & _). unfold has_converged.
    destruct (set_eqb (vals old) (vals raw)) eqn:E.
    - pose proof (proj1 (set_eqb_spec _ _) E) as E'. clear E. rename E' into E. destruct Fo as [(-> & v & l & Ev & Vn)|(-> & KO)].
      { exfalso. assert (V : In v (vals raw)) by (apply E; rewrite Ev; left; auto). apply Pos in V. lia. }
      destruct (rmap_total (fun c => dlookup c new_centroids) (keys centroids)) as [nv R].
      { intros c C. assert (C' : In c (keys new_centroids)) by (apply K1, E, KO; auto).
        destruct (dget_In_key _ _ C') as [v Ev]. exists v. unfold dlookup. rewrite Ev. auto. }
      rewrite R. cbn [rbind].
      assert (V : map (fun c => dget c new_centroids) (keys centroids) = map Some nv).
      { apply rmap_Ok in R. revert nv R. clear. induction (keys centroids) as [|c l IH]; intros [|v nv] R; simpl in *; try discriminate; auto.
        injection R; intros E1 E2. unfold dlookup in E2. destruct (dget c new_centroids); [|discriminate]. injection E2; intros; subst. f_equal; auto. }
      assert (LV : length nv = length (keys centroids)) by (apply (rmap_length _ _ _ R)).
      destruct (vals centroids) as [|v0 vs] eqn:EV; [destruct centroids; simpl in *; [congruence|discriminate]|].
      eexists; split; [reflexivity|]. unfold stable. rewrite EV, <- LV. split.
      + intro L. exists old, nv. auto.
      + intros (old' & nv' & _ & _ & V' & L). assert (nv' = nv) by (apply map_Some_inj; congruence). subst. auto.
    - exists false. split; auto. split; [discriminate|].
      intros (old' & nv & P & EQ & _). destruct Fo as [(-> & _)|(-> & _)]; [discriminate|]. injection P; intros; subst old'.
      assert (X : set_eqb (vals old) (vals raw) = true) by (apply set_eqb_spec; auto). congruence.
  Qed.

  Lemma has_converged_run prev old raw centroids new_centroids : follows prev old centroids -> good_centroids centroids ->
    sound raw -> centroids_of mean (ids m) vectors raw new_centroids ->
    exists b, has_converged vec D pairwise ltb dsum p old raw centroids new_centroids = Ok b /\
      (b = true <-> stable pairwise ltb dsum (kp_tolerance D p) prev raw centroids new_centroids).
  Proof. intros Fo GC (_ & _ & Pos). apply has_converged_total; auto. Qed.

  Lemma iterate_run n : forall s prev last, follows prev (k_clusters vec s) (k_centroids vec s) -> good_centroids (k_centroids vec s) ->
    exists raw fc, iterate vec D pairwise ltb dsum mean set_order p m (ids m) vectors nb (S n) last false s =
        (mkKMeans vec (k_predicted vec s) raw fc, Ok (Some raw)) /\
      compute_centroids vec mean set_order m vectors raw = Ok fc /\ sound raw /\ centroids_of mean (ids m) vectors raw fc /\
      (strict_weak_order ltb ->
         cop_run pairwise ltb dsum mean (kp_tolerance D p) m (ids m) vectors (S n) (k_centroids vec s) prev raw fc).
  Proof.
    induction n as [|n IH]; intros s prev last Fo GC.
    - destruct (assign_run _ GC) as (raw & Ea & So & Ne).
      destruct (compute_centroids_run raw So) as (nc & Ec & Ce & GC').
      destruct (has_converged_run _ _ _ _ _ Fo GC So Ce) as (b & Eb & St).
      exists raw, nc. split; [|split; auto; split; auto; split; auto].
      + cbn [iterate]. unfold bind at 1, gets at 1. unfold bind at 1, gets at 1. unfold bind at 1, lift at 1. rewrite Ea.
        unfold bind at 1, lift at 1. rewrite Ec. unfold bind at 1, lift at 1. rewrite Eb.
        unfold bind, modify. destruct b; reflexivity.
      + intro SWO. apply cop_last; auto.
    - destruct (assign_run _ GC) as (raw & Ea & So & Ne).
      destruct (compute_centroids_run raw So) as (nc & Ec & Ce & GC').
      destruct (has_converged_run _ _ _ _ _ Fo GC So Ce) as (b & Eb & St).
      assert (Step : iterate vec D pairwise ltb dsum mean set_order p m (ids m) vectors nb (S (S n)) last false s =
                     iterate vec D pairwise ltb dsum mean set_order p m (ids m) vectors nb (S n) (Some raw) b
                       (mkKMeans vec (k_predicted vec s) raw nc)).
      { remember (S n) as k. cbn [iterate]. unfold bind at 1, gets at 1. unfold bind at 1, gets at 1. unfold bind at 1, lift at 1. rewrite Ea.
        unfold bind at 1, lift at 1. rewrite Ec. unfold bind at 1, lift at 1. rewrite Eb.
        unfold bind at 1, modify at 1. unfold bind at 1, modify at 1. reflexivity. }
      rewrite Step. clear Step. destruct b.
      + exists raw, nc. split; [reflexivity|]. split; auto. split; auto. split; auto. intro SWO. apply cop_last; auto. right. apply St; auto.
      + assert (Fo' : follows (Some raw) raw nc) by (right; split; auto; apply Ce).
        destruct (IH (mkKMeans vec (k_predicted vec s) raw nc) (Some raw) (Some raw) Fo' GC') as (raw' & fc & R & Cf & So' & Ce' & Run).
        exists raw', fc. split; [exact R|]. split; auto. split; auto. split; auto. intro SWO.
        eapply cop_next; eauto. intro S'. apply St in S'. discriminate.
  Qed.
End Run.

(** ** The whole call. *)
Section Cluster.
  Context {vec D : Type} `{EqB D}.
  Variable pairwise : list vec -> list vec -> nat -> nat -> D.
  Variable ltb : D -> D -> bool.
  Variable dsum : list D -> D.
  Variable mean : list vec -> vec.
  Variable shuffle : list pystr -> list pystr.
  Variable set_order : list Z -> list Z.
  Hypothesis SO : valid_set_order set_order.
  Hypothesis SH : forall l, Permutation l (shuffle l).
  Variable p : kparams D.
  Hypothesis MAX : 1 <= kp_max_iteration D p.
  Notation cluster := (KMeans.cluster vec D pairwise ltb dsum mean shuffle set_order).

  Lemma cluster_run m vectors nbz s : Inv m -> ids m <> [] -> (forall x, In x (ids m) -> In x (keys vectors)) -> (2 <= nbz)%Z ->
    exists raw d fc c0, cluster p m vectors (Some nbz) s = (mkKMeans vec (Some d) d fc, Ok d) /\
      sound m raw /\ centroids_of mean (ids m) vectors raw fc /\
      canonical d /\ same_partition raw d /\
      initial_centroids (ids m) vectors (Nat.min (Z.to_nat nbz) (length (ids m))) c0 /\
      (strict_weak_order ltb ->
         cop_run pairwise ltb dsum mean (kp_tolerance D p) m (ids m) vectors (kp_max_iteration D p) c0 None raw fc).
  Proof.
    intros I NE COV NB. unfold KMeans.cluster. unfold bind at 1, lift at 1. rewrite ask_managed.
    destruct (Z.ltb_spec nbz 2); [lia|]. unfold bind at 1, modify at 1.
    set (nb := Nat.min (Z.to_nat nbz) (length (ids m))).
    assert (L0 : length (ids m) <> 0) by (destruct (ids m); simpl in *; congruence).
    destruct (initialize_run shuffle m I vectors nb COV SH) as (c0 & E0 & IC & GC); [lia|lia|].
    destruct (kp_max_iteration D p) as [|mx] eqn:EM; [lia|].
    set (s1 := mkKMeans vec None (dcomp (fun _ => (-1)%Z) (ids m)) c0).
    assert (Fo : follows None (k_clusters vec s1) (k_centroids vec s1)).
    { left. split; auto. simpl. unfold dcomp. rewrite dedup_id by (apply inv_nodup; auto).
      destruct (ids m) as [|x l]; [congruence|]. exists (-1)%Z, (vals (map (fun k => (k, (-1)%Z)) l)). split; auto. lia. }
    destruct (iterate_run pairwise ltb dsum mean set_order p m I vectors nb SO NE COV mx s1 None None Fo GC)
      as (raw & fc & R & Cf & So & Ce & Run). assert (So1 := So).
    assert (NDr : NoDup (keys raw)) by (destruct So as (-> & _); apply inv_nodup; auto).
    destruct (rename_run raw NDr) as (d & Er & _ & Can & SP).
    destruct (compute_centroids_run mean set_order m I vectors SO NE COV raw So) as (fc' & Ec' & Ce' & _).
    exists raw, d, fc', c0. split; [|split; [auto|split; [auto|split; [auto|split; [auto|split; [auto|]]]]]].
    - unfold bind at 1. unfold clustering_COP. unfold bind at 1, lift at 1. rewrite E0.
      unfold bind at 1, modify at 1. unfold bind at 1, modify at 1. unfold bind at 1.
      change (set_clusters vec (dcomp (fun _ => (-1)%Z) (ids m)) (set_centroids vec c0 (set_predicted vec None s))) with s1.
      rewrite EM, R. unfold bind at 1, gets at 1. cbn [k_clusters]. unfold bind at 1, lift at 1. rewrite Er.
      unfold bind at 1, modify at 1. unfold bind at 1, ret at 1. unfold bind at 1, lift at 1. rewrite Ec'. reflexivity.
    - intro SWO.
      assert (fc' = fc) by congruence. subst; auto.
  Qed.
End Cluster.
