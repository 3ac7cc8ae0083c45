(** * Data that are annotated by separate teams (C131) *)

From Coq Require Import String List Bool Arith ZArith QArith Lia Permutation.
(*HEADER
From Coq Require Import String List Bool Arith ZArith QArith Permutation.
From Verif Require Import Base Manager Spec ManagerThms MonoSpec ResumeSpec TeamsSpec TeamsThms.
Import ListNotations.
Open Scope nat_scope.

Definition a := str "a". Definition b := str "b". Definition c := str "c". Definition d := str "d". Definition e := str "e".
Definition first_team (x : pystr) : bool := eqb x a || eqb x c || eqb x e.
Definition work : list call :=
  [CallAddConstraint c a MUST_LINK 1%Q; CallAddConstraint b d CANNOT_LINK 1%Q; CallComponents; CallAddDataID e; CallAddConstraint e a CANNOT_LINK 1%Q;
   CallAddConstraint d b MUST_LINK 1%Q; CallAddConstraint e c MUST_LINK 1%Q; CallDeleteConstraint b d; CallConflict e c MUST_LINK; CallGetInferred d b].
HEADER*)
From Verif Require Import Base Manager Spec Closure ManagerInv ManagerProofs ManagerQueries ManagerThms MonoSpec ResumeSpec ResumeThms UndoThms TeamsSpec.
From Verif Require EffortThms.
Import ListNotations.
Open Scope nat_scope.
Open Scope py_scope.

Section Side.
  Variable P : pystr -> bool.

  Definition part (m n : mgr) : Prop :=
    ids n = filter P (ids m) /\
    (forall p q, P p = true -> P q = true -> addf n p q = addf m p q) /\
    (forall p q, P p = true -> P q = false -> addf m p q = None).

  Lemma part_In m n x : part m n -> P x = true -> (In x (ids n) <-> In x (ids m)).
  Proof. intros (E & _) X. rewrite E, filter_In. tauto. Qed.

  Lemma part_mem m n x : part m n -> P x = true -> mem x (ids n) = mem x (ids m).
  Proof. intros H X. apply mem_iff. apply part_In; auto. Qed.

  Lemma part_both m n a b : part m n -> P a = true -> P b = true -> both n a b = both m a b.
  Proof. intros H A B. unfold both. rewrite !(part_mem m n) by auto. auto. Qed.

  Lemma part_added m n t a b : Inv m -> Inv n -> part m n -> P a = true -> P b = true -> (added n t a b <-> added m t a b).
  Proof.
    intros I J H A B. rewrite !addf_added by auto. rewrite (proj1 (proj2 H)) by auto. rewrite !(part_In m n) by auto. tauto.
  Qed.

  Lemma part_cross m n t a b : Inv m -> part m n -> P a <> P b -> ~ added m t a b.
  Proof.
    intros I (_ & _ & C) N A. apply addf_added in A; auto. destruct A as (_ & _ & A).
    destruct (P a) eqn:Pa, (P b) eqn:Pb; try congruence; [rewrite C in A by auto|rewrite addf_sym, C in A by auto]; discriminate.
  Qed.

  Lemma part_linked m n a b : Inv m -> Inv n -> part m n -> P a = true ->
    (linked (added_must m) a b <-> linked (added_must n) a b /\ P b = true).
  Proof.
    intros I J H A. split.
    - induction 1 as [|x y z L IH S]; [split; [constructor|auto]|]. destruct (IH A) as [L' Y]. 
      assert (Z : P z = true).
      { destruct (P z) eqn:Z; auto. exfalso. destruct S as [S|S]; revert S; apply (part_cross m n); auto; congruence. }
      split; auto. econstructor; [apply L'|]. destruct S as [S|S]; [left|right]; apply (part_added m n); auto.
    - intros [L _]. induction L as [|x y z L IH S]; [constructor|]. econstructor; [apply IH; auto|].
      assert (K : forall u v, added_must n u v -> added_must m u v).
      { intros u v S'. assert (S2 := S'). apply addf_added in S2; auto. destruct S2 as (U & V & _).
        rewrite (proj1 H) in U, V. apply filter_In in U, V. apply (part_added m n) in S'; tauto. }
      destruct S; auto.
  Qed.

  Lemma part_separated m n a b : Inv m -> Inv n -> part m n -> P a = true ->
    (separated (added_must m) (added_cannot m) a b /\ P b = true <-> separated (added_must n) (added_cannot n) a b /\ P b = true).
  Proof.
    intros I J H A. split; intros [(x & y & Lx & Ly & C) B]; (split; auto); exists x, y.
    - apply (part_linked m n) in Lx, Ly; auto. destruct Lx as [Lx X], Ly as [Ly Y]. split; auto. split; auto.
      destruct C as [C|C]; [left|right]; apply (part_added m n); auto.
    - assert (K : forall u v, added_cannot n u v -> P u = true /\ P v = true).
      { intros u v S. apply addf_added in S; auto. destruct S as (U & V & _). rewrite (proj1 H) in U, V. apply filter_In in U, V. tauto. }
      assert (Q : P x = true /\ P y = true) by (destruct C as [C|C]; apply K in C; tauto). destruct Q as [X Y].
      split; [apply (part_linked m n); auto|]. split; [apply (part_linked m n); auto|].
      destruct C as [C|C]; [left|right]; apply (part_added m n); auto.
  Qed.

  Lemma part_infer m n a b : Inv m -> Inv n -> part m n -> P a = true -> P b = true -> both m a b = true -> infer n a b = infer m a b.
  Proof.
    intros I J H A B M. apply both_true in M. destruct M as [Ma Mb].
    assert (Na := proj2 (part_In m n a H A) Ma). assert (Nb := proj2 (part_In m n b H B) Mb).
    assert (E1 : linked (sml m) a b <-> linked (sml n) a b).
    { rewrite <- !added_linked by auto. rewrite (part_linked m n) by auto. tauto. }
    assert (E2 : separated (sml m) (scl m) a b <-> separated (sml n) (scl n) a b).
    { rewrite <- !added_separated by auto. assert (Q := part_separated m n a b I J H A). tauto. }
    destruct (infer_cases m a b) as [E|[E|E]]; rewrite E.
    - apply infer_ML in E; auto. apply infer_ML; auto. tauto.
    - apply infer_CL in E; auto. apply infer_CL; auto. tauto.
    - apply infer_None in E; auto. apply infer_None; auto. tauto.
  Qed.

  Lemma part_accepts m n a b t : Inv m -> Inv n -> part m n -> P a = true -> P b = true -> accepts n a b t = accepts m a b t.
  Proof.
    intros I J H A B. unfold accepts. rewrite (part_both m n) by auto. destruct (both m a b) eqn:M; auto.
    rewrite (part_infer m n) by auto. auto.
  Qed.

  Lemma same_pair_side a b p q s : same_pair a b (lo p q) (hi p q) = true -> P a = s -> P b = s -> P p = s /\ P q = s.
  Proof. intros S A B. apply same_pair_spec in S. destruct S as [[-> ->]|[-> ->]]; auto. Qed.

  Lemma lo_hi_side p q : (P (lo p q) = P p /\ P (hi p q) = P q) \/ (P (lo p q) = P q /\ P (hi p q) = P p).
  Proof. unfold lo, hi. destruct (str_leb p q); auto. Qed.

  Lemma lo_hi_true p q : P p = true -> P q = true -> P (lo p q) = true /\ P (hi p q) = true.
  Proof. intros A B. destruct (lo_hi_side p q) as [[-> ->]|[-> ->]]; auto. Qed.

  Lemma filter_comm (f g : pystr -> bool) l : filter f (filter g l) = filter g (filter f l).
  Proof. induction l as [|x l IH]; simpl; auto. destruct (f x) eqn:F, (g x) eqn:G; simpl; rewrite ?F, ?G, IH; auto. Qed.

  Lemma eqb_side x y : P x <> P y -> eqb x y = false.
  Proof. intro N. destruct (eqb_spec x y) as [->|]; auto; contradiction. Qed.

  Definition inside (c : call) : Prop := forall x, In x (call_names c) -> P x = true.
  Definition outside (c : call) : Prop := forall x, In x (call_names c) -> P x = false.

  (** A call that adds the data [x]. *)
  Lemma part_add_data m n x : Inv m -> Inv n -> part m n ->
    part (fst (exec (CallAddDataID x) m)) (if P x then fst (exec (CallAddDataID x) n) else n) /\
    (P x = true -> snd (exec (CallAddDataID x) m) = snd (exec (CallAddDataID x) n)).
  Proof.
    intros I J H. assert (H' := H). destruct H' as (E & A & C). cbn [exec]. unfold bind.
    assert (Km := run_add_data_ID m x I). assert (Kn := run_add_data_ID n x J).
    assert (X : forall m1, Inv m1 -> (forall p q, sget (cdict m1) p q =
         if (eqb p x && mem q (ids m ++ [x]) || eqb q x && mem p (ids m ++ [x])) && str_leb p q
         then Some (if eqb p q then Some (MUST_LINK, 1%Q) else None)
         else sget (cdict m) p q) -> forall p q, P p = true -> P q = false -> addf m1 p q = None).
    { intros m1 I1 S p q Pp Pq. rewrite addf_lo_hi, S.
      assert (N : eqb (lo p q) (hi p q) = false). { apply eqb_side. destruct (lo_hi_side p q) as [[-> ->]|[-> ->]]; congruence. }
      rewrite N. destruct (_ && str_leb _ _); auto. rewrite <- addf_lo_hi. auto. }
    destruct (P x) eqn:Px.
    - rewrite (part_mem m n x H Px) in Kn. destruct (mem x (ids m)) eqn:M.
      + rewrite Km, Kn. auto.
      + destruct Km as (m1 & -> & I1 & K1 & S1). destruct Kn as (n1 & -> & J1 & L1 & T1). cbn [fst snd ret]. split; auto.
        split; [|split].
        * rewrite K1, L1, filter_app, E. simpl. rewrite Px. auto.
        * intros p q Pp Pq. rewrite (addf_lo_hi n1), (addf_lo_hi m1), S1, T1.
          assert (Q : forall y, P y = true -> mem y (ids n ++ [x]) = mem y (ids m ++ [x])).
          { intros y Y. apply mem_iff. rewrite !in_app_iff, (part_In m n y H Y). tauto. }
          destruct (lo_hi_true p q Pp Pq) as [Pl Ph]. rewrite !Q by auto.
          destruct (_ && str_leb _ _); auto. rewrite <- !addf_lo_hi. auto.
        * apply X; auto.
    - split; [|discriminate]. destruct (mem x (ids m)) eqn:M; [rewrite Km; exact H|]. clear Kn.
      destruct Km as (m1 & -> & I1 & K1 & S1). cbn [fst ret]. split; [|split].
      + rewrite K1, filter_app, E. simpl. rewrite Px, app_nil_r. auto.
      + intros p q Pp Pq. rewrite (addf_lo_hi m1), S1.
        destruct (lo_hi_true p q Pp Pq) as [Pl Ph]. rewrite !(eqb_side _ x) by congruence. cbn [andb orb].
        rewrite <- addf_lo_hi. auto.
      + apply X; auto.
  Qed.

  (** A call that deletes the data [x]. *)
  Lemma part_delete_data m n x : Inv m -> Inv n -> part m n ->
    part (fst (exec (CallDeleteDataID x) m)) (if P x then fst (exec (CallDeleteDataID x) n) else n) /\
    (P x = true -> snd (exec (CallDeleteDataID x) m) = snd (exec (CallDeleteDataID x) n)).
  Proof.
    intros I J H. assert (H' := H). destruct H' as (E & A & C). cbn [exec]. unfold bind.
    assert (Km := run_delete_data_ID m x I). assert (Kn := run_delete_data_ID n x J).
    assert (X : forall m1, Inv m1 -> (forall p q, sget (cdict m1) p q = if eqb p x || eqb q x then None else sget (cdict m) p q) ->
      forall p q, P p = true -> P q = false -> addf m1 p q = None).
    { intros m1 I1 S p q Pp Pq. rewrite addf_lo_hi, S. destruct (_ || _); auto. rewrite <- addf_lo_hi. auto. }
    destruct (P x) eqn:Px.
    - rewrite (part_mem m n x H Px) in Kn. destruct (mem x (ids m)) eqn:M; [|rewrite Km, Kn; auto].
      destruct Km as (m1 & -> & I1 & K1 & S1). destruct Kn as (n1 & -> & J1 & L1 & T1). cbn [fst snd ret]. split; auto.
      split; [|split].
      + rewrite K1, L1, E. apply filter_comm.
      + intros p q Pp Pq. rewrite (addf_lo_hi n1), (addf_lo_hi m1), S1, T1. destruct (_ || _); auto. rewrite <- !addf_lo_hi. auto.
      + apply X; auto.
    - split; [|discriminate]. destruct (mem x (ids m)) eqn:M; [|rewrite Km; exact H]. clear Kn.
      destruct Km as (m1 & -> & I1 & K1 & S1). cbn [fst ret]. split; [|split].
      + rewrite K1, filter_comm, <- E. symmetry. apply EffortThms.filter_true. intros y Y. rewrite E in Y. apply filter_In in Y.
        rewrite eqb_side; auto. destruct Y. congruence.
      + intros p q Pp Pq. rewrite (addf_lo_hi m1), S1.
        destruct (lo_hi_true p q Pp Pq) as [Pl Ph]. rewrite !(eqb_side _ x) by congruence. cbn [orb].
        rewrite <- addf_lo_hi. auto.
      + apply X; auto.
  Qed.

  Lemma part_add_constraint m n a b t v : Inv m -> Inv n -> part m n -> P a = P b ->
    part (fst (exec (CallAddConstraint a b t v) m)) (if P a then fst (exec (CallAddConstraint a b t v) n) else n) /\
    (P a = true -> snd (exec (CallAddConstraint a b t v) m) = snd (exec (CallAddConstraint a b t v) n)).
  Proof.
    intros I J H AB. assert (H' := H). destruct H' as (E & A & C). cbn [exec]. unfold bind.
    destruct (accepts m a b t) eqn:M.
    - destruct (run_add_constraint m a b t v I M) as (m1 & -> & I1 & K1 & S1 & _).
      assert (X : forall p q, P p = true -> P q = false -> addf m1 p q = None).
      { intros p q Pp Pq. rewrite addf_lo_hi, S1. destruct (same_pair a b (lo p q) (hi p q)) eqn:S; [|rewrite <- addf_lo_hi; auto].
        destruct (same_pair_side a b p q (P a) S); congruence. }
      destruct (P a) eqn:Pa.
      + assert (N : accepts n a b t = true) by (rewrite (part_accepts m n); auto).
        destruct (run_add_constraint n a b t v J N) as (n1 & -> & J1 & L1 & T1 & _). cbn [fst snd ret]. split; auto. split; [congruence|].
        split; auto. intros p q Pp Pq. rewrite (addf_lo_hi n1), (addf_lo_hi m1), S1, T1.
        destruct (same_pair a b (lo p q) (hi p q)); [rewrite A; auto|]. rewrite <- !addf_lo_hi. auto.
      + cbn [fst snd ret]. split; [|discriminate]. split; [congruence|]. split; auto. intros p q Pp Pq.
        rewrite (addf_lo_hi m1), S1. destruct (same_pair a b (lo p q) (hi p q)) eqn:S; [|rewrite <- addf_lo_hi; auto].
        destruct (same_pair_side a b p q (P a) S); congruence.
    - rewrite (run_add_constraint_raise m) by auto. cbn [fst snd]. destruct (P a) eqn:Pa; [|split; [auto|discriminate]].
      rewrite (run_add_constraint_raise n); auto. rewrite (part_accepts m n); auto.
  Qed.

  Lemma part_delete_constraint m n a b : Inv m -> Inv n -> part m n -> P a = P b ->
    part (fst (exec (CallDeleteConstraint a b) m)) (if P a then fst (exec (CallDeleteConstraint a b) n) else n) /\
    (P a = true -> snd (exec (CallDeleteConstraint a b) m) = snd (exec (CallDeleteConstraint a b) n)).
  Proof.
    intros I J H AB. assert (H' := H). destruct H' as (E & A & C). cbn [exec]. unfold bind.
    assert (Km := run_delete_constraint m a b I). assert (Kn := run_delete_constraint n a b J).
    destruct (both m a b) eqn:M.
    - destruct Km as (m1 & -> & I1 & K1 & S1).
      assert (X : forall p q, P p = true -> P q = false -> addf m1 p q = None).
      { intros p q Pp Pq. rewrite addf_lo_hi, S1. destruct (same_pair a b (lo p q) (hi p q)); auto. rewrite <- addf_lo_hi; auto. }
      destruct (P a) eqn:Pa.
      + rewrite (part_both m n), M in Kn by auto. destruct Kn as (n1 & -> & J1 & L1 & T1). cbn [fst snd ret]. split; auto. split; [congruence|].
        split; auto. intros p q Pp Pq. rewrite (addf_lo_hi n1), (addf_lo_hi m1), S1, T1.
        destruct (same_pair a b (lo p q) (hi p q)); auto. rewrite <- !addf_lo_hi. auto.
      + cbn [fst snd ret]. split; [|discriminate]. split; [congruence|]. split; auto. intros p q Pp Pq.
        rewrite (addf_lo_hi m1), S1. destruct (same_pair a b (lo p q) (hi p q)) eqn:S; [|rewrite <- addf_lo_hi; auto].
        destruct (same_pair_side a b p q (P a) S); congruence.
    - rewrite Km. cbn [fst snd]. destruct (P a) eqn:Pa; [|split; [auto|discriminate]].
      rewrite (part_both m n), M in Kn by auto. rewrite Kn. auto.
  Qed.

  Lemma getter_state m c : Inv m -> (match c with CallAddDataID _ | CallDeleteDataID _ | CallAddConstraint _ _ _ _ | CallDeleteConstraint _ _ => False | _ => True end) ->
    fst (exec c m) = m.
  Proof.
    intros I G. destruct c; cbn [exec]; unfold bind; try contradiction.
    - rewrite run_managed. reflexivity.
    - rewrite run_added by auto. destruct (both m a b); reflexivity.
    - rewrite run_inferred by auto. destruct (both m a b); reflexivity.
    - rewrite run_components by auto. reflexivity.
    - destruct (run_completude m I) as (? & -> & _). reflexivity.
    - rewrite run_conflict by auto. destruct (both m a b && _); reflexivity.
  Qed.

  (** One call. *)
  Lemma part_exec m n c : reachable m -> reachable n -> part m n -> on_one_side P c ->
    part (fst (exec c m)) (if belongs P c then fst (exec c n) else n) /\
    (belongs P c = true -> same_output (snd (exec c m)) (snd (exec c n))).
  Proof.
    intros R1 R2 H [s O]. assert (I := reachable_inv _ R1). assert (J := reachable_inv _ R2).
    assert (W : forall r : res value, same_output r r).
    { intros [[]|]; cbn; auto; [induction l; auto|destruct l; auto]. }
    assert (G : fst (exec c m) = m -> fst (exec c n) = n -> part (fst (exec c m)) (if belongs P c then fst (exec c n) else n)).
    { intros -> ->. destruct (belongs P c); auto. }
    destruct c; cbn [call_names] in O; unfold belongs; cbn [call_names].
    - destruct (part_add_data m n x I J H) as [K1 K2]. split; auto. intro X. rewrite K2; auto.
    - destruct (part_delete_data m n x I J H) as [K1 K2]. split; auto. intro X. rewrite K2; auto.
    - split; [exact H|discriminate].
    - assert (AB : P a = P b) by (rewrite !O; simpl; auto). destruct (part_add_constraint m n a b t v I J H AB) as [K1 K2].
      split; auto. intro X. rewrite K2; auto.
    - assert (AB : P a = P b) by (rewrite !O; simpl; auto). destruct (part_delete_constraint m n a b I J H AB) as [K1 K2].
      split; auto. intro X. rewrite K2; auto.
    - split; [apply G; apply getter_state; cbn; auto|]. intro Pa. assert (Pb : P b = true) by (rewrite (O b), <- (O a); simpl; auto).
      cbn [exec]. unfold bind. rewrite !run_added by auto. rewrite (part_both m n) by auto. destruct (both m a b); cbn; auto.
      rewrite (proj1 (proj2 H)); auto.
    - split; [apply G; apply getter_state; cbn; auto|]. intro Pa. assert (Pb : P b = true) by (rewrite (O b), <- (O a); simpl; auto).
      cbn [exec]. unfold bind. rewrite !run_inferred by auto. rewrite (part_both m n) by auto. destruct (both m a b) eqn:B; cbn; auto.
      rewrite (part_infer m n); auto.
    - split; [apply G; apply getter_state; cbn; auto|discriminate].
    - split; [apply G; apply getter_state; cbn; auto|discriminate].
    - split; [apply G; apply getter_state; cbn; auto|]. intro Pa. assert (Pb : P b = true) by (rewrite (O b), <- (O a); simpl; auto).
      assert (Km := run_conflict m a b t I). assert (Kn := run_conflict n a b t J).
      cbn [exec]. unfold bind. rewrite Km, Kn. rewrite (part_both m n) in * by auto. destruct (both m a b && mem t allowed_types) eqn:B; cbn; auto.
      rewrite (part_accepts m n) in * by auto. destruct (accepts m a b t) eqn:AC; cbn; auto.
      apply andb_true_iff in B. destruct B as [B T]. apply allowed_spec in T. assert (B' := B). apply both_true in B'. destruct B' as [Ma Mb].
      assert (Na := proj2 (part_In m n a H Pa) Ma). assert (Nb := proj2 (part_In m n b H Pb) Mb).
      destruct (C19_conflict_listing_exact_proof m R1 a b t 1%Q) as (_ & Q1 & _); auto; try (apply managed_ids; auto).
      destruct (C19_conflict_listing_exact_proof n R2 a b t 1%Q) as (_ & Q2 & _); auto; try (apply managed_ids; auto).
      destruct Q1 as (l1 & E1 & N1 & S1). { unfold ask. rewrite run_add_constraint_raise; auto. }
      destruct Q2 as (l2 & E2 & N2 & S2). { unfold ask. rewrite run_add_constraint_raise; auto. rewrite (part_accepts m n); auto. }
      unfold ask in E1, E2. rewrite Km in E1. rewrite Kn in E2. cbn [snd] in E1, E2. injection E1 as ->. injection E2 as ->.
      apply NoDup_Permutation; auto. intro x. rewrite S1, S2.
      assert (IL : forall y k, Inv k -> In y (ids k) -> (managed k x /\ inferred k y x (Some MUST_LINK) <-> In x (ids k) /\ linked (added_must k) y x)).
      { intros y k Ik Y. rewrite (managed_ids k x). split; intros [X Z]; split; auto; unfold inferred, ask in *; rewrite run_inferred in * by auto;
          (assert (YX : both k y x = true) by (apply both_true; auto)); rewrite YX in *; cbn [snd] in *.
        - apply added_linked, infer_ML; auto. congruence.
        - f_equal. apply infer_ML; auto. apply added_linked; auto. }
      assert (LK : forall y, P y = true -> (In x (ids m) /\ linked (added_must m) y x <-> In x (ids n) /\ linked (added_must n) y x)).
      { intros y Y. rewrite (part_linked m n) by auto. rewrite (proj1 H), filter_In. split; [tauto|]. tauto. }
      assert (Z1 := IL a m I Ma). assert (Z2 := IL b m I Mb). assert (Z3 := IL a n J Na). assert (Z4 := IL b n J Nb).
      assert (Z5 := LK a Pa). assert (Z6 := LK b Pb). tauto.
  Qed.
End Side.

Lemma dedup_filter (P : pystr -> bool) l : dedup (filter P l) = filter P (dedup l).
Proof.
  induction l as [|x l IH]; simpl; auto. destruct (P x) eqn:X; simpl; rewrite IH.
  - f_equal. apply filter_comm.
  - rewrite filter_comm. symmetry. apply EffortThms.filter_true. intros y Y. apply filter_In in Y. rewrite (eqb_side P); auto. destruct Y. congruence.
Qed.

Lemma part_init (P : pystr -> bool) l : part P (init l) (init (filter P l)).
Proof.
  assert (S : forall k, shows (init k) (a_init k)).
  { intro k. destruct (C08_added_constraints_refine_map_proof k []) as (s & A & Sh). inversion A; subst. exact Sh. }
  assert (D : forall k, ids (init k) = dedup k).
  { intro k. apply init_ids. }
  assert (F : forall k p q, addf (init k) p q = if mem p k && eqb p q then Some (MUST_LINK, 1%Q) else None).
  { intros k p q. assert (I := reachable_inv _ (run_reachable k [])). cbn in I. destruct (S k) as [_ Q]. specialize (Q p q). unfold ask in Q.
    rewrite run_added in Q by auto. cbn [snd a_init a_ids a_con] in Q. unfold both in Q. rewrite D in Q.
    destruct (mem p (dedup k) && mem q (dedup k)) eqn:B.
    - injection Q as ->. destruct (mem p k && eqb p q); auto.
    - rewrite addf_outside; auto. destruct (mem p k) eqn:M; auto. destruct (eqb_spec p q) as [<-|]; auto. exfalso.
      assert (X : mem p (dedup k) = true). { apply mem_In, dedup_In, mem_In; auto. } rewrite X in B. discriminate.
      rewrite D. rewrite <- !mem_In, <- andb_true_iff, B. discriminate. }
  split; [|split].
  - rewrite !D. apply dedup_filter.
  - intros p q Pp Pq. rewrite !F. replace (mem p (filter P l)) with (mem p l); auto. apply mem_iff. rewrite filter_In. tauto.
  - intros p q Pp Pq. rewrite F, (eqb_side P p q), andb_false_r by congruence. auto.
Qed.

Lemma exec_reachable m c : reachable m -> reachable (fst (exec c m)).
Proof. intros R. apply (run_from_reachable [c] m R). Qed.

Lemma part_outputs P history : forall m n, reachable m -> reachable n -> part P m n -> Forall (on_one_side P) history ->
  Forall2 same_output (answers_of P history (outputs history m)) (outputs (filter (belongs P) history) n) /\
  part P (run history m) (run (filter (belongs P) history) n).
Proof.
  induction history as [|c l IH]; intros m n R1 R2 H F; [split; [constructor|exact H]|]. inversion F as [|? ? O F']; subst.
  destruct (part_exec P m n c R1 R2 H O) as [H' S]. unfold answers_of. cbn [outputs combine filter fst].
  destruct (belongs P c) eqn:B; cbn [map snd outputs].
  - destruct (IH _ _ (exec_reachable m c R1) (exec_reachable n c R2) H' F') as [Q1 Q2]. split; [constructor; auto|exact Q2].
  - apply (IH _ _ (exec_reachable m c R1) R2 H' F').
Qed.

(** Two lists of groups that hold the same data, grouped alike. *)
Definition grouping (l : list (list pystr)) : Prop := NoDup (concat l) /\ forall c, In c l -> c <> [].

Lemma regroup l : forall k, grouping l -> grouping k -> Permutation (concat l) (concat k) ->
  (forall a b, (exists c, In c l /\ In a c /\ In b c) <-> (exists c, In c k /\ In a c /\ In b c)) ->
  exists k', Permutation k k' /\ Forall2 (@Permutation pystr) l k'.
Proof.
  induction l as [|c l IH]; intros k Gl Gk P T.
  - exists []. split; auto. destruct k as [|c k]; auto. exfalso. destruct c as [|x c]; [apply (proj2 Gk []); simpl; auto|].
    apply (Permutation_in x (Permutation_sym P)). simpl. auto.
  - destruct Gl as [Nl El]. assert (Ec := El c (or_introl eq_refl)). destruct c as [|x c']; [contradiction|]. set (c := x :: c') in *.
    assert (X : exists d, In d k /\ In x d). { destruct (proj1 (T x x)) as (d & D & X & _); [exists c; simpl; auto|]. exists d. auto. }
    destruct X as (d & D & X). destruct (in_split _ _ D) as (k1 & k2 & ->).
    assert (Pk : Permutation (k1 ++ d :: k2) (d :: k1 ++ k2)) by (symmetry; apply Permutation_middle).
    assert (Pc : Permutation (concat (k1 ++ d :: k2)) (d ++ concat (k1 ++ k2))).
    { rewrite !concat_app. simpl. rewrite !app_assoc. apply Permutation_app_tail, Permutation_app_comm. }
    destruct Gk as [Nk Ek]. assert (Nk' := Permutation_NoDup Pc Nk). cbn [concat] in Nl.
    assert (U : forall e y, In e (k1 ++ k2) -> In y e -> In y d -> False).
    { intros e y Ie Y1 Y2. apply NoDup_app_inv in Nk'. destruct Nk' as (_ & _ & Q). apply (Q y); auto. apply in_concat. exists e. auto. }
    assert (V : forall e y, In e l -> In y e -> In y c -> False).
    { intros e y Ie Y1 Y2. apply NoDup_app_inv in Nl. destruct Nl as (_ & _ & Q). apply (Q y); auto. apply in_concat. exists e. auto. }
    assert (Kin : forall e, In e (k1 ++ d :: k2) <-> e = d \/ In e (k1 ++ k2)).
    { intro e. rewrite !in_app_iff. simpl. intuition. }
    assert (CD : Permutation c d).
    { apply NoDup_Permutation.
      - apply NoDup_app_inv in Nl. tauto.
      - apply NoDup_app_inv in Nk'. tauto.
      - intro y. split; intro Y.
        + destruct (proj1 (T x y)) as (e & E & E1 & E2). { exists c. simpl. auto. }
          apply Kin in E. destruct E as [->|E]; auto. exfalso. apply (U e x); auto.
        + destruct (proj2 (T x y)) as (e & [<-|E] & E1 & E2); auto. { exists d. rewrite Kin. auto. } exfalso. apply (V e x); auto. simpl. auto. }
    destruct (IH (k1 ++ k2)) as (k' & Q1 & Q2).
    + split; [apply NoDup_app_inv in Nl; tauto|]. intros e E. apply El. simpl. auto.
    + split; [apply NoDup_app_inv in Nk'; tauto|]. intros e E. apply Ek. apply Kin. auto.
    + apply (Permutation_app_inv_l c). cbn [concat] in P. rewrite P, Pc. apply Permutation_app_tail. symmetry. auto.
    + intros a b. split; intros (e & E & E1 & E2).
      * destruct (proj1 (T a b)) as (f & F & F1 & F2). { exists e. simpl. auto. }
        apply Kin in F. destruct F as [->|F]; [|exists f; auto]. exfalso. apply (V e a); auto. apply (Permutation_in _ (Permutation_sym CD)). auto.
      * destruct (proj2 (T a b)) as (f & [<-|F] & F1 & F2). { exists e. rewrite Kin. auto. }
        -- exfalso. apply (U e a); auto. apply (Permutation_in _ CD). auto.
        -- exists f. auto.
    + exists (d :: k'). split; [rewrite Pk; constructor; auto|]. constructor; auto.
Qed.

(*PROP C131: when every call of a history is about data of one side only, the answers to the calls of this side are those of a manager that has only the data of this side and gets only its calls, up to the order of the IDs of a conflict. *)
Lemma C131_teams_proof :
  forall side ids history, Forall (on_one_side side) history ->
    Forall2 same_output (answers_of side history (outputs history (init ids))) (outputs (filter (belongs side) history) (init (filter side ids))).
Proof. intros P l h F. apply part_outputs; auto; try apply (run_reachable _ []). apply part_init. Qed.

(*EX
(** The deletion of the other side has put the IDs of the conflict in another order. *)
Example C131_teams_ex : Forall (on_one_side first_team) work /\
  answers_of first_team work (outputs work (init [d; c; b; a])) =
    [Ok (VBool true); Ok (VBool true); Ok (VBool true); Raise ValueError; Ok (VConflict (Some [a; c; e]))] /\
  outputs (filter (belongs first_team) work) (init (filter first_team [d; c; b; a])) =
    [Ok (VBool true); Ok (VBool true); Ok (VBool true); Raise ValueError; Ok (VConflict (Some [c; a; e]))].
Proof.
  split; [|split; vm_compute; reflexivity].
  repeat constructor; try (exists true; intros x X; cbn in X; repeat (destruct X as [<-|X]; [reflexivity|]); contradiction);
    exists false; intros x X; cbn in X; repeat (destruct X as [<-|X]; [reflexivity|]); contradiction.
Qed.
EX*)

Lemma one_side_other P c : on_one_side P c -> on_one_side (other_side P) c.
Proof. intros [s H]. exists (negb s). intros x X. unfold other_side. rewrite H; auto. Qed.

Lemma part_across P m n a b : Inv m -> part P m n -> In a (ids m) -> In b (ids m) -> P a = true -> P b = false -> infer m a b = None.
Proof.
  intros I H Ma Mb Pa Pb.
  assert (L : forall x y, linked (added_must m) x y -> P x = P y).
  { intros x y. induction 1 as [|x y z L IH S]; auto. rewrite IH. destruct (bool_dec (P y) (P z)) as [|N]; auto. exfalso.
    destruct S as [S|S]; revert S; apply (part_cross P m n); auto. }
  apply infer_None; auto. rewrite <- added_linked, <- added_separated by auto. split.
  - intro Q. apply L in Q. congruence.
  - intros (x & y & Lx & Ly & C). apply L in Lx, Ly. destruct C as [C|C]; revert C; apply (part_cross P m n); auto; congruence.
Qed.

Lemma comps_grouping m : Inv m -> grouping (comps m).
Proof.
  intro I. split.
  - apply (Permutation_NoDup (Permutation_sym (comps_permutation m I))). apply inv_nodup; auto.
  - intros c C. apply comps_In in C. destruct C as (x & X & ->) eqn:?. intro Q. assert (In x (comp_of m x)).
    { apply comp_of_In; auto. constructor. } rewrite Q in *. contradiction.
Qed.

(*PROP C131: the manager of the whole history is put together from the managers of the two sides: its IDs are theirs, it knows nothing between the two sides, and its components are theirs. *)
Lemma C131_together_proof :
  forall side ids history, Forall (on_one_side side) history ->
    let m := run history (init ids) in
    let m1 := run (filter (belongs side) history) (init (filter side ids)) in
    let m2 := run (filter (belongs (other_side side)) history) (init (filter (other_side side) ids)) in
    (exists l, ask get_list_of_managed_data_IDs m = Ok l /\ ask get_list_of_managed_data_IDs m1 = Ok (filter side l) /\
       ask get_list_of_managed_data_IDs m2 = Ok (filter (other_side side) l)) /\
    (forall x y, managed m x -> managed m y -> side x <> side y -> inferred m x y None) /\
    (exists l l1 l2 k, ask get_connected_components m = Ok l /\ ask get_connected_components m1 = Ok l1 /\ ask get_connected_components m2 = Ok l2 /\
       Permutation (l1 ++ l2) k /\ Forall2 (@Permutation pystr) l k).
Proof.
  intros P l0 h F m m1 m2.
  assert (F2 : Forall (on_one_side (other_side P)) h) by (eapply Forall_impl; [|exact F]; apply one_side_other).
  assert (H1 : part P m m1) by (apply part_outputs; auto; try apply (run_reachable _ []); apply part_init).
  assert (H2 : part (other_side P) m m2) by (apply part_outputs; auto; try apply (run_reachable _ []); apply part_init).
  assert (I : Inv m) by apply reachable_inv, run_reachable. assert (I1 : Inv m1) by apply reachable_inv, run_reachable.
  assert (I2 : Inv m2) by apply reachable_inv, run_reachable. clearbody m m1 m2. split; [|split].
  - exists (ids m). unfold ask. rewrite !run_managed. cbn [snd]. rewrite (proj1 H1), (proj1 H2). auto.
  - intros x y X Y N. apply managed_ids in X. apply managed_ids in Y. unfold inferred, ask. rewrite run_inferred by auto.
    assert (B : both m x y = true) by (apply both_true; auto). rewrite B. cbn [snd]. f_equal.
    destruct (P x) eqn:Px, (P y) eqn:Py; try congruence.
    + apply (part_across P m m1); auto.
    + rewrite infer_sym by auto. apply (part_across P m m1); auto.
  - exists (comps m), (comps m1), (comps m2). unfold ask. rewrite !run_components by auto. cbn [snd].
    assert (Ids : forall x, In x (ids m) <-> In x (ids m1) \/ In x (ids m2)).
    { intro x. rewrite (proj1 H1), (proj1 H2), !filter_In. unfold other_side. destruct (P x); simpl; intuition discriminate. }
    assert (Dis : forall x, In x (ids m1) -> In x (ids m2) -> False).
    { intros x. rewrite (proj1 H1), (proj1 H2), !filter_In. unfold other_side. destruct (P x); simpl; intuition discriminate. }
    assert (Cin : forall k c x, Inv k -> In c (comps k) -> In x c -> In x (ids k)).
    { intros k c x Ik C X. apply (Permutation_in _ (comps_permutation k Ik)). apply in_concat. exists c. auto. }
    destruct (regroup (comps m) (comps m1 ++ comps m2)) as (k & K1 & K2).
    + apply comps_grouping; auto.
    + destruct (comps_grouping m1 I1) as [N1 E1], (comps_grouping m2 I2) as [N2 E2]. split.
      * rewrite concat_app. apply NoDup_app_intro; auto. intros x X1 X2.
        apply (Dis x); eapply Permutation_in; [apply comps_permutation| |apply comps_permutation|]; eauto.
      * intros c C. apply in_app_iff in C. destruct C; auto.
    + rewrite concat_app, !comps_permutation by auto. apply NoDup_Permutation.
      * apply inv_nodup; auto.
      * apply NoDup_app_intro; [apply inv_nodup; auto|apply inv_nodup; auto|]. intros x A B. apply (Dis x); auto.
      * intro x. rewrite in_app_iff. apply Ids.
    + assert (Lk : forall x y, In x (ids m) -> In y (ids m) -> (linked (sml m) x y <-> (P x = true /\ P y = true /\ linked (sml m1) x y) \/ (P x = false /\ P y = false /\ linked (sml m2) x y))).
      { intros x y X Y. rewrite <- !added_linked by auto. assert (A1 := part_linked P m m1 x y I I1 H1).
        assert (A2 := part_linked (other_side P) m m2 x y I I2 H2). unfold other_side in A2.
        destruct (P x), (P y); simpl in *; intuition discriminate. }
      intros x y. split.
      * intros (c & C & X & Y). assert (Mx := Cin m c x I C X). assert (My := Cin m c y I C Y).
        assert (L : linked (sml m) x y) by (apply comps_common; auto; exists c; auto). apply Lk in L; auto.
        destruct L as [(Px & Py & L)|(Px & Py & L)].
        -- apply comps_common in L; auto; try (rewrite (proj1 H1); apply filter_In; auto). destruct L as (e & E & E'). exists e. rewrite in_app_iff. auto.
        -- apply comps_common in L; auto; try (rewrite (proj1 H2); apply filter_In; unfold other_side; rewrite ?Px, ?Py; auto).
           destruct L as (e & E & E'). exists e. rewrite in_app_iff. auto.
      * intros (c & C & X & Y). apply in_app_iff in C. destruct C as [C|C].
        -- assert (Mx := Cin m1 c x I1 C X). assert (My := Cin m1 c y I1 C Y). apply comps_common; try (apply Ids; auto); auto.
           apply Lk; try (apply Ids; auto). left. assert (Mx' := Mx). assert (My' := My). rewrite (proj1 H1) in Mx', My'. apply filter_In in Mx', My'.
           split; [tauto|]. split; [tauto|]. apply comps_common; auto. exists c. auto.
        -- assert (Mx := Cin m2 c x I2 C X). assert (My := Cin m2 c y I2 C Y). apply comps_common; try (apply Ids; auto); auto.
           apply Lk; try (apply Ids; auto). right. assert (Mx' := Mx). assert (My' := My). rewrite (proj1 H2) in Mx', My'. apply filter_In in Mx', My'.
           destruct Mx' as [_ Mx'], My' as [_ My']. unfold other_side in Mx', My'. rewrite negb_true_iff in Mx', My'.
           split; [tauto|]. split; [tauto|]. apply comps_common; auto. exists c. auto.
    + exists k. auto.
Qed.

(*EX
Example C131_together_ex :
  ask get_connected_components (run work (init [d; c; b; a])) = Ok [[d]; [a; c]; [b]; [e]] /\
  ask get_connected_components (run (filter (belongs first_team) work) (init (filter first_team [d; c; b; a]))) = Ok [[c; a]; [e]] /\
  ask get_connected_components (run (filter (belongs (other_side first_team)) work) (init (filter (other_side first_team) [d; c; b; a]))) = Ok [[d]; [b]].
Proof. vm_compute. auto. Qed.
EX*)
