(** * The names of the data do not matter *)

From Coq Require Import String List Bool Arith QArith Permutation Lia.
From Verif Require Import Base Manager Spec Closure ManagerProofs ManagerInv ManagerSem ManagerQueries ManagerThms ResumeSpec RepairThms EffortThms NamesSpec.
Import ListNotations.
Open Scope nat_scope.

(*HEADER
(** * Renaming the data (C101) *)

From Coq Require Import String List Bool Arith QArith Permutation.
From Verif Require Import Base Manager Spec ResumeSpec NamesSpec NamesThms.
Import ListNotations.
Open Scope nat_scope.
HEADER*)

Section Renaming.
  Variable f : pystr -> pystr.
  Hypothesis inj : injective f.

  Definition ren (m1 m2 : mgr) : Prop :=
    ids m2 = map f (ids m1) /\ forall t p q, added m1 t p q <-> added m2 t (f p) (f q).

  Lemma eqb_ren x y : eqb (f x) (f y) = eqb x y.
  Proof. destruct (eqb_spec x y) as [->|N]; [apply eqb_refl|]. apply eqb_neq. intro E. apply N, inj, E. Qed.
  Lemma In_ren x l : In (f x) (map f l) <-> In x l.
  Proof. rewrite in_map_iff. split; [intros (y & E & Iy); apply inj in E; subst; auto|eauto]. Qed.
  Lemma mem_ren x l : mem (f x) (map f l) = mem x l.
  Proof. apply eq_true_iff_eq. rewrite !mem_In. apply In_ren. Qed.

  Section Pair.
    Variables m1 m2 : mgr.
    Hypothesis I1 : Inv m1.
    Hypothesis I2 : Inv m2.
    Hypothesis N : ren m1 m2.

    Lemma ids_ren x : In (f x) (ids m2) <-> In x (ids m1).
    Proof. rewrite (proj1 N). apply In_ren. Qed.
    Lemma added_from t u v : added m2 t u v -> exists p q, u = f p /\ v = f q /\ added m1 t p q.
    Proof.
      intro A. destruct (added_ids m2 t u v I2 A) as [Iu Iv]. rewrite (proj1 N) in Iu, Iv. apply in_map_iff in Iu, Iv.
      destruct Iu as (p & <- & _), Iv as (q & <- & _). exists p, q. split; auto. split; auto. apply N. auto.
    Qed.
    Lemma linked_ren x y : linked (added_must m1) x y -> linked (added_must m2) (f x) (f y).
    Proof. induction 1 as [|x y z L IH S]; [constructor|]. econstructor; [exact IH|]. destruct S; [left|right]; apply N; auto. Qed.
    Lemma linked_from u v : linked (added_must m2) u v -> forall x, u = f x -> exists y, v = f y /\ linked (added_must m1) x y.
    Proof.
      induction 1 as [u|u v w L IH S]; intros x ->; [exists x; split; auto; constructor|].
      destruct (IH x eq_refl) as (y & -> & Ly). destruct S as [S|S]; destruct (added_from _ _ _ S) as (p & q & Ep & Eq & A).
      - exists q. split; auto. apply inj in Ep. subst. econstructor; eauto.
      - exists p. split; auto. apply inj in Eq. subst. econstructor; eauto.
    Qed.
    Lemma linked_iff x y : linked (sml m1) x y <-> linked (sml m2) (f x) (f y).
    Proof.
      rewrite <- !added_linked by auto. split; [apply linked_ren|]. intro L. destruct (linked_from _ _ L x eq_refl) as (z & E & Z). apply inj in E. subst. auto.
    Qed.
    Lemma separated_iff x y : separated (sml m1) (scl m1) x y <-> separated (sml m2) (scl m2) (f x) (f y).
    Proof.
      rewrite <- !added_separated by auto. split.
      - intros (p & q & Lp & Lq & C). exists (f p), (f q). split; [apply linked_ren; auto|]. split; [apply linked_ren; auto|]. destruct C; [left|right]; apply N; auto.
      - intros (u & v & Lu & Lv & C). destruct (linked_from _ _ Lu x eq_refl) as (p & -> & Lp). destruct (linked_from _ _ Lv y eq_refl) as (q & -> & Lq).
        exists p, q. split; auto. split; auto. destruct C; [left|right]; apply N; auto.
    Qed.
    Lemma infer_ren a b : In a (ids m1) -> In b (ids m1) -> infer m2 (f a) (f b) = infer m1 a b.
    Proof.
      intros Ia Ib. assert (Ia' := Ia). assert (Ib' := Ib). apply ids_ren in Ia', Ib'.
      destruct (infer_cases m1 a b) as [E|[E|E]]; rewrite E.
      - apply infer_ML in E; auto. apply infer_ML; auto. apply linked_iff; auto.
      - apply infer_CL in E; auto. apply infer_CL; auto. apply separated_iff; auto.
      - apply infer_None in E; auto. apply infer_None; auto. rewrite <- linked_iff, <- separated_iff. auto.
    Qed.
    Lemma both_ren a b : both m2 (f a) (f b) = both m1 a b.
    Proof. unfold both. rewrite (proj1 N), !mem_ren. auto. Qed.
    Lemma accepts_ren a b t : accepts m2 (f a) (f b) t = accepts m1 a b t.
    Proof.
      unfold accepts. rewrite both_ren. destruct (both m1 a b) eqn:B; auto. apply both_true in B. rewrite infer_ren by tauto. auto.
    Qed.
    Lemma addf_ren a b : In a (ids m1) -> In b (ids m1) -> addf m2 (f a) (f b) = addf m1 a b.
    Proof.
      intros Ia Ib. assert (Ia' := Ia). assert (Ib' := Ib). apply ids_ren in Ia', Ib'.
      assert (A1 := fun t => addf_added m1 t a b I1). assert (A2 := fun t => addf_added m2 t (f a) (f b) I2).
      assert (V : forall m x y c, Inv m -> In x (ids m) -> In y (ids m) -> addf m x y = Some c -> c = (fst c, 1%Q)).
      { intros m x y c I Ix Iy E. assert (Q : added m (fst c) x y).
        { exists (snd c). unfold ask. rewrite run_added by auto. assert (both m x y = true) as -> by (apply both_true; auto). cbn [snd]. rewrite E. destruct c; auto. }
        apply addf_added in Q; auto. destruct Q as (_ & _ & Q). congruence. }
      destruct (addf m1 a b) as [c|] eqn:E1.
      - assert (Q := V m1 a b c I1 Ia Ib E1). rewrite Q in *. apply A2. apply N. apply A1. auto.
      - destruct (addf m2 (f a) (f b)) as [c|] eqn:E2; auto. assert (Q := V m2 _ _ c I2 Ia' Ib' E2). rewrite Q in *.
        assert (H : added m1 (fst c) a b) by (apply N, A2; auto). apply A1 in H. destruct H as (_ & _ & H). congruence.
    Qed.

    (** ** Components *)
    Lemma comp_ren x : In x (ids m1) -> Permutation (map f (comp_of m1 x)) (comp_of m2 (f x)).
    Proof.
      intro Ix. assert (Ix' := Ix). apply ids_ren in Ix'. apply NoDup_Permutation.
      - apply FinFun.Injective_map_NoDup; [exact inj|apply comp_of_NoDup; auto].
      - apply comp_of_NoDup; auto.
      - intro u. rewrite in_map_iff, comp_of_In by auto. split.
        + intros (y & <- & Iy). apply linked_iff. apply comp_of_In in Iy; auto.
        + intro L. apply added_linked in L; auto. destruct (linked_from _ _ L x eq_refl) as (y & -> & Ly). exists y. split; auto.
          apply comp_of_In; auto. apply added_linked; auto.
    Qed.
    Lemma comp_eq_iff x y : In x (ids m1) -> In y (ids m1) -> comp_of m1 x = comp_of m1 y <-> comp_of m2 (f x) = comp_of m2 (f y).
    Proof.
      intros Ix Iy. assert (Ix' := Ix). assert (Iy' := Iy). apply ids_ren in Ix', Iy'. split; intro E.
      - symmetry. apply comp_of_share; auto. apply comp_of_In; auto. apply linked_iff. apply comp_of_In; auto. rewrite E. apply self_comp; auto.
      - symmetry. apply comp_of_share; auto. apply comp_of_In; auto. apply linked_iff. apply comp_of_In; auto. rewrite E. apply self_comp; auto.
    Qed.
    Lemma comps_ren_aux l : incl l (ids m1) -> forall reps, incl reps (ids m1) ->
      exists reps', incl reps' (ids m1) /\
        comps_aux m1 l (map (comp_of m1) reps) = map (comp_of m1) reps' /\
        comps_aux m2 (map f l) (map (fun x => comp_of m2 (f x)) reps) = map (fun x => comp_of m2 (f x)) reps'.
    Proof.
      induction l as [|x l IH]; intros L reps R; simpl; [exists reps; auto|].
      assert (X : In x (ids m1)) by (apply L; left; auto).
      assert (E : mem (comp_of m2 (f x)) (map (fun x => comp_of m2 (f x)) reps) = mem (comp_of m1 x) (map (comp_of m1) reps)).
      { apply eq_true_iff_eq. rewrite !mem_In, !in_map_iff. split; intros (r & Q & J); exists r; (split; [|auto]); apply comp_eq_iff; auto. }
      rewrite E. destruct (mem (comp_of m1 x) (map (comp_of m1) reps)).
      - apply IH; auto. intros z Z. apply L; right; auto.
      - change (map (comp_of m1) reps ++ [comp_of m1 x]) with (map (comp_of m1) reps ++ map (comp_of m1) [x]).
        change (map (fun x => comp_of m2 (f x)) reps ++ [comp_of m2 (f x)]) with (map (fun x => comp_of m2 (f x)) reps ++ map (fun x => comp_of m2 (f x)) [x]).
        rewrite <- !map_app. apply IH; [intros z Z; apply L; right; auto|]. intros z Z. apply in_app_iff in Z. destruct Z as [Z|[<-|[]]]; auto.
    Qed.
    Lemma comps_ren : Forall2 (@Permutation pystr) (map (map f) (comps m1)) (comps m2).
    Proof.
      destruct (comps_ren_aux (ids m1) (incl_refl _) [] ltac:(intros z [])) as (reps & R & E1 & E2). simpl in E1, E2.
      unfold comps. rewrite (proj1 N), E1, E2. clear E1 E2. induction reps as [|r reps IH]; simpl; constructor.
      - apply comp_ren. apply R. left; auto.
      - apply IH. intros z Z. apply R. right; auto.
    Qed.
    Lemma conflict_ren a b l1 l2 : Forall2 (@Permutation pystr) (map (map f) l1) l2 ->
      Permutation (map f (flat_map (fun c => if mem a c || mem b c then c else []) l1))
                  (flat_map (fun c => if mem (f a) c || mem (f b) c then c else []) l2).
    Proof.
      revert l2. induction l1 as [|c1 l1 IH]; intros l2 F; inversion F as [|? c2 ? l2' P F']; subst; cbn [flat_map map]; [constructor|].
      assert (E : forall x, mem (f x) c2 = mem x c1).
      { intro x. rewrite <- (mem_ren x c1). apply eq_true_iff_eq. rewrite !mem_In. split; apply Permutation_in; auto. apply Permutation_sym; auto. }
      rewrite map_app, !E. apply Permutation_app; [|apply IH; auto]. destruct (mem a c1 || mem b c1); [exact P|constructor].
    Qed.

    (** ** Errors *)
    Lemma managed_ren x : managed m2 (f x) <-> managed m1 x.
    Proof. rewrite !managed_ids. apply ids_ren. Qed.
    Lemma error_ren c : documented_error m2 (rename_call f c) <-> documented_error m1 c.
    Proof.
      destruct c; cbn [rename_call documented_error]; rewrite ?managed_ren; try tauto.
      split; (intros [H|[H|[H|(u & E & D)]]]; auto).
      - destruct (both m1 a b) eqn:B.
        + apply both_true in B. destruct B as [Ia Ib]. right. right. right. exists u. split; auto. apply inferred_spec; auto.
          rewrite inferred_spec in E by (auto; apply ids_ren; auto). rewrite infer_ren in E by auto. auto.
        + apply not_both in B. tauto.
      - destruct (both m1 a b) eqn:B.
        + apply both_true in B. destruct B as [Ia Ib]. right. right. right. exists u. split; auto.
          apply inferred_spec in E; auto. apply inferred_spec; auto; try (apply ids_ren; auto). rewrite infer_ren by auto. auto.
        + apply not_both in B. tauto.
    Qed.
  End Pair.

  (** ** Effects *)
  Lemma dec_ok m c : Inv m -> a_ok (abstract m) c \/ ~ a_ok (abstract m) c.
  Proof.
    intro I. destruct (abstract_shows m I) as [S C]. destruct (exec_result m c I) as [OK|[E ER]].
    - left. apply (a_ok_exec m _ c I S C); auto.
    - right. intro OK. apply (a_ok_exec m _ c I S C) in OK. destruct OK as (v & EV). congruence.
  Qed.

  Lemma ok_error m c : reachable m -> a_ok (abstract m) c <-> ~ documented_error m c.
  Proof.
    intro R. assert (I := reachable_inv m R). destruct (abstract_shows m I) as [S C]. rewrite (a_ok_exec m _ c I S C).
    destruct (C06_only_documented_errors_proof m R c) as (_ & H & _). rewrite <- H. split.
    - intros (v & E) E'. congruence.
    - intro X. destruct (exec_result m c I) as [OK|[E ER]]; auto. tauto.
  Qed.

  Definition both_ok (m1 m2 : mgr) : Prop := reachable m1 /\ reachable m2 /\ ren m1 m2.

  Lemma ok_ren m1 m2 c : both_ok m1 m2 -> a_ok (abstract m2) (rename_call f c) <-> a_ok (abstract m1) c.
  Proof.
    intros (R1 & R2 & N). rewrite !ok_error by auto. rewrite (error_ren m1 m2) by (try apply reachable_inv; auto). tauto.
  Qed.

  Lemma abstract_ids m : a_ids (abstract m) = ids m.
  Proof. reflexivity. Qed.

  Lemma pair_eqb_ren a b p q : pair_eqb (f a) (f b) (f p) (f q) = pair_eqb a b p q.
  Proof. unfold pair_eqb. rewrite !eqb_ren. auto. Qed.

  Lemma con_ren m1 m2 p q : both_ok m1 m2 -> a_con (abstract m2) (f p) (f q) = a_con (abstract m1) p q.
  Proof.
    intros (R1 & R2 & N). assert (I1 := reachable_inv m1 R1). assert (I2 := reachable_inv m2 R2).
    assert (H1 := fun t => abstract_added m1 t p q I1). assert (H2 := fun t => abstract_added m2 t (f p) (f q) I2).
    destruct (a_con (abstract m1) p q) as [t|] eqn:E1.
    - apply H2, N, H1. auto.
    - destruct (a_con (abstract m2) (f p) (f q)) as [t|] eqn:E2; auto.
      assert (X : None = Some t) by (apply H1, N, H2; auto). discriminate.
  Qed.

  Lemma effect_ren m1 m2 c p q : both_ok m1 m2 ->
    a_con (a_effect (abstract m2) (rename_call f c)) (f p) (f q) = a_con (a_effect (abstract m1) c) p q.
  Proof.
    intro B. destruct c; cbn [rename_call a_effect a_con]; rewrite ?pair_eqb_ren, ?eqb_ren, ?(con_ren m1 m2) by auto; auto.
  Qed.

  Lemma shows_exec_ids m c : reachable m -> ids (fst (exec c m)) = if match snd (exec c m) with Ok _ => true | Raise _ => false end then a_ids (a_effect (abstract m) c) else ids m.
  Proof.
    intro R. assert (I := reachable_inv m R). destruct (abstract_shows m I) as [S C]. destruct (exec_result m c I) as [(v & E)|[E ER]].
    - rewrite E. assert (OK : a_ok (abstract m) c) by (apply (a_ok_exec m _ c I S C); eauto).
      destruct (a_effect_shows m _ c I S C OK) as [S' _]. symmetry. apply shows_ids; auto.
    - rewrite ER, E. auto.
  Qed.

  Lemma filter_map_ren x l : filter (fun y => negb (eqb (f x) y)) (map f l) = map f (filter (fun y => negb (eqb x y)) l).
  Proof. induction l as [|y l IH]; auto. cbn [map filter]. rewrite eqb_ren. destruct (eqb x y); cbn [negb map]; rewrite IH; auto. Qed.

  Lemma exec_ren m1 m2 c : both_ok m1 m2 -> both_ok (fst (exec c m1)) (fst (exec (rename_call f c) m2)).
  Proof.
    intro B. assert (B' := B). destruct B' as (R1 & R2 & N). assert (I1 := reachable_inv m1 R1). assert (I2 := reachable_inv m2 R2).
    split; [apply (run_reachable_from [c] m1 R1)|]. split; [apply (run_reachable_from [rename_call f c] m2 R2)|].
    assert (OK := ok_ren m1 m2 c B). destruct (abstract_shows m1 I1) as [S1 C1]. destruct (abstract_shows m2 I2) as [S2 C2]. split.
    - rewrite !shows_exec_ids by auto. destruct (exec_result m1 c I1) as [(v & E)|[E ER]].
      + assert (O1 : a_ok (abstract m1) c) by (apply (a_ok_exec m1 _ c I1 S1 C1); eauto). apply OK in O1 as O2.
        apply (a_ok_exec m2 _ _ I2 S2 C2) in O2. destruct O2 as (v2 & E2). rewrite E, E2.
        destruct c; cbn [rename_call a_effect a_ids]; rewrite ?abstract_ids, ?(proj1 N), ?map_app, ?filter_map_ren; auto.
      + assert (O2 : ~ a_ok (abstract m2) (rename_call f c)).
        { intro O. apply OK in O. apply (a_ok_exec m1 _ c I1 S1 C1) in O. destruct O as (v & EV). congruence. }
        destruct (exec_result m2 (rename_call f c) I2) as [H|[E2 ER2]]; [exfalso; apply O2; apply (a_ok_exec m2 _ _ I2 S2 C2); auto|].
        rewrite ER, ER2. apply N.
    - intros t p q. rewrite !added_step by auto. rewrite OK, (effect_ren m1 m2) by auto. rewrite (proj2 N). tauto.
  Qed.

  Lemma output_ren m1 m2 c : both_ok m1 m2 -> same_output (rename_result f (snd (exec c m1))) (snd (exec (rename_call f c) m2)).
  Proof.
    intro B. assert (B' := B). destruct B' as (R1 & R2 & N). assert (I1 := reachable_inv m1 R1). assert (I2 := reachable_inv m2 R2).
    assert (OK := ok_ren m1 m2 c B). destruct (abstract_shows m1 I1) as [S1 C1]. destruct (abstract_shows m2 I2) as [S2 C2].
    destruct (C06_only_documented_errors_proof m1 R1 c) as (_ & _ & T1). destruct (C06_only_documented_errors_proof m2 R2 (rename_call f c)) as (_ & _ & T2).
    destruct (exec_result m1 c I1) as [(v1 & E1)|[X1 E1]].
    - assert (O1 : a_ok (abstract m1) c) by (apply (a_ok_exec m1 _ c I1 S1 C1); eauto). apply OK in O1 as O2.
      apply (a_ok_exec m2 _ _ I2 S2 C2) in O2. destruct O2 as (v2 & E2). specialize (T1 v1 E1). specialize (T2 v2 E2). rewrite E1, E2.
      destruct c; cbn [rename_call] in *; cbn [exec] in E1, E2; unfold bind in E1, E2.
      + subst. reflexivity.
      + subst. reflexivity.
      + rewrite run_managed in E1, E2. inversion E1; subst. inversion E2; subst. cbn. rewrite (proj1 N). auto.
      + subst. reflexivity.
      + subst. reflexivity.
      + rewrite run_added in E1, E2 by auto. rewrite (both_ren m1 m2) in E2 by auto. destruct (both m1 a b) eqn:Q; [|discriminate].
        apply both_true in Q. inversion E1; subst. inversion E2; subst. cbn. rewrite (addf_ren m1 m2) by tauto. auto.
      + rewrite run_inferred in E1, E2 by auto. rewrite (both_ren m1 m2) in E2 by auto. destruct (both m1 a b) eqn:Q; [|discriminate].
        apply both_true in Q. inversion E1; subst. inversion E2; subst. cbn. rewrite (infer_ren m1 m2) by tauto. auto.
      + rewrite run_components in E1, E2 by auto. inversion E1; subst. inversion E2; subst. cbn. apply comps_ren; auto.
      + destruct (run_completude m1 I1) as (b1 & Q1 & H1). destruct (run_completude m2 I2) as (b2 & Q2 & H2). rewrite Q1 in E1. rewrite Q2 in E2.
        inversion E1; subst. inversion E2; subst. cbn. f_equal. f_equal. apply eq_true_iff_eq. rewrite H1, H2. split.
        * intros K u v Iu Iv. rewrite (proj1 N) in Iu, Iv. apply in_map_iff in Iu, Iv. destruct Iu as (x & <- & Ix), Iv as (y & <- & Iy).
          rewrite (infer_ren m1 m2) by auto. auto.
        * intros K x y Ix Iy. rewrite <- (infer_ren m1 m2) by auto. apply K; apply (ids_ren m1 m2); auto.
      + rewrite run_conflict in E1, E2 by auto. rewrite (both_ren m1 m2) in E2 by auto. rewrite (accepts_ren m1 m2) in E2 by auto.
        destruct (both m1 a b && mem t allowed_types); [|discriminate]. inversion E1; subst. inversion E2; subst.
        destruct (accepts m1 a b t); cbn; auto. apply conflict_ren; auto. apply comps_ren; auto.
    - assert (O2 : ~ a_ok (abstract m2) (rename_call f c)).
      { intro O. apply OK in O. apply (a_ok_exec m1 _ c I1 S1 C1) in O. destruct O as (v & EV). congruence. }
      destruct (exec_result m2 (rename_call f c) I2) as [H|[E2 ER2]]; [exfalso; apply O2; apply (a_ok_exec m2 _ _ I2 S2 C2); auto|].
      rewrite E1, ER2. reflexivity.
  Qed.

  Lemma dedup_ren l : dedup (map f l) = map f (dedup l).
  Proof.
    induction l as [|x l IH]; auto. cbn [map dedup]. f_equal. rewrite IH. apply filter_map_ren.
  Qed.

  Lemma init_ren l : both_ok (init l) (init (map f l)).
  Proof.
    split; [apply (run_reachable l [])|]. split; [apply (run_reachable (map f l) [])|]. split; [rewrite !init_ids; apply dedup_ren|].
    intros t p q. destruct (a_init_shows l) as [S1 C1]. destruct (a_init_shows (map f l)) as [S2 C2].
    rewrite (shows_added _ _ t p q (init_inv l) S1 C1), (shows_added _ _ t (f p) (f q) (init_inv _) S2 C2). cbn [a_init a_con].
    rewrite mem_ren, eqb_ren. tauto.
  Qed.

  Lemma outputs_ren l : forall m1 m2, both_ok m1 m2 ->
    Forall2 same_output (map (rename_result f) (outputs l m1)) (outputs (map (rename_call f) l) m2).
  Proof.
    induction l as [|c l IH]; intros m1 m2 B; cbn [outputs map]; [constructor|].
    constructor; [apply output_ren; auto|apply IH, exec_ren; auto].
  Qed.
End Renaming.

(*PROP C101: when the data are renamed, every history of calls gives the same answers with the new names, up to the order of IDs inside a component or a conflict. *)
Lemma C101_names_do_not_matter_proof :
  forall f ids history, injective f ->
    Forall2 same_output (map (rename_result f) (outputs history (init ids)))
                        (outputs (map (rename_call f) history) (init (map f ids))).
Proof. intros f ids h J. apply outputs_ren; auto. apply init_ren; auto. Qed.

(*EX
Definition A := str "a". Definition B := str "b". Definition C := str "c".
(** Reversing the names changes their alphabetical order. *)
Definition flip (x : pystr) : pystr := match x with c :: l => (if N.eqb c 97 then 99 else if N.eqb c 99 then 97 else c)%N :: l | [] => [] end.
Lemma flip_injective : injective flip.
Proof.
  intros [|c l] [|c' l']; cbn; try discriminate; auto. intro E. injection E as E1 E2. subst l'. f_equal.
  destruct (N.eqb_spec c 97), (N.eqb_spec c 99), (N.eqb_spec c' 97), (N.eqb_spec c' 99); congruence.
Qed.
Definition history : list call := [CallAddConstraint B C MUST_LINK 1%Q; CallAddConstraint A B MUST_LINK 1%Q; CallDeleteConstraint A A; CallComponents; CallAddConstraint A C CANNOT_LINK 1%Q].
Example C101_ex : outputs history (init [A; B; C]) = [Ok (VBool true); Ok (VBool true); Ok (VBool true); Ok (VComponents [[A; B; C]]); Raise ValueError] /\
  outputs (map (rename_call flip) history) (init (map flip [A; B; C])) = [Ok (VBool true); Ok (VBool true); Ok (VBool true); Ok (VComponents [[A; B; C]]); Raise ValueError] /\
  map flip [A; B; C] = [C; B; A].
Proof. split; [|split]; vm_compute; reflexivity. Qed.
EX*)
