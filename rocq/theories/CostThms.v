(** * What a call costs (C148). *)

From Coq Require Import String List Bool Arith ZArith QArith Lia.
(*HEADER
From Coq Require Import String List Bool Arith ZArith QArith Lia.
From Verif Require Import Base Manager Spec ManagerThms ManagerInv ManagerQueries Threads Readers EffortSpec CostSpec CostThms.
Import ListNotations.
Open Scope nat_scope.
HEADER*)
From Verif Require Import Base Manager Spec Closure ManagerProofs ManagerInv ManagerQueries ManagerThms EffortSpec EffortThms HierSpec WrongThms KnowThms Threads ThreadsThms Readers ReadersThms CostSpec.
Import ListNotations.
Open Scope nat_scope.
Open Scope t_scope.

Lemma steps_bind {T U} (p : prog T) (k : T -> prog U) m :
  steps (pbind p k) m = steps p m + match alone p m with (m1, Ok a) => steps (k a) m1 | _ => 0 end.
Proof. revert m. induction p as [[a|e]|f g IH]; intro m; cbn [pbind steps alone]; auto. rewrite IH. auto. Qed.
Lemma steps_le {T U} (p : prog T) (k : T -> prog U) m c1 c2 : steps p m <= c1 -> (forall a, snd (alone p m) = Ok a -> steps (k a) (fst (alone p m)) <= c2) -> steps (pbind p k) m <= c1 + c2.
Proof. intros H K. rewrite steps_bind. destruct (alone p m) as [m1 [a|e]]; [specialize (K a eq_refl); cbn in K|]; lia. Qed.
Lemma steps_read {T U} (q : mgr -> res T) (k : T -> prog U) m c : (forall a, q m = Ok a -> steps (k a) m <= c) -> steps (pbind (pread q) k) m <= 1 + c.
Proof. intro K. apply steps_le; [cbn; lia|]. cbn. auto. Qed.
Lemma steps_require {U} b (k : unit -> prog U) m c : (b = true -> steps (k tt) m <= c) -> steps (pbind (prequire b) k) m <= c.
Proof. intro K. destruct b; cbn; [auto|lia]. Qed.
Lemma steps_set_constraint a b v m : steps (p_set_constraint a b v) m = 1. Proof. reflexivity. Qed.
Lemma steps_set_ml a l m : steps (p_set_ml a l) m = 1. Proof. reflexivity. Qed.
Lemma steps_set_cl a l m : steps (p_set_cl a l) m = 1. Proof. reflexivity. Qed.
Lemma steps_for {T} (l : list T) f c : (forall x m, steps (f x) m <= c) -> forall m, steps (pfor l f) m <= c * length l.
Proof.
  intros H. induction l as [|x l IH]; intro m; cbn [pfor length]; [cbn; lia|]. rewrite Nat.mul_succ_r, Nat.add_comm. apply steps_le; auto.
Qed.

(** ** Questions *)
Lemma steps_inferred a b m : steps (p_get_inferred_constraint a b) m <= 4.
Proof.
  unfold p_get_inferred_constraint. apply (steps_read _ _ _ 3). intros k1 _. apply steps_require. intros _. apply (steps_read _ _ _ 2). intros k2 _. apply steps_require. intros _.
  apply (steps_read _ _ _ 1). intros ml _. destruct (mem a ml); [cbn; lia|]. apply (steps_read _ _ _ 0). intros cl _. destruct (mem a cl); cbn; lia.
Qed.
Lemma steps_added a b m : steps (p_get_added_constraint a b) m <= 3.
Proof.
  unfold p_get_added_constraint. apply (steps_read _ _ _ 2). intros k1 _. apply steps_require. intros _. apply (steps_read _ _ _ 1). intros k2 _. apply steps_require. intros _.
  destruct (str_leb a b); cbn; lia.
Qed.
(*PROP **C148.** A question about two data costs at most 4 accesses to the dictionaries of the manager, however many data and constraints there are. *)
Lemma C148_question_proof :
  forall a b m, question_cost (TGetInferred a b) m <= 4 /\ question_cost (TGetAdded a b) m <= 3.
Proof.
  intros a b m. unfold question_cost, p_exec. split.
  - apply (steps_le _ _ _ 4 0); [apply steps_inferred|]. cbn. auto.
  - apply (steps_le _ _ _ 3 0); [apply steps_added|]. cbn. auto.
Qed.
(*EX
Definition qa := str "a". Definition qb := str "b". Definition qc := str "c". Definition qd := str "d".
Definition four : mgr := run [CallAddConstraint qa qb MUST_LINK 1%Q; CallAddConstraint qc qd CANNOT_LINK 1%Q] (init [qa; qb; qc; qd]).
Lemma four_ok : reachable four /\ ask get_list_of_managed_data_IDs four = Ok [qa; qb; qc; qd].
Proof. split; [apply run_reachable|reflexivity]. Qed.
Example C148_question_ex : question_cost (TGetInferred qa qc) four = 4 /\ question_cost (TGetInferred qa qb) four = 3 /\ question_cost (TGetAdded qa qc) four = 3.
Proof. vm_compute. repeat split. Qed.
EX*)

(** ** Adding *)
Definition mls (m : mgr) (x : pystr) : option (list pystr) := option_map t_ml (dget x (ctrans m)).
Lemma set_cl_mls x s m y : mls (fst (alone (p_set_cl x s) m)) y = mls m y.
Proof.
  unfold mls, p_set_cl, pwrite. cbn [alone fst]. unfold dlookup. destruct (dget x (ctrans m)) as [t|] eqn:E; cbn [rbind ctrans]; auto. rewrite dget_dset. destruct (eqb_spec y x) as [->|]; auto. rewrite E. auto.
Qed.
Lemma for_set_cl_mls l s : forall m y, mls (fst (alone (pfor l (fun x => p_set_cl x s)) m)) y = mls m y.
Proof.
  induction l as [|x l IH]; intros m y; auto. cbn [pfor]. rewrite alone_bind. destruct (alone (p_set_cl x s) m) as [m1 [u|e]] eqn:E; cbn [fst].
  - rewrite IH, <- (set_cl_mls x s m y), E. auto.
  - rewrite <- (set_cl_mls x s m y), E. auto.
Qed.
Lemma steps_must a b m n : (forall ta tb, dget a (ctrans m) = Some ta -> dget b (ctrans m) = Some tb -> length (ounion (t_ml ta) (t_ml tb)) + length (ounion (t_cl ta) (t_cl tb)) <= n) ->
  steps (p_add_constraint_transitivity a b MUST_LINK) m <= 4 + 2 * n.
Proof.
  intro H. unfold p_add_constraint_transitivity. change (eqb MUST_LINK MUST_LINK) with true. cbv iota.
  apply (steps_read _ _ _ (3 + 2 * n)). intros ml1 E1. apply (steps_read _ _ _ (2 + 2 * n)). intros ml2 E2.
  apply (steps_read _ _ _ (1 + 2 * n)). intros cl1 E3. apply (steps_read _ _ _ (2 * n)). intros cl2 E4.
  unfold dlookup in *. destruct (dget a (ctrans m)) as [ta|]; [|discriminate]. destruct (dget b (ctrans m)) as [tb|]; [|discriminate]. cbn in E1, E2, E3, E4.
  injection E1 as <-. injection E2 as <-. injection E3 as <-. injection E4 as <-. specialize (H ta tb eq_refl eq_refl).
  set (nml := ounion (t_ml ta) (t_ml tb)) in *. set (ncl := ounion (t_cl ta) (t_cl tb)) in *.
  eapply Nat.le_trans; [apply (steps_le _ _ _ (2 * length nml) (2 * length ncl))|lia].
  - apply steps_for. intros x m'. apply (steps_le _ _ _ 1 1); cbn; auto.
  - intros _ _. apply steps_for. intros x m'. apply (steps_read _ _ _ 1). intros cl _. cbn. auto.
Qed.
Lemma steps_cannot a b t m n : eqb t MUST_LINK = false -> (forall ta tb, dget a (ctrans m) = Some ta -> dget b (ctrans m) = Some tb -> length (t_ml ta) + length (t_ml tb) <= n) ->
  steps (p_add_constraint_transitivity a b t) m <= 6 + n.
Proof.
  intros T H. unfold p_add_constraint_transitivity. rewrite T.
  apply (steps_read _ _ _ (5 + n)). intros cl1 E1. apply (steps_read _ _ _ (4 + n)). intros ml2 E2.
  apply (steps_read _ _ _ (3 + n)). intros cl2 E3. apply (steps_read _ _ _ (2 + n)). intros ml1 E4. apply (steps_read _ _ _ (1 + n)). intros ml1' E5.
  unfold dlookup in *. destruct (dget a (ctrans m)) as [ta|] eqn:Da; [|discriminate]. destruct (dget b (ctrans m)) as [tb|] eqn:Db; [|discriminate]. cbn in E1, E2, E3, E4, E5.
  injection E1 as <-. injection E2 as <-. injection E3 as <-. injection E4 as <-. injection E5 as <-. specialize (H ta tb eq_refl eq_refl).
  eapply Nat.le_trans; [apply (steps_le _ _ _ (1 * length (t_ml ta)) (1 + length (t_ml tb)))|lia].
  - apply steps_for. intros x m'. cbn. auto.
  - intros _ _. set (m1 := fst _). assert (M : mls m1 b = mls m b) by apply for_set_cl_mls. unfold mls in M. rewrite Db in M. cbn in M.
    apply steps_read. intros ml2' E. unfold dlookup in E. destruct (dget b (ctrans m1)) as [tb'|] eqn:D'; [|discriminate]. cbn in E, M. injection E as <-. injection M as EM. rewrite EM.
    rewrite <- (Nat.mul_1_l (length (t_ml tb))). apply steps_for. intros x m'. cbn. auto.
Qed.

Lemma disjoint_length (s t l : list pystr) : NoDup s -> NoDup t -> incl s l -> incl t l -> (forall x, In x s -> In x t -> False) -> length s + length t <= length l.
Proof.
  intros Ns Nt Is It D. rewrite <- app_length. apply NoDup_incl_length; [apply NoDup_app_intro; auto|]. intros x J. apply in_app_iff in J as [J|J]; auto.
Qed.

Lemma trans_good m x t : Inv m -> dget x (ctrans m) = Some t -> In x (ids m) /\ NoDup (t_ml t) /\ NoDup (t_cl t) /\ incl (t_ml t) (ids m) /\ incl (t_cl t) (ids m) /\
  (forall y, In y (t_ml t) <-> linked (sml m) x y) /\ (forall y, In y (t_cl t) <-> separated (sml m) (scl m) x y).
Proof.
  intros I E. assert (R := inv_rep _ I). assert (K := inv_keys _ I). assert (Ix : In x (ids m)) by (rewrite <- K; eapply dget_Some_key; eauto).
  assert (ML := rep_ml _ _ _ R x t E). assert (CL := rep_cl _ _ _ R x t E).
  assert (LI : forall y z, linked (sml m) y z -> In y (ids m) -> In z (ids m)).
  { intros y z L Iy. induction L as [|y z w _ IH S]; auto. rewrite <- K. destruct S as [S|S]; apply (rep_must _ _ _ R) in S; tauto. }
  split; auto. split; [eapply (rep_ml_nodup _ _ _ R); eauto|]. split; [eapply (rep_cl_nodup _ _ _ R); eauto|].
  split; [intros y J; apply ML in J; eauto|]. split; [|split; auto].
  intros y J. apply CL in J as (p & q & Lp & Lq & S). assert (Iq : In q (ids m)) by (rewrite <- K; destruct S as [S|S]; apply (rep_cannot _ _ _ R) in S; tauto).
  eapply LI; [apply linked_sym; exact Lq|exact Iq].
Qed.
Lemma steps_transitivity m m1 a b t : Inv m -> accepts m a b t = true -> ctrans m1 = ctrans m -> steps (p_add_constraint_transitivity a b t) m1 <= 4 + 2 * length (ids m).
Proof.
  intros I A CT. unfold accepts in A. rewrite !andb_true_iff in A. destruct A as [[B T] F]. apply both_true in B as [Ia Ib]. apply allowed_spec in T.
  destruct T as [-> | ->].
  - apply steps_must. rewrite CT. intros ta tb Ea Eb. destruct (trans_good m a ta I Ea) as (_ & N1 & N2 & I1 & I2 & L1 & X1). destruct (trans_good m b tb I Eb) as (_ & N3 & N4 & I3 & I4 & L2 & X2).
    assert (NS : ~ separated (sml m) (scl m) a b) by (intro S; apply infer_CL in S; auto; rewrite S in F; discriminate).
    assert (EX := rep_excl m). apply disjoint_length; try (apply ounion_NoDup; auto).
    + intros x J. apply ounion_In in J as [J|J]; auto.
    + intros x J. apply ounion_In in J as [J|J]; auto.
    + intros x J K. rewrite ounion_In, L1, L2 in J. rewrite ounion_In, X1, X2 in K. destruct J as [J|J], K as [K|K].
      * eapply EX; eauto.
      * apply NS. apply separated_sym. eapply separated_linked_r; [apply linked_sym; exact J|exact K].
      * apply NS. eapply separated_linked_r; [apply linked_sym; exact J|exact K].
      * eapply EX; eauto.
  - assert (NL : ~ linked (sml m) a b) by (intro S; apply infer_ML in S; auto; rewrite S in F; discriminate). assert (Nab : a <> b) by (intros ->; apply NL; constructor).
    assert (2 <= length (ids m)).
    { change 2 with (length [a; b]). apply NoDup_incl_length; [|intros x [<-|[<-|[]]]; auto]. constructor; [intros [J|[]]; auto|]. constructor; [intros []|constructor]. }
    eapply Nat.le_trans; [apply (steps_cannot a b CANNOT_LINK m1 (length (ids m)))|lia]; auto.
    rewrite CT. intros ta tb Ea Eb. destruct (trans_good m a ta I Ea) as (_ & N1 & N2 & I1 & I2 & L1 & X1). destruct (trans_good m b tb I Eb) as (_ & N3 & N4 & I3 & I4 & L2 & X2).
    apply disjoint_length; auto. intros x J K. rewrite L1 in J. rewrite L2 in K. apply NL. eapply linked_trans; [exact J|apply linked_sym; exact K].
Qed.

(*PROP Adding a constraint costs at most [2 * n + 14] accesses when [n] data are managed. *)
Lemma C148_add_constraint_proof :
  forall m l a b t v, reachable m -> ask get_list_of_managed_data_IDs m = Ok l -> change_cost (WAdd a b t v) m <= 2 * length l + 14.
Proof.
  intros m l a b t v R E. apply reachable_inv in R as I. assert (El : l = ids m) by (unfold ask in E; rewrite run_managed in E; cbn in E; congruence). rewrite El. clear E El l.
  unfold change_cost, p_wexec. set (n := length (ids m)). replace (2 * n + 14) with ((14 + 2 * n) + 0) by lia. apply steps_le; [|cbn; auto].
  unfold p_add_constraint. apply (steps_read _ _ _ (13 + 2 * n)). intros k1 E1. apply steps_require. intros ->. apply (steps_read _ _ _ (12 + 2 * n)). intros k2 E2. apply steps_require. intros ->.
  injection E1 as M1. injection E2 as M2. apply steps_require. intro T.
  change (12 + 2 * n) with (4 + (8 + 2 * n)). apply steps_le; [apply steps_inferred|]. intros inf Q. rewrite does_inferred, run_inferred in Q |- * by auto. cbn [fst snd] in Q |- *.
  assert (B : both m a b = true) by (apply both_true; split; apply mem_In; auto). rewrite B in Q. injection Q as <-. apply steps_require. intro F.
  change (8 + 2 * n) with (3 + (5 + 2 * n)). apply steps_le; [apply steps_added|]. intros ad Q. rewrite does_added, run_added by auto. cbn [fst]. destruct ad as [c|]; [cbn; lia|].
  change (5 + 2 * n) with (1 + (4 + 2 * n)). apply steps_le; [destruct (str_leb a b); cbn; auto|]. intros _ _. rewrite <- (Nat.add_0_r (4 + 2 * n)). apply steps_le; [|cbn; auto].
  apply steps_transitivity; auto.
  - unfold accepts. rewrite B, T, F. auto.
  - destruct (str_leb a b); unfold p_set_constraint, pwrite; cbn [alone fst]; unfold dlookup; destruct (dget _ (cdict m)); auto.
Qed.
(*EX
(** The bound is reached: this constraint brings all four data together or apart. *)
Example C148_add_constraint_ex : reachable four /\ ask get_list_of_managed_data_IDs four = Ok [qa; qb; qc; qd] /\
  change_cost (WAdd qa qc MUST_LINK 1%Q) four = 2 * 4 + 14 /\ change_cost (WAdd qa qc CANNOT_LINK 1%Q) four = 19 /\ change_cost (WAdd qa qb MUST_LINK 1%Q) four = 8.
Proof. split; [apply four_ok|]. split; [apply four_ok|]. vm_compute. repeat split. Qed.
EX*)

(*PROP Adding a data costs at most [n + 5]. *)
Lemma C148_add_data_proof :
  forall m l x, reachable m -> ask get_list_of_managed_data_IDs m = Ok l -> change_cost (WAddID x) m <= length l + 5.
Proof.
  intros m l x R E. assert (El : l = ids m) by (unfold ask in E; rewrite run_managed in E; cbn in E; congruence). rewrite El. clear E El l.
  unfold change_cost, p_wexec. set (n := length (ids m)). replace (n + 5) with ((5 + n) + 0) by lia. apply steps_le; [|cbn; auto].
  unfold p_add_data_ID. apply (steps_read _ _ _ (4 + n)). intros k1 E1. apply steps_require. intro K. rewrite negb_true_iff in K. subst k1. injection E1 as M1.
  change (4 + n) with (1 + (3 + n)). apply steps_le; [cbn; auto|]. intros _ _. cbn [alone p_update pwrite fst]. apply (steps_read _ _ _ (2 + n)). intros others EO. injection EO as <-. cbn [cdict].
  apply mem_nIn in M1. rewrite keys_dset_out by auto.
  replace (2 + n) with (1 * length (keys (cdict m) ++ [x]) + 1) by (rewrite app_length; cbn [length]; change (length (keys (cdict m))) with n; lia).
  apply steps_le; [|cbn; auto]. apply steps_for. intros y m'. destruct (eqb x y); [cbn; auto|]. destruct (str_ltb x y); cbn; auto.
Qed.
(*EX
Example C148_add_data_ex : change_cost (WAddID (str "e")) four = 4 + 5 /\ change_cost (WAddID qa) four = 1.
Proof. vm_compute. repeat split. Qed.
EX*)

(** ** Deleting *)
Definition within (I : mgr -> Prop) {T} (p : prog T) (c : nat) (Q : T -> Prop) : Prop :=
  forall m, I m -> steps p m <= c /\ I (fst (alone p m)) /\ (forall a, snd (alone p m) = Ok a -> Q a).
Lemma within_bind I {T U} (p : prog T) (k : T -> prog U) c1 c2 Q1 Q2 : within I p c1 Q1 -> (forall a, Q1 a -> within I (k a) c2 Q2) -> within I (pbind p k) (c1 + c2) Q2.
Proof.
  intros P K m H. destruct (P m H) as (S1 & I1 & R1). rewrite steps_bind, alone_bind. destruct (alone p m) as [m1 [a|e]]; cbn [fst snd] in *.
  - destruct (K a (R1 a eq_refl) m1 I1) as (S2 & I2 & R2). split; [lia|]. auto.
  - split; [lia|]. split; auto. discriminate.
Qed.
Lemma within_weaken I {T} (p : prog T) c c' (Q Q' : T -> Prop) : within I p c Q -> c <= c' -> (forall a, Q a -> Q' a) -> within I p c' Q'.
Proof. intros P L W m H. destruct (P m H) as (S1 & I1 & R1). split; [lia|]. auto. Qed.
Lemma within_for I {T} (l : list T) f (c : T -> nat) : (forall x, In x l -> within I (f x) (c x) (fun _ => True)) -> within I (pfor l f) (list_sum (map c l)) (fun _ => True).
Proof.
  induction l as [|x l IH]; intro H; cbn [pfor map list_sum fold_right].
  - intros m J. cbn. auto.
  - apply (within_bind I _ _ _ _ (fun _ => True)); [apply H; left; auto|]. intros u _. apply IH. intros y J. apply H. right. auto.
Qed.
Lemma within_read (I : mgr -> Prop) {T} (q : mgr -> res T) (Q : T -> Prop) : (forall m a, I m -> q m = Ok a -> Q a) -> within I (pread q) 1 Q.
Proof. intros H m J. cbn. split; auto. split; auto. intros a. apply H; auto. Qed.
Lemma within_done I {T} (r : res T) : within I (Done r) 0 (fun _ => True).
Proof. intros m J. cbn. auto. Qed.

Lemma list_sum_const {T} (l : list T) c : list_sum (map (fun _ => c) l) = c * length l.
Proof. induction l as [|x l IH]; [cbn; lia|]. cbn [map length]. change (c + list_sum (map (fun _ => c) l) = c * S (length l)). rewrite IH. lia. Qed.

Section Generate.
  Variable D : dict pystr (dict pystr (option constr)).
  Definition good (s : list pystr) : Prop := NoDup s /\ incl s (keys D).
  Definition Good (m : mgr) : Prop := cdict m = D /\ forall x t, dget x (ctrans m) = Some t -> good (t_ml t) /\ good (t_cl t).
  Notation n := (length (keys D)).
  Lemma good_length s : good s -> length s <= n.
  Proof. intros [N I]. apply NoDup_incl_length; auto. Qed.
  Lemma good_union s t : good s -> good t -> good (ounion s t).
  Proof. intros [N I] [N' I']. split; [apply ounion_NoDup; auto|]. intros x J. apply ounion_In in J as [J|J]; auto. Qed.
  Lemma within_ml x : within Good (p_ml x) 1 good.
  Proof. apply within_read. intros m s [_ G] E. unfold dlookup in E. destruct (dget x (ctrans m)) as [t|] eqn:F; [|discriminate]. injection E as <-. apply (G x t F). Qed.
  Lemma within_cl x : within Good (p_cl x) 1 good.
  Proof. apply within_read. intros m s [_ G] E. unfold dlookup in E. destruct (dget x (ctrans m)) as [t|] eqn:F; [|discriminate]. injection E as <-. apply (G x t F). Qed.
  Lemma within_set_ml x s : good s -> within Good (p_set_ml x s) 1 (fun _ => True).
  Proof.
    intros S m [C G]. cbn [p_set_ml pwrite steps alone fst snd]. split; auto. split; auto. unfold dlookup. destruct (dget x (ctrans m)) as [t|] eqn:F; cbn [rbind]; [|split; auto].
    split; cbn [cdict ctrans]; auto. intros y u. rewrite dget_dset. destruct (eqb y x); [|apply G]. intro E. injection E as <-. cbn. split; auto. apply (G x t F).
  Qed.
  Lemma within_set_cl x s : good s -> within Good (p_set_cl x s) 1 (fun _ => True).
  Proof.
    intros S m [C G]. cbn [p_set_cl pwrite steps alone fst snd]. split; auto. split; auto. unfold dlookup. destruct (dget x (ctrans m)) as [t|] eqn:F; cbn [rbind]; [|split; auto].
    split; cbn [cdict ctrans]; auto. intros y u. rewrite dget_dset. destruct (eqb y x); [|apply G]. intro E. injection E as <-. cbn. split; auto. apply (G x t F).
  Qed.
  Lemma within_for_const l f c : good l -> (forall x, within Good (f x) c (fun _ => True)) -> within Good (pfor l f) (c * n) (fun _ => True).
  Proof.
    intros L H. eapply within_weaken; [apply (within_for Good l f (fun _ => c)); auto| |auto]. apply good_length in L. rewrite list_sum_const. nia.
  Qed.
  Lemma within_transitivity a b t : within Good (p_add_constraint_transitivity a b t) (4 * n + 6) (fun _ => True).
  Proof.
    unfold p_add_constraint_transitivity. destruct (eqb t MUST_LINK).
    - apply (within_weaken Good _ (1 + (1 + (1 + (1 + (2 * n + 2 * n))))) _ (fun _ => True)); [|lia|auto].
      eapply within_bind; [apply within_ml|]. intros ml1 G1. eapply within_bind; [apply within_ml|]. intros ml2 G2. eapply within_bind; [apply within_cl|]. intros cl1 G3. eapply within_bind; [apply within_cl|]. intros cl2 G4.
      apply (within_bind Good _ _ _ _ (fun _ => True)).
      + apply within_for_const; [apply good_union; auto|]. intro x. apply (within_bind Good _ _ 1 1 (fun _ => True)); [apply within_set_ml, good_union; auto|]. intros _ _. apply within_set_cl, good_union; auto.
      + intros _ _. apply within_for_const; [apply good_union; auto|]. intro x. apply (within_bind Good _ _ 1 1 good); [apply within_cl|]. intros cl G5. apply within_set_cl. repeat apply good_union; auto.
    - apply (within_weaken Good _ (1 + (1 + (1 + (1 + (1 + (1 * n + (1 + 1 * n))))))) _ (fun _ => True)); [|lia|auto].
      eapply within_bind; [apply within_cl|]. intros cl1 G1. eapply within_bind; [apply within_ml|]. intros ml2 G2. eapply within_bind; [apply within_cl|]. intros cl2 G3. eapply within_bind; [apply within_ml|]. intros ml1 G4.
      eapply within_bind; [apply within_ml|]. intros ml1' G5. apply (within_bind Good _ _ _ _ (fun _ => True)).
      + apply within_for_const; auto. intro x. apply within_set_cl, good_union; auto.
      + intros _ _. eapply within_bind; [apply within_ml|]. intros ml2' G6. apply within_for_const; auto. intro x. apply within_set_cl, good_union; auto.
  Qed.

  (** The stored entries *)
  Definition row_of (x : pystr) : list pystr := match dget x D with Some row => keys row | None => [] end.
  Definition full (x y : pystr) : bool := match sget D x y with Some (Some _) => true | _ => false end.
  Definition generate_bound : nat := 2 + list_sum (map (fun x => 1 + list_sum (map (fun y => 1 + if full x y then 4 * n + 6 else 0) (row_of x))) (keys D)).
  Lemma steps_generate m : cdict m = D -> 
    steps p_generate_constraints_transitivity m <= generate_bound /\ cdict (fst (alone p_generate_constraints_transitivity m)) = D.
  Proof.
    intros CD. unfold p_generate_constraints_transitivity, generate_bound. rewrite steps_bind, alone_bind. cbn [steps alone p_update pwrite].
    set (m1 := mkMgr _ _).
    assert (G : Good m1).
    { split; [exact CD|]. unfold m1. cbn [ctrans]. intros x t. rewrite dget_dcomp. destruct (mem x (keys (cdict m))) eqn:M; [|discriminate]. intro E. injection E as <-. apply mem_In in M. rewrite CD in M.
      cbn [fresh_trans t_ml t_cl]. split; split; [constructor; [intros []|constructor]|intros y [<-|[]]; auto|constructor|intros y []]. }
    cut (within Good (ids <~ p_ids;; pfor ids (fun data_ID1 => row <~ p_row data_ID1;; pfor (keys row) (fun data_ID2 => constraint <~ p_get_constraint data_ID1 data_ID2;;
       match constraint with Some c => p_add_constraint_transitivity data_ID1 data_ID2 (fst c) | None => Done (Ok tt) end)))
      (1 + list_sum (map (fun x => 1 + list_sum (map (fun y => 1 + if full x y then 4 * n + 6 else 0) (row_of x))) (keys D))) (fun _ => True)).
    { intro W. destruct (W m1 G) as (W1 & (W2 & _) & _). split; [apply le_n_S; exact W1|exact W2]. }
    apply (within_bind Good _ _ _ _ (fun l => l = keys D)).
    - apply within_read. intros m' l [C' _] E. injection E as <-. rewrite C'. auto.
    - intros l ->. apply within_for. intros x _. apply (within_bind Good _ _ _ _ (fun row => keys row = row_of x)).
      + apply within_read. intros m' row [C' _] E. unfold dlookup in E. rewrite C' in E. unfold row_of. destruct (dget x D); [|discriminate]. injection E as <-. auto.
      + intros row ->. apply within_for. intros y _. apply (within_bind Good _ _ _ _ (fun c => sget D x y = Some c)).
        * apply within_read. intros m' c [C' _] E. unfold dlookup in E. rewrite C' in E. unfold sget. destruct (dget x D) as [row'|]; [|discriminate]. cbn in E. unfold dlookup in E. destruct (dget y row'); [|discriminate]. congruence.
        * intros [c|] E; unfold full; rewrite E; [apply within_transitivity|apply within_done].
  Qed.
End Generate.

(** ** How many entries are stored *)
Section Entries.
  Variable D : dict pystr (dict pystr (option constr)).
  Hypothesis W : WFD D.
  Notation l := (keys D).
  Notation n := (length (keys D)).
  Definition entries : list (pystr * pystr) := flat_map (fun x => map (pair x) (row_of D x)) l.
  Definition swap (p : pystr * pystr) : pystr * pystr := (snd p, fst p).
  Definition strict (p : pystr * pystr) : bool := negb (eqb (fst p) (snd p)).

  Lemma entries_In x y : In (x, y) entries <-> In x l /\ In y l /\ str_leb x y = true.
  Proof.
    unfold entries. rewrite in_flat_map. split.
    - intros (z & Iz & J). apply in_map_iff in J as (y' & E & J). injection E as -> ->. unfold row_of in J. destruct (dget x D) as [row|] eqn:F; [|destruct J].
      apply (wf_row _ W x row F) in J. tauto.
    - intros (Ix & Iy & L). exists x. split; auto. apply in_map. unfold row_of. destruct (dget_In_key x D Ix) as [row F]. rewrite F. apply (wf_row _ W x row F). auto.
  Qed.
  Lemma entries_NoDup : NoDup entries.
  Proof.
    unfold entries. assert (N := wf_nodup _ W). induction l as [|x s IH]; [constructor|]. inversion N as [|? ? Nx N']; subst. cbn [flat_map]. apply NoDup_app_intro; auto.
    - unfold row_of. destruct (dget x D) as [row|] eqn:F; [|constructor]. apply FinFun.Injective_map_NoDup; [intros p q E; congruence|]. apply (wf_row_nodup _ W x row F).
    - intros [p q] J K. apply in_map_iff in J as (z & E & _). injection E as <- <-. apply in_flat_map in K as (x' & Ix & K). apply in_map_iff in K as (z' & E & _). injection E as -> _. auto.
  Qed.

  Lemma half_count (P : pystr * pystr -> bool) : (forall x y, P (x, y) = P (y, x)) ->
    length (filter P (filter strict entries)) = length (filter P (pairs l)).
  Proof.
    intro S. set (F := filter P (filter strict entries)). set (G := filter P (pairs l)).
    assert (double : forall H : list (pystr * pystr), length (H ++ map swap H) = 2 * length H) by (intro H; rewrite app_length, map_length; lia).
    assert (inj : forall p q, swap p = swap q -> p = q) by (intros [? ?] [? ?] E; unfold swap in E; cbn in E; congruence).
    assert (FI : forall x y, In (x, y) F <-> In x l /\ In y l /\ str_leb x y = true /\ x <> y /\ P (x, y) = true).
    { intros x y. unfold F. rewrite !filter_In, entries_In. unfold strict. cbn [fst snd]. rewrite negb_true_iff, eqb_neq. tauto. }
    assert (sw : forall H x y, In (x, y) (map swap H) <-> In (y, x) H).
    { intros H x y. rewrite in_map_iff. split; [intros ([p q] & E & J); unfold swap in E; cbn in E; injection E as <- <-; auto|intro J; exists (y, x); auto]. }
    assert (NF : NoDup (F ++ map swap F)).
    { apply NoDup_app_intro.
      - apply NoDup_filter, NoDup_filter, entries_NoDup.
      - apply FinFun.Injective_map_NoDup; [exact inj|]. apply NoDup_filter, NoDup_filter, entries_NoDup.
      - intros [x y] J K. assert (K0 := proj1 (sw _ _ _) K). clear K. rename K0 into K. apply FI in J as (_ & _ & L1 & N1 & _). apply FI in K as (_ & _ & L2 & _). apply N1. apply str_leb_antisym; auto. }
    assert (NG : NoDup (G ++ map swap G)).
    { apply NoDup_app_intro.
      - apply NoDup_filter, pairs_NoDup, (wf_nodup _ W).
      - apply FinFun.Injective_map_NoDup; [exact inj|]. apply NoDup_filter, pairs_NoDup, (wf_nodup _ W).
      - intros [x y] J K. assert (K0 := proj1 (sw _ _ _) K). clear K. rename K0 into K. unfold G in J, K. apply filter_In in J as [J _]. apply filter_In in K as [K _]. eapply pairs_once; [apply (wf_nodup _ W)|exact J|exact K]. }
    assert (GI : forall x y, In (x, y) (G ++ map swap G) <-> In x l /\ In y l /\ x <> y /\ P (x, y) = true).
    { intros x y. rewrite in_app_iff, sw. unfold G. rewrite !filter_In, (S y x). split.
      - intros [[J K]|[J K]]; assert (J' := J); rewrite pairs_same in J'; apply position_pairs_In in J' as [A B]; apply pairs_neq in J; auto; apply (wf_nodup _ W).
      - intros (A & B & N & K). destruct (pairs_total l x y A B N); auto. }
    assert (FG : forall x y, In (x, y) (F ++ map swap F) <-> In x l /\ In y l /\ x <> y /\ P (x, y) = true).
    { intros x y. rewrite in_app_iff, sw, !FI, (S y x). destruct (str_leb_total x y); intuition. }
    assert (length (F ++ map swap F) = length (G ++ map swap G)).
    { apply Nat.le_antisymm; apply NoDup_incl_length; auto; intros [x y] J; [apply GI, FG|apply FG, GI]; auto. }
    rewrite !double in H. lia.
  Qed.
  Lemma diagonal_count (P : pystr * pystr -> bool) : length (filter P entries) <= n + length (filter P (filter strict entries)).
  Proof.
    assert (H : length (filter P entries) = length (filter (fun p => negb (strict p)) (filter P entries)) + length (filter P (filter strict entries))).
    { generalize entries. intro s. induction s as [|p s IH]; auto. cbn [filter]. destruct (P p) eqn:E1, (strict p) eqn:E2; cbn [filter length negb]; rewrite ?E1, ?E2; cbn [filter length negb]; rewrite ?E1, ?E2; cbn [length negb]; lia. }
    rewrite H. apply Nat.add_le_mono_r. rewrite <- (map_length (fun x => (x, x)) l). apply NoDup_incl_length; [apply NoDup_filter, NoDup_filter, entries_NoDup|].
    intros [x y] J. apply filter_In in J as [J K]. apply filter_In in J as [J _]. apply entries_In in J as (Ix & _). unfold strict in K. cbn in K. rewrite negb_involutive in K. apply eqb_eq in K as <-.
    apply in_map_iff. exists x. auto.
  Qed.
  Lemma entries_length : 2 * length entries = n * (n + 1).
  Proof.
    assert (A := half_count (fun _ => true) (fun _ _ => eq_refl)). rewrite !(filter_true (fun _ => true)) in A by auto.
    assert (B : length entries = n + length (filter strict entries)).
    { assert (H : length entries = length (filter (fun p => negb (strict p)) entries) + length (filter strict entries)).
      { generalize entries. intro s. induction s as [|p s IH]; auto. cbn [filter]. destruct (strict p) eqn:E2; cbn [length negb]; lia. }
      rewrite H. f_equal. rewrite <- (map_length (fun x => (x, x)) l). apply Nat.le_antisymm; apply NoDup_incl_length; try apply NoDup_filter, entries_NoDup.
      - intros [x y] J. apply filter_In in J as [J K]. apply entries_In in J as (Ix & _). unfold strict in K. cbn in K. rewrite negb_involutive in K. apply eqb_eq in K as <-. apply in_map_iff. exists x. auto.
      - apply FinFun.Injective_map_NoDup; [intros p q E; congruence|apply (wf_nodup _ W)].
      - intros p J. apply in_map_iff in J as (x & <- & J). apply filter_In. split; [apply entries_In; split; auto; split; auto|unfold strict; cbn; rewrite eqb_refl; auto].
        destruct (str_leb_total x x); auto. }
    assert (C := position_pairs_length l). rewrite <- pairs_same in C. rewrite B, A. set (N := n) in *. nia.
  Qed.
  Lemma generate_bound_entries : generate_bound D = 2 + n + length entries + (4 * n + 6) * length (filter (fun p => full D (fst p) (snd p)) entries).
  Proof.
    unfold generate_bound, entries. set (c := 4 * n + 6). clearbody c. clear W.
    assert (G : forall s, list_sum (map (fun x => 1 + list_sum (map (fun y => 1 + (if full D x y then c else 0)) (row_of D x))) s) =
      length s + length (flat_map (fun x => map (pair x) (row_of D x)) s) + c * length (filter (fun p => full D (fst p) (snd p)) (flat_map (fun x => map (pair x) (row_of D x)) s))).
    { induction s as [|x s IH]; [cbn; lia|]. cbn [map flat_map length]. rewrite filter_app, !app_length, map_length. change (list_sum (?a :: ?b)) with (a + list_sum b). rewrite IH.
      assert (R : forall r, list_sum (map (fun y => 1 + (if full D x y then c else 0)) r) = length r + c * length (filter (fun p => full D (fst p) (snd p)) (map (pair x) r))).
      { induction r as [|y r IHr]; [cbn; lia|]. cbn [map length filter fst snd]. change (list_sum (?a :: ?b)) with (a + list_sum b). rewrite IHr. destruct (full D x y); cbn [length]; lia. }
      rewrite R. lia. }
    rewrite G. lia.
  Qed.
End Entries.

(** The bound, in the terms of the specification. *)
Lemma generate_bound_spec m : Inv m -> let n := length (ids m) in
  2 * generate_bound (cdict m) <= 4 + 2 * n + n * (n + 1) + 2 * ((4 * n + 6) * (n + (effort m MUST_LINK + effort m CANNOT_LINK))).
Proof.
  intros I n. assert (W := proj1 I). rewrite generate_bound_entries by auto. fold n. change (length (keys (cdict m))) with n.
  assert (EL := entries_length (cdict m) W). change (length (keys (cdict m))) with n in EL.
  set (P := fun p : pystr * pystr => full (cdict m) (fst p) (snd p)). set (P' := fun p : pystr * pystr => P p || P (swap p)).
  assert (C1 : length (filter P (entries (cdict m))) <= n + length (filter P (filter strict (entries (cdict m))))) by (apply (diagonal_count (cdict m) W)).
  assert (C2 : length (filter P (filter strict (entries (cdict m)))) <= length (filter P' (filter strict (entries (cdict m))))).
  { apply filter_le. intros p _ H. unfold P'. rewrite H. auto. }
  rewrite (half_count (cdict m) W P') in C2 by (intros x y; unfold P', swap; cbn; apply orb_comm).
  assert (C3 : length (filter P' (pairs (ids m))) <= effort m MUST_LINK + effort m CANNOT_LINK).
  { rewrite !effort_eq. assert (H : forall p, In p (pairs (ids m)) -> P' p = true -> is_added m MUST_LINK p = true \/ is_added m CANNOT_LINK p = true).
    { assert (H1 : forall x y, P (x, y) = true -> added m MUST_LINK x y \/ added m CANNOT_LINK x y).
      { intros x y H. unfold P, full in H. cbn [fst snd] in H. destruct (sget (cdict m) x y) as [[[t v]|]|] eqn:S; try discriminate.
        destruct (sget_keys _ _ _ _ W S) as (Ix & Iy & L). destruct (wf_val _ W _ _ _ _ S) as [T ->].
        assert (A : addf m x y = Some (t, 1%Q)) by (rewrite addf_lo_hi; unfold lo, hi; rewrite L, S; auto).
        destruct T as [-> | ->]; [left|right]; apply addf_added; auto. }
      intros [x y] _ H. rewrite !is_added_spec. unfold P' in H. rewrite orb_true_iff in H. unfold swap in H. cbn [fst snd] in H.
      destruct H as [H|H]; apply H1 in H; auto. destruct H; [left|right]; apply added_sym; auto. }
    revert H. generalize (pairs (ids m)). intros s H. induction s as [|p s IH]; [cbn; lia|]. specialize (IH (fun q J => H q (or_intror J))). assert (Hp := H p (or_introl eq_refl)).
    cbn [filter]. destruct (P' p); [destruct (Hp eq_refl) as [-> | ->]|]; cbn [length].
    - destruct (is_added m CANNOT_LINK p); cbn [length]; lia.
    - destruct (is_added m MUST_LINK p); cbn [length]; lia.
    - destruct (is_added m MUST_LINK p), (is_added m CANNOT_LINK p); cbn [length]; lia. }
  set (k := effort m MUST_LINK + effort m CANNOT_LINK) in *. set (f := length (filter P (entries (cdict m)))) in *.
  assert (f <= n + k) by lia. assert ((4 * n + 6) * f <= (4 * n + 6) * (n + k)) by (apply Nat.mul_le_mono_l; auto). lia.
Qed.

(** A change that ends with the generation. *)
Lemma generate_tail m m' b r : alone (p_generate_constraints_transitivity ;; Done (Ok b)) m = (m', r) ->
  steps (p_generate_constraints_transitivity ;; @Done bool (Ok b)) m <= generate_bound (cdict m') /\ cdict m' = cdict m.
Proof.
  intro A. rewrite alone_bind in A. rewrite steps_bind. destruct (steps_generate (cdict m) m eq_refl) as [S C].
  destruct (alone p_generate_constraints_transitivity m) as [m3 [u|e]]; cbn [fst] in C; cbn in A; injection A as -> _; rewrite C; cbn [steps]; split; auto; lia.
Qed.
Lemma delete_cost a b m m' r : alone (p_delete_constraint a b) m = (m', r) -> steps (p_delete_constraint a b) m <= 3 + generate_bound (cdict m').
Proof.
  unfold p_delete_constraint. intro A. apply (steps_read _ _ _ (2 + generate_bound (cdict m'))). intros k1 E1. injection E1 as <-. apply steps_require. intro K1.
  apply (steps_read _ _ _ (1 + generate_bound (cdict m'))). intros k2 E2. injection E2 as <-. apply steps_require. intro K2.
  rewrite alone_bind in A. cbn [p_in_dict pread alone] in A. rewrite K1 in A. cbn [prequire pbind] in A. rewrite alone_bind in A. cbn [p_in_dict pread alone] in A. rewrite K2 in A. cbn [prequire pbind] in A.
  rewrite alone_bind in A. apply steps_le; [destruct (str_leb a b); cbn; auto|]. intros u Q. destruct (alone (if str_leb a b then _ else _) m) as [m2 [u'|e]]; [|discriminate]. cbn [fst].
  apply generate_tail in A. apply A.
Qed.
Lemma delete_ID_cost x m m' r : alone (p_delete_data_ID x) m = (m', r) -> WFD (cdict m) -> steps (p_delete_data_ID x) m <= 3 + length (filter (fun y => negb (eqb x y)) (ids m)) + generate_bound (cdict m').
Proof.
  unfold p_delete_data_ID. intros A W. set (g := generate_bound (cdict m')). set (n := length (filter _ (ids m))). apply (steps_read _ _ _ (2 + n + g)). intros k1 E1. injection E1 as <-. apply steps_require. intro K1.
  rewrite alone_bind in A. cbn [p_in_dict pread alone] in A. rewrite K1 in A. cbn [prequire pbind] in A. rewrite alone_bind in A. cbn [p_update pwrite alone] in A. rewrite alone_bind in A. cbn [p_ids pread alone cdict] in A. rewrite alone_bind in A.
  change (2 + n + g) with (1 + (1 + n + g)). apply steps_le; [cbn; auto|]. intros _ _. cbn [alone p_update pwrite fst].
  apply (steps_read _ _ _ (n + g)). intros others EO. injection EO as <-. cbn [cdict].
  apply steps_le.
  - assert (K : keys (dpop x (cdict m)) = filter (fun y => negb (eqb x y)) (ids m)) by (apply keys_dpop, (wf_nodup _ W)).
    rewrite <- (Nat.mul_1_l n). unfold n. rewrite <- K. apply steps_for. intros y m0. cbn. auto.
  - intros u Q. match type of A with context [alone (pfor ?s ?f) ?q] => destruct (alone (pfor s f) q) as [m2 [u'|e]] end; [|discriminate]. cbn [fst]. apply generate_tail in A. apply A.
Qed.

(*PROP Deleting a constraint or a data costs much more, because everything is inferred again: with [n] data and [k] constraints that remain, at most
    about [n * n / 2 + (4 * n + 6) * (n + k)]. *)
Lemma C148_delete_proof :
  forall m c, reachable m -> (exists x, c = WDeleteID x) \/ (exists a b, c = WDelete a b) ->
  let m' := fst (exec (as_wcall c) m) in forall l, ask get_list_of_managed_data_IDs m' = Ok l ->
  let n := length l in let k := effort m' MUST_LINK + effort m' CANNOT_LINK in
  2 * change_cost c m <= 10 + 4 * n + n * (n + 1) + 2 * ((4 * n + 6) * (n + k)).
Proof.
  intros m c R Hc m' l E n k. assert (R' : reachable m') by (apply reach_call; auto). apply reachable_inv in R as I. apply reachable_inv in R' as I'.
  assert (El : l = ids m') by (unfold ask in E; rewrite run_managed in E; cbn in E; congruence). assert (En : n = length (ids m')) by (unfold n; rewrite El; auto).
  assert (G := generate_bound_spec m' I'). cbv zeta in G. rewrite <- En in G. fold k in G.
  assert (AL := C145_alone_proof c m). destruct Hc as [[x ->]|(a & b & ->)]; cbn [p_wexec as_wcall] in AL; unfold change_cost; cbn [p_wexec].
  - rewrite alone_bind in AL. rewrite steps_bind. destruct (alone (p_delete_data_ID x) m) as [m1 r] eqn:Q.
    assert (M : m1 = m') by (unfold m'; cbn [as_wcall]; rewrite <- AL; destruct r; auto). subst m1. assert (S := delete_ID_cost x m m' r Q (proj1 I)).
    assert (Z : match r with Ok _ => 0 | Raise _ => 0 end = 0) by (destruct r; auto).
    assert (D := run_delete_data_ID m x I). destruct (mem x (ids m)) eqn:Mx.
    + destruct D as (m2 & D & _ & K & _). assert (m2 = m') by (unfold m'; cbn [as_wcall exec]; unfold bind; rewrite D; auto). subst m2. rewrite <- K, <- En in S. destruct r; cbn [steps]; lia.
    + clear S. assert (S : steps (p_delete_data_ID x) m <= 1 + 0).
      { unfold p_delete_data_ID. apply steps_read. intros k1 E1. injection E1 as <-. apply steps_require. intro K1. change (mem x (ids m) = true) in K1. congruence. }
      destruct r; cbn [steps]; lia.
  - rewrite alone_bind in AL. rewrite steps_bind. destruct (alone (p_delete_constraint a b) m) as [m1 r] eqn:Q.
    assert (M : m1 = m') by (unfold m'; cbn [as_wcall]; rewrite <- AL; destruct r; auto). subst m1. assert (S := delete_cost a b m m' r Q). destruct r; cbn [steps]; lia.
Qed.
(*EX
Example C148_delete_ex : let m' := fst (exec (CallDeleteConstraint qb qa) four) in ask get_list_of_managed_data_IDs m' = Ok [qa; qb; qc; qd] /\
  effort m' MUST_LINK + effort m' CANNOT_LINK = 1 /\ change_cost (WDelete qb qa) four = 53 /\ change_cost (WDeleteID qb) four = 45.
Proof. vm_compute. repeat split. Qed.
EX*)

(** At least *)
Lemma at_least_for (I : mgr -> Prop) {T} (l : list T) f (c : T -> nat) : (forall x m, In x l -> I m -> I (fst (alone (f x) m)) /\ forall u, snd (alone (f x) m) = Ok u -> c x <= steps (f x) m) ->
  forall m u, I m -> snd (alone (pfor l f) m) = Ok u -> list_sum (map c l) <= steps (pfor l f) m.
Proof.
  induction l as [|x l IH]; intros H m u J A; [cbn; lia|]. cbn [pfor map] in *. change (list_sum (?a :: ?b)) with (a + list_sum b). rewrite alone_bind in A. rewrite steps_bind.
  destruct (H x m (or_introl eq_refl) J) as [J1 S1]. destruct (alone (f x) m) as [m1 [u1|e]]; [|discriminate]. cbn [fst snd] in *. specialize (S1 u1 eq_refl).
  specialize (IH (fun y m0 Jy => H y m0 (or_intror Jy)) m1 u J1 A). lia.
Qed.
Lemma generate_least m u : snd (alone p_generate_constraints_transitivity m) = Ok u -> length (entries (cdict m)) <= steps p_generate_constraints_transitivity m.
Proof.
  set (D := cdict m). unfold p_generate_constraints_transitivity. rewrite alone_bind, steps_bind. cbn [steps alone p_update pwrite]. set (m1 := mkMgr _ _). rewrite alone_bind, steps_bind. cbn [steps alone p_ids pread].
  change (cdict m1) with D. intro A.
  assert (G : Good D m1).
  { split; [auto|]. unfold m1. cbn [ctrans]. intros x t. rewrite dget_dcomp. destruct (mem x (keys (cdict m))) eqn:M; [|discriminate]. intro E. injection E as <-. apply mem_In in M.
    cbn [fresh_trans t_ml t_cl]. split; split; [constructor; [intros []|constructor]|intros y [<-|[]]; auto|constructor|intros y []]. }
  assert (BI : forall x y, within (Good D) (constraint <~ p_get_constraint x y;; match constraint with Some c => p_add_constraint_transitivity x y (fst c) | None => Done (Ok tt) end) (1 + (4 * length (keys D) + 6)) (fun _ => True)).
  { intros x y. apply (within_bind (Good D) _ _ _ _ (fun _ => True)); [apply within_read; auto|]. intros [c|] _; [apply within_transitivity|]. eapply within_weaken; [apply within_done|lia|auto]. }
  assert (E : length (entries D) = list_sum (map (fun x => length (row_of D x)) (keys D))).
  { unfold entries. generalize (keys D). intro s. induction s as [|x s IH]; auto. cbn [flat_map map]. rewrite app_length, map_length, IH. auto. }
  rewrite E. eapply Nat.le_trans; [|apply Nat.le_add_l]. eapply Nat.le_trans; [|apply Nat.le_add_l].
  eapply (at_least_for (Good D)); [|exact G|exact A]. clear A. intros x m2 Jx G2. rewrite alone_bind, steps_bind. cbn [p_row pread alone steps].
  unfold dlookup. rewrite (proj1 G2). unfold row_of. destruct (dget x D) as [row|]; [|split; [exact G2|discriminate]]. split.
  - apply (within_for (Good D) (keys row) _ (fun y => 1 + (4 * length (keys D) + 6))); [|exact G2]. intros y _. apply BI.
  - intros u' A. apply le_S. replace (length (keys row)) with (list_sum (map (fun _ : pystr => 1) (keys row))) by (rewrite list_sum_const; lia).
    eapply (at_least_for (Good D)); [|exact G2|exact A]. intros y m3 Jy G3. split; [apply BI; exact G3|]. intros u3 _. rewrite steps_bind. cbn [p_get_constraint pread steps]. lia.
Qed.

(*PROP and never less than [n * (n + 1) / 2], while an addition costs at most [2 * n + 14]. *)
Lemma C148_delete_least_proof :
  forall m c v, reachable m -> (exists x, c = WDeleteID x) \/ (exists a b, c = WDelete a b) -> snd (exec (as_wcall c) m) = Ok v ->
  forall l, ask get_list_of_managed_data_IDs (fst (exec (as_wcall c) m)) = Ok l -> length l * (length l + 1) <= 2 * change_cost c m.
Proof.
  intros m c v R Hc V l E. set (m' := fst (exec (as_wcall c) m)) in *. assert (R' : reachable m') by (apply reach_call; auto). apply reachable_inv in R' as I'.
  assert (El : l = ids m') by (unfold ask in E; rewrite run_managed in E; cbn in E; congruence). rewrite El.
  assert (EL := entries_length (cdict m') (proj1 I')). change (keys (cdict m')) with (ids m') in EL. rewrite <- EL. apply Nat.mul_le_mono_l.
  assert (T : forall (m2 : mgr) (w : bool), alone (p_generate_constraints_transitivity ;; Done (Ok w)) m2 = (m', Ok w) -> length (entries (cdict m')) <= steps (p_generate_constraints_transitivity ;; @Done bool (Ok w)) m2).
  { intros m2 w A. destruct (generate_tail m2 m' w _ A) as [_ C]. rewrite C. rewrite alone_bind in A. rewrite steps_bind. assert (L := generate_least m2).
    destruct (alone p_generate_constraints_transitivity m2) as [m3 [u|e]]; [|discriminate]. specialize (L u eq_refl). lia. }
  assert (AL := C145_alone_proof c m). rewrite (surjective_pairing (exec _ _)), V in AL. fold m' in AL. destruct Hc as [[x ->]|(a & b & ->)]; cbn [p_wexec as_wcall] in AL; unfold change_cost; cbn [p_wexec].
  - rewrite alone_bind in AL. rewrite steps_bind. destruct (alone (p_delete_data_ID x) m) as [m1 [w|e]] eqn:Q; [|discriminate]. cbn in AL. injection AL as -> <-. rewrite Nat.add_0_r. cbn [steps]. revert Q. unfold p_delete_data_ID.
    rewrite alone_bind, steps_bind. cbn [p_in_dict pread alone]. destruct (mem x (keys (cdict m))); [|discriminate]. cbn [prequire pbind]. rewrite alone_bind, steps_bind. cbn [p_update pwrite alone].
    rewrite alone_bind, steps_bind. cbn [p_ids pread alone]. rewrite alone_bind, steps_bind. destruct (alone (pfor _ _) _) as [m2 [u|e]]; [|discriminate]. intro Q.
    assert (w = true) as -> by (rewrite alone_bind in Q; destruct (alone p_generate_constraints_transitivity m2) as [? [|]]; [|discriminate]; cbn in Q; congruence).
    specialize (T m2 true Q). lia.
  - rewrite alone_bind in AL. rewrite steps_bind. destruct (alone (p_delete_constraint a b) m) as [m1 [w|e]] eqn:Q; [|discriminate]. cbn in AL. injection AL as -> <-. rewrite Nat.add_0_r. cbn [steps]. revert Q. unfold p_delete_constraint.
    rewrite alone_bind, steps_bind. cbn [p_in_dict pread alone]. destruct (mem a (keys (cdict m))); [|discriminate]. cbn [prequire pbind].
    rewrite alone_bind, steps_bind. cbn [p_in_dict pread alone]. destruct (mem b (keys (cdict m))); [|discriminate]. cbn [prequire pbind].
    rewrite alone_bind, steps_bind. destruct (alone (if str_leb a b then _ else _) m) as [m2 [u|e]]; [|discriminate]. intro Q.
    assert (w = true) as -> by (rewrite alone_bind in Q; destruct (alone p_generate_constraints_transitivity m2) as [? [|]]; [|discriminate]; cbn in Q; congruence).
    specialize (T m2 true Q). lia.
Qed.
(*EX
Example C148_delete_least_ex : snd (exec (CallDeleteConstraint qb qa) four) = Ok (VBool true) /\ 4 * (4 + 1) <= 2 * change_cost (WDelete qb qa) four.
Proof. split; [reflexivity|]. vm_compute. repeat constructor. Qed.
EX*)
