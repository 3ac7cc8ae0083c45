(** * Threads that save the manager while one thread changes its constraints (C160). *)

From Coq Require Import String List Bool Arith NArith ZArith QArith Lia.
(*HEADER
From Coq Require Import String List Bool Arith NArith ZArith QArith Lia.
From Verif Require Import Base Manager Spec ManagerThms ManagerInv ManagerQueries Json JsonSpec JsonThms Threads ThreadSpec ThreadsThms
  Readers ReadersSpec ReadersThms ListingSpec Listing SampleThread SaveThread SaveThreadSpec SaveThreadThms.
Import ListNotations.
Open Scope nat_scope.

Definition A := str "a". Definition B := str "b". Definition C := str "c".

HEADER*)
From Verif Require Import Base Manager Spec Closure ManagerProofs ManagerInv ManagerQueries ManagerSem ManagerThms Json JsonSpec JsonProofs JsonThms CanonSpec CanonThms
  Threads ThreadSpec ThreadsThms Readers ReadersSpec ReadersThms Listing ListingSpec ListingThms SampleThread SampleThreadThms SaveThread SaveThreadSpec.
Import ListNotations.
Open Scope nat_scope.
Open Scope py_scope.

(** ** Programs that leave the dictionary of constraints, or assign one entry of it *)
Definition same_dict {T} (p : prog T) : Prop := forall s, (forall t, In t (states p s) -> cdict t = cdict s) /\ cdict (fst (alone p s)) = cdict s.
Definition one_write {T} (p : prog T) : Prop := forall s, exists l1 l2, states p s = l1 ++ l2 /\ (forall x, In x l1 -> cdict x = cdict s) /\ forall x, In x l2 -> cdict x = cdict (fst (alone p s)).
Lemma sc_bind {T U} (p : prog T) (k : T -> prog U) : same_dict p -> (forall a, same_dict (k a)) -> same_dict (pbind p k).
Proof.
  intros H1 H2 s. destruct (H1 s) as [A1 A2]. rewrite states_bind, alone_bind. destruct (alone p s) as [s1 [a|e]]; cbn [fst snd] in *.
  - destruct (H2 a s1) as [B1 B2]. split; [|congruence]. intros t I. apply in_app_iff in I as [I|I]; auto. rewrite (B1 t I). auto.
  - rewrite app_nil_r. auto.
Qed.
Lemma sc_silent {T} (p : prog T) : silent p -> same_dict p.
Proof.
  intros S s. assert (I := silent_incl p s S). split.
  - intros t J. apply I in J as [<-|[]]; auto.
  - destruct (last_state p s) as [<-|J]; auto. apply I in J as [<-|[]]; auto.
Qed.
Lemma sc_for {T} (l : list T) f : (forall x, same_dict (f x)) -> same_dict (pfor l f).
Proof. intro H. induction l as [|x l IH]; cbn [pfor]; [apply sc_silent; exact I|]. apply sc_bind; auto. Qed.
Lemma sc_set_ml x l : same_dict (p_set_ml x l).
Proof. intro s. cbn. unfold dlookup. destruct (dget x (ctrans s)) as [e|]; cbn; (split; [intros t [<-|[]]; auto|auto]). Qed.
Lemma sc_set_cl x l : same_dict (p_set_cl x l).
Proof. intro s. cbn. unfold dlookup. destruct (dget x (ctrans s)) as [e|]; cbn; (split; [intros t [<-|[]]; auto|auto]). Qed.
Lemma sc_transitivity a b t : same_dict (p_add_constraint_transitivity a b t).
Proof.
  assert (M : forall x, same_dict (p_ml x)) by (intro; apply sc_silent; cbn; auto). assert (C : forall x, same_dict (p_cl x)) by (intro; apply sc_silent; cbn; auto).
  unfold p_add_constraint_transitivity. cbv zeta. destruct (eqb t MUST_LINK).
  - do 4 (apply sc_bind; [auto|intro]). apply sc_bind; [|intro]; apply sc_for; intro x; apply sc_bind; auto using sc_set_ml, sc_set_cl.
  - do 5 (apply sc_bind; [auto|intro]). apply sc_bind; [apply sc_for; auto using sc_set_cl|intro]. apply sc_bind; [auto|intro]. apply sc_for; auto using sc_set_cl.
Qed.
Lemma sc_generate : same_dict p_generate_constraints_transitivity.
Proof.
  unfold p_generate_constraints_transitivity. apply sc_bind; [|intro].
  - intro s. cbn. split; auto. intros t [<-|[]]. auto.
  - apply sc_bind; [apply sc_silent; cbn; auto|intro]. apply sc_for. intro x. apply sc_bind; [apply sc_silent; cbn; auto|intro]. apply sc_for. intro y.
    apply sc_bind; [apply sc_silent; cbn; auto|intros [c|]]; [apply sc_transitivity|apply sc_silent; exact I].
Qed.
Lemma ow_same {T} (p : prog T) : same_dict p -> one_write p.
Proof. intros H s. destruct (H s) as [H1 H2]. exists (states p s), []. rewrite app_nil_r. split; auto. split; auto. intros x []. Qed.
Lemma ow_after {T U} (p : prog T) (k : T -> prog U) : same_dict p -> (forall a, one_write (k a)) -> one_write (pbind p k).
Proof.
  intros H1 H2 s. destruct (H1 s) as [A1 A2]. rewrite states_bind, alone_bind. destruct (alone p s) as [s1 [a|e]]; cbn [fst snd] in *.
  - destruct (H2 a s1) as (l1 & l2 & E & B1 & B2). exists (states p s ++ l1), l2. rewrite E, app_assoc. split; auto. split; auto. intros x J. apply in_app_iff in J as [J|J]; auto. rewrite <- A2. auto.
  - exists (states p s), []. split; auto. split; auto. intros x [].
Qed.
Lemma ow_before {T U} (p : prog T) (k : T -> prog U) : one_write p -> (forall a, same_dict (k a)) -> one_write (pbind p k).
Proof.
  intros H1 H2 s. destruct (H1 s) as (l1 & l2 & E & A1 & A2). rewrite states_bind, alone_bind, E. destruct (alone p s) as [s1 [a|e]]; cbn [fst snd] in *.
  - destruct (H2 a s1) as [B1 B2]. exists l1, (l2 ++ states (k a) s1). rewrite app_assoc. split; auto. split; auto. rewrite B2. intros x J. apply in_app_iff in J as [J|J]; auto.
  - exists l1, l2. rewrite app_nil_r. auto.
Qed.
Lemma ow_set a b v : one_write (p_set_constraint a b v).
Proof. intro s. exists [], (states (p_set_constraint a b v) s). split; auto. split; [intros x []|]. cbn. intros x [<-|[]]. auto. Qed.

Lemma ow_wexec c : only_constraints c -> one_write (p_wexec c).
Proof.
  assert (Y : forall x, same_dict (prequire x)) by (intros []; apply sc_silent; exact I). assert (X : forall x, same_dict (p_in_dict x)) by (intros x; apply sc_silent; cbn; auto).
  intro H. destruct c as [x|x|a b t v|a b]; cbn in H; try tauto; cbn [p_wexec]; (apply ow_before; [|intro; apply sc_silent; exact I]).
  - unfold p_add_constraint. do 2 (apply ow_after; [apply X|intro]; apply ow_after; [apply Y|intro]). apply ow_after; [apply Y|intro]. apply ow_after; [apply sc_silent, silent_inferred|intro]. apply ow_after; [apply Y|intro].
    apply ow_after; [apply sc_silent, silent_added|intros [c|]]; [apply ow_same, sc_silent; exact I|].
    apply ow_before; [destruct (str_leb a b); apply ow_set|intro]. apply sc_bind; [apply sc_transitivity|intro]. apply sc_silent; exact I.
  - unfold p_delete_constraint. do 2 (apply ow_after; [apply X|intro]; apply ow_after; [apply Y|intro]).
    apply ow_before; [destruct (str_leb a b); apply ow_set|intro]. apply sc_bind; [apply sc_generate|intro]. apply sc_silent; exact I.
Qed.

Lemma trail_split (P : nat -> mgr -> Prop) n {T} (p : prog T) : forall m l1 l2, states p m = l1 ++ l2 -> (forall x, In x (m :: l1) -> P n x) -> (forall x, In x l2 -> P (S n) x) -> P (S n) (fst (alone p m)) -> trail P n p m (S n).
Proof.
  induction p as [r|f g IH]; intros m l1 l2 E H1 H2 H3; cbn [states alone trail fst] in *.
  - split; [apply H1; left; auto|]. split; [lia|auto].
  - split; [apply H1; left; auto|]. destruct l1 as [|y l1].
    + cbn [app] in E. exists (S n). split; [lia|]. apply trail_const. intros x J. apply H2. rewrite <- E. exact J.
    + cbn [app] in E. injection E as E1 E2. exists n. split; [lia|]. apply (IH m (f m) l1 l2); auto. intros x J. apply H1. rewrite E1 in J. right. exact J.
Qed.

Section Meanwhile.
  Variable m0 : mgr.
  Variable cs : list wcall.
  Hypothesis R0 : reachable m0.
  Hypothesis OC : Forall only_constraints cs.
  Notation N := (ReadersThms.N m0 cs).
  Notation l := (ids m0).
  Definition now (n : nat) (s : mgr) : Prop := n <= length cs /\ cdict s = cdict (N n).
  Let In_ k : Inv (N k) := N_inv m0 cs R0 k.

  Lemma now_start n : n <= length cs -> now n (N n).
  Proof. split; auto. Qed.
  Lemma call_trail n c : nth_error cs n = Some c -> trail now n (p_wexec c) (N n) (S n).
  Proof.
    intro E. assert (L : S n <= length cs) by (apply nth_error_Some; congruence). assert (O : only_constraints c) by (rewrite Forall_forall in OC; apply OC; eapply nth_error_In; eauto).
    assert (F : fst (alone (p_wexec c) (N n)) = N (S n)) by (rewrite C145_alone_proof; symmetry; apply N_step; auto).
    destruct (ow_wexec c O (N n)) as (l1 & l2 & Q & H1 & H2). rewrite F in H2. apply (trail_split now n _ (N n) l1 l2); auto.
    - intros x [<-|J]; split; auto; lia.
    - intros x J. split; auto.
    - rewrite F. apply now_start. auto.
  Qed.
  Lemma trail_catch {T} (p : prog T) n m e : trail now n p m e -> trail now n (pcatch p) m e.
  Proof. revert n m. induction p as [r|f g IH]; intros n m H; cbn in *; auto. destruct H as (H & n' & L & H'). split; auto. exists n'. split; auto. Qed.
  Lemma changes_trail ds n : ds = skipn n cs -> n <= length cs -> trail now n (p_wsession ds) (N n) (length cs).
  Proof.
    revert n. induction ds as [|c ds IH]; intros n E L; cbn [p_wsession].
    - assert (n = length cs). { apply (f_equal (@length _)) in E. rewrite skipn_length in E. cbn in E. lia. } subst n. split; [apply now_start; auto|]. split; auto. apply now_start; auto.
    - assert (X : nth_error cs n = Some c /\ ds = skipn (S n) cs).
      { clear - E. revert n E. induction cs as [|d l IH]; intros n E; [destruct n; discriminate|]. destruct n as [|n]; cbn in *; [injection E as -> ->; auto|apply IH; auto]. }
      destruct X as [X1 X2]. assert (L2 : S n <= length cs) by (apply nth_error_Some; congruence). specialize (IH (S n) X2 L2).
      apply (trail_bind now _ _ n (N n) (S n)); [apply trail_catch, call_trail; auto|]. rewrite alone_catch. cbn [fst snd]. rewrite C145_alone_proof, <- (N_step m0 cs n c X1).
      apply (trail_bind now _ _ (S n) (N (S n)) (length cs)); auto. assert (PE := trail_end now _ _ _ _ IH). destruct (alone (p_wsession ds) (N (S n))) as [m1 [rs|x]]; cbn [fst] in *; auto. cbn. auto.
  Qed.

  Lemma exec_ids c m : Inv m -> only_constraints c -> ids (fst (exec (as_wcall c) m)) = ids m.
  Proof.
    intros I O. destruct c as [x|x|a b t v|a b]; cbn in O; try tauto; cbn [as_wcall exec]; unfold bind.
    - destruct (accepts m a b t) eqn:A.
      + destruct (run_add_constraint m a b t v I A) as (m' & E & _ & K & _). rewrite E. exact K.
      + rewrite (run_add_constraint_raise m a b t v I A). auto.
    - assert (H := run_delete_constraint m a b I). destruct (both m a b).
      + destruct H as (m' & E & _ & K & _). rewrite E. exact K.
      + rewrite H. auto.
  Qed.
  Lemma kept_ids n : ids (N n) = l.
  Proof.
    induction n as [|n IH]; [reflexivity|]. destruct (nth_error cs n) as [c|] eqn:E.
    - rewrite (N_step m0 cs n c E), exec_ids; auto. rewrite Forall_forall in OC. apply OC. eapply nth_error_In; eauto.
    - apply nth_error_None in E. rewrite (N_end m0 cs (S n)), <- (N_end m0 cs n) by lia. auto.
  Qed.
  Lemma cell n a b : In a l -> In b l -> str_leb a b = true -> entry a b (N n) = Ok (addf (N n) a b) /\ ask (get_added_constraint a b) (N n) = Ok (addf (N n) a b).
  Proof.
    intros Ia Ib L. rewrite <- (kept_ids n) in Ia, Ib. split.
    - unfold entry, addf, sget, dlookup. rewrite L. destruct (dget a (cdict (N n))) as [row|] eqn:Er; [|apply dget_None in Er; contradiction]. cbn [rbind].
      assert (O := reachable_in_order _ (N_reachable m0 cs R0 n) a row Er). assert (J : In b (keys row)) by (rewrite O; apply filter_In; auto).
      apply dget_In_key in J as [o ->]. reflexivity.
    - unfold ask. rewrite run_added by auto. rewrite (proj2 (both_true _ _ _) (conj Ia Ib)). reflexivity.
  Qed.
  Lemma row_keys n a : In a l -> exists row, dlookup a (cdict (N n)) = Ok row /\ keys row = filter (str_leb a) l.
  Proof.
    intro Ia. rewrite <- (kept_ids n) in Ia |- *. unfold dlookup. destruct (dget a (cdict (N n))) as [row|] eqn:Er; [|apply dget_None in Er; contradiction].
    exists row. split; auto. exact (reachable_in_order _ (N_reachable m0 cs R0 n) a row Er).
  Qed.

  (** ** What is copied *)
  Notation cp := (copied (map as_wcall cs) m0).
  Lemma copied_lower lo lo' ps rs : lo <= lo' -> cp lo' ps rs -> cp lo ps rs.
  Proof. intros L H. destruct H; econstructor; eauto; lia. Qed.
  Lemma row_right a ys lo r hi : In a l -> (forall y, In y ys -> In y l /\ str_leb a y = true) -> watch now lo (p_row_records a ys) r hi ->
    exists rs, r = Ok rs /\ forall ps rs', cp hi ps rs' -> cp lo (map (pair a) ys ++ ps) (rs ++ rs').
  Proof.
    intro Ia. revert lo r hi. induction ys as [|y ys IH]; intros lo r hi Hy W; cbn [p_row_records] in W.
    - apply watch_done_inv in W as [-> ->]. exists []. split; auto.
    - destruct (Hy y (or_introl eq_refl)) as [Iy Ly]. apply watch_bind in W as (x & n1 & W1 & W). apply watch_read in W1 as (L1 & s & [L2 D] & ->).
      destruct (cell n1 a y Ia Iy Ly) as [C1 C2]. unfold entry in C1. rewrite D, C1 in W.
      apply watch_bind in W as (x & n2 & W2 & W). apply IH in W2 as (rs & -> & F); [|intros; apply Hy; right; auto]. apply watch_done_inv in W as [-> <-].
      eexists. split; [reflexivity|]. intros ps rs' Q. apply F in Q. cbn [map app]. destruct (addf (N n1) a y) as [[t v]|]; cbn [fst app]; econstructor; try exact C2; auto; rewrite map_length; lia.
  Qed.
  Lemma records_right k lo r hi : incl k l -> watch now lo (p_records k) r hi ->
    exists rs, r = Ok rs /\ forall ps rs', cp hi ps rs' -> cp lo (flat_map (fun a => map (pair a) (filter (str_leb a) l)) k ++ ps) (rs ++ rs').
  Proof.
    revert lo r hi. induction k as [|a k IH]; intros lo r hi Hk W; cbn [p_records] in W.
    - apply watch_done_inv in W as [-> ->]. exists []. split; auto.
    - assert (Ia : In a l) by (apply Hk; left; auto). apply watch_bind in W as (x & n1 & W1 & W). apply watch_read in W1 as (L1 & s & [L2 D] & ->). rewrite D in W.
      destruct (row_keys n1 a Ia) as (row & E & K). rewrite E, K in W.
      apply watch_bind in W as (x & n2 & W2 & W). apply row_right in W2 as (rs & -> & F); auto; [|intros y J; apply filter_In in J; auto].
      apply watch_bind in W as (x & n3 & W3 & W). apply IH in W3 as (rs2 & -> & F2); [|intros y J; apply Hk; right; auto]. apply watch_done_inv in W as [-> <-].
      eexists. split; [reflexivity|]. intros ps rs' Q. cbn [flat_map]. rewrite <- !app_assoc. apply (copied_lower lo n1); auto.
  Qed.
  Lemma save_right lo r hi : watch now lo p_to_json r hi -> exists rs, r = Ok (dump 0 (document l rs)) /\ cp lo (pairs_of l) rs.
  Proof.
    intro W. unfold p_to_json in W. apply watch_bind in W as (x & n1 & W1 & W). apply watch_read in W1 as (L1 & s & [L2 D] & ->). rewrite D, kept_ids in W.
    apply watch_bind in W as (x & n2 & W1 & W). apply watch_read in W1 as (L3 & s' & [L4 D'] & ->). rewrite D', kept_ids in W.
    apply watch_bind in W as (x & n3 & W1 & W). apply records_right in W1 as (rs & -> & F); [|apply incl_refl]. apply watch_done_inv in W as [-> <-].
    exists rs. split; auto. specialize (F [] [] (copied_all _ _ _)). rewrite !app_nil_r in F. apply (copied_lower lo n2); auto. lia.
  Qed.
End Meanwhile.

Lemma silent_row_records a ys : silent (p_row_records a ys).
Proof. induction ys as [|y ys IH]; cbn [p_row_records]; [exact I|]. apply silent_bind; [cbn; auto|intro]. apply silent_bind; auto. intro. exact I. Qed.
Lemma silent_records k : silent (p_records k).
Proof.
  induction k as [|a k IH]; cbn [p_records]; [exact I|]. apply silent_bind; [cbn; auto|intro]. apply silent_bind; [apply silent_row_records|intro]. apply silent_bind; auto. intro. exact I.
Qed.
Lemma silent_save : silent p_to_json.
Proof. unfold p_to_json. do 2 (apply silent_bind; [cbn; auto|intro]). apply silent_bind; [apply silent_records|intro]. exact I. Qed.

Lemma alone_row m a ys : (forall y, In y ys -> exists o, entry a y m = Ok o) -> alone (p_row_records a ys) m =
  (m, Ok (flat_map (fun y => match entry a y m with Ok (Some c) => [(a, y, fst c)] | _ => [] end) ys)).
Proof.
  induction ys as [|y ys IH]; intro H; cbn [p_row_records]; [reflexivity|]. rewrite alone_bind. cbn [p_get_constraint pread alone]. destruct (H y (or_introl eq_refl)) as [o E].
  assert (E' := E). unfold entry in E'. rewrite E'. rewrite alone_bind, IH by (intros; apply H; right; auto). cbn [alone flat_map]. rewrite E. destruct o; reflexivity.
Qed.

(*PROP C160: saving alone, action by action, leaves the manager as it is and writes the text of the method. *)
Lemma C160_alone_proof : forall m, reachable m -> alone p_to_json m = (m, Ok (to_json_text m)).
Proof.
  intros m R. assert (I := reachable_inv _ R). assert (O := reachable_in_order _ R). unfold p_to_json, to_json_text. rewrite alone_bind. cbn [p_ids pread alone]. rewrite alone_bind. cbn [p_ids pread alone].
  rewrite alone_bind. assert (G : alone (p_records (ids m)) m = (m, Ok (stored_list m))); [|rewrite G; reflexivity].
  assert (W := proj1 I). unfold stored_list. assert (ND := wf_nodup _ W).
  assert (F : forall d, incl d (cdict m) -> alone (p_records (keys d)) m = (m, Ok (flat_map (fun row => flat_map (fun e => match snd e with Some c => [(fst row, fst e, fst c)] | None => [] end) (snd row)) d))).
  { induction d as [|[a row] d IH]; intro J; cbn [keys map fst p_records]; [reflexivity|]. assert (Er : dget a (cdict m) = Some row) by (apply In_dget; auto; apply J; left; auto).
    rewrite alone_bind. cbn [p_row pread alone]. unfold dlookup. rewrite Er. assert (NR := wf_row_nodup _ W a row Er).
    assert (EN : forall e, In e row -> entry a (fst e) m = Ok (snd e)). { intros [y o] Je. unfold entry, dlookup. rewrite Er. cbn [rbind fst snd]. rewrite (In_dget _ _ _ NR Je). reflexivity. }
    rewrite alone_bind, alone_row.
    - cbn [keys] in IH. rewrite alone_bind. change (map fst d) with (keys d). rewrite IH by (intros z Jz; apply J; right; auto). cbn [alone flat_map fst snd]. do 2 f_equal. f_equal. unfold keys. rewrite flat_map_map.
      apply flat_map_same. intros [y o] Je. rewrite EN by auto. cbn [fst snd]. destruct o; reflexivity.
    - intros y Jy. unfold keys in Jy. apply in_map_iff in Jy as (e & <- & Je). rewrite EN by auto. eauto. }
  apply F. apply incl_refl.
Qed.
(*EX
Definition ex : mgr := run [CallAddConstraint A B MUST_LINK 1%Q; CallAddConstraint B C MUST_LINK 1%Q] (init [A; B; C]).
Lemma ex_reachable : reachable ex. Proof. apply run_reachable. Qed.
Example C160_alone_ex : alone p_to_json ex = (ex, Ok (dump 0 (document [A; B; C] [(A, A, MUST_LINK); (A, B, MUST_LINK); (B, B, MUST_LINK); (B, C, MUST_LINK); (C, C, MUST_LINK)]))).
Proof. vm_compute. reflexivity. Qed.
EX*)

(** Threads that save, while one thread changes constraints. *)
Lemma savers_watched m cs count m' r rs : reachable m -> Forall only_constraints cs ->
  interleaved m (p_left (p_wsession cs) :: repeat (p_right p_to_json) count) m' (r :: rs) ->
  (m' = run (map as_wcall cs) m /\ r = Ok (inl (snd (one_by_one (map as_wcall cs) m)))) /\
  Forall (fun x => exists l1, x = Ok (inr (dump 0 (document (ids m) l1))) /\ copied (map as_wcall cs) m 0 (pairs_of (ids m)) l1) rs.
Proof.
  intros R OC J. assert (T := changes_trail m cs OC cs 0 eq_refl (Nat.le_0_l _)). assert (PE := trail_end _ _ _ _ _ T).
  destruct (silent_watch (now m cs) m (p_left (p_wsession cs)) _ m' r rs 0 (length cs) J) as [E W].
  { apply Forall_forall. intros p Ip. apply repeat_spec in Ip as ->. apply silent_bind; [apply silent_save|intro; exact I]. }
  { unfold p_left. eapply trail_bind; [exact T|]. rewrite alone_wsession in *. cbn. auto. }
  unfold p_left in E. rewrite alone_bind, alone_wsession in E. cbn [alone] in E. injection E as <- <-. split; auto.
  clear J T PE. revert rs W. induction count as [|c IH]; intros rs W; inversion W as [|? ? ? ? [hi Hw] W']; subst; constructor; auto.
  unfold p_right in Hw. apply watch_bind in Hw as (x & n1 & H1 & H2). apply (save_right m cs R OC) in H1 as (l1 & -> & K). apply watch_done_inv in H2 as [-> _]. eauto.
Qed.

(*PROP C160: one thread adds and deletes constraints, any number of calls, and any number of other threads save the manager. However their reads and writes are interleaved, the changes end as when they are
    made alone, no saving fails, and each text lists the data and, for the pairs of data in order, the constraints that were added between them after some number of the changes, which never goes back
    from one pair to the next. *)
Lemma C160_copies_partial_proof : forall m cs count m' r rs l,
    reachable m -> Forall only_constraints cs -> ask get_list_of_managed_data_IDs m = Ok l ->
    interleaved m (p_left (p_wsession cs) :: repeat (p_right p_to_json) count) m' (r :: rs) ->
    m' = run (map as_wcall cs) m /\ r = Ok (inl (snd (one_by_one (map as_wcall cs) m))) /\
    Forall (fun x => exists saved, x = Ok (inr (dump 0 (document l saved))) /\ copied (map as_wcall cs) m 0 (pairs_of l) saved) rs.
Proof.
  intros m cs count m' r rs l R OC El J. unfold ask in El. rewrite run_managed in El. injection El as <-. destruct (savers_watched m cs count m' r rs R OC J) as ((E1 & E2) & F). auto.
Qed.
(*EX
(** The constraint between [a] and [b] is copied, then it is deleted and another constraint is added, then the rest is copied. *)
Definition news : list wcall := [WDelete A B; WAdd A C CANNOT_LINK 1%Q].
Definition all_of_them (cs : list wcall) (m : mgr) : nat := length (states (p_wsession cs) m).
Example C160_copies_ex : Forall only_constraints news /\ ask get_list_of_managed_data_IDs ex = Ok [A; B; C] /\
  exists m', interleaved ex [p_left (p_wsession news); p_right p_to_json] m'
    [Ok (inl [Ok (VBool true); Ok (VBool true)]);
     Ok (inr (dump 0 (document [A; B; C] [(A, A, MUST_LINK); (A, B, MUST_LINK); (A, C, CANNOT_LINK); (B, B, MUST_LINK); (B, C, MUST_LINK); (C, C, MUST_LINK)])))].
Proof. split; [repeat constructor|]. split; [reflexivity|]. eexists. apply (play_interleaved (repeat 1 5 ++ repeat 0 (all_of_them news ex) ++ repeat 1 6)). vm_compute. reflexivity. Qed.
EX*)

Lemma copied_In cs m lo ps rs a b t : copied cs m lo ps rs -> In (a, b, t) rs -> In (a, b) ps /\ exists n v, n <= length cs /\ ask (get_added_constraint a b) (run (firstn n cs) m) = Ok (Some (t, v)).
Proof.
  induction 1 as [|lo n x y ps rs L E H IH|lo n x y t' v ps rs L E H IH]; intro J; [destruct J| |].
  - destruct (IH J) as [J1 J2]. split; auto. right. auto.
  - destruct J as [Q|J]; [injection Q as -> -> ->; split; [left; auto|exists n, v; split; [lia|auto]]|]. destruct (IH J) as [J1 J2]. split; auto. right. auto.
Qed.
Lemma copied_all_of cs m lo ps rs a b : copied cs m lo ps rs -> In (a, b) ps ->
  exists n, n <= length cs /\ (ask (get_added_constraint a b) (run (firstn n cs) m) = Ok None \/ exists t v, ask (get_added_constraint a b) (run (firstn n cs) m) = Ok (Some (t, v)) /\ In (a, b, t) rs).
Proof.
  induction 1 as [|lo n x y ps rs L E H IH|lo n x y t' v ps rs L E H IH]; intro J; [destruct J| |]; (destruct J as [Q|J]; [injection Q as -> ->; exists n; split; [lia|]|]); auto.
  - right. exists t', v. split; auto. left. auto.
  - destruct (IH J) as (k & Lk & [Q|(t & v' & Q1 & Q2)]); exists k; (split; [auto|]); auto. right. exists t, v'. split; auto. right. auto.
Qed.
Lemma pairs_In l a b : In (a, b) (pairs_of l) <-> In a l /\ In b l /\ str_leb a b = true.
Proof.
  unfold pairs_of. rewrite in_flat_map. split.
  - intros (x & Jx & J). apply in_map_iff in J as (y & Q & J). injection Q as -> ->. apply filter_In in J. tauto.
  - intros (Ja & Jb & L). exists a. split; auto. apply in_map_iff. exists b. split; auto. apply filter_In. auto.
Qed.
Lemma addf_stays m a b t v p q c : Inv m -> addf m p q = Some c -> addf (fst (exec (CallAddConstraint a b t v) m)) p q = Some c.
Proof.
  intros I H. cbn [exec]. unfold bind. destruct (accepts m a b t) eqn:A.
  - destruct (run_add_constraint m a b t v I A) as (m' & E & _ & _ & S & _). rewrite E. cbn [fst ret]. rewrite (addf_lo_hi m'), S.
    destruct (same_pair a b (lo p q) (hi p q)) eqn:SP; [|rewrite <- addf_lo_hi; auto].
    assert (Q : addf m a b = Some c) by (apply same_pair_spec in SP as [[-> ->]|[-> ->]]; [auto|rewrite addf_sym; auto]). rewrite Q. auto.
  - rewrite (run_add_constraint_raise m a b t v I A). auto.
Qed.

Lemma added_stays m cs n n' a b t v : reachable m -> Forall only_adds_constraints cs -> n <= n' ->
  ask (get_added_constraint a b) (ReadersThms.N m cs n) = Ok (Some (t, v)) -> ask (get_added_constraint a b) (ReadersThms.N m cs n') = Ok (Some (t, v)).
Proof.
  intros R AC. induction 1 as [|k L IH]; auto. intro H. apply IH in H. destruct (N_call m cs AC k) as [->|(x & y & t' & v' & E)]; auto.
  assert (I := N_inv m cs R k). assert (I' := N_inv m cs R (S k)). unfold ask in *. rewrite run_added in * by auto. cbn [snd] in *.
  assert (B : both (ReadersThms.N m cs k) a b = true) by (destruct (both (ReadersThms.N m cs k) a b); auto; discriminate). rewrite B in H. injection H as H.
  assert (B' : both (ReadersThms.N m cs (S k)) a b = true) by (apply both_true; apply both_true in B; rewrite (N_ids m cs R AC) in *; auto). rewrite B'. rewrite E, (addf_stays _ _ _ _ _ _ _ _ I H). auto.
Qed.
Lemma more_inferred m1 m2 t a b : reachable m1 -> reachable m2 -> ids m1 = ids m2 -> (forall x y, added m1 MUST_LINK x y -> added m2 MUST_LINK x y \/ x = y) ->
  (forall x y, added m1 CANNOT_LINK x y -> added m2 CANNOT_LINK x y) -> inferred m1 a b (Some t) -> inferred m2 a b (Some t).
Proof.
  intros R1 R2 EI AM AC H. assert (I1 := reachable_inv _ R1). assert (B : In a (ids m1) /\ In b (ids m1)).
  { unfold inferred, ask in H. rewrite run_inferred in H by auto. cbn [snd] in H. destruct (both m1 a b) eqn:B; [apply both_true; auto|discriminate]. }
  destruct B as [Ia Ib]. destruct (C01_inferred_is_closure_proof m1 R1 a b) as (P1 & P2 & _ & P4); try (apply managed_ids; auto). rewrite EI in Ia, Ib.
  destruct (C01_inferred_is_closure_proof m2 R2 a b) as (Q1 & Q2 & _); try (apply managed_ids; auto).
  destruct (P4 _ H) as [Q|[Q|Q]]; [| |discriminate]; rewrite Q in *.
  - apply Q1. apply P1 in H. eapply self_linked; [|exact H]. exact AM.
  - apply Q2. apply P2 in H as (x & y & L1 & L2 & H). exists x, y. split; [eapply self_linked; [|exact L1]; exact AM|]. split; [eapply self_linked; [|exact L2]; exact AM|]. destruct H; [left|right]; apply AC; auto.
Qed.

(*PROP C160: when the other thread only adds constraints, loading the file succeeds, unless an ID is not a text. The loaded manager has the same data in the same order; what was added when the threads
    started is there, and only what is added at the end is there, and the same is true for what is inferred. *)
Lemma C160_additions_partial_proof : forall m cs count m' r rs,
    reachable m -> Forall only_adds_constraints cs -> (forall x, managed m x -> python_string x /\ ~ splits_a_character x) ->
    interleaved m (p_left (p_wsession cs) :: repeat (p_right p_to_json) count) m' (r :: rs) ->
    Forall (fun x => exists text loaded, x = Ok (inr text) /\ load_text text = Ok loaded /\ reachable loaded /\
      ask get_list_of_managed_data_IDs loaded = ask get_list_of_managed_data_IDs m /\
      (forall t a b, a <> b -> added m t a b -> added loaded t a b) /\ (forall t a b, a <> b -> added loaded t a b -> added m' t a b) /\
      (forall t a b, inferred m a b (Some t) -> inferred loaded a b (Some t)) /\ (forall t a b, inferred loaded a b (Some t) -> inferred m' a b (Some t))) rs.
Proof.
  intros m cs count m' r rs R AC TX J.
  assert (OC : Forall only_constraints cs) by (eapply Forall_impl; [|exact AC]; intros [] H; cbn in *; auto).
  destruct (savers_watched m cs count m' r rs R OC J) as ((E1 & _) & F). assert (I := reachable_inv _ R).
  assert (EN : m' = ReadersThms.N m cs (length cs)) by (rewrite E1; unfold ReadersThms.N; rewrite firstn_all2; auto; rewrite map_length; auto).
  assert (R' : reachable m') by (rewrite EN; apply N_reachable; auto). assert (I' := reachable_inv _ R'). assert (EI : ids m' = ids m) by (rewrite EN; apply (N_ids m cs R AC)).
  eapply Forall_impl; [|exact F]. clear F J. intros x (saved & -> & K).
  assert (S1 : forall a b t, In (a, b, t) saved -> In a (ids m) /\ In b (ids m) /\ added m' t a b).
  { intros a b t J. destruct (copied_In _ _ _ _ _ _ _ _ K J) as (JP & n & v & Ln & Q). apply pairs_In in JP as (Ia & Ib & _). split; auto. split; auto. exists v. rewrite map_length in Ln. rewrite EN.
    apply (added_stays m cs n (length cs)); auto. }
  assert (S2 : forall a b t, str_leb a b = true -> added m t a b -> In (a, b, t) saved).
  { intros a b t L [v Q]. assert (B : In a (ids m) /\ In b (ids m)).
    { unfold ask in Q. rewrite run_added in Q by auto. cbn [snd] in Q. destruct (both m a b) eqn:B; [apply both_true; auto|discriminate]. }
    destruct (copied_all_of _ _ _ _ _ a b K) as (n & Ln & H); [apply pairs_In; tauto|].
    assert (Q' := added_stays m cs 0 n a b t v R AC (Nat.le_0_l _) Q). unfold ReadersThms.N in Q'. destruct H as [H|(t' & v' & H & H')]; [congruence|]. rewrite H in Q'. injection Q' as -> _. auto. }
  assert (AL : forall a b t, added m' t a b -> allowed t).
  { intros a b t H. apply added_stored in H; auto. destruct I' as (W & _). destruct H as [(v & H)|(v & H)]; apply (wf_val _ W) in H; unfold allowed; tauto. }
  exists (dump 0 (document (ids m) saved)).
  destruct (C26_document_accepted_iff_satisfiable_proof (ids m) saved) as [G _]. destruct G as (loaded & E & AD).
  { split; [intros a b t H; destruct (S1 a b t H) as (Ia & Ib & H'); split; auto; split; auto; eapply AL; eauto|].
    destruct (inv_satisfiable m' I') as (f & F1 & F2). exists f. split; intros a b [H|H]; apply S1 in H as (_ & _ & H); [apply F1|symmetry; apply F1|apply F2|intro Q; apply (F2 b a); auto]; auto. }
  exists loaded. assert (LT : load_text (dump 0 (document (ids m) saved)) = Ok loaded).
  { unfold load_text. rewrite loads_document_ok; [exact E|]. intros s [H|(a & b & t & H & Q)]; [apply TX, managed_ids; auto|]. destruct (S1 a b t H) as (Ia & Ib & H').
    destruct Q as [-> | [-> | ->]]; [apply TX, managed_ids; auto|apply TX, managed_ids; auto|apply text_ok_spec, text_of_type; eapply AL; eauto]. }
  destruct (C26_loaded_manager_coherent_proof _ _ LT) as (RL & _ & CL).
  assert (IL := reachable_inv _ RL). assert (EL : ids loaded = ids m).
  { rewrite load_document in E. destruct (add_all saved (init (ids m))) as [m1 rr] eqn:Q. destruct rr as [u|ee]; [|unfold rbind in E; discriminate E]. unfold rbind in E. injection E as <-. destruct u.
    destruct (add_all_ok _ _ _ (init_inv (ids m)) Q) as (_ & KK & _). rewrite KK, init_ids. apply dedup_id. apply inv_nodup; auto. }
  assert (A1 : forall t a b, added m t a b -> added loaded t a b).
  { intros t a b H. apply AD. left. destruct (str_leb a b) eqn:L; [left; auto|right]. apply S2; [apply str_leb_false; auto|]. apply added_stored; auto. apply added_stored in H; auto. tauto. }
  assert (A2 : forall t a b, added loaded t a b -> added m' t a b \/ (a = b /\ t = MUST_LINK)).
  { intros t a b H. apply AD in H as [[H|H]|(_ & H)]; auto; apply S1 in H as (_ & _ & H); left; auto. apply added_stored; auto. apply added_stored in H; auto. tauto. }
  split; auto. split; auto. split; auto. split; [unfold ask; rewrite !run_managed; cbn; congruence|].
  split; auto. split; [intros t a b NE H; destruct (A2 t a b H); tauto|]. split; intros t a b; apply more_inferred; auto; try congruence.
  - intros x y H. destruct (A2 _ _ _ H); tauto.
  - intros x y H. destruct (A2 _ _ _ H) as [|[_ Q]]; auto. discriminate.
Qed.
(*EX
(** Two constraints are added once the first row is copied: the second is in the file, the first is not. *)
Definition start : mgr := run [CallAddConstraint B (str "d") MUST_LINK 1%Q] (init [A; B; C; str "d"]).
Definition more : list wcall := [WAdd A B MUST_LINK 1%Q; WAdd B C MUST_LINK 1%Q].
Example C160_additions_ex : Forall only_adds_constraints more /\
  exists m' text loaded, interleaved start [p_left (p_wsession more); p_right p_to_json] m' [Ok (inl [Ok (VBool true); Ok (VBool true)]); Ok (inr text)] /\ load_text text = Ok loaded /\
    inferred start C (str "d") None /\ inferred loaded C (str "d") (Some MUST_LINK) /\ inferred loaded A C None /\ inferred m' A C (Some MUST_LINK).
Proof.
  split; [repeat constructor|]. eexists. eexists. eexists. split; [apply (play_interleaved (repeat 1 7 ++ repeat 0 (all_of_them more start) ++ repeat 1 9)); vm_compute; reflexivity|].
  split; [vm_compute; reflexivity|]. repeat split; vm_compute; reflexivity.
Qed.
EX*)

(*PROP C160: when all the constraints that were added at some moment can be respected together, loading the file succeeds, whatever is added and deleted. The loaded manager has the same data in the same
    order; a constraint that was there at all moments is there, and what is there was there at some moment. *)
Lemma C160_loads_partial_proof : forall m cs count m' r rs,
    reachable m -> Forall only_constraints cs -> (forall x, managed m x -> python_string x /\ ~ splits_a_character x) ->
    (exists label, forall n, satisfies (added_must (run (map as_wcall (firstn n cs)) m)) (added_cannot (run (map as_wcall (firstn n cs)) m)) label) ->
    interleaved m (p_left (p_wsession cs) :: repeat (p_right p_to_json) count) m' (r :: rs) ->
    Forall (fun x => exists text loaded, x = Ok (inr text) /\ load_text text = Ok loaded /\ reachable loaded /\
      ask get_list_of_managed_data_IDs loaded = ask get_list_of_managed_data_IDs m /\
      (forall t a b, a <> b -> (forall n, added (run (map as_wcall (firstn n cs)) m) t a b) -> added loaded t a b) /\
      (forall t a b, a <> b -> added loaded t a b -> exists n, added (run (map as_wcall (firstn n cs)) m) t a b)) rs.
Proof.
  intros m cs count m' r rs R OC TX [f SA] J. destruct (savers_watched m cs count m' r rs R OC J) as (_ & F). assert (I := reachable_inv _ R).
  assert (RN : forall n, reachable (run (map as_wcall (firstn n cs)) m)).
  { intro n. generalize (map as_wcall (firstn n cs)). intro l. clear - R. revert m R. induction l as [|c l IH]; intros m R; cbn; auto. apply IH, reach_call; auto. }
  assert (SY : forall n t a b, added (run (map as_wcall (firstn n cs)) m) t a b -> added (run (map as_wcall (firstn n cs)) m) t b a).
  { intros n t a b H. assert (In' := reachable_inv _ (RN n)). apply added_stored; auto. apply added_stored in H; auto. tauto. }
  eapply Forall_impl; [|exact F]. clear F J. intros x (saved & -> & K).
  assert (S1 : forall a b t, In (a, b, t) saved -> In a (ids m) /\ In b (ids m) /\ exists n, added (run (map as_wcall (firstn n cs)) m) t a b).
  { intros a b t J. destruct (copied_In _ _ _ _ _ _ _ _ K J) as (JP & n & v & Ln & Q). apply pairs_In in JP as (Ia & Ib & _). split; auto. split; auto. exists n, v. rewrite <- firstn_map. exact Q. }
  assert (S2 : forall a b t, str_leb a b = true -> (forall n, added (run (map as_wcall (firstn n cs)) m) t a b) -> In (a, b, t) saved).
  { intros a b t L H. assert (B : In a (ids m) /\ In b (ids m)).
    { destruct (H 0) as [v Q]. cbn [firstn map] in Q. change (run [] m) with m in Q. unfold ask in Q. rewrite run_added in Q by auto. cbn [snd] in Q. destruct (both m a b) eqn:B; [apply both_true; auto|discriminate]. }
    destruct (copied_all_of _ _ _ _ _ a b K) as (n & Ln & H'); [apply pairs_In; tauto|]. destruct (H n) as [v Q]. rewrite <- firstn_map in Q.
    destruct H' as [H'|(t' & v' & H' & H'')]; [congruence|]. rewrite H' in Q. injection Q as -> _. auto. }
  assert (AL : forall n a b t, added (run (map as_wcall (firstn n cs)) m) t a b -> allowed t).
  { intros n a b t H. assert (I' := reachable_inv _ (RN n)). apply added_stored in H; auto. destruct I' as (W & _). destruct H as [(v & H)|(v & H)]; apply (wf_val _ W) in H; unfold allowed; tauto. }
  exists (dump 0 (document (ids m) saved)).
  destruct (C26_document_accepted_iff_satisfiable_proof (ids m) saved) as [G _]. destruct G as (loaded & E & AD).
  { split; [intros a b t H; destruct (S1 a b t H) as (Ia & Ib & n & H'); split; auto; split; auto; eapply AL; eauto|].
    exists f. split; intros a b [H|H]; apply S1 in H as (_ & _ & n & H); destruct (SA n) as [F1 F2]; [apply F1|symmetry; apply F1|apply F2|intro Q; apply (F2 b a); auto]; auto. }
  exists loaded. assert (LT : load_text (dump 0 (document (ids m) saved)) = Ok loaded).
  { unfold load_text. rewrite loads_document_ok; [exact E|]. intros s [H|(a & b & t & H & Q)]; [apply TX, managed_ids; auto|]. destruct (S1 a b t H) as (Ia & Ib & n & H').
    destruct Q as [-> | [-> | ->]]; [apply TX, managed_ids; auto|apply TX, managed_ids; auto|apply text_ok_spec, text_of_type; eapply AL; eauto]. }
  destruct (C26_loaded_manager_coherent_proof _ _ LT) as (RL & _ & CL).
  assert (EL : ids loaded = ids m).
  { rewrite load_document in E. destruct (add_all saved (init (ids m))) as [m1 rr] eqn:Q. destruct rr as [u|ee]; [|unfold rbind in E; discriminate E]. unfold rbind in E. injection E as <-. destruct u.
    destruct (add_all_ok _ _ _ (init_inv (ids m)) Q) as (_ & KK & _). rewrite KK, init_ids. apply dedup_id. apply inv_nodup; auto. }
  split; auto. split; auto. split; auto. split; [unfold ask; rewrite !run_managed; cbn; congruence|]. split.
  - intros t a b _ H. apply AD. left. destruct (str_leb a b) eqn:L; [left; auto|right]. apply S2; [apply str_leb_false; auto|]. intro n. auto.
  - intros t a b NE H. apply AD in H as [[H|H]|(_ & Q & _)]; [| |contradiction]; apply S1 in H as (_ & _ & n & H); exists n; auto.
Qed.
(*EX
(** A constraint is deleted once it is copied, and then one is added: the file has both, and loads. *)
Definition swap : list wcall := [WDelete A B; WAdd B C MUST_LINK 1%Q].
Definition before : mgr := run [CallAddConstraint A B MUST_LINK 1%Q] (init [A; B; C]).
Example C160_loads_ex : Forall only_constraints swap /\
  (exists label, forall n, satisfies (added_must (run (map as_wcall (firstn n swap)) before)) (added_cannot (run (map as_wcall (firstn n swap)) before)) label) /\
  exists m' text loaded, interleaved before [p_left (p_wsession swap); p_right p_to_json] m' [Ok (inl [Ok (VBool true); Ok (VBool true)]); Ok (inr text)] /\ load_text text = Ok loaded /\
    inferred before A C None /\ inferred m' A C None /\ inferred loaded A C (Some MUST_LINK).
Proof.
  split; [repeat constructor|]. split.
  - exists (fun _ => 0). intro n. split; [reflexivity|]. intros a b H. exfalso. revert H.
    assert (R : run (map as_wcall (firstn n swap)) before = before \/ run (map as_wcall (firstn n swap)) before = run [CallDeleteConstraint A B] before \/
                run (map as_wcall (firstn n swap)) before = run (map as_wcall swap) before).
    { destruct n as [|[|n]]; [left; reflexivity|right; left; reflexivity|right; right]. cbn [firstn swap]. rewrite firstn_nil. reflexivity. }
    assert (K : forall m, reachable m -> (forall x y v, In x (ids m) -> In y (ids m) -> ask (get_added_constraint x y) m <> Ok (Some (CANNOT_LINK, v))) -> ~ added_cannot m a b).
    { intros m Q F [v H]. apply (F a b v); auto; unfold ask in H; rewrite run_added in H by (apply reachable_inv; auto); cbn [snd] in H; destruct (both m a b) eqn:Bo; try discriminate; apply both_true in Bo; tauto. }
    destruct R as [-> | [-> | ->]]; (apply K; [repeat apply reach_call; apply reach_init|]);
      (intros x y v Ix Iy; vm_compute in Ix, Iy; repeat destruct Ix as [<-|Ix]; repeat destruct Iy as [<-|Iy]; try contradiction; vm_compute; discriminate).
  - eexists. eexists. eexists. split; [apply (play_interleaved (repeat 1 5 ++ repeat 0 (all_of_them swap before) ++ repeat 1 6)); vm_compute; reflexivity|].
    split; [vm_compute; reflexivity|]. repeat split; vm_compute; reflexivity.
Qed.
EX*)

(** ** One change *)
Definition recs (m : mgr) (ps : list (pystr * pystr)) : list (pystr * pystr * pystr) :=
  flat_map (fun p => match ask (get_added_constraint (fst p) (snd p)) m with Ok (Some (t, _)) => [(fst p, snd p, t)] | _ => [] end) ps.
Lemma flat_map_flat {X Y Z} (f : X -> list Y) (g : Y -> list Z) k : flat_map g (flat_map f k) = flat_map (fun x => flat_map g (f x)) k.
Proof. induction k as [|x k IH]; cbn; auto. rewrite flat_map_app, IH. auto. Qed.
Lemma recs_records m l : recs m (pairs_of l) = records m l.
Proof.
  unfold recs, pairs_of, records. rewrite flat_map_flat. apply flat_map_same. intros a _. rewrite flat_map_map, flat_map_filter. apply flat_map_same. intros b _. destruct (str_leb a b); auto.
Qed.
Lemma exec_one m c : Inv m -> only_constraints c -> exists a b, forall p q, In p (ids m) -> In q (ids m) -> str_leb p q = true -> (p, q) <> (a, b) ->
  ask (get_added_constraint p q) (fst (exec (as_wcall c) m)) = ask (get_added_constraint p q) m.
Proof.
  intros I O.
  assert (G : forall x y m', Inv m' -> ids m' = ids m -> (forall p q, same_pair x y p q = false -> sget (cdict m') p q = sget (cdict m) p q) ->
    exists a b, forall p q, In p (ids m) -> In q (ids m) -> str_leb p q = true -> (p, q) <> (a, b) -> ask (get_added_constraint p q) m' = ask (get_added_constraint p q) m).
  { intros x y m' I' E S. exists (lo x y), (hi x y). intros p q Ip Iq L NE. unfold ask. rewrite !run_added by auto. cbn [snd]. unfold both. rewrite E. destruct (mem p (ids m) && mem q (ids m)); auto.
    assert (Lo : lo p q = p) by (unfold lo; rewrite L; auto). assert (Hi : hi p q = q) by (unfold hi; rewrite L; auto). rewrite (addf_lo_hi m'), (addf_lo_hi m), Lo, Hi, S; auto.
    destruct (same_pair x y p q) eqn:SP; auto. exfalso. apply NE. unfold same_pair in SP. apply andb_true_iff in SP as [Q1 Q2]. apply eqb_eq in Q1, Q2. congruence. }
  destruct c as [| |a b t v|a b]; try contradiction; cbn [as_wcall exec]; unfold bind.
  - destruct (accepts m a b t) eqn:Ac.
    + destruct (run_add_constraint m a b t v I Ac) as (m' & E & I' & EI & S & _). rewrite E. cbn [fst ret]. apply (G a b); auto. intros p q SP. rewrite S, SP. auto.
    + rewrite (run_add_constraint_raise m a b t v I Ac). cbn [fst]. exists a, b. auto.
  - assert (D := run_delete_constraint m a b I). destruct (both m a b).
    + destruct D as (m' & E & I' & EI & S). rewrite E. cbn [fst ret]. apply (G a b); auto. intros p q SP. rewrite S, SP. auto.
    + rewrite D. cbn [fst]. exists a, b. auto.
Qed.
Lemma one_or_none (c : call) n m : n <= length [c] -> run (firstn n [c]) m = m \/ run (firstn n [c]) m = run [c] m.
Proof. destruct n as [|[|n]]; cbn [length]; intro L; [left|right|lia]; reflexivity. Qed.
Lemma recs_cons m p ps : recs m (p :: ps) = (match ask (get_added_constraint (fst p) (snd p)) m with Ok (Some (t, _)) => [(fst p, snd p, t)] | _ => [] end) ++ recs m ps.
Proof. reflexivity. Qed.
Lemma copied_same c m lo ps rs : (forall p q, In (p, q) ps -> ask (get_added_constraint p q) (run [c] m) = ask (get_added_constraint p q) m) ->
  copied [c] m lo ps rs -> rs = recs m ps /\ rs = recs (run [c] m) ps.
Proof.
  intros H K. induction K as [|lo n x y ps rs L E K IH|lo n x y t v ps rs L E K IH]; [split; reflexivity| |];
    (destruct IH as [-> Q]; [intros; apply H; right; auto|]); rewrite !recs_cons; cbn [fst snd]; rewrite (H x y (or_introl eq_refl)); rewrite <- Q;
    (destruct (one_or_none c n m (proj2 L)) as [R|R]; rewrite R in E; try rewrite (H x y (or_introl eq_refl)) in E); rewrite E; split; reflexivity.
Qed.
Lemma pair_dec (p q : pystr * pystr) : {p = q} + {p <> q}.
Proof. destruct p as [x y], q as [a b]. destruct (eq_dec_of x a) as [->|]; [destruct (eq_dec_of y b) as [->|]|]; [left; auto|right; congruence|right; congruence]. Qed.
Lemma copied_one c m lo ps rs a b : (forall p q, In (p, q) ps -> (p, q) <> (a, b) -> ask (get_added_constraint p q) (run [c] m) = ask (get_added_constraint p q) m) -> NoDup ps ->
  copied [c] m lo ps rs -> rs = recs m ps \/ rs = recs (run [c] m) ps.
Proof.
  intros H ND K. induction K as [|lo n x y ps rs L E K IH|lo n x y t v ps rs L E K IH]; [left; reflexivity| |]; inversion ND as [|? ? NI ND']; subst; rewrite !recs_cons; cbn [fst snd];
    (destruct (pair_dec (x, y) (a, b)) as [Q|Q];
     [destruct (copied_same c m n ps rs) as [Q1 Q2]; auto; [intros p q J; apply H; [right; auto|congruence]|];
      destruct (one_or_none c n m (proj2 L)) as [R|R]; rewrite R in E; [left|right]; rewrite E; cbn [app]; congruence|
      rewrite (H x y (or_introl eq_refl) Q); assert (E' : ask (get_added_constraint x y) m = ask (get_added_constraint x y) (run (firstn n [c]) m))
        by (destruct (one_or_none c n m (proj2 L)) as [R|R]; rewrite R; auto; symmetry; apply H; auto; left; auto);
      rewrite E', E; destruct IH as [-> | ->]; auto; intros p q J; apply H; right; auto]).
Qed.
Lemma nodup_both {X} (k k' : list X) : NoDup k -> NoDup k' -> (forall x, In x k -> In x k' -> False) -> NoDup (k ++ k').
Proof.
  induction 1 as [|x k NI ND IH]; cbn; auto. intros N' H. constructor; [|apply IH; auto; intros y J J'; apply (H y); auto; right; auto].
  intro J. apply in_app_iff in J as [J|J]; auto. apply (H x); [left; auto|auto].
Qed.
Lemma pairs_NoDup l : NoDup l -> NoDup (pairs_of l).
Proof.
  unfold pairs_of. assert (G : forall k, NoDup k -> forall f : pystr -> list pystr, (forall a, NoDup (f a)) -> NoDup (flat_map (fun a => map (pair a) (f a)) k)).
  { induction 1 as [|a k NI ND IH]; intros f Hf; cbn [flat_map]; [constructor|]. apply nodup_both; auto.
    - apply FinFun.Injective_map_NoDup; auto. intros x y Q. congruence.
    - intros p J J'. apply in_map_iff in J as (y & <- & _). apply in_flat_map in J' as (a' & Ja & J'). apply in_map_iff in J' as (y' & Q & _). injection Q as -> ->. auto. }
  intro ND. apply (G l ND (fun a => filter (str_leb a) l)). intro a. apply NoDup_filter; auto.
Qed.

(*PROP C160: when the other thread makes at most one change, each text is the one saved before the change or the one saved after it. *)
Lemma C160_one_change_partial_proof : forall m cs count m' r rs,
    reachable m -> Forall only_constraints cs -> length cs <= 1 ->
    interleaved m (p_left (p_wsession cs) :: repeat (p_right p_to_json) count) m' (r :: rs) ->
    Forall (fun x => x = Ok (inr (to_json_text m)) \/ x = Ok (inr (to_json_text m'))) rs.
Proof.
  intros m cs count m' r rs R OC L J. assert (I := reachable_inv _ R). destruct (savers_watched m cs count m' r rs R OC J) as ((E1 & _) & F).
  assert (R' : reachable m') by (rewrite E1; clear - R; revert m R; induction cs as [|c cs IH]; intros m R; cbn; auto; apply IH, reach_call; auto).
  eapply Forall_impl; [|exact F]. clear F J. intros x (saved & -> & K).
  assert (T : forall k, reachable k -> ids k = ids m -> to_json_text k = dump 0 (document (ids m) (recs k (pairs_of (ids m))))).
  { intros k Rk Ek. rewrite recs_records, <- Ek. apply C127_contents_proof; auto. }
  destruct cs as [|c [|c' cs]]; [| |cbn in L; lia].
  - left. rewrite (T m R eq_refl). do 4 f_equal. cbn [map] in K. clear - K. remember 0 as lo eqn:E. clear E. induction K as [|lo n a b ps rs L E H IH|lo n a b t v ps rs L E H IH]; auto; cbn [recs flat_map fst snd].
    + rewrite firstn_nil in E. cbn in E. change (run [] m) with m in E. rewrite E. exact IH.
    + rewrite firstn_nil in E. change (run [] m) with m in E. rewrite E. cbn [app]. f_equal. exact IH.
  - cbn [map] in *. inversion OC as [|? ? O _]; subst. assert (EI : ids (run [as_wcall c] m) = ids m) by (apply exec_ids; auto).
    destruct (exec_one m c I O) as (a & b & H). apply (copied_one _ _ _ _ _ a b) in K as [-> | ->].
    + left. rewrite (T m R eq_refl). auto.
    + right. rewrite (T _ R' EI). auto.
    + intros p q JP NE. apply pairs_In in JP as (J1 & J2 & J3). apply H; auto.
    + apply pairs_NoDup, inv_nodup; auto.
Qed.
(*EX
Definition first_only : list wcall := [WDelete A B].
Example C160_one_change_ex : Forall only_constraints first_only /\ length first_only <= 1 /\ (exists m', interleaved ex [p_left (p_wsession first_only); p_right p_to_json; p_right p_to_json] m'
    [Ok (inl [Ok (VBool true)]); Ok (inr (to_json_text ex)); Ok (inr (to_json_text m'))] /\ to_json_text m' <> to_json_text ex).
Proof.
  split; [repeat constructor|]. split; [repeat constructor|]. exists (run (map as_wcall first_only) ex).
  split; [apply (play_interleaved (repeat 1 5 ++ repeat 2 4 ++ repeat 0 (all_of_them first_only ex) ++ repeat 1 6 ++ repeat 2 7)); vm_compute; reflexivity|vm_compute; discriminate].
Qed.
EX*)

(*PROP C160: with two additions, the file may not be the one of any moment: it is none of those saved between the changes. *)
Lemma C160_snapshot_refuted_proof : ~ (forall m cs m' r x,
    reachable m -> Forall only_adds_constraints cs -> interleaved m [p_left (p_wsession cs); p_right p_to_json] m' [r; x] ->
    exists n, x = Ok (inr (to_json_text (run (map as_wcall (firstn n cs)) m)))).
Proof.
  intro H. set (A := str "a"). set (B := str "b"). set (Ck := str "c").
  pose (cs := [WAdd A B MUST_LINK 1%Q; WAdd B Ck MUST_LINK 1%Q]). pose (m := init [A; B; Ck]). pose (saved := dump 0 (document [A; B; Ck] [(A, A, MUST_LINK); (B, B, MUST_LINK); (B, Ck, MUST_LINK); (Ck, Ck, MUST_LINK)])).
  destruct (H m cs (run (map as_wcall cs) m) (Ok (inl [Ok (VBool true); Ok (VBool true)])) (Ok (inr saved))) as [n E].
  - apply reach_init.
  - repeat constructor.
  - apply (play_interleaved (repeat 1 5 ++ repeat 0 (length (states (p_wsession cs) m)) ++ repeat 1 6)). vm_compute. reflexivity.
  - injection E as E. revert E. destruct n as [|[|n]]; [vm_compute; discriminate|vm_compute; discriminate|]. replace (firstn (S (S n)) cs) with cs by (cbn; rewrite firstn_nil; reflexivity). vm_compute. discriminate.
Qed.

(*PROP C160: when constraints are also deleted, the file may contain constraints that contradict each other, although no manager ever did: it cannot be loaded. *)
Lemma C160_loads_refuted_proof : exists m cs m' r text,
    reachable m /\ Forall only_constraints cs /\ Forall (fun v => exists w, v = Ok w) (snd (one_by_one (map as_wcall cs) m)) /\
    interleaved m [p_left (p_wsession cs); p_right p_to_json] m' [r; Ok (inr text)] /\ load_text text = Raise ValueError.
Proof.
  set (A := str "a"). set (B := str "b"). set (Ck := str "c").
  pose (cs := [WDelete A B; WAdd A Ck CANNOT_LINK 1%Q]). pose (calls := [CallAddConstraint A B MUST_LINK 1%Q; CallAddConstraint B Ck MUST_LINK 1%Q]). pose (m := run calls (init [A; B; Ck])).
  exists m, cs, (run (map as_wcall cs) m), (Ok (inl [Ok (VBool true); Ok (VBool true)])).
  exists (dump 0 (document [A; B; Ck] [(A, A, MUST_LINK); (A, B, MUST_LINK); (A, Ck, CANNOT_LINK); (B, B, MUST_LINK); (B, Ck, MUST_LINK); (Ck, Ck, MUST_LINK)])).
  split; [apply run_reachable|]. split; [repeat constructor|].
  split; [vm_compute; repeat constructor; eexists; reflexivity|].
  split; [|vm_compute; reflexivity]. apply (play_interleaved (repeat 1 5 ++ repeat 0 (length (states (p_wsession cs) m)) ++ repeat 1 6)). vm_compute. reflexivity.
Qed.
