(** * The lists of managed data that threads are told (C166). *)

From Coq Require Import String List Bool Arith ZArith QArith Lia.
(*HEADER
From Coq Require Import String List Bool Arith ZArith QArith.
From Verif Require Import Base Manager Spec ManagerInv ManagerThms Threads ThreadSpec ThreadsThms Readers ReadersSpec ReadersThms ManagedThread ManagedThreadThms.
Import ListNotations.
Open Scope nat_scope.

Definition A := str "a". Definition B := str "b". Definition C := str "c". Definition D := str "d".
HEADER*)
From Verif Require Import Base Manager Spec Closure ManagerProofs ManagerInv ManagerQueries ManagerThms Threads ThreadSpec ThreadsThms Readers ReadersSpec ReadersThms KeepSpec KeepThms ManagedThread.
Import ListNotations.
Open Scope nat_scope.

Definition same_ids (s s' : mgr) : Prop := keys (cdict s') = keys (cdict s).
Fixpoint fixed {T} (p : prog T) : Prop := match p with Done _ => True | Step f k => forall m, same_ids m (f m) /\ fixed (k m) end.
Lemma fixed_bind {T U} (p : prog T) (k : T -> prog U) : fixed p -> (forall a, fixed (k a)) -> fixed (pbind p k).
Proof. intros H K. induction p as [[a|e]|f g IH]; cbn in *; auto. intro m. destruct (H m). auto. Qed.
Lemma fixed_silent {T} (p : prog T) : silent p -> fixed p.
Proof. induction p as [r|f g IH]; cbn; auto. intros [H1 H2] m. rewrite H1. split; auto. reflexivity. Qed.
Lemma fixed_for {U} (l : list U) f : (forall z, fixed (f z)) -> fixed (pfor l f).
Proof. intro H. induction l as [|z l IH]; cbn [pfor]; [exact I|]. apply fixed_bind; auto. Qed.
Lemma fixed_write q : (forall m m', q m = Ok m' -> same_ids m m') -> fixed (pwrite q).
Proof. intros H m. split; [|exact I]. destruct (q m) as [m'|e] eqn:E; [auto|reflexivity]. Qed.
Lemma fixed_row u (g : dict pystr (option constr) -> dict pystr (option constr)) :
  fixed (pwrite (fun m => rbind (dlookup u (cdict m)) (fun row => Ok (mkMgr (dset u (g row) (cdict m)) (ctrans m))))).
Proof.
  apply fixed_write. intros m m' E. unfold dlookup in E. destruct (dget u (cdict m)) as [row|] eqn:Er; cbn [rbind] in E; [|discriminate]. injection E as <-.
  unfold same_ids. cbn [cdict]. apply keys_dset_in. eapply dget_Some_key; eauto.
Qed.
Lemma fixed_set u v w : fixed (p_set_constraint u v w).
Proof. apply (fixed_row u (dset v w)). Qed.
Lemma fixed_set_ml z l : fixed (p_set_ml z l). Proof. apply fixed_write. intros m m' E. destruct (dlookup z (ctrans m)); [|discriminate]. injection E as <-. reflexivity. Qed.
Lemma fixed_set_cl z l : fixed (p_set_cl z l). Proof. apply fixed_write. intros m m' E. destruct (dlookup z (ctrans m)); [|discriminate]. injection E as <-. reflexivity. Qed.
Lemma fixed_ml z : fixed (p_ml z). Proof. apply fixed_silent. cbn. auto. Qed.
Lemma fixed_cl z : fixed (p_cl z). Proof. apply fixed_silent. cbn. auto. Qed.
Lemma fixed_transitivity a b t : fixed (p_add_constraint_transitivity a b t).
Proof.
  unfold p_add_constraint_transitivity. destruct (eqb t MUST_LINK);
    repeat first [apply fixed_set_ml | apply fixed_set_cl | apply fixed_ml | apply fixed_cl | apply fixed_for; intro | apply fixed_bind; [|intro]].
Qed.
Lemma fixed_generate : fixed p_generate_constraints_transitivity.
Proof.
  unfold p_generate_constraints_transitivity. apply fixed_bind; [apply fixed_write; intros m m' E; injection E as <-; reflexivity|intros _]. apply fixed_bind; [apply fixed_silent; cbn; auto|intro l].
  apply fixed_for. intro z. apply fixed_bind; [apply fixed_silent; cbn; auto|intro row]. apply fixed_for. intro w. apply fixed_bind; [apply fixed_silent; cbn; auto|intros [c|]]; [apply fixed_transitivity|exact I].
Qed.

(** The keys are changed at most once. *)
Inductive once {T} : prog T -> mgr -> Prop :=
| once_fixed : forall p m, fixed p -> once p m
| once_read : forall f k m, same_ids m (f m) -> once (k m) (f m) -> once (Step f k) m
| once_now : forall f k m, fixed (k m) -> once (Step f k) m.
Lemma once_bind {T U} (p : prog T) (k : T -> prog U) m : once p m -> (forall a, fixed (k a)) -> once (pbind p k) m.
Proof.
  intros H K. induction H as [p m H|f g m S H IH|f g m H]; cbn [pbind].
  - apply once_fixed, fixed_bind; auto.
  - apply once_read; auto.
  - apply once_now. apply fixed_bind; auto.
Qed.
Lemma once_call w m : once (p_wexec w) m.
Proof.
  destruct w as [d|d|a b t v|a b]; cbn [p_wexec]; (apply once_bind; [|intro; exact I]).
  - unfold p_add_data_ID. apply once_read; [reflexivity|]. cbn [pread pbind]. unfold prequire. destruct (mem d (keys (cdict m))); [apply once_fixed; exact I|]. apply once_now.
    apply (fixed_bind p_ids); [apply fixed_silent; cbn; auto|intro l]. apply fixed_bind; [|intros _; apply fixed_bind; [apply fixed_write; intros ? ? E; injection E as <-; reflexivity|intro; exact I]].
    apply fixed_for. intro z. destruct (eqb d z); [|destruct (str_ltb d z)]; apply fixed_set.
  - unfold p_delete_data_ID. apply once_read; [reflexivity|]. cbn [pread pbind]. unfold prequire. destruct (mem d (keys (cdict m))); [|apply once_fixed; exact I]. apply once_now.
    apply (fixed_bind p_ids); [apply fixed_silent; cbn; auto|intro l]. apply fixed_bind; [|intros _; apply fixed_bind; [apply fixed_generate|intro; exact I]].
    apply fixed_for. intro z. apply (fixed_row z (dpop d)).
  - apply once_fixed. unfold p_add_constraint. apply fixed_bind; [apply fixed_silent; cbn; auto|intro k1]. apply fixed_bind; [exact I|intros _]. apply fixed_bind; [apply fixed_silent; cbn; auto|intro k2].
    apply fixed_bind; [exact I|intros _]. apply fixed_bind; [exact I|intros _]. apply fixed_bind; [apply fixed_silent, silent_inferred|intro i]. apply fixed_bind; [exact I|intros _].
    apply fixed_bind; [apply fixed_silent, silent_added|intros [c|]]; [exact I|]. apply fixed_bind; [destruct (str_leb a b); apply fixed_set|intros _]. apply fixed_bind; [apply fixed_transitivity|intro; exact I].
  - apply once_fixed. unfold p_delete_constraint. apply fixed_bind; [apply fixed_silent; cbn; auto|intro k1]. apply fixed_bind; [exact I|intros _]. apply fixed_bind; [apply fixed_silent; cbn; auto|intro k2].
    apply fixed_bind; [exact I|intros _]. apply fixed_bind; [destruct (str_leb a b); apply fixed_set|intros _]. apply fixed_bind; [apply fixed_generate|intro; exact I].
Qed.

Section Moments.
  Variable m0 : mgr.
  Variable cs : list wcall.
  Notation N := (ReadersThms.N m0 cs).
  Definition moment (n : nat) (s : mgr) : Prop := n <= length cs /\ same_ids (N n) s.

  Lemma fixed_trail {T} (p : prog T) n e : n <= e -> e <= length cs -> fixed p -> forall m, moment n m -> same_ids (N n) (N e) -> trail moment n p m e.
  Proof.
    intros L Le F. induction p as [r|f g IH]; intros m Q E; cbn [trail fixed] in *; (split; [exact Q|]).
    - split; auto. destruct Q as [_ Q]. split; auto. unfold same_ids in *. congruence.
    - destruct (F m) as [F1 F2]. exists n. split; auto. apply IH; auto. destruct Q as [Q1 Q2]. split; auto. unfold same_ids in *. congruence.
  Qed.
  Lemma fixed_end {T} (p : prog T) : fixed p -> forall m, same_ids m (fst (alone p m)).
  Proof. induction p as [r|f g IH]; intros F m; cbn in *; [reflexivity|]. destruct (F m) as [F1 F2]. specialize (IH m F2 (f m)). unfold same_ids in *. congruence. Qed.
  Lemma once_trail {T} (p : prog T) m n e : once p m -> n <= e -> e <= length cs -> moment n m -> same_ids (N e) (fst (alone p m)) -> trail moment n p m e.
  Proof.
    intros H L Le. induction H as [p m H|f g m S H IH|f g m H]; intros Q E.
    - apply fixed_trail; auto. assert (X := fixed_end p H m). destruct Q as [_ Q]. unfold same_ids in *. congruence.
    - cbn [trail]. split; auto. exists n. split; auto. apply IH; auto. destruct Q as [Q1 Q2]. split; auto. unfold same_ids in *. congruence.
    - cbn [trail]. split; auto. exists e. split; auto. apply fixed_trail; auto; [|reflexivity]. split; auto. assert (X := fixed_end _ H (f m)). cbn [alone] in E. unfold same_ids in *. congruence.
  Qed.
  Lemma trail_catch {T} (p : prog T) n m e : trail moment n p m e -> trail moment n (pcatch p) m e.
  Proof. revert n m. induction p as [r|f g IH]; intros n m H; cbn in *; auto. destruct H as (H1 & n' & L & H). split; auto. exists n'. auto. Qed.
  Lemma moments ds n : ds = skipn n cs -> n <= length cs -> trail moment n (p_wsession ds) (N n) (length cs).
  Proof.
    revert n. induction ds as [|c ds IH]; intros n E L.
    - assert (n = length cs). { assert (Q := skipn_length n cs). rewrite <- E in Q. cbn in Q. lia. } subst n. cbn. repeat split; auto.
    - assert (X : nth_error cs n = Some c /\ ds = skipn (S n) cs).
      { clear - E. revert n E. induction cs as [|d l IH]; intros n E; [destruct n; discriminate|]. destruct n as [|n]; cbn in *; [injection E as -> ->; auto|apply IH; auto]. }
      destruct X as [X1 X2]. assert (L2 : S n <= length cs) by (apply nth_error_Some; congruence). assert (EQ : fst (alone (p_wexec c) (N n)) = N (S n)) by (rewrite C145_alone_proof; symmetry; apply N_step; auto).
      cbn [p_wsession]. apply (trail_bind moment _ _ n (N n) (S n)).
      + apply trail_catch. apply once_trail; auto; [apply once_call|repeat split; auto|rewrite EQ; reflexivity].
      + rewrite alone_catch. cbn [fst snd]. rewrite EQ. assert (T2 := IH (S n) X2 L2). apply (trail_bind moment _ _ (S n) (N (S n)) (length cs)); auto.
        assert (Pe := trail_end' _ _ _ _ _ T2). destruct (alone (p_wsession ds) (N (S n))) as [m1 [rs|x]]; auto. cbn in *. auto.
  Qed.
  Lemma watch_bound {T} (p : prog T) lo r hi : watch moment lo p r hi -> lo <= length cs -> hi <= length cs.
  Proof. induction 1 as [|lo n s f k r hi L [Q _] W IH]; auto. Qed.

  Lemma told_lists qs : forall lo r hi, lo <= length cs -> watch moment lo (p_msession qs) r hi -> exists answers (moment_of : nat -> nat), r = Ok answers /\ length answers = length qs /\
    (forall i, lo <= moment_of i <= length cs) /\ (forall i j, i <= j -> moment_of i <= moment_of j) /\
    forall i, nth_error qs i = Some MManaged -> nth_error answers i = Some (Ok (VIds (keys (cdict (N (moment_of i)))))).
  Proof.
    induction qs as [|q qs IH]; intros lo r hi Le W; cbn [p_msession] in W.
    - inversion W; subst. exists [], (fun _ => hi). split; auto. split; auto. split; [intro; lia|]. split; [intros; lia|]. intros [|i] Q; discriminate.
    - apply watch_bind in W as (x & n1 & W1 & W). apply watch_catch in W1 as (v & -> & W1). assert (L1 := watch_le _ _ _ _ _ W1). assert (B1 := watch_bound _ _ _ _ W1 Le).
      apply watch_bind in W as (y & n2 & W2 & W). apply IH in W2 as (an & mo & -> & Len & M1 & M2 & M3); auto. inversion W; subst.
      exists (v :: an), (fun i => match i with 0 => n1 | S i => mo i end). split; auto. split; [cbn; auto|]. split; [intros [|i]; [lia|specialize (M1 i); lia]|]. split.
      + intros [|i] [|j] Lij; [lia|specialize (M1 j); lia|lia|apply M2; lia].
      + intros [|i] Q; cbn in *; [|auto]. injection Q as ->. cbn [p_mexec] in W1. apply watch_bind in W1 as (u & n & W0 & W1). apply watch_read in W0 as (_ & s & (_ & Qs) & ->). inversion W1; subst. unfold same_ids in Qs. rewrite Qs. reflexivity.
  Qed.
End Moments.

(*PROP C166: a session of questions alone, action by action, ends with the manager and the results of the methods called one by one. *)
Lemma C166_alone_proof : forall qs m, alone (p_msession qs) m = (fst (one_by_one (map as_mcall qs) m), Ok (snd (one_by_one (map as_mcall qs) m))).
Proof.
  assert (E : forall q m, alone (p_mexec q) m = exec (as_mcall q) m).
  { intros [|a b|a b] m; cbn [p_mexec as_mcall exec]; rewrite alone_bind; [reflexivity|rewrite (does_added a b m)|rewrite (does_inferred a b m)]; unfold bind, ret.
    - destruct (get_added_constraint a b m) as [m1 [r|e]]; reflexivity.
    - destruct (get_inferred_constraint a b m) as [m1 [r|e]]; reflexivity. }
  induction qs as [|q qs IH]; intro m; cbn [p_msession map one_by_one]; [reflexivity|]. rewrite alone_bind, alone_catch, E. destruct (exec (as_mcall q) m) as [m1 r]. cbn [fst snd].
  rewrite alone_bind, IH. destruct (one_by_one (map as_mcall qs) m1) as [m2 rs]. reflexivity.
Qed.
(*EX
Example C166_alone_ex : snd (alone (p_msession [MManaged; MAdded A B; MInferred A D]) (init [B; A; C])) = Ok [Ok (VIds [B; A; C]); Ok (VAdded None); Raise ValueError].
Proof. vm_compute. reflexivity. Qed.
EX*)

(*PROP C166: one thread adds and deletes data and constraints, any number of calls, and any number of other threads list the managed data and ask for constraints. However their reads and writes are
    interleaved, each list is the one that the method returns after some number of the changes, and these numbers only grow from one list of a thread to its next. *)
Lemma C166_moments_proof : forall m cs qss m' r rss,
    interleaved m (p_wsession cs :: map p_msession qss) m' (r :: rss) ->
    m' = run (map as_wcall cs) m /\ r = Ok (snd (one_by_one (map as_wcall cs) m)) /\
    Forall2 (fun qs x => exists answers (moment_of : nat -> nat), x = Ok answers /\ length answers = length qs /\
      (forall i, moment_of i <= length cs) /\ (forall i j, i <= j -> moment_of i <= moment_of j) /\
      forall i, nth_error qs i = Some MManaged -> nth_error answers i = Some (snd (exec CallManagedIDs (run (firstn (moment_of i) (map as_wcall cs)) m)))) qss rss.
Proof.
  intros m cs qss m' r rss J. assert (TR := moments m cs cs 0 eq_refl (Nat.le_0_l _)). assert (SI : Forall silent (map p_msession qss)).
  { apply Forall_forall. intros p Ip. apply in_map_iff in Ip as (qs & <- & _). induction qs as [|q qs IH]; cbn [p_msession]; [exact I|]. apply silent_bind; [|intro; apply silent_bind; [exact IH|intro; exact I]].
    apply silent_catch. destruct q as [|a b|a b]; cbn [p_mexec]; (apply silent_bind; [|intro; exact I]); [cbn; auto|apply silent_added|apply silent_inferred]. }
  destruct (silent_watch (moment m cs) m (p_wsession cs) _ m' r rss 0 _ J SI TR) as [E W]. rewrite alone_wsession in E. injection E as <- <-. split; auto. split; auto. clear J SI TR. revert rss W.
  induction qss as [|qs qss IH]; intros rss W; inversion W as [|? ? ? ? (hi & Hw) W']; subst; constructor; auto.
  apply told_lists in Hw as (an & mo & -> & Len & M1 & M2 & M3); [|lia]. exists an, mo. split; auto. split; auto. split; [intro i; apply M1|]. split; auto.
Qed.
(*EX
Definition changes : list wcall := [WAddID D; WDeleteID A].
Definition asked : list (list mcall) := [[MManaged; MAdded B C; MManaged]; [MManaged; MManaged]].
(** The lists after one and two changes, both told while the change is being made, and the lists before and after all changes. *)
Example C166_moments_ex : exists m', interleaved (init [A; B; C]) (p_wsession changes :: map p_msession asked) m'
  [Ok [Ok (VBool true); Ok (VBool true)]; Ok [Ok (VIds [A; B; C; D]); Ok (VAdded None); Ok (VIds [B; C; D])]; Ok [Ok (VIds [A; B; C]); Ok (VIds [B; C; D])]].
Proof.
  eexists. apply (play_interleaved (repeat 2 1 ++ repeat 0 2 ++ repeat 1 1 ++ repeat 0 8 ++ repeat 1 4 ++ repeat 0 33 ++ repeat 2 1)). vm_compute. reflexivity.
Qed.
EX*)

(*PROP C166: the data that a thread was told are managed may not be ready: the constraints of one of them are refused, or their entries are missing. *)
Lemma C166_not_ready_proof : exists m cs x y m' r l,
    reachable m /\ Forall only_adds cs /\ In x l /\ In y l /\
    interleaved m [p_wsession cs; p_msession [MManaged; MInferred x y; MAdded x y]] m' [r; Ok [Ok (VIds l); Raise ValueError; Raise KeyError]].
Proof.
  set (A := str "a"). set (B := str "b"). pose (cs := [WAddID B]). pose (m := init [A]).
  exists m, cs, A, B, (run (map as_wcall cs) m), (Ok [Ok (VBool true)]), [A; B]. split; [apply reach_init|]. split; [repeat constructor|]. split; [left; auto|]. split; [right; left; auto|].
  apply (play_interleaved (repeat 0 2 ++ repeat 1 6 ++ repeat 0 4)). vm_compute. reflexivity.
Qed.
