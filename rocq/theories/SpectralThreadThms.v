(** * Threads that cluster with the spectral method while one thread adds constraints (C158). *)

From Coq Require Import String List Bool Arith ZArith QArith Lia Permutation.
(*HEADER
From Coq Require Import String List Bool Arith ZArith QArith Permutation Lia.
From Verif Require Import Base Manager Spec ManagerThms ManagerInv ManagerQueries Sampling SamplingSpec ClusterSpec KMeansSpec Spectral SpectralSpec Threads ThreadSpec ThreadsThms Readers ReadersSpec
  ReadersThms ListingSpec Listing SampleThread SpectralThread SpectralThreadSpec SpectralThreadThms.
Import ListNotations.
Open Scope nat_scope.

Definition A := str "a". Definition B := str "b". Definition C := str "c". Definition E := str "d".
(** A kernel, and a solver that puts in one cluster the points whose similarity to the last point is at least 900. *)
Definition sim (X : list Z) (i j : nat) : Z := (1000 - 10 * Z.abs (nth i X 0 - nth j X 0))%Z.
Definition solve (n : nat) (M : list (list Z)) : res (list Z) :=
  match rev M with [] => Raise ValueError | row :: _ => Ok (map (fun v => if (v <? 900)%Z then 7 else 3)%Z row) end.

HEADER*)
From Verif Require Import Base Manager Spec Closure ManagerProofs ManagerInv ManagerQueries ManagerSem ManagerThms Sampling SamplingSpec SamplingProofs SamplingThms
  Rename ClusterSpec RenameThms ClusterProofs KMeans KMeansSpec KMeansProofs KMeansThms Spectral SpectralSpec SpectralThms
  Threads ThreadSpec ThreadsThms Readers ReadersSpec ReadersThms Listing ListingSpec ListingThms SampleThread SampleThreadThms KMeansThread KMeansThreadSpec KMeansThreadThms
  SpectralThread SpectralThreadSpec.
Import ListNotations.
Open Scope nat_scope.
Open Scope py_scope.

Section Meanwhile.
  Variable m0 : mgr.
  Variable cs : list wcall.
  Hypothesis R0 : reachable m0.
  Hypothesis AC : Forall only_adds_constraints cs.
  Notation N := (ReadersThms.N m0 cs).
  Notation here := (SampleThreadThms.here m0 cs).
  Notation l := (ids m0).
  Let I0 : Inv m0 := reachable_inv _ R0.
  Let In_ n : Inv (N n) := N_inv m0 cs R0 n.
  Lemma N_in n x : In x l -> In x (ids (N n)).
  Proof. rewrite (N_ids m0 cs R0 AC). auto. Qed.

  Lemma cl_later n n' a b : n <= n' -> In a l -> In b l -> cl (N n) a b = true -> cl (N n') a b = true.
  Proof.
    intros L Ia Ib C. apply cl_spec in C. apply cl_spec. unfold infer in C.
    destruct (dget b (ctrans (N n))) as [e|] eqn:E; [|discriminate]. destruct (mem a (t_ml e)); [discriminate|]. destruct (mem a (t_cl e)) eqn:M; [|discriminate].
    destruct (N_below m0 cs R0 (adds cs AC) n n' L b e E) as (e' & E' & _ & Q). apply mem_In, Q, mem_In in M.
    unfold infer. rewrite E', M. destruct (mem a (t_ml e')) eqn:M2; auto. exfalso. apply mem_In in M, M2. assert (Rp := inv_rep _ (In_ n')).
    apply (rep_excl (N n') a b (In_ n')).
    - apply (infer_ML (N n') a b); auto; try (apply N_in; auto). unfold infer. rewrite E'. apply mem_In in M2. rewrite M2. auto.
    - apply separated_sym. apply (rep_cl _ _ _ Rp b e' E'). auto.
  Qed.
  Lemma ml_later n n' a b : n <= n' -> ml (N n) a b = true -> ml (N n') a b = true.
  Proof.
    intros L C. apply ml_spec in C. apply ml_spec. unfold infer in *.
    destruct (dget b (ctrans (N n))) as [e|] eqn:E; [|discriminate]. destruct (mem a (t_ml e)) eqn:M; [|destruct (mem a (t_cl e)); discriminate].
    destruct (N_below m0 cs R0 (adds cs AC) n n' L b e E) as (e' & E' & Q & _). apply mem_In, Q, mem_In in M. rewrite E', M. auto.
  Qed.

  Section Matrix.
    Context {D : Type}.
    Variables zero one : D.
    Variable k : nat -> nat -> D.

    Definition value (n : nat) (a b : pystr) (v : D) : D := if ml (N n) a b then one else if cl (N n) a b then zero else v.
    Definition prescribed (M : matrix D) (i j : nat) : Prop :=
      exists n a b, nth_error l i = Some a /\ nth_error l j = Some b /\ SpectralSpec.entry M i j = Some (value n a b (k i j)) /\ SpectralSpec.entry M j i = Some (value n a b (k j i)).
    Definition sound (M : matrix D) : Prop :=
      square (length l) M /\ forall i j, i <= j -> j < length l -> prescribed M i j \/ (SpectralSpec.entry M i j = Some (k i j) /\ SpectralSpec.entry M j i = Some (k j i)).
    Definition after (M M' : matrix D) : Prop := forall i j, i <= j -> prescribed M i j -> prescribed M' i j.

    Lemma constrain_step_right e1 e2 M lo r hi : In e1 (enum l) -> In e2 (enum l) -> sound M -> watch here lo (p_constrain_step D zero one e1 M e2) r hi ->
      exists M', r = Ok M' /\ sound M' /\ after M M' /\ (fst e1 <= fst e2 -> prescribed M' (fst e1) (fst e2)).
    Proof.
      intros E1 E2 [SQ F] W. apply enum_inv in E1, E2. destruct e1 as [i a], e2 as [j b]. cbn [fst snd] in *.
      assert (A : In a l) by (eapply nth_error_In; eauto). assert (B : In b l) by (eapply nth_error_In; eauto).
      assert (Li : i < length l) by (apply nth_error_Some; congruence). assert (Lj : j < length l) by (apply nth_error_Some; congruence).
      unfold p_constrain_step in W. cbn [fst snd] in W. destruct (Nat.ltb_spec j i) as [Lt|Le].
      { apply watch_done_inv in W as [-> _]. exists M. split; auto. split; [split; auto|]. split; [intros ? ? _; auto|]. lia. }
      assert (SET : forall v n, (forall w, value n a b w = v) ->
        let M' := mset (mset M i j v) j i v in sound M' /\ after M M' /\ (i <= j -> prescribed M' i j)).
      { intros v n V M'.
        assert (EV : forall i' j', SpectralSpec.entry M' i' j' = if ((i' =? j) && (j' =? i))%nat || ((i' =? i) && (j' =? j))%nat then Some v else SpectralSpec.entry M i' j').
        { intros i' j'. unfold M'. rewrite !entry_mset.
          destruct (square_entry _ M i j SQ Li Lj) as [x X]. destruct (square_entry _ M j i SQ Lj Li) as [y Y]. rewrite X, Y.
          destruct ((i' =? j) && (j' =? i))%nat eqn:Q1; cbn [orb].
          - destruct ((j =? i) && (i =? j))%nat; auto.
          - destruct ((i' =? i) && (j' =? j))%nat; auto. }
        assert (P : prescribed M' i j).
        { exists n, a, b. rewrite !EV, !Nat.eqb_refl, orb_true_r. cbn [andb orb]. rewrite !V. auto. }
        assert (O : forall i' j', i' <= j' -> (i' = i /\ j' = j) \/ (SpectralSpec.entry M' i' j' = SpectralSpec.entry M i' j' /\ SpectralSpec.entry M' j' i' = SpectralSpec.entry M j' i')).
        { intros i' j' L'. destruct (Nat.eq_dec i' i) as [->|Ni]; [destruct (Nat.eq_dec j' j) as [->|Nj]; auto|]; right.
          - assert (Q : ((i =? j) && (j' =? i))%nat || ((i =? i) && (j' =? j))%nat = false).
            { apply orb_false_iff. rewrite !andb_false_iff, !Nat.eqb_neq. lia. }
            assert (Q' : ((j' =? j) && (i =? i))%nat || ((j' =? i) && (i =? j))%nat = false).
            { apply orb_false_iff. rewrite !andb_false_iff, !Nat.eqb_neq. lia. }
            rewrite !EV, Q, Q'. auto.
          - assert (Q : ((i' =? j) && (j' =? i))%nat || ((i' =? i) && (j' =? j))%nat = false).
            { apply orb_false_iff. rewrite !andb_false_iff, !Nat.eqb_neq. lia. }
            assert (Q' : ((j' =? j) && (i' =? i))%nat || ((j' =? i) && (i' =? j))%nat = false).
            { apply orb_false_iff. rewrite !andb_false_iff, !Nat.eqb_neq. lia. }
            rewrite !EV, Q, Q'. auto. }
        split; [|split; auto].
        - split; [unfold M'; do 2 apply square_mset; auto|]. intros i' j' L' J'. destruct (O i' j' L') as [[-> ->]|[Q1 Q2]]; [auto|].
          unfold prescribed. rewrite Q1, Q2. apply F; auto.
        - intros i' j' L' P'. destruct (O i' j' L') as [[-> ->]|[Q1 Q2]]; [auto|]. unfold prescribed. rewrite Q1, Q2. exact P'. }
      apply watch_bind in W as (x & n1 & W1 & W). apply inferred_is_answer in W1 as [n ->]; auto. change (opt_is (infer (N n) a b) MUST_LINK) with (ml (N n) a b) in W.
      destruct (ml (N n) a b) eqn:EM.
      { apply watch_done_inv in W as [-> _]. eexists. split; [reflexivity|]. apply (SET one n). intro w. unfold value. rewrite EM. auto. }
      apply watch_bind in W as (x & n2 & W1 & W). apply inferred_is_answer in W1 as [n' ->]; auto. change (opt_is (infer (N n') a b) CANNOT_LINK) with (cl (N n') a b) in W.
      apply watch_done_inv in W as [-> _]. eexists. split; [reflexivity|]. destruct (cl (N n') a b) eqn:EC.
      { apply (SET zero n'). intro w. unfold value. rewrite EC. destruct (ml (N n') a b) eqn:X; auto. exfalso. apply (ml_cl (N n') a b); auto. }
      assert (Z : exists q, forall w, value q a b w = w).
      { destruct (Nat.le_ge_cases n n') as [L|L]; [exists n|exists n']; intro w; unfold value.
        - rewrite EM. destruct (cl (N n) a b) eqn:X; auto. apply (cl_later n n') in X; auto. congruence.
        - rewrite EC. destruct (ml (N n') a b) eqn:X; auto. apply (ml_later n' n) in X; auto. congruence. }
      destruct Z as [q Z]. split; [split; auto|]. split; [intros ? ? _; auto|]. intros _. destruct (F i j Le Lj) as [Q|[Q1 Q2]]; auto.
      exists q, a, b. rewrite !Z. auto.
    Qed.

    Lemma inner_right e1 rest : In e1 (enum l) -> incl rest (enum l) -> forall M lo r hi, sound M -> watch here lo (pfold (p_constrain_step D zero one e1) rest M) r hi ->
      exists M', r = Ok M' /\ sound M' /\ after M M' /\ forall e2, In e2 rest -> fst e1 <= fst e2 -> prescribed M' (fst e1) (fst e2).
    Proof.
      intro E1. induction rest as [|e2 rest IH]; intros S M lo r hi FM W; cbn [pfold] in W.
      - apply watch_done_inv in W as [-> _]. exists M. split; auto. split; auto. split; [intros ? ? _; auto|]. intros e2 [].
      - apply watch_bind in W as (x & n1 & W1 & W). apply constrain_step_right in W1 as (M1 & -> & F1 & L1 & D1); auto; [|apply S; left; auto].
        apply (IH (fun x X => S x (or_intror X)) M1) in W as (M2 & -> & F2 & L2 & D2); auto.
        exists M2. split; auto. split; auto. split; [intros i j L P; apply L2, L1; auto|]. intros e [<-|X] Le; auto.
    Qed.
    Lemma outer_right rest : incl rest (enum l) -> forall M lo r hi, sound M -> watch here lo (pfold (fun M e1 => pfold (p_constrain_step D zero one e1) (enum l) M) rest M) r hi ->
      exists M', r = Ok M' /\ sound M' /\ after M M' /\ forall e1 e2, In e1 rest -> In e2 (enum l) -> fst e1 <= fst e2 -> prescribed M' (fst e1) (fst e2).
    Proof.
      induction rest as [|e1 rest IH]; intros S M lo r hi FM W; cbn [pfold] in W.
      - apply watch_done_inv in W as [-> _]. exists M. split; auto. split; auto. split; [intros ? ? _; auto|]. intros e1 e2 [].
      - apply watch_bind in W as (x & n1 & W1 & W). apply inner_right in W1 as (M1 & -> & F1 & L1 & D1); auto; [|apply S; left; auto|apply incl_refl].
        apply (IH (fun x X => S x (or_intror X)) M1) in W as (M2 & -> & F2 & L2 & D2); auto.
        exists M2. split; auto. split; auto. split; [intros i j L P; apply L2, L1; auto|]. intros e e2 [<-|X] E2 Le; auto.
    Qed.
    Lemma constrain_right lo r hi : watch here lo (p_constrain_matrix D zero one l (mtab (length l) (length l) k)) r hi ->
      exists M, r = Ok M /\ square (length l) M /\ forall i j, i <= j -> j < length l -> prescribed M i j.
    Proof.
      intro W. apply outer_right in W as (M & -> & [SQ _] & _ & Dn); [|apply incl_refl|].
      - exists M. split; auto. split; auto. intros i j L Lj.
        destruct (nth_error l i) as [a|] eqn:A; [|apply nth_error_None in A; lia]. destruct (nth_error l j) as [b|] eqn:B; [|apply nth_error_None in B; lia].
        apply enum_In in A, B. apply (Dn (i, a) (j, b)); auto.
      - split; [apply square_mtab|]. intros i j L Lj. right. split; apply entry_mtab; lia.
    Qed.

    Lemma N_run n : N n = run (map as_wcall (firstn n cs)) m0.
    Proof. unfold ReadersThms.N. rewrite firstn_map. reflexivity. Qed.
    Lemma N_all : run (map as_wcall cs) m0 = N (length cs).
    Proof. rewrite N_run, firstn_all. reflexivity. Qed.
    Lemma none_before n a b : In a l -> In b l -> infer (N (length cs)) a b = None -> infer (N n) a b = None.
    Proof.
      intros A B E. destruct (infer (N n) a b) eqn:X; auto. exfalso. destruct (Nat.le_gt_cases n (length cs)) as [L|L].
      - apply (infer_later m0 cs R0 AC n (length cs) a b L); auto. congruence.
      - rewrite (N_end m0 cs n) in X by lia. congruence.
    Qed.

    Lemma prescribed_matrix M : square (length l) M -> (forall i j, i <= j -> j < length l -> prescribed M i j) -> matrix_on_the_way m0 cs l zero one k M.
    Proof.
      intros SQ P.
      assert (G : forall i j a b, nth_error l i = Some a -> nth_error l j = Some b -> In a l /\ In b l /\ exists n, SpectralSpec.entry M i j = Some (value n a b (k i j)) /\ SpectralSpec.entry M j i = Some (value n a b (k j i))).
      { intros i j a b A B. assert (Li : i < length l) by (apply nth_error_Some; congruence). assert (Lj : j < length l) by (apply nth_error_Some; congruence).
        assert (Ia : In a l) by (eapply nth_error_In; eauto). assert (Ib : In b l) by (eapply nth_error_In; eauto). split; auto. split; auto.
        destruct (Nat.le_ge_cases i j) as [L|L].
        - destruct (P i j L Lj) as (n & a' & b' & A' & B' & Q1 & Q2). assert (a' = a) by congruence. assert (b' = b) by congruence. subst. eauto.
        - destruct (P j i L Li) as (n & b' & a' & B' & A' & Q1 & Q2). assert (a' = a) by congruence. assert (b' = b) by congruence. subst. exists n. unfold value in *.
          rewrite (ml_sym (N n) (In_ n) a b), (cl_sym (N n) (In_ n) a b) by (apply N_in; auto). auto. }
      assert (VAL : forall n a b v, In a l -> In b l -> (infer (N n) a b = Some MUST_LINK -> value n a b v = one) /\ (infer (N n) a b = Some CANNOT_LINK -> value n a b v = zero) /\
                  (infer (N n) a b = None -> value n a b v = v)).
      { intros n a b v A B. unfold value, ml, cl. split; [|split]; intros ->; reflexivity. }
      split; auto. split; [|split].
      - intros i j a b A B. destruct (G i j a b A B) as (Ia & Ib & n & Q1 & Q2). exists (N n). split; [exists n; apply N_run|]. unfold as_inferred. rewrite Q1, Q2.
        destruct (VAL n a b (k i j) Ia Ib) as (V1 & V2 & V3). destruct (VAL n a b (k j i) Ia Ib) as (V1' & V2' & V3').
        rewrite !(inferred_spec (N n)) by (auto; apply N_in; auto). split; [|split]; intro X; rewrite ?V1, ?V1', ?V2, ?V2', ?V3, ?V3' by auto; auto.
      - intros i j a b A B. destruct (G i j a b A B) as (Ia & Ib & n & Q1 & Q2). rewrite Q1. destruct (VAL n a b (k i j) Ia Ib) as (V1 & V2 & V3). split; intro X.
        + rewrite V1; auto. apply ml_spec. apply (ml_later 0 n); [lia|]. apply (inferred_ml m0 I0); auto.
        + rewrite V2; auto. apply cl_spec. apply (cl_later 0 n); auto; [lia|]. apply (inferred_cl m0 I0); auto.
      - intros i j a b A B X. destruct (G i j a b A B) as (Ia & Ib & n & Q1 & Q2). rewrite Q1. destruct (VAL n a b (k i j) Ia Ib) as (_ & _ & V3). rewrite V3; auto.
        apply none_before; auto. rewrite N_all in X. apply inferred_spec in X; auto; apply N_in; auto.
    Qed.
  End Matrix.

  Lemma spectral_right {vec D} (kernel : list vec -> nat -> nat -> D) zero one solver q lo r hi : valid_spectral_call m0 q ->
    watch here lo (p_spectral vec D kernel zero one solver (fst q) (Some (snd q))) r hi ->
    exists rows M, vectors_are (fst q) l rows /\ matrix_on_the_way m0 cs l zero one (kernel rows) M /\
      match solver (Nat.min (Z.to_nat (snd q)) (length l)) M with
      | Raise e => r = Raise e
      | Ok labels => length labels = length l -> exists d, r = Ok d /\ canonical d /\ covers_exactly m0 d /\ grouped_by l labels d
      end.
  Proof.
    destruct q as [vectors nb]. intros (HI & (v' & Ev & COV) & NB) W. injection Ev as <-. cbn [fst snd] in *. assert (NE := proj1 (has_ids_spec m0) HI).
    assert (CV : forall x, In x l -> In x (keys vectors)) by (intros x X; apply COV, managed_ids; auto).
    unfold p_spectral in W. apply watch_bind in W as (u & n1 & W1 & W). apply watch_read in W1 as (_ & s & [_ K] & ->). rewrite K in W. destruct (Z.ltb_spec nb 2); [lia|].
    apply watch_bind in W as (u & n2 & W1 & W). apply watch_read in W1 as (_ & s' & [_ K'] & ->).
    assert (ST : similarity_matrix vec D kernel s' vectors = similarity_matrix vec D kernel m0 vectors) by (unfold similarity_matrix, ask; rewrite !run_managed, K'; reflexivity).
    rewrite ST in W. destruct (similarity_run kernel m0 vectors I0 NE CV) as (rows & V & E). rewrite E in W.
    apply watch_bind in W as (u & n3 & W1 & W). apply constrain_right in W1 as (M & -> & SQ & P). apply watch_done_inv in W as [-> _].
    exists rows, M. split; auto. split; [apply prescribed_matrix; auto|]. destruct (solver _ M) as [labels|e]; [|reflexivity]. intro LL. cbn [rbind].
    destruct (labels_run m0 labels I0) as (d0 & d & E0 & E1 & Can & Co & G); [lia|]. rewrite E0. cbn [rbind]. rewrite E1. exists d. auto.
  Qed.
End Meanwhile.

(** ** The other threads *)
Lemma silent_spectral {vec D} kernel zero one solver vectors nb : silent (p_spectral vec D kernel zero one solver vectors nb).
Proof.
  unfold p_spectral. apply silent_bind; [cbn; auto|]. intro l. destruct nb as [nb|]; [|exact I]. destruct (nb <? 2)%Z; [exact I|]. apply silent_bind; [cbn; auto|]. intro M.
  apply silent_bind; [|intro; exact I]. apply silent_fold. intros M1 e1. apply silent_fold. intros M2 e2. unfold p_constrain_step. destruct (_ <? _); [exact I|].
  apply silent_bind; [apply silent_inferred_is|]. intros []; [exact I|]. apply silent_bind; [apply silent_inferred_is|]. intro; exact I.
Qed.

Lemma spectrals_watched {vec D} kernel zero one solver m cs (qs : list (spectral_call vec)) m' r rs : reachable m -> Forall only_adds_constraints cs ->
  interleaved m (p_left (p_wsession cs) :: map (fun q => p_right (p_spectral vec D kernel zero one solver (fst q) (Some (snd q)))) qs) m' (r :: rs) ->
  (m' = run (map as_wcall cs) m /\ r = Ok (inl (snd (one_by_one (map as_wcall cs) m)))) /\
  Forall2 (fun q x => exists r0 hi, x = rbind r0 (fun d => Ok (inr d)) /\ watch (SampleThreadThms.here m cs) 0 (p_spectral vec D kernel zero one solver (fst q) (Some (snd q))) r0 hi) qs rs.
Proof.
  intros R AC J. destruct (session_trail m cs R (adds cs AC) cs 0 eq_refl (Nat.le_0_l _)) as [e T].
  assert (T2 : trail (SampleThreadThms.here m cs) 0 (p_wsession cs) m e).
  { apply trail_and; [exact T|]. destruct (sd_session cs AC m) as [S1 _]. intros x [<-|Ix]; auto. }
  assert (PE : SampleThreadThms.here m cs e (fst (alone (p_wsession cs) m))) by (eapply trail_end; eauto).
  destruct (silent_watch (SampleThreadThms.here m cs) m (p_left (p_wsession cs)) _ m' r rs 0 e J) as [E W].
  { apply Forall_forall. intros p Ip. apply in_map_iff in Ip as (q & <- & _). apply silent_bind; [apply silent_spectral|intro; exact I]. }
  { unfold p_left. eapply trail_bind; [exact T2|]. rewrite alone_wsession in *. cbn. auto. }
  unfold p_left in E. rewrite alone_bind, alone_wsession in E. cbn [alone] in E. injection E as <- <-. split; auto.
  clear J T T2 PE. revert rs W. induction qs as [|q qs IH]; intros rs W; inversion W as [|? ? ? ? [hi Hw] W']; subst; constructor; auto.
  unfold p_right in Hw. apply watch_bind in Hw as (x & n1 & H1 & H2). exists x, n1. split; auto. destruct x; [apply watch_done_inv in H2 as [-> _]|destruct H2 as [-> _]]; reflexivity.
Qed.

(*PROP C158: the clustering alone, action by action, leaves the manager as it is and ends with the result of the method. *)
Lemma C158_alone_proof : forall vec D kernel (zero one : D) solver vectors nb s m, reachable m ->
  alone (p_spectral vec D kernel zero one solver vectors nb) m = (m, result (Spectral.cluster vec D kernel zero one solver m vectors nb) s).
Proof.
  intros vec D kernel zero one solver vectors nb s m R. assert (I := reachable_inv _ R).
  unfold p_spectral, result, Spectral.cluster. rewrite alone_bind. cbn [p_ids pread alone]. unfold bind at 1, lift at 1. rewrite ask_managed.
  destruct nb as [nb|]; [|reflexivity]. destruct (nb <? 2)%Z; [reflexivity|]. rewrite alone_bind. cbn [pread alone]. unfold bind at 1, lift at 1.
  destruct (similarity_matrix vec D kernel m vectors) as [W|]; [|reflexivity]. unfold bind at 1, modify at 1. unfold bind at 1, modify at 1. unfold bind at 1, clustering_SPEC. unfold bind at 1, lift at 1.
  unfold p_constrain_matrix, constrain_matrix. rewrite alone_bind.
  rewrite (alone_fold _ (fun M e1 => rfold (fun M e2 => if fst e2 <? fst e1 then Ok M else b <-- inferred_is m (snd e1) (snd e2) MUST_LINK ;;;
          if b then Ok (mset (mset M (fst e1) (fst e2) one) (fst e2) (fst e1) one) else b <-- inferred_is m (snd e1) (snd e2) CANNOT_LINK ;;;
            if b then Ok (mset (mset M (fst e1) (fst e2) zero) (fst e2) (fst e1) zero) else Ok M) (enum (ids m)) M)).
  - match goal with |- context [rfold ?f ?k ?s0] => destruct (rfold f k s0) as [M|]; [|reflexivity] end. unfold bind at 1, modify at 1. unfold bind at 1, lift at 1. cbn [alone].
    destruct (solver _ M) as [labels|]; [|reflexivity]. cbn [rbind]. unfold bind at 1, lift at 1. destruct (label_dict _ labels) as [d|]; [|reflexivity]. cbn [rbind]. unfold lift at 1.
    destruct (rename_clusters_by_order d); reflexivity.
  - intros M e1. apply alone_fold. intros M2 e2. unfold p_constrain_step. destruct (_ <? _); [reflexivity|]. rewrite alone_bind, alone_inferred_is by auto.
    destruct (inferred_is m _ _ MUST_LINK) as [[]|]; [reflexivity| |reflexivity]. cbn [rbind]. rewrite alone_bind, alone_inferred_is by auto.
    destruct (inferred_is m _ _ CANNOT_LINK) as [[]|]; reflexivity.
Qed.
(*EX
Definition ex : mgr := run [CallAddConstraint A C MUST_LINK 1%Q; CallAddConstraint A B CANNOT_LINK 1%Q] (init [A; B; C; E]).
Lemma ex_reachable : reachable ex. Proof. apply run_reachable. Qed.
Definition vecs : dict pystr Z := [(E, 5); (A, 0); (B, 1); (C, 10)]%Z.
Definition by_solver : prog (dict pystr Z) := p_spectral Z Z sim 0%Z 1000%Z solve vecs (Some 2%Z).
Example C158_alone_ex : alone by_solver ex = (ex, Ok [(A, 0); (B, 0); (C, 0); (E, 0)]%Z).
Proof. vm_compute. reflexivity. Qed.
EX*)

(*PROP C158: one thread adds constraints, any number of calls, and any number of other threads cluster the data with the spectral method. However their reads and writes are interleaved, the additions
    end as when they are made alone, and the solver of each clustering gets a matrix in which every entry, and its mirror image, is what it would be in one of the managers between two additions: 1 for
    what is inferred there as MUST_LINK, 0 for CANNOT_LINK, the kernel for the rest. What was inferred when the threads started counts, and what is not inferred at the end has the kernel.
    When the solver labels all the data, the result is a canonical clustering of them that follows the labels; only an error of the solver makes the clustering fail. *)
Lemma C158_matrix_proof : forall vec D kernel (zero one : D) solver m cs (qs : list (spectral_call vec)) m' r rs l,
    reachable m -> ask get_list_of_managed_data_IDs m = Ok l -> Forall only_adds_constraints cs -> Forall (valid_spectral_call m) qs ->
    interleaved m (p_left (p_wsession cs) :: map (fun q => p_right (p_spectral vec D kernel zero one solver (fst q) (Some (snd q)))) qs) m' (r :: rs) ->
    m' = run (map as_wcall cs) m /\ r = Ok (inl (snd (one_by_one (map as_wcall cs) m))) /\
    Forall2 (fun q x => exists rows M, vectors_are (fst q) l rows /\ matrix_on_the_way m cs l zero one (kernel rows) M /\
      match solver (Nat.min (Z.to_nat (snd q)) (length l)) M with
      | Raise e => x = Raise e
      | Ok labels => length labels = length l -> exists d, x = Ok (inr d) /\ canonical d /\ covers_exactly m d /\ grouped_by l labels d
      end) qs rs.
Proof.
  intros vec D kernel zero one solver m cs qs m' r rs l R El AC VQ J. rewrite ask_managed in El. injection El as <-.
  destruct (spectrals_watched kernel zero one solver m cs qs m' r rs R AC J) as ((E1 & E2) & W). split; auto. split; auto. clear J E1 E2.
  revert VQ. induction W as [|q x qs rs (r0 & hi & -> & H1) W IH]; intro VQ; constructor; inversion VQ as [|? ? Q VQ']; subst; auto.
  apply (spectral_right m cs R AC) in H1 as (rows & M & V & MW & S); auto. exists rows, M. split; auto. split; auto.
  destruct (solver _ M) as [labels|e]; [|rewrite S; reflexivity]. intro L. destruct (S L) as (d & -> & Q1 & Q2 & Q3). exists d. auto.
Qed.
(*EX
Definition news : list wcall := [WAdd C E CANNOT_LINK 1%Q; WAdd B E MUST_LINK 1%Q].
Definition all_of_them : nat := length (states (p_wsession news) ex).
Lemma ex_valid : valid_spectral_call ex (vecs, 2%Z).
Proof.
  split; [exists A; apply managed_ids; change (In A [A; B; C; E]); left; auto|]. split; [|cbn; lia].
  exists vecs. split; auto. intros x Mx. apply managed_ids in Mx. cbn [vecs keys map fst]. change (In x [A; B; C; E]) in Mx. cbn [In] in *. tauto.
Qed.
(** The constraints are added once the pairs with [a] are read: [a] and [d] have their kernel, [c] and [d] have 0, and [a] and [c], which are linked, are apart for this solver. The result is neither
    that without the constraints nor that with them. *)
Example C158_matrix_ex : Forall only_adds_constraints news /\ snd (alone by_solver (run (map as_wcall news) ex)) = Ok [(A, 0); (B, 1); (C, 0); (E, 1)]%Z /\
  exists m', interleaved ex [p_left (p_wsession news); p_right by_solver] m' [Ok (inl [Ok (VBool true); Ok (VBool true)]); Ok (inr [(A, 0); (B, 0); (C, 1); (E, 0)]%Z)].
Proof.
  split; [repeat constructor|]. split; [vm_compute; reflexivity|].
  eexists. apply (play_interleaved (repeat 1 30 ++ repeat 0 all_of_them ++ repeat 1 22)). vm_compute. reflexivity.
Qed.
EX*)

(*PROP C158: the matrix is symmetric when the kernel is. *)
Lemma C158_symmetric_proof : forall D m cs (zero one : D) kernel M l, reachable m -> ask get_list_of_managed_data_IDs m = Ok l -> Forall only_adds_constraints cs ->
    matrix_on_the_way m cs l zero one kernel M -> (forall i j, kernel i j = kernel j i) -> forall i j, SpectralSpec.entry M i j = SpectralSpec.entry M j i.
Proof.
  intros D m cs zero one k M l R El AC (SQ & P & _) S i j. rewrite ask_managed in El. injection El as <-. destruct SQ as [L F].
  assert (OUT : forall i j, length (ids m) <= i \/ length (ids m) <= j -> SpectralSpec.entry M i j = None).
  { intros x y Q. unfold SpectralSpec.entry. destruct (nth_error M x) as [row|] eqn:E; auto. apply nth_error_None. assert (x < length M) by (apply nth_error_Some; congruence).
    apply nth_error_In in E. rewrite Forall_forall in F. rewrite (F row E). lia. }
  destruct (Nat.lt_ge_cases i (length (ids m))) as [Li|Gi]; [|rewrite !OUT; auto]. destruct (Nat.lt_ge_cases j (length (ids m))) as [Lj|Gj]; [|rewrite !OUT; auto].
  destruct (nth_error (ids m) i) as [a|] eqn:A; [|apply nth_error_None in A; lia]. destruct (nth_error (ids m) j) as [b|] eqn:B; [|apply nth_error_None in B; lia].
  destruct (P i j a b A B) as (s & (n & ->) & Q1 & Q2 & Q3). rewrite <- N_run in *. apply nth_error_In in A, B. assert (In_ := N_inv m cs R n).
  assert (A' := N_in m cs R AC n a A). assert (B' := N_in m cs R AC n b B). rewrite !(inferred_spec (ReadersThms.N m cs n)) in * by auto.
  destruct (infer (ReadersThms.N m cs n) a b) as [t|] eqn:X.
  - unfold infer in X. destruct (dget b _); [|discriminate]. destruct (mem a _); [injection X as <-; destruct Q1 as [-> ->]; auto|]. destruct (mem a _); [injection X as <-; destruct Q2 as [-> ->]; auto|discriminate].
  - destruct Q3 as [-> ->]; auto. rewrite S. auto.
Qed.
(*EX
Example C158_symmetric_ex : exists rows M, vectors_are vecs [A; B; C; E] rows /\ matrix_on_the_way ex news [A; B; C; E] 0%Z 1000%Z (sim rows) M /\ forall i j, SpectralSpec.entry M i j = SpectralSpec.entry M j i.
Proof.
  destruct C158_matrix_ex as (AC & _ & m' & J).
  destruct (C158_matrix Z Z sim 0%Z 1000%Z solve ex news [(vecs, 2%Z)] m' _ _ [A; B; C; E] ex_reachable eq_refl AC (Forall_cons _ ex_valid (Forall_nil _)) J) as (_ & _ & F).
  inversion F as [|? ? ? ? (rows & M & V & MW & _) _]; subst. exists rows, M. split; auto. split; auto.
  apply (C158_symmetric Z ex news 0%Z 1000%Z (sim rows) M [A; B; C; E]); auto; [apply ex_reachable|]. intros i j. unfold sim. rewrite <- Z.abs_opp, Z.opp_sub_distr, Z.add_comm. reflexivity.
Qed.
EX*)
