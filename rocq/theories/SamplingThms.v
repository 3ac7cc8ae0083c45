(** * Properties of the constraints sampling. *)

From Coq Require Import String List Bool Arith ZArith QArith Lia Permutation.
From Verif Require Import Base Manager Spec Closure ManagerProofs ManagerInv ManagerQueries ManagerSem ManagerThms
  Sampling SamplingSpec SamplingProofs.
Import ListNotations.
Open Scope nat_scope.
Open Scope py_scope.
Notation ids m := (keys (cdict m)).

(*HEADER
From Coq Require Import String List Bool Arith ZArith QArith Permutation.
From Verif Require Import Base Manager Spec ManagerThms Sampling SamplingSpec SamplingThms.
Import ListNotations.
Open Scope nat_scope.

(** Running example: a must-link b, b cannot-link c; the distance of positions i, j is |i - j|
    and the random draw takes the first pairs. *)
Definition a : pystr := str "a".
Definition b : pystr := str "b".
Definition c : pystr := str "c".
Definition d : pystr := str "d".
Definition ex : mgr :=
  run [CallAddConstraint a b MUST_LINK 1%Q; CallAddConstraint c b CANNOT_LINK 1%Q] (init [d; a; b; c]).
Lemma ex_reachable : reachable ex.
Proof. apply run_reachable. Qed.
Definition clusters : option (dict pystr Z) := Some [(a, 0%Z); (b, 0%Z); (c, 1%Z); (d, 0%Z)].
Definition vecs : option (dict pystr nat) := Some [(a, 1); (b, 4); (c, 3); (d, 10)].
Definition pw (rows : list nat) (i j : nat) : nat :=
  let x := nth i rows 0 in let y := nth j rows 0 in (x - y) + (y - x).
Definition first_ones (l : list (pystr * pystr)) (k : nat) := firstn k l.
Lemma first_ones_valid : valid_draw first_ones.
Proof.
  intros l k H. split; [apply firstn_length_le; auto|]. exists (skipn k l).
  unfold first_ones. rewrite firstn_skipn. apply Permutation_refl.
Qed.
Definition any := mkOptions None None true true.
Definition closest := mkOptions (Some DIFFERENT_CLUSTERS) (Some CLOSEST) true true.
Definition farthest := mkOptions None (Some FARTHEST) false false.
Definition smp (o : options) (nb : Z) := result (sample nat nat pw Nat.ltb first_ones o nb clusters vecs) (fresh_sampler nat nat, ex).

HEADER*)

Lemma rfilter_Ok {A} (f : A -> res bool) l r : rfilter f l = Ok r ->
  r = filter (fun x => match f x with Ok true => true | _ => false end) l /\ forall x, In x l -> exists b, f x = Ok b.
Proof.
  revert r. induction l as [|x l IH]; simpl; intros r E.
  - injection E; intros; subst. split; auto. tauto.
  - destruct (f x) as [b|e] eqn:F; [|discriminate]. simpl in E.
    destruct (rfilter f l) as [r'|e]; [|discriminate]. simpl in E. injection E; intros; subst.
    destruct (IH r' eq_refl) as [-> K]. split.
    + destruct b; auto.
    + intros y [<-|I]; eauto.
Qed.

Lemma rfilter_total {A} (f : A -> res bool) l : (forall x, In x l -> exists b, f x = Ok b) -> exists r, rfilter f l = Ok r.
Proof.
  induction l as [|x l IH]; simpl; intro T; eauto.
  destruct (T x) as [b E]; auto. rewrite E. destruct IH as [r Er]; auto. rewrite Er. simpl; eauto.
Qed.

Lemma rmap_total {A B} (f : A -> res B) l : (forall x, In x l -> exists b, f x = Ok b) -> exists r, rmap f l = Ok r.
Proof.
  induction l as [|x l IH]; simpl; intro T; eauto.
  destruct (T x) as [b E]; auto. rewrite E. destruct IH as [r Er]; auto. rewrite Er. simpl; eauto.
Qed.

Lemma rmap_Ok {A B} (f : A -> res B) l r : rmap f l = Ok r -> map f l = map Ok r.
Proof.
  revert r. induction l as [|x l IH]; simpl; intros r E.
  - injection E; intros; subst; auto.
  - destruct (f x) eqn:F; [|discriminate]. simpl in E. destruct (rmap f l) eqn:G; [|discriminate].
    injection E; intros; subst. simpl. f_equal; auto.
Qed.

Lemma rmap_length {A B} (f : A -> res B) l r : rmap f l = Ok r -> length r = length l.
Proof. intro E. apply rmap_Ok in E. apply (f_equal (@length _)) in E. rewrite !map_length in E. auto. Qed.

Lemma fold_dset {E V} (key : E -> pystr) (f : E -> V) l : forall d0, NoDup (map key l) ->
  (forall e, In e l -> dget (key e) (fold_left (fun d e => dset (key e) (f e) d) l d0) = Some (f e)) /\
  (forall x, ~ In x (map key l) -> dget x (fold_left (fun d e => dset (key e) (f e) d) l d0) = dget x d0).
Proof.
  induction l as [|e l IH]; simpl; intros d0 ND; [split; [tauto|auto]|].
  inversion ND; subst. destruct (IH (dset (key e) (f e) d0) H2) as [I1 I2]. split.
  - intros e' [<-|I]; auto. rewrite I2 by auto. rewrite dget_dset, eqb_refl. auto.
  - intros x N. rewrite I2 by tauto. rewrite dget_dset.
    destruct (eqb_spec x (key e)); auto. subst. tauto.
Qed.

Lemma enum_snd {A} (l : list A) : map snd (enum l) = l.
Proof.
  unfold enum. generalize 0. induction l as [|x l IH]; intro n; simpl; auto. f_equal. apply IH.
Qed.

Lemma enum_In {A} (l : list A) i x : nth_error l i = Some x -> In (i, x) (enum l).
Proof.
  unfold enum. intro E. assert (G : forall k l i, nth_error l i = Some x -> In (k + i, x) (combine (seq k (length l)) l)).
  { clear. intros k l. revert k. induction l as [|y l IH]; intros k [|i] E; simpl in *; try discriminate.
    - injection E; intros; subst. left. f_equal. lia.
    - right. replace (k + S i) with (S k + i) by lia. apply IH; auto. }
  apply (G 0); auto.
Qed.

Lemma table_look {vec D} (pw : list vec -> nat -> nat -> D) rows l i j a b : NoDup l ->
  nth_error l i = Some a -> nth_error l j = Some b -> look D (table vec D pw rows l) (a, b) = Ok (pw rows i j).
Proof.
  intros ND Ea Eb. unfold look, table, dlookup. cbn [fst snd].
  assert (NDe : NoDup (map snd (enum l))) by (rewrite enum_snd; auto).
  destruct (fold_dset snd (fun e => fold_left (fun d' e' => dset (snd e') (pw rows (fst e) (fst e')) d') (enum l) []) (enum l) [] NDe) as [H _].
  apply enum_In in Ea. apply enum_In in Eb.
  rewrite (H _ Ea : dget a _ = _). cbn [rbind fst].
  destruct (fold_dset snd (fun e' => pw rows i (fst e')) (enum l) [] NDe) as [H' _].
  rewrite (H' _ Eb : dget b _ = _). auto.
Qed.

Lemma dlookup_map {V} (v : dict pystr V) l r : rmap (fun x => dlookup x v) l = Ok r -> map (fun x => dget x v) l = map Some r.
Proof.
  intro E. apply rmap_Ok in E. revert r E. induction l as [|x l IH]; intros [|y r] E; simpl in *; try discriminate; auto.
  injection E; intros E1 E2. unfold dlookup in E2. destruct (dget x v); [|discriminate]. injection E2; intros; subst.
  f_equal. auto.
Qed.

Lemma map_Some_inj {A} (l l' : list A) : map Some l = map Some l' -> l = l'.
Proof. revert l'. induction l; intros [|] E; simpl in *; try discriminate; auto. injection E; intros; subst. f_equal; auto. Qed.

Lemma dlookup_total {V} (v : dict pystr V) x : In x (keys v) -> exists y, dlookup x v = Ok y.
Proof. intro I. destruct (dget_In_key _ _ I) as [y E]. exists y. unfold dlookup. rewrite E. auto. Qed.

Lemma list_prod_NoDup {A B} (l : list A) (l' : list B) : NoDup l -> NoDup l' -> NoDup (list_prod l l').
Proof.
  intros N N'. induction N as [|x l I N IH]; simpl; [constructor|].
  apply NoDup_app_intro; auto.
  - apply FinFun.Injective_map_NoDup; auto. intros y z E. injection E; auto.
  - intros [y z] J K. apply in_map_iff in J. destruct J as (w & E & _). injection E; intros; subst.
    apply in_prod_iff in K. tauto.
Qed.

Lemma list_prod_before {A B} (l : list A) (l' : list B) p q :
  In (fst p) l -> In (snd p) l' -> In (fst q) l -> In (snd q) l' ->
  before l (fst p) (fst q) \/ (fst p = fst q /\ before l' (snd p) (snd q)) -> before (list_prod l l') p q.
Proof.
  destruct p as [x y], q as [x' y']. cbn [fst snd]. intros Ix Iy Ix' Iy'. induction l as [|z l IH]; simpl in *; [tauto|].
  intros [Bf|[-> Bf]].
  - apply before_cons_inv in Bf. destruct Bf as [[-> I]|Bf].
    + apply before_app_m. apply in_map; auto. apply in_prod; auto.
    + apply before_app_r, IH; auto; apply before_In in Bf; tauto.
  - destruct Ix' as [->|I].
    + apply before_app_l. apply before_map with (f := fun w => (x', w)). auto.
    + apply before_app_r, IH; auto.
Qed.

Section WithOracles.
  Variables vec D : Type.
  Variable pw : list vec -> nat -> nat -> D.
  Variable ltb : D -> D -> bool.
  Variable draw : list (pystr * pystr) -> nat -> list (pystr * pystr).
  Notation sample := (sample vec D pw ltb draw).
  Notation psample := (psample vec D pw ltb draw).

  Lemma ask_sample o nb cr vs s m : Inv m -> result (sample o nb cr vs) (s, m) = psample o nb cr vs m.
  Proof. intro I. unfold result. destruct (sample_psample vec D pw ltb draw o nb cr vs s m I) as [s' E]. rewrite E. auto. Qed.

  Definition eligible_pairs (o : options) (m : mgr) (cr : option (dict pystr Z)) : res (list (pystr * pystr)) :=
    rfilter (keepr vec D o m cr) (list_prod (ids m) (ids m)).

  Lemma eligible_managed o m cr p : eligible o m cr p -> In p (list_prod (ids m) (ids m)).
  Proof. destruct p as [x y]. intros (Mx & My & _). apply managed_ids in Mx. apply managed_ids in My. apply in_prod; auto. Qed.

  Lemma keepr_spec o m cr p r : Inv m -> In p (list_prod (ids m) (ids m)) -> keepr vec D o m cr p = Ok r ->
    (r = true <-> eligible o m cr p).
  Proof.
    destruct p as [x y]. intros I Ip E. apply in_prod_iff in Ip. unfold keepr in E.
    eapply keep_spec in E; eauto; tauto.
  Qed.

  Lemma eligible_pairs_spec o m cr l : Inv m -> eligible_pairs o m cr = Ok l ->
    NoDup l /\ (forall p, In p l <-> eligible o m cr p) /\
    (forall p q, In p l -> In q l -> enumerated_before m p q -> before l p q).
  Proof.
    intros I E. apply rfilter_Ok in E. destruct E as [-> T].
    assert (F : forall p, In p (list_prod (ids m) (ids m)) ->
      (match keepr vec D o m cr p with Ok true => true | _ => false end = true <-> eligible o m cr p)).
    { intros p Ip. destruct (T p Ip) as [b E]. rewrite E. rewrite <- (keepr_spec o m cr p b I Ip E). destruct b; tauto. }
    split; [|split].
    - apply NoDup_filter_list, list_prod_NoDup; apply (inv_nodup _ I).
    - intro p. rewrite filter_In. split.
      + intros [Ip H]. apply F; auto.
      + intro H. assert (Ip := eligible_managed _ _ _ _ H). split; auto. apply F; auto.
    - intros p q Ip Iq (l & El & B). apply filter_In in Ip. apply filter_In in Iq.
      destruct Ip as [Ip Fp], Iq as [Iq Fq]. apply before_filter; auto.
      unfold ask in El. rewrite run_managed in El. injection El; intros; subst l.
      destruct p as [x y], q as [x' y']. apply in_prod_iff in Ip. apply in_prod_iff in Iq.
      apply list_prod_before; cbn [fst snd] in *; tauto.
  Qed.

  Lemma eligible_pairs_total o m cr : Inv m -> (o_clusters o <> None -> covers cr m) -> exists l, eligible_pairs o m cr = Ok l.
  Proof.
    intros I C. apply rfilter_total. intros [x y] Ip. apply in_prod_iff in Ip. unfold keepr.
    rewrite keep_run by tauto. cbn [snd]. destruct (str_leb y x); eauto.
    rewrite skip_clusters_run. cbn [snd s_clustering]. destruct (reads_clusters o) eqn:R; [|simpl; eauto].
    destruct C as (c & -> & C). { intro X. unfold reads_clusters in R. rewrite X in R. discriminate. }
    destruct (dlookup_total c x) as [z1 E1]. { apply C, managed_ids; tauto. }
    destruct (dlookup_total c y) as [z2 E2]. { apply C, managed_ids; tauto. }
    rewrite E1, E2. simpl. eauto.
  Qed.

  (** What a successful positive sampling computed. *)
  Definition prefers (o : options) (d1 d2 : D) : bool :=
    if opt_is (o_distance o) CLOSEST then ltb d1 d2 else ltb d2 d1.

  Lemma keyed_snd t l k : keyed D t l = Ok k -> map snd k = l.
  Proof.
    revert k. induction l as [|p l IH]; simpl; intros k E.
    - injection E; intros; subst; auto.
    - unfold keyed in *. simpl in E. destruct (look D t p); [|discriminate]. simpl in E.
      destruct (rmap _ l) eqn:R; [|discriminate]. injection E; intros; subst. simpl. f_equal. apply IH; auto.
  Qed.

  Lemma keyed_look t l k : keyed D t l = Ok k -> forall e, In e k -> look D t (snd e) = Ok (fst e).
  Proof using D.
    clear pw ltb draw.
    revert k. induction l as [|p l IH]; unfold keyed; simpl; intros k E.
    - injection E; intros; subst; simpl in *; tauto.
    - destruct (look D t p) eqn:L; [|discriminate]. simpl in E.
      destruct (rmap _ l) eqn:R; [|discriminate]. injection E; intros; subst. destruct H0 as [<-|J]; auto.
      apply (IH _ R); auto.
  Qed.

  Inductive selected (o : options) (nb : Z) (vs : option (dict pystr vec)) (m : mgr) (pairs : list (pystr * pystr)) : list (pystr * pystr) -> Prop :=
  | selected_random : opt_is (o_distance o) CLOSEST = false -> opt_is (o_distance o) FARTHEST = false ->
      selected o nb vs m pairs (draw pairs (Nat.min (Z.to_nat nb) (length pairs)))
  | selected_sorted : forall v rows k, opt_is (o_distance o) CLOSEST = true \/ opt_is (o_distance o) FARTHEST = true ->
      vs = Some v -> rmap (fun x => dlookup x v) (ids m) = Ok rows ->
      keyed D (table vec D pw rows (ids m)) pairs = Ok k ->
      selected o nb vs m pairs (firstn (Z.to_nat nb) (map snd (sorted_by (fun p q => prefers o (fst p) (fst q)) k))).

  Lemma psample_Ok o nb cr vs m l : psample o nb cr vs m = Ok l ->
    (nb = 0%Z /\ l = []) \/
    ((0 < nb)%Z /\ exists pairs, eligible_pairs o m cr = Ok pairs /\ selected o nb vs m pairs l).
  Proof.
    unfold SamplingProofs.psample. destruct (nb <? 0)%Z eqn:N; [discriminate|].
    destruct (nb =? 0)%Z eqn:Z0.
    { intro E. injection E; intros; subst. left. apply Z.eqb_eq in Z0. auto. }
    apply Z.ltb_ge in N. apply Z.eqb_neq in Z0. intro E. right. split; [lia|].
    fold (eligible_pairs o m cr) in E.
    destruct (match o_clusters o with Some _ => match cr with None => true | _ => false end | None => false end) eqn:B1.
    { destruct (o_clusters o), cr; discriminate. }
    assert (E1 : exists pairs, eligible_pairs o m cr = Ok pairs /\
       (match o_distance o, vs with
             | Some _, None => Raise ValueError
             | Some _, Some v => rows <-- rmap (fun x => dlookup x v) (ids m) ;;; select vec D pw ltb draw o nb (Some rows) (ids m) pairs
             | _, _ => select vec D pw ltb draw o nb None (ids m) pairs
             end) = Ok l).
    { destruct (eligible_pairs o m cr) as [pairs|e].
      - exists pairs. split; auto. destruct (o_clusters o), cr; try discriminate; destruct (o_distance o), vs; try discriminate; auto.
      - destruct (o_clusters o), cr; try discriminate; destruct (o_distance o), vs; try discriminate. }
    clear E. destruct E1 as (pairs & E1 & E). exists pairs. split; auto.
    destruct (o_distance o) as [u|] eqn:U.
    - destruct vs as [v|]; [|discriminate]. destruct (rmap (fun x => dlookup x v) (ids m)) as [rows|] eqn:R; [|discriminate].
      cbn [rbind] in E. unfold select in E. destruct rows as [|r0 rows]; [discriminate|]. rewrite U in E.
      destruct (opt_is (Some u) CLOSEST) eqn:C.
      + destruct (keyed _ _ _) as [k|] eqn:K; [|discriminate]. simpl in E. injection E; intros; subst l.
        assert (S := selected_sorted o nb (Some v) m pairs v (r0 :: rows) k). unfold prefers in S. rewrite U, C in S. auto.
      + destruct (opt_is (Some u) FARTHEST) eqn:F.
        * destruct (keyed _ _ _) as [k|] eqn:K; [|discriminate]. simpl in E. injection E; intros; subst l.
          assert (S := selected_sorted o nb (Some v) m pairs v (r0 :: rows) k). unfold prefers in S. rewrite U, C in S. auto.
        * injection E; intros; subst l. apply selected_random; rewrite U; auto.
    - unfold select in E. assert (E' : l = draw pairs (Nat.min (Z.to_nat nb) (length pairs))) by (destruct vs; congruence).
      subst l. apply selected_random; rewrite U; auto.
  Qed.

  Lemma selected_part o nb vs m pairs l : valid_draw draw -> selected o nb vs m pairs l ->
    length l = Nat.min (Z.to_nat nb) (length pairs) /\ exists rest, Permutation pairs (l ++ rest).
  Proof.
    intros V S. destruct S as [_ _ | v rows k _ _ _ K].
    - apply V. lia.
    - apply keyed_snd in K. subst pairs.
      set (L := map snd (sorted_by (fun p q => prefers o (fst p) (fst q)) k)).
      assert (P : Permutation (map snd k) L) by (apply Permutation_map, sorted_perm).
      split.
      + rewrite firstn_length, (Permutation_length P). auto.
      + exists (skipn (Z.to_nat nb) L). rewrite firstn_skipn. auto.
  Qed.
End WithOracles.

(*PROP C27: every sampled pair is an ordered pair of managed IDs meeting the restrictions, and no pair comes twice. *)
Lemma C27_sampled_pairs_eligible_proof :
  forall vec D pairwise ltb draw o nb clustering vectors s m l, valid_draw draw -> reachable m ->
    result (sample vec D pairwise ltb draw o nb clustering vectors) (s, m) = Ok l ->
    NoDup l /\ (forall p, In p l -> eligible o m clustering p).
Proof.
  intros vec D pw ltb draw o nb cr vs s m l V R E. apply reachable_inv in R. rewrite ask_sample in E by auto.
  apply psample_Ok in E. destruct E as [[_ ->]|(P & pairs & E & S)].
  - split; [constructor|simpl; tauto].
  - apply eligible_pairs_spec in E; auto. destruct E as (ND & EL & _).
    apply selected_part in S; auto. destruct S as (_ & rest & Pm).
    apply (Permutation_NoDup Pm) in ND. apply NoDup_app_inv in ND. split; [tauto|].
    intros p I. apply EL. apply (Permutation_in _ (Permutation_sym Pm)), in_or_app; auto.
Qed.

(*EX
Example C27_ex : smp any 2 = Ok [(a, d); (b, d)].
Proof. reflexivity. Qed.
Example C27_ex2 : smp (mkOptions (Some SAME_CLUSTER) None false false) 5 = Ok [(a, d); (a, b); (b, d)].
Proof. reflexivity. Qed.
EX*)

(*PROP C28: with the documented arguments sample succeeds and returns min(nb_to_select, number of eligible pairs) pairs. *)
Lemma C28_sampling_count_proof :
  forall vec D pairwise ltb draw o nb clustering vectors s m, valid_draw draw -> reachable m ->
    valid_arguments (vec := vec) o m nb clustering vectors ->
    exists l, result (sample vec D pairwise ltb draw o nb clustering vectors) (s, m) = Ok l /\
      forall all, NoDup all -> (forall p, In p all <-> eligible o m clustering p) ->
        length l = Nat.min (Z.to_nat nb) (length all).
Proof.
  intros vec D pw ltb draw o nb cr vs s m V R (N & C & W). apply reachable_inv in R. rewrite ask_sample by auto.
  assert (T : exists l, SamplingProofs.psample vec D pw ltb draw o nb cr vs m = Ok l).
  { unfold SamplingProofs.psample. destruct (Z.ltb_spec nb 0); [lia|]. destruct (nb =? 0)%Z; [eauto|].
    destruct (eligible_pairs_total vec D o m cr R C) as [pairs E]. unfold eligible_pairs in E. rewrite E. cbn [rbind].
    assert (NC : o_clusters o <> None -> cr <> None) by (intros X; destruct (C X) as (c & -> & _); discriminate).
    destruct (o_distance o) as [u|] eqn:U.
    - destruct W as ((v & -> & W) & (x0 & M0)); [discriminate|].
      destruct (rmap_total (fun x => dlookup x v) (ids m)) as [rows Er].
      { intros x Ix. apply dlookup_total, W, managed_ids; auto. }
      assert (NR : rows <> []). { intro X. subst. apply rmap_length in Er. apply managed_ids in M0. destruct (ids m); simpl in *; [tauto|discriminate]. }
      assert (Ek : exists k, keyed D (table vec D pw rows (ids m)) pairs = Ok k).
      { unfold keyed. apply rmap_total. intros [x y] Ip. apply eligible_pairs_spec in E; auto. destruct E as (_ & EL & _).
        apply EL in Ip. destruct Ip as (Mx & My & _). apply managed_ids in Mx. apply managed_ids in My.
        apply In_nth_error in Mx. apply In_nth_error in My. destruct Mx as [i Ex], My as [j Ey].
        rewrite (table_look pw rows (ids m) i j x y) by auto using inv_nodup. simpl; eauto. }
      destruct Ek as [k Ek].
      assert (S : exists l, select vec D pw ltb draw o nb (Some rows) (ids m) pairs = Ok l).
      { unfold select. destruct rows as [|r0 rows]; [congruence|]. rewrite Ek. cbn [rbind].
        destruct (opt_is (o_distance o) CLOSEST); eauto. destruct (opt_is (o_distance o) FARTHEST); eauto. }
      destruct S as [l S]. exists l. destruct (o_clusters o), cr; rewrite ?Er; cbn [rbind]; auto; destruct NC; congruence.
    - eexists. destruct (o_clusters o), cr; unfold select; destruct vs; try reflexivity; destruct NC; congruence. }
  destruct T as [l E]. exists l. split; auto. intros all ND EL.
  apply psample_Ok in E. destruct E as [[-> ->]|(P & pairs & E & S)]; auto.
  apply eligible_pairs_spec in E; auto. destruct E as (ND' & EL' & _).
  apply selected_part in S; auto. destruct S as (S & _). rewrite S. f_equal.
  assert (Pm : Permutation pairs all). { apply NoDup_Permutation; auto. intro p. rewrite EL, EL'. tauto. }
  apply Permutation_length; auto.
Qed.

(*EX
Example C28_ex : valid_arguments closest ex 7 clusters vecs /\ smp closest 7 = Ok [(c, d)].
Proof.
  split; [|reflexivity].
  assert (M : forall x, managed ex x -> In x [a; b; c; d]).
  { intros x (l & E & I). vm_compute in E. inversion E; subst l. simpl in *. tauto. }
  split; [easy|]. split.
  - intros _. exists [(a, 0%Z); (b, 0%Z); (c, 1%Z); (d, 0%Z)]. split; [reflexivity|]. exact M.
  - intros _. split.
    + exists [(a, 1); (b, 4); (c, 3); (d, 10)]. split; [reflexivity|]. exact M.
    + exists a, [d; a; b; c]. split; [reflexivity|]. right; left; reflexivity.
Qed.
EX*)

(*PROP C28 (errors): a negative number, or a restriction without its dictionary, is refused with ValueError; nothing else than ValueError or KeyError is ever raised. *)
Lemma C28_sampling_errors_proof :
  forall vec D pairwise ltb draw o nb clustering vectors s m, reachable m ->
    let r := result (sample vec D pairwise ltb draw o nb clustering vectors) (s, m) in
    ((nb < 0)%Z -> r = Raise ValueError) /\
    (nb = 0%Z -> r = Ok []) /\
    ((0 < nb)%Z -> o_clusters o <> None -> clustering = None -> r = Raise ValueError) /\
    ((0 < nb)%Z -> o_distance o <> None -> vectors = None -> r = Raise ValueError) /\
    (forall e, r = Raise e -> e = ValueError \/ e = KeyError).
Proof.
  intros vec D pw ltb draw o nb cr vs s m R r. subst r. apply reachable_inv in R. rewrite ask_sample by auto.
  unfold SamplingProofs.psample.
  split; [|split; [|split; [|split]]].
  - intro. destruct (Z.ltb_spec nb 0); auto; lia.
  - intros ->. reflexivity.
  - intros P N ->. destruct (Z.ltb_spec nb 0); [lia|]. destruct (Z.eqb_spec nb 0); [lia|]. destruct (o_clusters o); congruence.
  - intros P N ->. destruct (Z.ltb_spec nb 0); [lia|]. destruct (Z.eqb_spec nb 0); [lia|].
    destruct (o_distance o); [|congruence]. destruct (o_clusters o), cr; auto.
  - intros e. destruct (Z.ltb_spec nb 0). { intro E; injection E; auto. } destruct (Z.eqb_spec nb 0); [discriminate|].
    assert (K : forall l e, rfilter (keepr vec D o m cr) l = Raise e -> incl l (list_prod (ids m) (ids m)) ->
       (o_clusters o <> None -> cr <> None) -> e = KeyError).
    { clear e. intros l e E IN NC. induction l as [|[x y] l IH]; simpl in E; [discriminate|].
      assert (Ip := IN (x, y) (or_introl eq_refl)). apply in_prod_iff in Ip.
      destruct (keepr vec D o m cr (x, y)) as [b|e'] eqn:Kp.
      - simpl in E. destruct (rfilter _ l); [discriminate|]. apply IH; auto. intros z Iz; apply IN; right; auto.
      - simpl in E. injection E; intros; subst e'. clear E. unfold keepr in Kp. rewrite keep_run in Kp by tauto. cbn [snd] in Kp.
        destruct (str_leb y x); [discriminate|]. rewrite skip_clusters_run in Kp. cbn [snd s_clustering] in Kp.
        destruct (reads_clusters o) eqn:RC; [|discriminate].
        destruct cr as [c|].
        + unfold dlookup in Kp. destruct (dget x c); [|simpl in Kp; congruence]. destruct (dget y c); simpl in Kp; congruence.
        + exfalso. apply NC; auto. intro X. unfold reads_clusters in RC. rewrite X in RC. discriminate. }
    assert (K2 : forall (v : dict pystr vec) l e, rmap (fun x => dlookup x v) l = Raise e -> e = KeyError).
    { clear. induction l as [|x l IH]; simpl; intros e E; [discriminate|]. unfold dlookup in E at 1.
      destruct (dget x v); simpl in E; [|congruence]. destruct (rmap _ l); simpl in E; [discriminate|]. apply IH; congruence. }
    assert (K3 : forall t l e, keyed D t l = Raise e -> e = KeyError).
    { clear. intro t. unfold keyed. induction l as [|p l IH]; simpl; intros e E; [discriminate|].
      unfold look in E at 1. unfold dlookup in E.
      destruct (dget (fst p) t) as [row|]; simpl in E; [|congruence]. destruct (dget (snd p) row); simpl in E; [|congruence].
      destruct (rmap _ l); simpl in E; [discriminate|]. apply IH; congruence. }
    assert (K4 : forall rows pairs e, select vec D pw ltb draw o nb rows (ids m) pairs = Raise e -> e = ValueError \/ e = KeyError).
    { clear -K3. intros [[|r0 rows]|] pairs e; unfold select; try discriminate; [intro E; injection E; auto|].
      destruct (opt_is _ CLOSEST); [|destruct (opt_is _ FARTHEST); [|discriminate]];
      (destruct (keyed _ _ _) eqn:Ek; [discriminate|simpl; intro E; injection E; intros; subst; right; eapply K3; eauto]). }
    assert (K5 : (o_clusters o <> None -> cr <> None) ->
      (pairs <-- rfilter (keepr vec D o m cr) (list_prod (ids m) (ids m)) ;;;
             match o_distance o, vs with
             | Some _, Some v => rows <-- rmap (fun x => dlookup x v) (ids m) ;;; select vec D pw ltb draw o nb (Some rows) (ids m) pairs
             | _, _ => select vec D pw ltb draw o nb None (ids m) pairs
             end) = Raise e -> e = ValueError \/ e = KeyError).
    { intros NC E. destruct (rfilter _ _) as [pairs|e'] eqn:F.
      - cbn [rbind] in E. destruct (o_distance o), vs; eauto.
        destruct (rmap _ (ids m)) eqn:Rm; cbn [rbind] in E; eauto. right. injection E; intros; subst. eauto.
      - simpl in E. injection E; intros; subst. right. eapply K; eauto. apply incl_refl. }
    destruct (o_clusters o), cr; try (destruct (o_distance o), vs; apply K5; congruence);
      try (intro E; injection E; auto); destruct (o_distance o), vs; try (apply K5; congruence); intro E; injection E; auto.
Qed.

Lemma distance_unique {vec D} (pw : list vec -> nat -> nat -> D) m v p d1 d2 : Inv m ->
  distance_is pw m v p d1 -> distance_is pw m v p d2 -> d1 = d2.
Proof.
  intros I (l & rows & i & j & El & R & Ei & Ej & ->) (l' & rows' & i' & j' & El' & R' & Ei' & Ej' & ->).
  unfold ask in *. rewrite run_managed in *. injection El; intros; subst l. injection El'; intros; subst l'.
  rewrite R in R'. apply map_Some_inj in R'. subst rows'.
  assert (ND := inv_nodup _ I). rewrite NoDup_nth_error in ND.
  assert (X : forall k k' x, nth_error (ids m) k = Some x -> nth_error (ids m) k' = Some x -> k = k').
  { intros k k' x E E'. apply ND; [|congruence]. apply nth_error_Some. congruence. }
  rewrite (X _ _ _ Ei Ei'), (X _ _ _ Ej Ej'). auto.
Qed.

Lemma distance_exists {vec D} (pw : list vec -> nat -> nat -> D) m v rows p :
  rmap (fun x => dlookup x v) (ids m) = Ok rows -> In (fst p) (ids m) -> In (snd p) (ids m) -> Inv m ->
  exists d, distance_is pw m v p d /\ look D (table vec D pw rows (ids m)) p = Ok d.
Proof.
  intros R Ix Iy I. apply In_nth_error in Ix. apply In_nth_error in Iy. destruct Ix as [i Ei], Iy as [j Ej].
  exists (pw rows i j). destruct p as [x y]. cbn [fst snd] in *. split.
  - exists (ids m), rows, i, j. unfold ask. rewrite run_managed. apply dlookup_map in R. auto.
  - apply table_look; auto using inv_nodup.
Qed.

(*PROP C29: with a distance restriction the pairs come sorted by distance, no pair left out is strictly better than a returned one, ties follow the enumeration order of the double loop, and every eligible pair has exactly one distance. *)
Lemma C29_distance_sampling_optimal_proof :
  forall vec D pairwise ltb draw o nb clustering v s m l, strict_weak_order ltb -> reachable m ->
    o_distance o = Some CLOSEST \/ o_distance o = Some FARTHEST -> (0 < nb)%Z ->
    result (sample vec D pairwise ltb draw o nb clustering (Some v)) (s, m) = Ok l ->
    let dist := distance_is pairwise m v in
    (forall p, eligible o m clustering p -> exists d, dist p d /\ forall d', dist p d' -> d' = d) /\
    (forall p q dp dq, dist p dp -> dist q dq -> before l p q -> ~ taken_first ltb o dq dp) /\
    (forall p q dp dq, dist p dp -> dist q dq -> In p l -> eligible o m clustering q -> ~ In q l -> ~ taken_first ltb o dq dp) /\
    (forall p q dp dq, dist p dp -> dist q dq -> eligible o m clustering p -> In q l ->
       ~ taken_first ltb o dp dq -> ~ taken_first ltb o dq dp -> enumerated_before m p q -> before l p q).
Proof.
  intros vec D pw ltb draw o nb cr v s m l (Irr & Tr & Neg) R O P E dist. apply reachable_inv in R.
  rewrite ask_sample in E by auto. apply psample_Ok in E. destruct E as [[-> _]|(_ & pairs & E & S)]; [lia|].
  apply eligible_pairs_spec in E; auto. destruct E as (ND & EL & EN).
  destruct S as [C F | v' rows k _ EV Er K].
  { exfalso. destruct O as [O|O]; apply opt_is_eq in O; congruence. }
  injection EV; intros; subst v'. clear EV.
  assert (SN := keyed_snd _ _ _ _ K). pose proof (keyed_look _ _ _ _ K) as LK.
  assert (EX : forall p, eligible o m cr p -> exists d, dist p d /\ look D (table vec D pw rows (ids m)) p = Ok d).
  { intros [x y] (Mx & My & _). apply distance_exists; auto; apply managed_ids; auto. }
  assert (TF : forall d1 d2, taken_first ltb o d1 d2 <-> prefers D ltb o d1 d2 = true).
  { intros. unfold taken_first, prefers. destruct O as [O|O]; rewrite O.
    - replace (opt_is (Some CLOSEST) CLOSEST) with true by reflexivity. split; [|auto].
      intros [[_ X]|[X _]]; auto. apply (f_equal (fun o => opt_is o FARTHEST)) in X. discriminate.
    - replace (opt_is (Some FARTHEST) CLOSEST) with false by reflexivity. split; [|auto].
      intros [[X _]|[_ X]]; auto. apply (f_equal (fun o => opt_is o FARTHEST)) in X. discriminate. }
  set (lt := fun p q : D * (pystr * pystr) => prefers D ltb o (fst p) (fst q)) in *.
  assert (Irr' : forall x, lt x x = false) by (intro; unfold lt, prefers; destruct (opt_is _ _); auto).
  assert (Tr' : forall x y z, lt x y = true -> lt y z = true -> lt x z = true).
  { intros x y z. unfold lt, prefers. destruct (opt_is _ _); eauto. }
  assert (Neg' : forall x y z, lt x z = true -> lt x y = true \/ lt y z = true).
  { intros x y z. unfold lt, prefers. destruct (opt_is _ _); auto. intro H. apply or_comm. auto. }
  assert (NDk : NoDup k). { apply NoDup_map_inv with (f := snd). rewrite SN; auto. }
  destruct (sorted_before lt Neg' Irr' Tr' k NDk) as [B1 B2].
  set (L := sorted_by lt k) in *.
  assert (PL : Permutation k L) by apply sorted_perm.
  assert (NDL : NoDup (map snd L)). { eapply Permutation_NoDup. apply Permutation_map, PL. rewrite SN; auto. }
  (* keys *)
  assert (KEY : forall p dp, dist p dp -> In p pairs -> In (dp, p) k).
  { intros p dp Dp Ip. rewrite <- SN in Ip. apply in_map_iff in Ip. destruct Ip as ([d p'] & E1 & I1). simpl in E1. subst p'.
    assert (L1 := LK _ I1). cbn [fst snd] in L1.
    destruct (EX p) as (d' & D1 & D2). { apply EL. rewrite <- SN. apply in_map_iff. exists (d, p). auto. }
    rewrite L1 in D2. injection D2; intros; subst d'. rewrite (distance_unique pw m v p dp d); auto. }
  assert (INL : forall p, In p (map snd L) <-> In p pairs).
  { intro p. rewrite <- SN. split; apply Permutation_in, Permutation_map; auto. apply Permutation_sym; auto. }
  assert (FST : forall p, In p (firstn (Z.to_nat nb) (map snd L)) -> In p pairs).
  { intros p I1. apply INL. rewrite <- (firstn_skipn (Z.to_nat nb) (map snd L)). apply in_or_app; auto. }
  (* the order in L of two pairs *)
  assert (ORD : forall p q dp dq, dist p dp -> dist q dq -> In p pairs -> In q pairs -> before (map snd L) p q -> ~ taken_first ltb o dq dp).
  { intros p q dp dq Dp Dq Ip Iq Bf T. apply TF in T.
    assert (Bk : before L (dq, q) (dp, p)). { apply B1; auto. }
    apply (before_map snd) in Bk. cbn [snd] in Bk. eapply before_asym; eauto. }
  split; [|split; [|split]].
  - intros p Ep. destruct (EX p Ep) as (d & D1 & _). exists d. split; auto. intros. eapply distance_unique; eauto.
  - intros p q dp dq Dp Dq Bf. assert (I1 := before_In _ _ _ Bf). eapply ORD; eauto; try (apply FST; tauto).
    rewrite <- (firstn_skipn (Z.to_nat nb) (map snd L)). apply before_app_l; auto.
  - intros p q dp dq Dp Dq Ip Eq NIq. apply EL in Eq. eapply ORD; eauto.
    rewrite <- (firstn_skipn (Z.to_nat nb) (map snd L)). apply before_app_m; auto.
    apply INL in Eq. rewrite <- (firstn_skipn (Z.to_nat nb) (map snd L)) in Eq. apply in_app_or in Eq. tauto.
  - intros p q dp dq Dp Dq Ep Iq N1 N2 EB. apply EL in Ep. assert (Iq' := FST _ Iq).
    apply before_firstn; auto.
    assert (Bk : before k (dp, p) (dq, q)).
    { assert (Bp : before pairs p q) by (apply EN; auto). assert (Kp := KEY _ _ Dp Ep). assert (Kq := KEY _ _ Dq Iq').
      assert (NE : (dp, p) <> (dq, q)). { intro X. injection X; intros X' _. rewrite X' in Bp. exact (before_asym pairs ND _ _ Bp Bp). }
      destruct (before_total k _ _ Kp Kq NE) as [X|X]; auto. exfalso.
      apply (before_map snd) in X. cbn [snd] in X. rewrite SN in X. exact (before_asym pairs ND _ _ Bp X). }
    change p with (snd (dp, p)). change q with (snd (dq, q)). apply before_map. apply B1; auto.
    right. split; auto. unfold lt. cbn [fst]. destruct (prefers D ltb o dq dp) eqn:X; auto. apply TF in X. tauto.
Qed.

(*EX
Example C29_ex : smp closest 7 = Ok [(c, d)] /\ smp farthest 3 = Ok [(a, d); (c, d); (b, d)]
  /\ smp (mkOptions None (Some CLOSEST) false false) 4 = Ok [(b, c); (a, c); (a, b); (b, d)].
Proof. repeat split; reflexivity. Qed.
Example C29_ex_order : strict_weak_order Nat.ltb.
Proof.
  split; [|split].
  - exact Nat.ltb_irrefl.
  - intros x y z. rewrite !Nat.ltb_lt. apply Nat.lt_trans.
  - intros x y z. rewrite !Nat.ltb_lt. intro H. destruct (Nat.lt_ge_cases x y); auto.
    right. apply Nat.le_lt_trans with x; auto.
Qed.
EX*)

(*PROP C30: without cluster restriction, sampling at least one pair without inferred constraint returns [] exactly when the constraints are complete. *)
Lemma C30_exhausted_iff_complete_proof :
  forall vec D pairwise ltb draw o nb clustering vectors s m, valid_draw draw -> reachable m ->
    valid_arguments (vec := vec) o m nb clustering vectors ->
    o_clusters o = None -> o_without_inferred o = true -> (1 <= nb)%Z ->
    (result (sample vec D pairwise ltb draw o nb clustering vectors) (s, m) = Ok [] <-> complete m).
Proof.
  intros vec D pw ltb draw o nb cr vs s m V R VA OC OI N. assert (I := reachable_inv _ R).
  destruct (C28_sampling_count_proof vec D pw ltb draw o nb cr vs s m V R VA) as (l & E & L). rewrite E.
  assert (C : complete m <-> forall x y, managed m x -> managed m y -> inferred m x y (Some MUST_LINK) \/ inferred m x y (Some CANNOT_LINK)).
  { destruct (C14_completude_exact_proof m R) as (b & Eb & K). unfold complete. rewrite Eb. rewrite <- K. split; congruence. }
  rewrite C. rewrite ask_sample in E by auto. apply psample_Ok in E. destruct E as [[-> _]|(_ & pairs & E & S)]; [lia|].
  apply eligible_pairs_spec in E; auto. destruct E as (ND & EL & _). specialize (L pairs ND EL).
  assert (X : l = [] <-> pairs = []).
  { split; intros ->; simpl in *.
    - destruct pairs; auto. simpl in L. destruct (Z.to_nat nb) eqn:Z; [lia|discriminate].
    - rewrite Nat.min_0_r in L. apply length_zero_iff_nil; auto. }
  assert (X' : Ok l = Ok [] <-> l = []) by (split; congruence). rewrite X', X. clear X X'. split.
  - intros -> x y Mx My. apply managed_ids in Mx. apply managed_ids in My. rewrite !inferred_spec by auto.
    destruct (infer_cases m x y) as [H|[H|H]]; auto. exfalso.
    destruct (eqb_spec x y) as [->|NE].
    { assert (infer m y y = Some MUST_LINK). { apply infer_ML; auto. constructor. } congruence. }
    assert (K : forall x y, In x (ids m) -> In y (ids m) -> infer m x y = None -> str_ltb x y = true -> False).
    { clear x y Mx My H NE. intros x y Ix Iy H LT. apply (proj2 (EL (x, y))).
      unfold eligible. rewrite !managed_ids, inferred_spec, OC by auto. repeat split; auto; try discriminate.
      intros _ [t A]. apply addf_added in A; auto. destruct A as (_ & _ & A). apply addf_infer in A; auto. congruence.
      apply both_true; auto. }
    destruct (str_leb y x) eqn:L1.
    + apply (K y x); auto. rewrite infer_sym by auto. auto. rewrite str_ltb_negb.
      destruct (str_leb x y) eqn:L2; auto. destruct (NE (str_leb_antisym _ _ L2 L1)).
    + apply (K x y); auto. rewrite str_ltb_negb, L1; auto.
  - intro H. destruct pairs as [|[x y] pairs]; auto. exfalso.
    assert (El := proj1 (EL (x, y)) (or_introl eq_refl)). destruct El as (Mx & My & _ & _ & _ & _ & F).
    specialize (F OI). destruct (H x y Mx My) as [G|G]; unfold inferred in *; congruence.
Qed.

(*EX
Example C30_ex : ask check_completude_of_constraints ex = Ok false /\ smp any 1 = Ok [(a, d)]
  /\ let m := run [CallAddConstraint a d MUST_LINK 1%Q] ex in
     ask check_completude_of_constraints m = Ok true
     /\ result (sample nat nat pw Nat.ltb first_ones any 1 None None) (fresh_sampler nat nat, m) = Ok [].
Proof. repeat split; reflexivity. Qed.
EX*)

(*PROP C32: sample leaves the manager unchanged, and after any history of calls (even failed ones, on other managers) it answers like a fresh sampler. *)
Lemma C32_sampling_no_memory_proof :
  forall vec D ltb o (history : list (sample_call vec D)) c, reachable (sc_manager c) ->
    snd (do_sample ltb o c (after_samples ltb o history)) = snd (do_sample ltb o c (fresh_sampler vec D)) /\
    snd (fst (do_sample ltb o c (after_samples ltb o history))) = sc_manager c.
Proof.
  intros vec D ltb o h c R. apply reachable_inv in R. unfold do_sample.
  destruct (sample_psample vec D (sc_pairwise c) ltb (sc_draw c) o (sc_nb c) (sc_clustering c) (sc_vectors c) (after_samples ltb o h) _ R) as [s1 E1].
  destruct (sample_psample vec D (sc_pairwise c) ltb (sc_draw c) o (sc_nb c) (sc_clustering c) (sc_vectors c) (fresh_sampler vec D) _ R) as [s2 E2].
  rewrite E1, E2. auto.
Qed.

(*EX
Example C32_ex : let call nb cl v := mkSampleCall ex nb cl v pw first_ones in
  fst (fst (do_sample Nat.ltb closest (call 1%Z clusters vecs) (fresh_sampler nat nat))) <> fresh_sampler nat nat
  /\ snd (do_sample Nat.ltb closest (call 1%Z (Some [(a, 5%Z); (b, 7%Z); (c, 7%Z); (d, 6%Z)]) vecs)
            (after_samples Nat.ltb closest [call 1%Z clusters vecs; call (-1)%Z None None])) = Ok [(b, d)].
Proof. split; [discriminate|reflexivity]. Qed.
EX*)
