(** * How much some constraints can decide (C147). *)

From Coq Require Import String List Bool Arith ZArith QArith Lia.
(*HEADER
From Coq Require Import String List Bool Arith ZArith QArith Lia.
From Verif Require Import Base Manager Spec ManagerThms ManagerInv ManagerQueries ClusterSpec EffortSpec WrongSpec KnowThms.
Import ListNotations.
Open Scope nat_scope.
HEADER*)
From Verif Require Import Base Manager Spec Closure ManagerProofs ManagerInv ManagerQueries ManagerThms EffortSpec EffortThms JsonThms ClusterSpec HierSpec WrongSpec WrongThms TeachSpec TeachThms.
Import ListNotations.
Open Scope nat_scope.

Lemma pairs_same {A} (l : list A) : pairs l = position_pairs l.
Proof. induction l as [|x l IH]; cbn; [auto|]. rewrite IH. auto. Qed.
Lemma position_pairs_length {A} (l : list A) : 2 * length (position_pairs l) = length l * (length l - 1).
Proof. induction l as [|x l IH]; auto. cbn [position_pairs length]. rewrite app_length, map_length. destruct l; cbn [length] in *; nia. Qed.

(** ** Labels that join the ends of some edges *)
Definition str_dec : forall x y : pystr, {x = y} + {x <> y} := list_eq_dec N.eq_dec.
Fixpoint label (E : list (pystr * pystr)) (x : pystr) : pystr :=
  match E with [] => x | (a, b) :: E' => if str_dec (label E' x) (label E' a) then label E' b else label E' x end.
Lemma label_edge E a b : In (a, b) E -> label E a = label E b.
Proof.
  induction E as [|[p q] E IH]; intros J; [destruct J|]. cbn [label]. destruct J as [J|J].
  - injection J as -> ->. destruct (str_dec (label E a) (label E a)) as [_|N]; [|congruence]. destruct (str_dec _ _); auto.
  - rewrite (IH J). auto.
Qed.
Lemma linked_label E (r : pystr -> pystr -> Prop) x y : (forall a b, r a b -> a = b \/ In (a, b) E \/ In (b, a) E) -> linked r x y -> label E x = label E y.
Proof.
  intros H K. induction K as [x|x y z _ IH S]; auto. rewrite IH.
  destruct S as [S|S]; apply H in S as [->|[S|S]]; auto; apply label_edge in S; auto.
Qed.

Notation distinct l := (length (nodup str_dec l)).
Lemma remove_length (S : list pystr) u : NoDup S -> length S <= 1 + length (remove str_dec u S).
Proof.
  induction S as [|x S IH]; intro N; cbn; [lia|]. inversion N as [|? ? Nx N']; subst. destruct (str_dec u x) as [->|_]; cbn.
  - rewrite notin_remove; auto.
  - specialize (IH N'). lia.
Qed.
Lemma distinct_label E l : NoDup l -> length l <= distinct (map (label E) l) + length E.
Proof.
  intro N. induction E as [|[a b] E IH].
  - cbn [length label]. rewrite map_id, nodup_fixed_point by auto. lia.
  - cbn [length]. set (S := nodup str_dec (map (label E) l)) in *.
    assert (R := remove_length S (label E a) (NoDup_nodup _ _)).
    assert (I : length (remove str_dec (label E a) S) <= distinct (map (label ((a, b) :: E)) l)).
    { apply NoDup_incl_length.
      - assert (forall u (T : list pystr), NoDup T -> NoDup (remove str_dec u T)) as G.
        { intros u T. induction T as [|x T IHT]; intro NT; cbn; auto. inversion NT as [|? ? Nx NT']; subst. destruct (str_dec u x); auto. constructor; auto.
          intro J. apply in_remove in J. tauto. }
        apply G. apply NoDup_nodup.
      - intros z J. apply in_remove in J as [J Nz]. unfold S in J. apply nodup_In, in_map_iff in J as (x & <- & J). apply nodup_In, in_map_iff. exists x. split; auto.
        cbn [label]. destruct (str_dec _ _); congruence. }
    lia.
Qed.
Lemma same_label_count (c : pystr -> pystr) l (f : pystr * pystr -> bool) : (forall x y, f (x, y) = true -> c x = c y) ->
  let r := length l - distinct (map c l) in 2 * length (filter f (position_pairs l)) <= r * (r + 1).
Proof.
  intros H. induction l as [|x l IH]; [cbn; lia|]. cbv zeta in *. cbn [position_pairs map length]. rewrite filter_app, app_length.
  assert (D : distinct (map c l) <= length l) by (rewrite <- (map_length c l); apply NoDup_incl_length; [apply NoDup_nodup|intros z J; apply nodup_In in J; auto]).
  set (k := length (filter (fun y => if str_dec (c y) (c x) then true else false) l)).
  assert (C : length (filter f (map (pair x) l)) <= k).
  { unfold k. clear - H. induction l as [|y l IH]; auto. cbn [map filter]. destruct (f (x, y)) eqn:F.
    - apply H in F. destruct (str_dec (c y) (c x)); [cbn; lia|congruence].
    - destruct (str_dec _ _); cbn; lia. }
  cbn [nodup]. destruct (in_dec str_dec (c x) (map c l)) as [J|J].
  - assert (K : k + distinct (map c l) <= length l + 1).
    { assert (R := remove_length (nodup str_dec (map c l)) (c x) (NoDup_nodup _ _)).
      assert (G : length (remove str_dec (c x) (nodup str_dec (map c l))) <= length (filter (fun y => if str_dec (c y) (c x) then false else true) l)).
      { rewrite <- (map_length c (filter _ l)). apply NoDup_incl_length.
        - assert (forall u (T : list pystr), NoDup T -> NoDup (remove str_dec u T)) as G.
          { intros u T. induction T as [|z T IHT]; intro NT; cbn; auto. inversion NT as [|? ? Nx NT']; subst. destruct (str_dec u z); auto. constructor; auto.
            intro J'. apply in_remove in J'. tauto. }
          apply G. apply NoDup_nodup.
        - intros z Jz. apply in_remove in Jz as [Jz Nz]. apply nodup_In, in_map_iff in Jz as (y & <- & Jy). apply in_map, filter_In. split; auto. destruct (str_dec _ _); congruence. }
      assert (P : k + length (filter (fun y => if str_dec (c y) (c x) then false else true) l) = length l).
      { unfold k. clear. induction l as [|y l IH]; auto. cbn [filter length]. destruct (str_dec (c y) (c x)); cbn [length]; lia. }
      lia. }
    replace (S (length l) - distinct (map c l)) with (S (length l - distinct (map c l))) by lia. set (r := length l - distinct (map c l)) in *.
    assert (k <= r + 1) by lia. nia.
  - assert (k = 0).
    { unfold k. assert (G : forall y, In y l -> c y <> c x) by (intros y Jy E; apply J; rewrite <- E; apply in_map; auto). clear - G. induction l as [|y l IH]; auto.
      cbn [filter]. destruct (str_dec _ _) as [E|_]; [destruct (G y); cbn; auto|]. apply IH. intros z Jz. apply G. right. auto. }
    cbn [length]. replace (S (length l) - S (distinct (map c l))) with (length l - distinct (map c l)) by lia. lia.
Qed.

(*PROP **C147.** Some constraints have been added, between [n] data; [k] of them link two different data. They decide at least [k] pairs of data, *)
Lemma C147_at_least_proof :
  forall m l, reachable m -> ask get_list_of_managed_data_IDs m = Ok l ->
  2 * nb_undecided m l + 2 * (effort m MUST_LINK + effort m CANNOT_LINK) <= length l * (length l - 1).
Proof.
  intros m l R E. rewrite <- position_pairs_length. unfold effort. rewrite E, pairs_same. unfold nb_undecided. fold (undecided m).
  set (P := position_pairs l). assert (I : forall p, In p P -> managed m (fst p) /\ managed m (snd p)).
  { intros [x y] J. apply position_pairs_In in J as [Jx Jy]. split; eapply list_of_ids; eauto. }
  clearbody P. induction P as [|[x y] P IH]; [cbn; lia|]. specialize (IH (fun p J => I p (or_intror J))). destruct (I (x, y) (or_introl eq_refl)) as [Mx My]. cbn [fst snd] in Mx, My.
  assert (AM : is_added m MUST_LINK (x, y) = true -> undecided m (x, y) = false /\ is_added m CANNOT_LINK (x, y) = false).
  { intro K. split.
    - apply not_true_is_false. rewrite undecided_spec. intro U. apply is_added_spec in K. apply (inf_none m R x y Mx My) in U as [NL _]. apply NL. eapply linked_step; [apply linked_refl|]. left. exact K.
    - unfold is_added in *. cbn [fst snd] in *. destruct (ask (get_added_constraint x y) m) as [[[u w]|]|e]; try discriminate. destruct (eqb_spec u MUST_LINK) as [->|]; [reflexivity|discriminate]. }
  assert (AC : is_added m CANNOT_LINK (x, y) = true -> undecided m (x, y) = false).
  { intro K. apply not_true_is_false. rewrite undecided_spec. intro U. apply is_added_spec in K. apply (inf_none m R x y Mx My) in U as [_ NX]. apply NX. exists x, y.
    split; [apply linked_refl|]. split; [apply linked_refl|]. left. exact K. }
  cbn [filter length]. destruct (is_added m MUST_LINK (x, y)) eqn:A1.
  - destruct (AM eq_refl) as [-> ->]. cbn [length]. lia.
  - destruct (is_added m CANNOT_LINK (x, y)) eqn:A2; [rewrite (AC eq_refl)|destruct (undecided m (x, y))]; cbn [length]; lia.
Qed.
(*EX
(** Five data; three constraints. *)
Definition pa := str "a". Definition pb := str "b". Definition pc := str "c". Definition pd := str "d". Definition pe := str "e".
Definition all5 := [pa; pb; pc; pd; pe].
Definition said : mgr := run [CallAddConstraint pa pb MUST_LINK 1%Q; CallAddConstraint pd pc MUST_LINK 1%Q; CallAddConstraint pc pa CANNOT_LINK 1%Q] (init all5).
Example C147_at_least_ex : reachable said /\ ask get_list_of_managed_data_IDs said = Ok all5 /\ effort said MUST_LINK = 2 /\ effort said CANNOT_LINK = 1 /\ nb_undecided said all5 = 4.
Proof. split; [apply run_reachable|]. vm_compute. repeat split. Qed.
EX*)

(*PROP and at most [k * (k + 1) / 2]. *)
Lemma C147_at_most_proof :
  forall m l, reachable m -> ask get_list_of_managed_data_IDs m = Ok l ->
  let k := effort m MUST_LINK + effort m CANNOT_LINK in
  length l * (length l - 1) <= 2 * nb_undecided m l + k * (k + 1).
Proof.
  intros m l R E k. assert (I := reachable_inv _ R). assert (El : l = ids m) by (unfold ask in E; rewrite run_managed in E; cbn in E; congruence).
  assert (N : NoDup l) by (rewrite El; apply inv_nodup; auto).
  set (Ed := filter (is_added m MUST_LINK) (pairs l) ++ filter (is_added m CANNOT_LINK) (pairs l)).
  assert (Lk : length Ed = k) by (unfold Ed, k, effort; rewrite E, app_length; auto).
  assert (HE : forall t a b, allowed t -> added m t a b -> a = b \/ In (a, b) Ed \/ In (b, a) Ed).
  { intros t a b T A. destruct (str_dec a b) as [->|Nab]; auto. right. assert (A' := A). apply addf_added in A' as (Ia & Ib & _); auto. rewrite <- El in Ia, Ib.
    assert (A2 : added m t b a) by (apply added_sym; auto).
    destruct (pairs_total l a b Ia Ib Nab) as [P|P]; [left|right]; unfold Ed; apply in_app_iff; destruct T as [-> | ->]; [left|right|left|right]; apply filter_In; (split; [auto|]); apply is_added_spec; auto. }
  rewrite <- position_pairs_length.
  assert (S : length (position_pairs l) = nb_undecided m l + length (filter (fun p => negb (undecided m p)) (position_pairs l))).
  { unfold nb_undecided. fold (undecided m). generalize (position_pairs l). intro P. induction P as [|p P IH]; auto. cbn [filter length]. destruct (undecided m p); cbn [negb length]; lia. }
  set (f := fun p => negb (undecided m p) && mem (fst p) l && mem (snd p) l).
  assert (F : filter (fun p => negb (undecided m p)) (position_pairs l) = filter f (position_pairs l)).
  { apply filter_ext_in. intros [x y] J. apply position_pairs_In in J as [Jx Jy]. unfold f. cbn [fst snd]. apply mem_In in Jx, Jy. rewrite Jx, Jy, !andb_true_r. auto. }
  rewrite F in S.
  assert (C := same_label_count (label Ed) l f). assert (H : forall x y, f (x, y) = true -> label Ed x = label Ed y).
  { intros x y G. unfold f in G. cbn [fst snd] in G. rewrite !andb_true_iff, !mem_In in G. destruct G as [[G Jx] Jy]. apply (list_of_ids m l _ E) in Jx, Jy.
    assert (ML : forall p q, linked (added_must m) p q -> label Ed p = label Ed q) by (intros p q; apply linked_label; intros a b; apply HE; left; auto).
    destruct (known_cases m x y R Jx Jy) as [Q|[Q|Q]].
    - apply inf_must in Q; auto.
    - apply inf_cannot in Q as (p & q & Lp & Lq & S'); auto. rewrite (ML _ _ Lp), (ML _ _ Lq). destruct S' as [S'|S']; apply (HE CANNOT_LINK) in S'; try (right; reflexivity);
        destruct S' as [->|[S'|S']]; auto; apply label_edge in S'; auto.
    - apply undecided_spec in Q. rewrite Q in G. discriminate. }
  specialize (C H). cbv zeta in C. assert (D := distinct_label Ed l N). rewrite Lk in D. set (r := length l - _) in *. assert (r <= k) by (unfold r; lia). nia.
Qed.
(*EX
(** Here 3 constraints decide 6 of the 10 pairs, which is the most 3 constraints can. *)
Example C147_at_most_ex : length all5 * (length all5 - 1) = 2 * nb_undecided said all5 + 3 * (3 + 1).
Proof. vm_compute. reflexivity. Qed.
EX*)

(*PROP So fewer than [n - 1] constraints never decide everything, *)
Lemma C147_complete_proof :
  forall m l, reachable m -> ask get_list_of_managed_data_IDs m = Ok l -> nb_undecided m l = 0 -> length l - 1 <= effort m MUST_LINK + effort m CANNOT_LINK.
Proof. intros m l R E U. assert (C := C147_at_most_proof m l R E). cbv zeta in C. rewrite U in C. set (k := _ + _) in *. set (n := length l) in *. nia. Qed.
(*EX
Example C147_complete_ex : let m := run [CallAddConstraint pe pd CANNOT_LINK 1%Q] said in nb_undecided m all5 = 2 /\
  nb_undecided (run [CallAddConstraint pe pd MUST_LINK 1%Q] said) all5 = 0 /\ length all5 - 1 = 4.
Proof. vm_compute. repeat split. Qed.
EX*)

(*PROP and if the constraints are right, clusters that respect [k] of them are wrong about at most [n * (n - 1) / 2 - k] pairs. *)
Lemma C147_wrong_proof :
  forall m l d e, reachable m -> ask get_list_of_managed_data_IDs m = Ok l -> respects m d -> respects m e ->
  2 * nb_wrong l d e + 2 * (effort m MUST_LINK + effort m CANNOT_LINK) <= length l * (length l - 1).
Proof.
  intros m l d e R E D T. assert (B := C144_bound_proof m d e l R D T E). assert (A := C147_at_least_proof m l R E). lia.
Qed.
(*EX
Definition found : dict pystr Z := [(pa, 0); (pb, 0); (pc, 1); (pd, 1); (pe, 1)]%Z.
Definition truth : dict pystr Z := [(pa, 7); (pb, 7); (pc, 4); (pd, 4); (pe, 7)]%Z.
Example C147_wrong_ex : reachable said /\ respects said found /\ respects said truth /\ nb_wrong all5 found truth = 4.
Proof.
  assert (In5 : forall x, managed said x <-> In x all5) by (intro x; rewrite managed_ids; reflexivity).
  split; [apply run_reachable|]. split; [|split]; [| |vm_compute; reflexivity];
  (split; intros a b Ma Mb Q; apply In5 in Ma, Mb; simpl in Ma, Mb; repeat destruct Ma as [<-|Ma]; try tauto; repeat destruct Mb as [<-|Mb]; try tauto;
    vm_compute in Q; try discriminate; vm_compute; congruence).
Qed.
EX*)

(** ** Both bounds are reached *)
Lemma count_members (f : pystr -> bool) (l s : list pystr) : NoDup l -> NoDup s -> incl s l -> (forall x, In x l -> f x = true <-> In x s) -> length (filter f l) = length s.
Proof.
  intros Nl Ns I H. apply Nat.le_antisymm; apply NoDup_incl_length; auto using NoDup_filter.
  - intros x J. apply filter_In in J as [J F]. apply H; auto.
  - intros x J. apply filter_In. split; [auto|]. apply H; auto.
Qed.
Lemma count_none {T} (f : T -> bool) l : (forall x, In x l -> f x = false) -> length (filter f l) = 0.
Proof. induction l as [|x l IH]; intro H; auto. cbn. rewrite (H x) by (left; auto). apply IH. intros; apply H; right; auto. Qed.

Lemma star_run a : forall todo seen m l, reachable m -> ask get_list_of_managed_data_IDs m = Ok l -> NoDup l -> NoDup (a :: seen ++ todo) -> incl (a :: seen ++ todo) l ->
  (forall x y, In x l -> In y l -> linked (added_must m) x y <-> x = y \/ (In x (a :: seen) /\ In y (a :: seen))) -> (forall x y, ~ added_cannot m x y) ->
  let cs := map (fun x => (a, x, MUST_LINK)) todo in let k := length todo in
  frugal cs m /\ 2 * nb_undecided m l = 2 * nb_undecided (run (annotations cs) m) l + (k * (k + 1) + 2 * (k * length seen)).
Proof.
  induction todo as [|b todo IH]; intros seen m l R E Nl Nd In HL HC; cbv zeta.
  { cbn. split; auto; lia. }
  cbn [map frugal annotations run fold_left fst snd length].
  assert (Ja : List.In a l) by (apply In; left; auto). assert (Jb : List.In b l) by (apply In; right; apply in_or_app; right; left; auto).
  assert (Ma := list_of_ids m l _ E Ja). assert (Mb := list_of_ids m l _ E Jb).
  assert (Nb : ~ List.In b (a :: seen)). { change (a :: seen ++ b :: todo) with ((a :: seen) ++ b :: todo) in Nd. apply NoDup_remove_2 in Nd. intro J. apply Nd. apply in_or_app. auto. }
  assert (NX : forall x y, ~ separated (added_must m) (added_cannot m) x y) by (intros x y (p & q & _ & _ & [K|K]); eapply HC; eauto).
  assert (U : inferred m a b None).
  { apply inf_none; auto. split; [|apply NX]. rewrite HL by auto. intros [->|[_ K]]; [apply Nb; left; auto|auto]. }
  set (m' := fst (exec (CallAddConstraint a b MUST_LINK 1%Q) m)).
  assert (R' : reachable m') by (apply reach_call; auto).
  assert (E' : ask get_list_of_managed_data_IDs m' = Ok l).
  { assert (K := after_ids m a b MUST_LINK 1%Q R Ma Mb U (or_introl eq_refl)). unfold ask in E |- *. rewrite run_managed in E |- *. cbn in E |- *. fold (ids m'). fold (ids m) in E. unfold m'. unfold after in K. rewrite K. exact E. }
  assert (HL' : forall x y, List.In x l -> List.In y l -> linked (added_must m') x y <-> x = y \/ (List.In x (a :: seen ++ [b]) /\ List.In y (a :: seen ++ [b]))).
  { intros x y Jx Jy. unfold m'. fold (after m a b MUST_LINK 1%Q). rewrite must_linked by auto. unfold joined. rewrite !HL by auto.
    change (a :: seen ++ [b]) with ((a :: seen) ++ [b]). rewrite !in_app_iff. assert (List.In a (a :: seen)) by (left; auto).
    assert (forall z, List.In z [b] <-> z = b) as -> by (intro; cbn; intuition). assert (forall z, List.In z [b] <-> z = b) as -> by (intro; cbn; intuition). 
    assert (x = a -> List.In x (a :: seen)) by (intros ->; auto). assert (y = a -> List.In y (a :: seen)) by (intros ->; auto). intuition congruence. }
  assert (HC' : forall x y, ~ added_cannot m' x y).
  { intros x y K. unfold added_cannot, m' in K. fold (after m a b MUST_LINK 1%Q) in K. apply (adds m a b MUST_LINK 1%Q R Ma Mb U (or_introl eq_refl)) in K as [K|[K _]]; [eapply HC; eauto|discriminate]. }
  assert (Q : seen ++ b :: todo = (seen ++ [b]) ++ todo) by (rewrite <- app_assoc; auto). rewrite Q in Nd, In.
  destruct (IH (seen ++ [b]) m' l R' E' Nl Nd In HL' HC') as [F C]. split; [split; [exact U|split; [left; auto|exact F]]|].
  assert (D := C146_must_proof m a b 1%Q l R E Ja Jb U). fold m' in D.
  assert (Wa : nb_with m l a = S (length seen)).
  { unfold nb_with. change (S (length seen)) with (length (a :: seen)). apply count_members; auto.
    - rewrite <- app_assoc in Nd. change (a :: seen ++ [b] ++ todo) with ((a :: seen) ++ [b] ++ todo) in Nd. clear - Nd. induction (a :: seen) as [|x s IHs]; [constructor|]. cbn in Nd. inversion Nd; subst.
      constructor; [intro J; apply H1; apply in_or_app; auto|auto].
    - intros x J. apply In. destruct J as [->|J]; [left; auto|right; apply in_or_app; left; apply in_or_app; auto].
    - intros x J. rewrite known_as_spec, inf_must, HL by eauto using list_of_ids. split; [intros [->|[K _]]; auto; left; auto|intro K; right; split; auto; left; auto]. }
  assert (Wb : nb_with m l b = 1).
  { unfold nb_with. change 1 with (length [b]). apply count_members; auto.
    - constructor; [intros []|constructor].
    - intros x [<-|[]]. auto.
    - intros x J. rewrite known_as_spec, inf_must, HL by eauto using list_of_ids. cbn [List.In]. split; [intros [->|[_ K]]; [auto|destruct (Nb K)]|intros [->|[]]; auto]. }
  assert (O : forall p q, nb_only_against m l p q = 0 \/ ~ managed m p).
  { intros p q. destruct (in_dec str_dec p l) as [Jp|Jp].
    - left. apply count_none. intros x J. apply andb_false_iff. left. apply not_true_is_false. rewrite known_as_spec, inf_cannot by eauto using list_of_ids. apply NX.
    - right. intros (l' & E2 & J). congruence. }
  destruct (O b a) as [O1|O1]; [|tauto]. destruct (O a b) as [O2|O2]; [|tauto]. rewrite Wa, Wb, O1, O2 in D.
  cbv zeta in C. unfold annotations in C. rewrite app_length in C. cbn [length] in C. fold (run (map (fun c => CallAddConstraint (fst (fst c)) (snd (fst c)) (snd c) 1%Q) (map (fun x => (a, x, MUST_LINK)) todo)) m').
  set (u' := nb_undecided (run _ m') l) in *. lia.
Qed.

Lemma apart_run l : NoDup l -> forall todo m, reachable m -> ask get_list_of_managed_data_IDs m = Ok l -> NoDup todo -> incl todo (position_pairs l) ->
  (forall x y, linked (added_must m) x y <-> x = y) -> (forall x y, In (x, y) todo -> ~ separated (added_must m) (added_cannot m) x y) ->
  let cs := map (fun p => (fst p, snd p, CANNOT_LINK)) todo in
  frugal cs m /\ nb_undecided m l = nb_undecided (run (annotations cs) m) l + length todo.
Proof.
  intros Nl. induction todo as [|[a b] todo IH]; intros m R E Nd In HL HC; cbv zeta.
  { cbn. split; auto. }
  cbn [map frugal annotations run fold_left fst snd length].
  assert (Jab : List.In (a, b) (position_pairs l)) by (apply In; left; auto). assert (J := position_pairs_In _ _ _ Jab). destruct J as [Ja Jb].
  assert (Ma := list_of_ids m l _ E Ja). assert (Mb := list_of_ids m l _ E Jb). assert (Pab := Jab). rewrite <- pairs_same in Pab.
  assert (Nab : a <> b) by (eapply pairs_neq; eauto).
  assert (U : inferred m a b None) by (apply inf_none; auto; split; [rewrite HL; auto|apply HC; left; auto]).
  set (m' := fst (exec (CallAddConstraint a b CANNOT_LINK 1%Q) m)).
  assert (R' : reachable m') by (apply reach_call; auto). assert (T : CANNOT_LINK = MUST_LINK \/ CANNOT_LINK = CANNOT_LINK) by auto.
  assert (E' : ask get_list_of_managed_data_IDs m' = Ok l).
  { assert (K := after_ids m a b CANNOT_LINK 1%Q R Ma Mb U T). unfold ask in E |- *. rewrite run_managed in E |- *. cbn in E |- *. fold (ids m'). fold (ids m) in E. unfold m'. unfold after in K. rewrite K. exact E. }
  assert (HL' : forall x y, linked (added_must m') x y <-> x = y) by (intros x y; unfold m'; fold (after m a b CANNOT_LINK 1%Q); rewrite cannot_linked by auto; auto).
  inversion Nd as [|? ? Nx Nd']; subst.
  assert (HC' : forall x y, List.In (x, y) todo -> ~ separated (added_must m') (added_cannot m') x y).
  { intros x y J. unfold m'. fold (after m a b CANNOT_LINK 1%Q). rewrite cannot_separated, !HL by auto. intros [K|[[<- <-]|[<- <-]]].
    - eapply HC; [right; exact J|exact K].
    - auto.
    - eapply pairs_once; [exact Nl|exact Pab|]. rewrite pairs_same. apply In. right. auto. }
  destruct (IH m' R' E' Nd' (fun p J => In p (or_intror J)) HL' HC') as [F C]. split; [split; [exact U|split; [right; auto|exact F]]|].
  assert (D := C146_cannot_proof m a b 1%Q l R E Ja Jb U). fold m' in D.
  assert (W : forall x, List.In x l -> nb_with m l x = 1).
  { intros x Jx. unfold nb_with. change 1 with (length [x]). apply count_members; auto.
    - constructor; [intros []|constructor].
    - intros y [<-|[]]. auto.
    - intros y J. rewrite known_as_spec, inf_must, HL by eauto using list_of_ids. cbn. intuition. }
  rewrite (W a Ja), (W b Jb) in D. unfold annotations in C. fold (run (map (fun c => CallAddConstraint (fst (fst c)) (snd (fst c)) (snd c) 1%Q) (map (fun p => (fst p, snd p, CANNOT_LINK)) todo)) m').
  set (u' := nb_undecided (run _ m') l) in *. lia.
Qed.

Lemma init_list l : NoDup l -> ask get_list_of_managed_data_IDs (init l) = Ok l.
Proof. intro N. unfold ask. rewrite run_managed, init_ids, dedup_id; auto. Qed.
Lemma init_linked l x y : linked (added_must (init l)) x y <-> x = y.
Proof.
  split; [|intros ->; apply linked_refl]. intro K. induction K as [|x y z _ IH S]; auto. destruct S as [S|S]; apply init_added in S; intuition congruence.
Qed.
Lemma init_cannot l x y : ~ added_cannot (init l) x y.
Proof. intro K. apply init_added in K as (_ & _ & K). discriminate. Qed.

Lemma init_undecided l : NoDup l -> nb_undecided (init l) l = length (position_pairs l).
Proof.
  intro N. unfold nb_undecided. fold (undecided (init l)). rewrite filter_true; auto.
  intros [x y] J. apply undecided_spec. assert (J' := J). apply position_pairs_In in J' as [Jx Jy]. apply inf_none; eauto using list_of_ids, init_list, reach_init. split.
  - rewrite init_linked. rewrite <- pairs_same in J. eapply pairs_neq; eauto.
  - intros (p & q & _ & _ & [K|K]); eapply init_cannot; eauto.
Qed.
Lemma NoDup_prefix {A} (s t : list A) : NoDup (s ++ t) -> NoDup s.
Proof. induction s as [|x s IH]; cbn; intro N; [constructor|]. inversion N as [|? ? Nx N']; subst. constructor; [intro J; apply Nx; apply in_or_app; auto|auto]. Qed.

(*PROP Both bounds are reached, for each number of constraints that can be: [k] constraints, each added when nothing was known about its data, that decide only [k] pairs, *)
Lemma C147_least_proof :
  forall l k, NoDup l -> 2 * k <= length l * (length l - 1) -> exists cs, length cs = k /\ frugal cs (init l) /\
  let m := run (annotations cs) (init l) in effort m MUST_LINK + effort m CANNOT_LINK = k /\ 2 * nb_undecided m l + 2 * k = length l * (length l - 1).
Proof.
  intros l k N Hk. rewrite <- position_pairs_length in Hk |- *. set (todo := firstn k (position_pairs l)). assert (Lt : length todo = k) by (unfold todo; rewrite firstn_length; lia).
  assert (ND : NoDup (firstn k (position_pairs l) ++ skipn k (position_pairs l))) by (rewrite firstn_skipn, <- pairs_same; apply pairs_NoDup; auto).
  assert (Nt : NoDup todo) by (apply NoDup_prefix in ND; auto).
  assert (It : incl todo (position_pairs l)) by (intros p J; unfold todo in J; rewrite <- (firstn_skipn k (position_pairs l)); apply in_or_app; auto).
  destruct (apart_run l N todo (init l) (reach_init l) (init_list l N) Nt It (init_linked l)) as [F C].
  { intros x y _ (p & q & _ & _ & [K|K]); eapply init_cannot; eauto. }
  set (cs := map (fun p => (fst p, snd p, CANNOT_LINK)) todo) in *. assert (Lc : length cs = k) by (unfold cs; rewrite map_length; auto).
  exists cs. split; [auto|]. split; [auto|]. destruct (frugal_run cs (init l) (init_inv l) F) as (_ & _ & _ & B). rewrite !init_effort, Lc in B. split; [exact B|].
  assert (Z := init_undecided l N).
  lia.
Qed.
(*EX
Example C147_least_ex : let m := run [CallAddConstraint pa pb CANNOT_LINK 1%Q; CallAddConstraint pa pc CANNOT_LINK 1%Q; CallAddConstraint pa pd CANNOT_LINK 1%Q] (init all5) in
  NoDup all5 /\ 2 * 3 <= length all5 * (length all5 - 1) /\ effort m CANNOT_LINK = 3 /\ nb_undecided m all5 = 7.
Proof. split; [repeat (constructor; [cbn; intuition discriminate|]); constructor|]. vm_compute. repeat split. lia. Qed.
EX*)

(*PROP and [k] constraints that decide [k * (k + 1) / 2] pairs. *)
Lemma C147_most_proof :
  forall l k, NoDup l -> k < length l -> exists cs, length cs = k /\ frugal cs (init l) /\
  let m := run (annotations cs) (init l) in effort m MUST_LINK + effort m CANNOT_LINK = k /\ 2 * nb_undecided m l + k * (k + 1) = length l * (length l - 1).
Proof.
  intros [|a r] k N Hk; [cbn in Hk; lia|]. set (l := a :: r) in *. set (todo := firstn k r). cbn in Hk. assert (Lt : length todo = k) by (unfold todo; rewrite firstn_length; lia).
  assert (ND : NoDup (a :: firstn k r ++ skipn k r)) by (rewrite firstn_skipn; auto). change (a :: firstn k r ++ skipn k r) with ((a :: [] ++ todo) ++ skipn k r) in ND. apply NoDup_prefix in ND.
  assert (It : incl (a :: [] ++ todo) l).
  { intros x [<-|J]; [left; auto|]. right. cbn in J. unfold todo in J. rewrite <- (firstn_skipn k r). apply in_or_app. auto. }
  destruct (star_run a todo [] (init l) l (reach_init l) (init_list l N) N ND It) as [F C].
  { intros x y _ _. rewrite init_linked. cbn. intuition congruence. }
  { apply init_cannot. }
  set (cs := map (fun x => (a, x, MUST_LINK)) todo) in *. assert (Lc : length cs = k) by (unfold cs; rewrite map_length; auto).
  exists cs. split; [auto|]. split; [auto|]. destruct (frugal_run cs (init l) (init_inv l) F) as (_ & _ & _ & B). rewrite !init_effort, Lc in B. split; [exact B|].
  assert (Z := init_undecided l N). rewrite Lt in C. cbn [length Nat.mul] in C. rewrite <- position_pairs_length. lia.
Qed.
(*EX
Example C147_most_ex : let m := run [CallAddConstraint pa pb MUST_LINK 1%Q; CallAddConstraint pa pc MUST_LINK 1%Q; CallAddConstraint pa pd MUST_LINK 1%Q] (init all5) in
  3 < length all5 /\ effort m MUST_LINK = 3 /\ nb_undecided m all5 = 4.
Proof. vm_compute. repeat split. lia. Qed.
EX*)
