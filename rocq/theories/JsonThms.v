(** * Proofs of the serialization properties (C22-C26). *)

From Coq Require Import String List Bool Arith NArith QArith Lia.
From Verif Require Import Base Manager Spec Closure ManagerProofs ManagerInv ManagerQueries ManagerSem ManagerThms
  Json JsonSpec JsonProofs.
Import ListNotations.
Open Scope nat_scope.
Open Scope py_scope.

(*HEADER
From Coq Require Import String List Bool NArith QArith.
From Verif Require Import Base Manager Spec Json JsonSpec ManagerThms JsonProofs JsonThms.
Import ListNotations.
Open Scope nat_scope.

Definition a : pystr := str "a".
Definition b : pystr := str "b".
(** c is an emoji, d contains a quote, a backslash and a newline. *)
Definition c : pystr := [128512%N].
Definition d : pystr := [34; 92; 10; 233]%N.
Definition ex : mgr :=
  run [CallAddConstraint a b MUST_LINK 1%Q; CallAddConstraint c b CANNOT_LINK 1%Q; CallAddConstraint d c MUST_LINK 1%Q]
      (init [d; a; b; c]).
Lemma ex_reachable : reachable ex.
Proof. apply run_reachable. Qed.

HEADER*)

Local Arguments N.eqb : simpl never.
Local Arguments N.leb : simpl never.
Local Arguments N.ltb : simpl never.
Local Arguments N.add : simpl never.
Local Arguments N.sub : simpl never.
Local Arguments N.mul : simpl never.
Local Arguments is_high : simpl never.
Local Arguments is_low : simpl never.

(** ** Strings *)
Lemma text_ok_spec s : text_ok s <-> python_string s /\ ~ splits_a_character s.
Proof.
  induction s as [|c s IH]; simpl.
  - split; auto. intros _. split; [intros ? []|]. intros (p & h & l & q & E & _). destruct p; discriminate.
  - rewrite IH. split.
    + intros (C & H & P & S). split; [intros x [<-|Hx]; auto|]. intros (p & h & l & q & E & Hh & Hl).
      destruct p as [|c' p]; simpl in E; inversion E; subst.
      * assert (X : is_high h = true) by (unfold is_high; apply andb_true_iff; rewrite !N.leb_le; lia).
        specialize (H X). unfold is_low in H. apply andb_false_iff in H. rewrite !N.leb_gt in H. lia.
      * apply S. exists p, h, l, q. auto.
    + intros (P & S). split; [apply P; left; auto|]. split.
      * intro H. destruct s as [|l q]; auto. destruct (is_low l) eqn:L; auto. exfalso. apply S.
        exists [], c, l, q. split; auto. unfold is_high in H. unfold is_low in L.
        apply andb_true_iff in H. apply andb_true_iff in L. rewrite !N.leb_le in H, L. lia.
      * split; [intros x Hx; apply P; right; auto|]. intros (p & h & l & q & E & Hh & Hl). apply S.
        exists (c :: p), h, l, q. subst. auto.
Qed.

(** Adjacent surrogates read as one character. *)
Fixpoint norm (s : pystr) : pystr :=
  match s with
  | [] => []
  | h :: s1 =>
      match s1 with
      | l :: s2 => if is_high h && is_low l
                   then (65536 + (h - 55296) * 1024 + (l - 56320))%N :: norm s2
                   else h :: norm s1
      | [] => [h]
      end
  end.

Lemma pair_ind (P : pystr -> Prop) : P [] -> (forall c, P [c]) ->
  (forall c d s, P s -> P (d :: s) -> P (c :: d :: s)) -> forall s, P s.
Proof.
  intros H0 H1 H2 s. assert (A : P s /\ forall c, P (c :: s)); [|tauto].
  induction s as [|c s [IH1 IH2]]; split; auto.
Qed.

Lemma is_high_spec c : is_high c = true <-> (55296 <= c <= 56319)%N.
Proof. unfold is_high. rewrite andb_true_iff, !N.leb_le. tauto. Qed.
Lemma is_low_spec c : is_low c = true <-> (56320 <= c <= 57343)%N.
Proof. unfold is_low. rewrite andb_true_iff, !N.leb_le. tauto. Qed.

Lemma norm_head s : match norm s, s with
                    | x :: _, c :: _ => x = c \/ (65536 <= x)%N
                    | [], [] => True
                    | _, _ => False
                    end.
Proof.
  destruct s as [|h [|l s]]; simpl; auto. destruct (is_high h && is_low l); auto. right. lia.
Qed.

Lemma norm_eq c d s : norm (c :: d :: s) =
  if is_high c && is_low d then (65536 + (c - 55296) * 1024 + (d - 56320))%N :: norm s else c :: norm (d :: s).
Proof. reflexivity. Qed.

Lemma norm_ok s : python_string s -> text_ok (norm s).
Proof.
  induction s as [|c|c d s IH1 IH2] using pair_ind; intro P; [exact I| |].
  - split; [apply P; left; auto|simpl; auto].
  - rewrite norm_eq.
    assert (P1 : python_string s) by (intros x Hx; apply P; simpl; auto).
    assert (P2 : python_string (d :: s)) by (intros x Hx; apply P; simpl; simpl in Hx; tauto).
    destruct (is_high c && is_low d) eqn:B.
    + apply andb_true_iff in B. rewrite is_high_spec, is_low_spec in B. split; [lia|]. split; auto.
      intro H. apply is_high_spec in H. lia.
    + assert (H := norm_head (d :: s)). specialize (IH2 P2). destruct (norm (d :: s)) as [|x n'] eqn:En; [destruct H|].
      split; [apply P; left; auto|]. split; [|exact IH2].
      intro Hc. rewrite Hc in B. simpl in B. destruct H as [->|H]; auto.
      destruct (is_low x) eqn:L; auto. apply is_low_spec in L. lia.
Qed.

Lemma norm_enc s : python_string s -> flat_map enc_char (norm s) = flat_map enc_char s.
Proof.
  induction s as [|c|c d s IH1 IH2] using pair_ind; intro P; auto.
  assert (P1 : python_string s) by (intros x Hx; apply P; simpl; auto).
  assert (P2 : python_string (d :: s)) by (intros x Hx; apply P; simpl; simpl in Hx; tauto).
  specialize (IH1 P1). specialize (IH2 P2).
  change (norm (c :: d :: s)) with
    (if is_high c && is_low d then (65536 + (c - 55296) * 1024 + (d - 56320))%N :: norm s else c :: norm (d :: s)).
  destruct (is_high c && is_low d) eqn:B.
  - apply andb_true_iff in B. rewrite is_high_spec, is_low_spec in B. destruct B as [B1 B2].
    cbn [flat_map]. rewrite IH1, app_assoc. f_equal.
    assert (Big : forall x, (55296 <= x <= 57343)%N -> enc_char x = 92%N :: 117%N :: hex4 x).
    { intros x Hx. unfold enc_char.
      destruct (N.eqb_spec x 34); [lia|]. destruct (N.eqb_spec x 92); [lia|]. destruct (N.eqb_spec x 10); [lia|].
      destruct (N.eqb_spec x 13); [lia|]. destruct (N.eqb_spec x 9); [lia|]. destruct (N.eqb_spec x 12); [lia|].
      destruct (N.eqb_spec x 8); [lia|].
      destruct (N.leb_spec x 126); [lia|]. rewrite andb_false_r. destruct (N.ltb_spec x 65536); [auto|lia]. }
    rewrite (Big c), (Big d) by lia.
    set (u := (c - 55296)%N). set (v := (d - 56320)%N). assert (Hu : (u < 1024)%N) by (unfold u; lia).
    assert (Hv : (v < 1024)%N) by (unfold v; lia).
    assert (Ec : c = (55296 + u)%N) by (unfold u; lia). assert (Ed : d = (56320 + v)%N) by (unfold v; lia).
    clearbody u v. subst c d. clear -Hu Hv.
    unfold enc_char. set (x := (65536 + u * 1024 + v)%N).
    assert (Hx : (65536 <= x)%N) by (unfold x; lia).
    assert (Q : ((x - 65536) / 1024 = u)%N).
    { symmetry. apply (N.div_unique _ 1024 u v); unfold x; lia. }
    assert (R : ((x - 65536) mod 1024 = v)%N).
    { symmetry. apply (N.mod_unique _ 1024 u v); unfold x; lia. }
    destruct (N.eqb_spec x 34); [lia|]. destruct (N.eqb_spec x 92); [lia|]. destruct (N.eqb_spec x 10); [lia|].
    destruct (N.eqb_spec x 13); [lia|]. destruct (N.eqb_spec x 9); [lia|]. destruct (N.eqb_spec x 12); [lia|].
    destruct (N.eqb_spec x 8); [lia|].
    destruct (N.leb_spec x 126); [lia|]. rewrite andb_false_r. destruct (N.ltb_spec x 65536); [lia|].
    cbv zeta. rewrite Q, R. reflexivity.
  - change (flat_map enc_char (c :: norm (d :: s))) with (enc_char c ++ flat_map enc_char (norm (d :: s))).
    rewrite IH2. reflexivity.
Qed.

Lemma norm_id s : text_ok s -> norm s = s.
Proof.
  induction s as [|c|c d s IH1 IH2] using pair_ind; intro T; auto.
  change (norm (c :: d :: s)) with
    (if is_high c && is_low d then (65536 + (c - 55296) * 1024 + (d - 56320))%N :: norm s else c :: norm (d :: s)).
  destruct T as (T1 & T2 & T3). specialize (IH2 T3). rewrite IH2. destruct (is_high c) eqn:H; auto.
  rewrite T2 by auto. reflexivity.
Qed.

Lemma norm_enc_string s : python_string s -> enc_string (norm s) = enc_string s.
Proof. intro P. unfold enc_string. rewrite norm_enc; auto. Qed.

(** ** Documents *)
Definition norm3 (c : pystr * pystr * pystr) := (norm (fst (fst c)), norm (snd (fst c)), norm (snd c)).

Lemma dump_strs n l : (forall s, In s l -> python_string s) ->
  map (dump n) (map JStr (map norm l)) = map (dump n) (map JStr l).
Proof.
  intro H. rewrite !map_map. apply map_ext_in. intros s Hs. simpl. apply norm_enc_string; auto.
Qed.

Lemma dump_rec n c : python_string (fst (fst c)) -> python_string (snd (fst c)) -> python_string (snd c) ->
  dump n (record_of (fst (fst (norm3 c))) (snd (fst (norm3 c))) (snd (norm3 c))) =
  dump n (record_of (fst (fst c)) (snd (fst c)) (snd c)).
Proof.
  intros H1 H2 H3. unfold norm3, record_of. cbn [fst snd dump map]. rewrite !norm_enc_string by auto. reflexivity.
Qed.

Lemma dump_arr_ext n l1 l2 : map (dump (S n)) l1 = map (dump (S n)) l2 -> dump n (JArr l1) = dump n (JArr l2).
Proof.
  intro E. destruct l1 as [|x l1], l2 as [|y l2]; auto; try discriminate.
  cbn [dump]. rewrite E. reflexivity.
Qed.

Lemma dump_obj2_ext n k1 k2 v1 v2 w1 w2 : dump (S n) v1 = dump (S n) w1 -> dump (S n) v2 = dump (S n) w2 ->
  dump n (JObj [(k1, v1); (k2, v2)]) = dump n (JObj [(k1, w1); (k2, w2)]).
Proof. intros E1 E2. cbn [dump map fst snd]. rewrite E1, E2. reflexivity. Qed.

Lemma norm_document ids l : (forall s, doc_strings ids l s -> python_string s) ->
  dump 0 (document (map norm ids) (map norm3 l)) = dump 0 (document ids l).
Proof.
  intro H. unfold document. apply dump_obj2_ext; apply dump_arr_ext.
  - apply dump_strs. intros s Hs. apply H. left; auto.
  - rewrite !map_map. apply map_ext_in. intros [[x y] t] Hx. apply dump_rec; simpl; apply H; right; exists x, y, t; auto.
Qed.

Lemma text_ok_ascii s : forallb (fun c => (c <? 55296)%N) s = true -> text_ok s.
Proof.
  induction s as [|c s IH]; simpl; auto. rewrite andb_true_iff, N.ltb_lt. intros [H1 H2].
  split; [lia|]. split; auto. intro H. apply is_high_spec in H. lia.
Qed.

Lemma document_wf ids l : (forall s, doc_strings ids l s -> text_ok s) -> wf_json (document ids l).
Proof.
  intro H. unfold document. apply wf_obj. constructor; [|constructor; [|constructor]]; cbn [fst snd].
  - split; [apply text_ok_ascii; reflexivity|]. apply wf_arr. apply Forall_forall. intros v Hv.
    apply in_map_iff in Hv. destruct Hv as (s & <- & Hs). apply H. left; auto.
  - split; [apply text_ok_ascii; reflexivity|]. apply wf_arr. apply Forall_forall. intros v Hv.
    apply in_map_iff in Hv. destruct Hv as ([[x y] t] & <- & Hs). cbn [fst snd]. unfold record_of. apply wf_obj.
    assert (forall s, s = x \/ s = y \/ s = t -> text_ok s) by (intros s Hs'; apply H; right; exists x, y, t; auto).
    repeat constructor; cbn [fst snd wf_json]; auto; apply text_ok_ascii; reflexivity.
Qed.

Lemma loads_document ids l : (forall s, doc_strings ids l s -> python_string s) ->
  loads (dump 0 (document ids l)) = Ok (document (map norm ids) (map norm3 l)).
Proof.
  intro H. rewrite <- norm_document by auto. apply loads_dump. apply document_wf.
  intros s [Hs|(x & y & t & Hl & Hs)].
  - apply in_map_iff in Hs. destruct Hs as (s' & <- & Hs'). apply norm_ok. apply H. left; auto.
  - apply in_map_iff in Hl. destruct Hl as ([[x' y'] t'] & E & Hl). inversion E; subst.
    destruct Hs as [->|[->| ->]]; apply norm_ok; apply H; right; exists x', y', t'; auto.
Qed.

Lemma map_id_in {A} (f : A -> A) l : (forall x, In x l -> f x = x) -> map f l = l.
Proof. intro H. induction l as [|x l IH]; simpl; auto. f_equal; [apply H; left; auto|apply IH; intros; apply H; right; auto]. Qed.

Lemma loads_document_ok ids l : (forall s, doc_strings ids l s -> python_string s /\ ~ splits_a_character s) ->
  loads (dump 0 (document ids l)) = Ok (document ids l).
Proof.
  intro H. rewrite loads_document by (intros s Hs; apply H; auto). f_equal. f_equal.
  - apply map_id_in. intros s Hs. apply norm_id, text_ok_spec, H. left; auto.
  - apply map_id_in. intros [[x y] t] Hl. unfold norm3. cbn [fst snd].
    assert (forall s, s = x \/ s = y \/ s = t -> norm s = s).
    { intros s Hs. apply norm_id, text_ok_spec, H. right. exists x, y, t. auto. }
    rewrite !H0; auto.
Qed.

(** ** C23 *)
(*PROP C23: reading the JSON text back gives exactly the IDs and records written, for IDs made of any Unicode characters. *)
Lemma C23_text_lossless_partial_proof :
  forall ids l, (forall s, doc_strings ids l s -> python_string s /\ ~ splits_a_character s) ->
    loads (dump 0 (document ids l)) = Ok (document ids l).
Proof. exact loads_document_ok. Qed.

(*PROP C23: Python strings may also hold the two halves of a character as separate code points; the text then reads back as another string.  Full statement (refuted): forall ids l, loads (dump 0 (document ids l)) = Ok (document ids l). *)
Lemma C23_text_lossless_refuted_proof :
  exists ids v, (forall s, In s ids -> python_string s) /\ NoDup ids /\
    loads (dump 0 (document ids [])) = Ok v /\ v <> document ids [] /\
    (exists i, load_value v = Ok i /\ ask get_list_of_managed_data_IDs i <> Ok ids).
Proof.
  exists [[55357; 56832]%N], (document [[128512%N]] []). split.
  { intros s [<-|[]] c [<-|[<-|[]]]; reflexivity. }
  split; [repeat constructor; simpl; auto|].
  split; [vm_compute; reflexivity|]. split; [discriminate|].
  eexists. split; [vm_compute; reflexivity|]. vm_compute. discriminate.
Qed.

(*EX
Example C23_ex : loads (dump 0 (document [c; d] [(c, d, MUST_LINK)])) = Ok (document [c; d] [(c, d, MUST_LINK)]).
Proof. vm_compute. reflexivity. Qed.
EX*)

(** ** Loading *)
Lemma load_record_record x y t m : load_record (record_of x y t) m =
  bind (add_constraint x y t 1%Q) (fun _ => ret tt) m.
Proof. reflexivity. Qed.

Lemma load_records l : forall m, for_ (map (fun c => record_of (fst (fst c)) (snd (fst c)) (snd c)) l) load_record m = add_all l m.
Proof.
  induction l as [|c l IH]; intro m; auto. cbn [map for_]. unfold add_all. cbn [for_].
  unfold bind at 1 2. rewrite load_record_record.
  destruct (bind (add_constraint (fst (fst c)) (snd (fst c)) (snd c) 1%Q) (fun _ => ret tt) m) as [m' [u|e]]; auto.
  apply IH.
Qed.

Lemma rmap_as_str l : rmap as_str (map JStr l) = Ok l.
Proof. induction l as [|x l IH]; simpl; auto. rewrite IH. auto. Qed.

Lemma load_document ids0 l : load_value (document ids0 l) =
  let (m, r) := add_all l (init ids0) in _ <-- r ;;; Ok m.
Proof.
  unfold load_value.
  change (getitem (str "list_of_managed_data_IDs") (document ids0 l)) with (Ok (JArr (map JStr ids0)) : res json).
  change (getitem (str "list_of_added_constraints") (document ids0 l)) with
    (Ok (JArr (map (fun c => record_of (fst (fst c)) (snd (fst c)) (snd c)) l)) : res json).
  cbn [rbind as_list]. rewrite rmap_as_str. cbn [rbind]. rewrite load_records. reflexivity.
Qed.

Lemma stored_list_spec m x y t : Inv m -> In (x, y, t) (stored_list m) <-> stored (cdict m) t x y.
Proof.
  intros (W & _ & _). unfold stored_list, stored, sget. rewrite in_flat_map. split.
  - intros ([x' row] & Hr & H). apply in_flat_map in H. destruct H as ([y' o] & He & H). simpl in H.
    destruct o as [[t' v]|]; [|destruct H]. destruct H as [H|[]]. simpl in H. inversion H; subst.
    assert (Er : dget x (cdict m) = Some row) by (apply In_dget; auto; apply (wf_nodup _ W)).
    rewrite Er. exists v. apply In_dget; auto. apply (wf_row_nodup _ W x row Er).
  - intros (v & E). destruct (dget x (cdict m)) as [row|] eqn:Er; [|discriminate].
    exists (x, row). split; [apply dget_In; auto|]. apply in_flat_map. exists (y, Some (t, v)).
    split; [apply dget_In; auto|]. left; auto.
Qed.

Lemma stored_batch m t x y : Inv m -> batch_added (stored_list m) t x y <-> added m t x y.
Proof.
  intro I. rewrite added_stored by auto. unfold batch_added, same_unordered. split.
  - intros (p & q & H & [[-> ->]|[-> ->]]); apply stored_list_spec in H; auto.
  - intros [H|H]; apply stored_list_spec in H; auto; do 2 eexists; (split; [exact H|auto]).
Qed.

Lemma init_added l t x y : added (init l) t x y <-> In x l /\ x = y /\ t = MUST_LINK.
Proof.
  destruct (a_init_shows l) as [S C]. rewrite (shows_added _ _ _ _ _ (init_inv l) S C). simpl.
  destruct (mem x l) eqn:M; simpl.
  - apply mem_In in M. destruct (eqb_spec x y); subst; split; intro H; try discriminate.
    + split; auto. split; auto. congruence.
    + destruct H as (_ & _ & ->). auto.
    + tauto.
  - split; [discriminate|]. intros [H _]. apply mem_In in H. congruence.
Qed.

Lemma self_linked (must1 must2 : pystr -> pystr -> Prop) : (forall x y : pystr, must1 x y -> must2 x y \/ x = y) ->
  forall x y, linked must1 x y -> linked must2 x y.
Proof.
  intros H x y L. induction L as [x|x y z L IH S]; [constructor|].
  destruct S as [S|S]; apply H in S; destruct S as [S| ->]; auto; eapply linked_step; eauto.
Qed.

Lemma stored_labels m : Inv m -> exists f, satisfies (added_must m) (added_cannot m) f.
Proof. intro I. destruct (inv_satisfiable m I) as (f & S). eauto. Qed.

(** The replay. *)
Lemma replay m : Inv m -> exists m', add_all (stored_list m) (init (ids m)) = (m', Ok tt) /\
  Inv m' /\ ids m' = ids m /\
  (forall t x y, added m' t x y <-> added m t x y \/ (In x (ids m) /\ x = y /\ t = MUST_LINK)).
Proof.
  intro I. assert (ND : NoDup (ids m)) by (destruct I as (W & _); apply (wf_nodup _ W)).
  assert (EI : ids (init (ids m)) = ids m) by (rewrite init_ids; apply dedup_id; auto).
  destruct (stored_labels m I) as (f & S1 & S2).
  destruct (add_all_succeeds (stored_list m) (init (ids m)) (init_inv _)) as (m' & E).
  - intros x y t H. apply stored_list_spec in H; auto. rewrite EI. destruct I as (W & _).
    assert (K := stored_keys _ _ _ _ W H). destruct H as (v & H). apply (wf_val _ W) in H. unfold allowed. tauto.
  - exists f. split; split; intros x y H.
    + apply init_added in H. destruct H as (_ & -> & _). auto.
    + apply init_added in H. destruct H as (_ & _ & H). discriminate.
    + apply S1. apply stored_batch; auto.
    + apply S2. apply stored_batch; auto.
  - exists m'. split; auto. destruct (add_all_ok _ _ _ (init_inv _) E) as (I' & K & A & _).
    split; auto. split; [congruence|]. intros t x y. rewrite A, init_added, stored_batch by auto. tauto.
Qed.

Lemma added_addf m m' x y : Inv m -> Inv m' -> ids m = ids m' ->
  (forall t, added m t x y <-> added m' t x y) ->
  ask (get_added_constraint x y) m = ask (get_added_constraint x y) m'.
Proof.
  intros I I' K H. unfold ask. rewrite !run_added by auto. simpl. unfold both. rewrite K.
  destruct (mem x (ids m') && mem y (ids m')) eqn:B; auto. f_equal. apply andb_true_iff in B. rewrite !mem_In in B.
  assert (V : forall m0, Inv m0 -> In x (ids m0) -> In y (ids m0) ->
    addf m0 x y = None \/ exists t, addf m0 x y = Some (t, 1%Q)).
  { intros m0 I0 _ _. destruct (addf m0 x y) as [[t v]|] eqn:E; auto. right. exists t.
    unfold addf in E. destruct I0 as (W & _).
    assert (Vq : forall p q, sget (cdict m0) p q = Some (Some (t, v)) -> v = 1%Q) by (intros p q Hq; apply (wf_val _ W) in Hq; tauto).
    destruct (str_leb x y).
    - destruct (sget (cdict m0) x y) as [o|] eqn:Es; [|discriminate]. subst o. rewrite (Vq _ _ Es). auto.
    - destruct (sget (cdict m0) y x) as [o|] eqn:Es; [|discriminate]. subst o. rewrite (Vq _ _ Es). auto. }
  assert (H' : forall t, addf m x y = Some (t, 1%Q) <-> addf m' x y = Some (t, 1%Q)).
  { intro t. specialize (H t). rewrite !addf_added in H by auto. rewrite K in H. tauto. }
  destruct (V m I) as [E|(t & E)]; rewrite ?K; try tauto.
  - destruct (V m' I') as [E'|(t & E')]; try tauto; [congruence|]. apply H' in E'. congruence.
  - rewrite E. symmetry. apply H'. auto.
Qed.

Lemma doc_strings_types m s : Inv m -> doc_strings (ids m) (stored_list m) s -> In s (ids m) \/ allowed s.
Proof.
  intros I [H|(x & y & t & H & E)]; auto. apply stored_list_spec in H; auto. destruct I as (W & _).
  assert (K := stored_keys _ _ _ _ W H). destruct H as (v & H). apply (wf_val _ W) in H.
  destruct E as [->|[->| ->]]; unfold allowed; tauto.
Qed.

Lemma text_of_type t : allowed t -> text_ok t.
Proof. intros [-> | ->]; apply text_ok_ascii; reflexivity. Qed.

Lemma manager_strings m : Inv m -> (forall x, managed m x -> python_string x /\ ~ splits_a_character x) ->
  forall s, doc_strings (ids m) (stored_list m) s -> python_string s /\ ~ splits_a_character s.
Proof.
  intros I H s D. apply doc_strings_types in D; auto. destruct D as [D|D].
  - apply H. apply managed_ids; auto.
  - apply text_ok_spec, text_of_type; auto.
Qed.

Lemma add_all_reachable l : forall m m', reachable m -> add_all l m = (m', Ok tt) -> reachable m'.
Proof.
  induction l as [|c l IH]; intros m m' R E; unfold add_all in E; cbn [for_] in E.
  - unfold ret in E. congruence.
  - unfold bind in E at 1. unfold bind in E at 1.
    assert (X := reach_call m (CallAddConstraint (fst (fst c)) (snd (fst c)) (snd c) 1%Q) R).
    cbn [exec] in X. unfold bind in X.
    destruct (add_constraint (fst (fst c)) (snd (fst c)) (snd c) 1%Q m) as [m1 [u|e]]; [|discriminate].
    cbn in X. apply (IH m1); auto.
Qed.

Lemma load_saved m : Inv m -> (forall x, managed m x -> python_string x /\ ~ splits_a_character x) ->
  exists m', load_text (to_json_text m) = Ok m' /\ reachable m' /\ Inv m' /\ ids m' = ids m /\
    (forall t x y, added m' t x y <-> added m t x y \/ (In x (ids m) /\ x = y /\ t = MUST_LINK)).
Proof.
  intros I H. destruct (replay m I) as (m' & E & I' & K & A). exists m'. split; [|split; auto].
  - unfold load_text, to_json_text. rewrite loads_document_ok by (apply manager_strings; auto).
    cbn [rbind]. rewrite load_document, E. reflexivity.
  - exact (add_all_reachable _ _ _ (reach_init _) E).
Qed.

(** ** C22 *)
(*PROP C22: loading the file written by to_json succeeds and gives the same managed IDs in the same order, the same answers to all queries about inferred constraints, components, completude and conflicts, the same added constraints between different IDs, and exactly the same added constraints if no trivial constraint of an ID with itself was deleted.  Missing (see C22_round_trip_refuted): a deleted constraint of an ID with itself comes back. *)
Lemma C22_round_trip_partial_proof :
  forall m, reachable m -> (forall x, managed m x -> python_string x /\ ~ splits_a_character x) ->
    exists m', load_text (to_json_text m) = Ok m' /\ reachable m' /\
      ask get_list_of_managed_data_IDs m' = ask get_list_of_managed_data_IDs m /\
      same_answers m' m /\
      (forall x y, x <> y -> ask (get_added_constraint x y) m' = ask (get_added_constraint x y) m) /\
      ((forall x, managed m x -> added m MUST_LINK x x) ->
       forall x y, ask (get_added_constraint x y) m' = ask (get_added_constraint x y) m).
Proof.
  intros m R H. apply reachable_inv in R. destruct (load_saved m R H) as (m' & E & RM & I' & K & A).
  exists m'. split; auto. split; auto. split. { unfold ask. rewrite !run_managed. simpl. congruence. }
  assert (EL : forall x y, linked (added_must m') x y <-> linked (added_must m) x y).
  { intros x y. split; apply self_linked; intros p q Hq; unfold added_must in *.
    - apply A in Hq. destruct Hq as [Hq|(_ & -> & _)]; auto.
    - left. apply A. auto. }
  split; [|split].
  - apply same_answers_from_relations; auto.
    + intro x. rewrite K. tauto.
    + intros x y. rewrite <- !added_linked by auto. apply EL.
    + intros x y. rewrite <- !added_separated by auto. unfold separated.
      split; intros (p & q & L1 & L2 & C); exists p, q.
      * split; [apply EL; auto|]. split; [apply EL; auto|]. unfold added_cannot in *. rewrite !A in C.
        destruct C as [[C|(_ & _ & C)]|[C|(_ & _ & C)]]; auto; discriminate.
      * split; [apply EL; auto|]. split; [apply EL; auto|]. unfold added_cannot in *. rewrite !A. tauto.
  - intros x y NE. apply added_addf; auto. intro t. rewrite A. tauto.
  - intros S x y. apply added_addf; auto. intro t. rewrite A. split; auto. intros [Ha|(Ix & <- & ->)]; auto.
    apply S. apply managed_ids; auto.
Qed.

(*PROP C22: after the constraint of an ID with itself is deleted, the reloaded manager has it again.  Full statement (refuted): the reloaded manager has the same added constraints. *)
Lemma C22_round_trip_refuted_proof :
  exists m m' x, reachable m /\ (forall y, managed m y -> python_string y /\ ~ splits_a_character y) /\
    load_text (to_json_text m) = Ok m' /\
    managed m x /\ ~ added m MUST_LINK x x /\ added m' MUST_LINK x x.
Proof.
  exists (run [CallDeleteConstraint (str "a") (str "a")] (init [str "a"])). eexists. exists (str "a").
  split; [apply run_reachable|].
  assert (Mg : forall y, managed (run [CallDeleteConstraint (str "a") (str "a")] (init [str "a"])) y -> y = str "a").
  { intros y Hy. apply managed_ids in Hy. vm_compute in Hy. destruct Hy as [<-|[]]. reflexivity. }
  split.
  { intros y Hy. apply Mg in Hy. subst. apply text_ok_spec. apply text_ok_ascii. reflexivity. }
  split; [vm_compute; reflexivity|].
  split; [apply managed_ids; vm_compute; auto|]. split.
  - intros (v & E). vm_compute in E. discriminate.
  - exists 1%Q. vm_compute. reflexivity.
Qed.

(*EX
Example C22_ex : exists m', load_text (to_json_text ex) = Ok m'
  /\ inferred m' d a (Some CANNOT_LINK) /\ inferred m' a b (Some MUST_LINK).
Proof. eexists. split; [vm_compute; reflexivity|]. split; vm_compute; reflexivity. Qed.
Example C22_ex_ids : forall x, managed ex x -> python_string x /\ ~ splits_a_character x.
Proof.
  intros x (l & E & H). vm_compute in E. injection E. intros <-. apply text_ok_spec.
  destruct H as [<-|[<-|[<-|[<-|[]]]]]; simpl; repeat split; auto; discriminate.
Qed.
EX*)

(** ** C24 *)
Lemma torn m p q : Inv m -> (forall x, managed m x -> python_string x) ->
  to_json_text m = p ++ q -> q <> [] -> loads p = Raise JSONDecodeError.
Proof.
  intros I H E Q. unfold to_json_text in E.
  assert (D : forall s, doc_strings (ids m) (stored_list m) s -> python_string s).
  { intros s Ds. apply doc_strings_types in Ds; auto. destruct Ds as [Ds|Ds].
    - apply H. apply managed_ids; auto.
    - apply text_ok_spec, text_of_type; auto. }
  rewrite <- norm_document in E by auto.
  eapply torn_fails; eauto; [|exact Logic.I].
  apply document_wf. intros s [Hs|(x & y & t & Hl & Hs)].
  - apply in_map_iff in Hs. destruct Hs as (s' & <- & Hs'). apply norm_ok. apply D. left; auto.
  - apply in_map_iff in Hl. destruct Hl as ([[x' y'] t'] & E' & Hl). inversion E'; subst.
    destruct Hs as [->|[->| ->]]; apply norm_ok; apply D; right; exists x', y', t'; auto.
Qed.

(*PROP C24: a file torn at any point is rejected with JSONDecodeError. *)
Lemma C24_torn_file_rejected_proof :
  forall m, reachable m -> (forall x, managed m x -> python_string x) ->
    forall p q, to_json_text m = p ++ q -> q <> [] -> load_text p = Raise JSONDecodeError.
Proof.
  intros m R H p q E Q. unfold load_text. rewrite (torn m p q); auto. apply reachable_inv; auto.
Qed.

(*EX
Example C24_ex : load_text (firstn 90 (to_json_text ex)) = Raise JSONDecodeError /\ (90 < length (to_json_text ex)).
Proof. split; [vm_compute; reflexivity|vm_compute; repeat constructor]. Qed.
EX*)

(** ** C25 *)
(*PROP C25: to_json truncates the existing file first: a crash can lose both the old and the new manager.  Full statement (refuted): after any crash a load gives the old manager or the new one. *)
Lemma C25_crash_safe_refuted_proof :
  exists old m mo mn f, reachable old /\ reachable m /\
    load_text (to_json_text old) = Ok mo /\ load_text (to_json_text m) = Ok mn /\
    after_crash (Some (to_json_text old)) (to_json_text m) f /\ load_file f = Raise JSONDecodeError.
Proof.
  exists (init [str "a"]), (init [str "a"; str "b"]). do 2 eexists. exists (Some []).
  split; [apply reach_init|]. split; [apply reach_init|].
  split; [vm_compute; reflexivity|]. split; [vm_compute; reflexivity|]. split; [|reflexivity].
  apply (crash_during _ _ [] (to_json_text (init [str "a"; str "b"]))). reflexivity.
Qed.

(*PROP C25: what remains true: after a crash a load gives what the old file gave, what the complete new file gives, or raises JSONDecodeError; never a third manager. *)
Lemma C25_crash_detected_partial_proof :
  forall m, reachable m -> (forall x, managed m x -> python_string x) ->
    forall old f, after_crash old (to_json_text m) f ->
      f = old \/ f = Some (to_json_text m) \/ load_file f = Raise JSONDecodeError.
Proof.
  intros m R H old f C. destruct C as [|p q E]; auto. right. destruct q as [|c q].
  - left. rewrite app_nil_r in E. rewrite E; reflexivity.
  - right. simpl. eapply C24_torn_file_rejected_proof; eauto. discriminate.
Qed.

(** ** C26 *)
Lemma load_reachable l : forall m m', reachable m -> for_ l load_record m = (m', Ok tt) -> reachable m'.
Proof.
  induction l as [|v l IH]; intros m m' R E; simpl in E.
  - unfold ret in E. congruence.
  - unfold bind in E at 1. destruct (load_record v m) as [m1 [u|e]] eqn:E1; [|discriminate]. apply (IH m1); auto.
    unfold load_record, lift in E1. unfold bind in E1 at 1.
    destruct (x <-- getitem (str "data_ID1") v;;; as_str x) as [d1|]; [|discriminate]. unfold bind in E1 at 1.
    destruct (x <-- getitem (str "data_ID2") v;;; as_str x) as [d2|]; [|discriminate]. unfold bind in E1 at 1.
    destruct (x <-- getitem (str "constraint_type") v;;; as_str x) as [t|]; [|discriminate].
    assert (X := reach_call m (CallAddConstraint d1 d2 t 1%Q) R). simpl in X. unfold bind in X, E1.
    destruct (add_constraint d1 d2 t 1%Q m) as [m2 [b|e]]; [|discriminate]. cbn in X. unfold ret in E1. inversion E1; subst. exact X.
Qed.

(*PROP C26: whatever text the file holds, if loading succeeds the manager is one reachable through the API, its added constraints are satisfiable and its inferences exact. *)
Lemma C26_loaded_manager_coherent_proof :
  forall s m, load_text s = Ok m ->
    reachable m /\
    satisfiable (added_must m) (added_cannot m) /\
    (forall a b, managed m a -> managed m b ->
       (inferred m a b (Some MUST_LINK) <-> linked (added_must m) a b) /\
       (inferred m a b (Some CANNOT_LINK) <-> separated (added_must m) (added_cannot m) a b)).
Proof.
  intros s m E. assert (R : reachable m).
  { unfold load_text in E. apply res_bind_Ok in E. destruct E as (v & _ & E). unfold load_value in E.
    apply res_bind_Ok in E. destruct E as (ids0 & _ & E). apply res_bind_Ok in E. destruct E as (l & _ & E).
    destruct (for_ l load_record (init ids0)) as [m' r] eqn:F. apply res_bind_Ok in E. destruct E as (u & -> & E).
    destruct u. inversion E; subst. eapply load_reachable; [apply (reach_init ids0)|eauto]. }
  split; auto. split. { apply C03_always_satisfiable_proof; auto. }
  intros a b Ma Mb. destruct (C01_inferred_is_closure_proof m R a b Ma Mb) as (H1 & H2 & _). auto.
Qed.

Lemma add_all_result l : forall m, Inv m -> (exists m', add_all l m = (m', Ok tt)) \/ (exists m', add_all l m = (m', Raise ValueError)).
Proof.
  induction l as [|[[a b] t] l IH]; intros m I; unfold add_all; simpl; unfold bind, ret.
  - left; eauto.
  - destruct (accepts m a b t) eqn:A.
    + destruct (run_add_constraint m a b t 1%Q I A) as (m1 & Run & I1 & _). rewrite Run. apply (IH m1 I1).
    + rewrite run_add_constraint_raise by auto. right; eauto.
Qed.

(*PROP C26: a document listing IDs and records is accepted exactly when the records are about listed IDs, have a known type and can all be respected together; otherwise loading raises ValueError.  When accepted the added constraints are exactly the listed ones and the trivial ones. *)
Lemma C26_document_accepted_iff_satisfiable_proof :
  forall ids l,
    let good := (forall a b t, In (a, b, t) l -> In a ids /\ In b ids /\ allowed t) /\
                satisfiable (listed l MUST_LINK) (listed l CANNOT_LINK) in
    (good -> exists m, load_value (document ids l) = Ok m /\
       forall t a b, added m t a b <-> listed l t a b \/ (In a ids /\ a = b /\ t = MUST_LINK)) /\
    (~ good -> load_value (document ids l) = Raise ValueError).
Proof.
  intros ids0 l good.
  assert (LB : forall t p q, listed l t p q <-> batch_added l t p q).
  { intros t p q. unfold listed, batch_added, same_unordered. split.
    - intros [H|H]; do 2 eexists; (split; [exact H|auto]).
    - intros (a & b & H & [[-> ->]|[-> ->]]); auto. }
  assert (Ok_good : forall m', add_all l (init ids0) = (m', Ok tt) -> good /\
     forall t a b, added m' t a b <-> listed l t a b \/ (In a ids0 /\ a = b /\ t = MUST_LINK)).
  { intros m' E. destruct (add_all_ok _ _ _ (init_inv ids0) E) as (I' & K & A & Al).
    assert (A' : forall t a b, added m' t a b <-> listed l t a b \/ (In a ids0 /\ a = b /\ t = MUST_LINK)).
    { intros t a b. rewrite A, init_added, LB. tauto. }
    split; auto. split.
    - intros a b t H. apply Al in H. rewrite init_ids, !dedup_In in H. exact H.
    - destruct (inv_satisfiable m' I') as (f & S1 & S2). exists f. split; intros x y H.
      + apply S1. apply A'. auto.
      + apply S2. apply A'. auto. }
  rewrite load_document.
  destruct (add_all_result l (init ids0) (init_inv _)) as [(m' & E)|(m' & E)]; rewrite E; simpl.
  - destruct (Ok_good m' E) as [G A]. split; [|tauto]. intros _. exists m'. auto.
  - split; auto. intro G. exfalso. destruct G as [G1 (f & S1 & S2)].
    destruct (add_all_succeeds l (init ids0) (init_inv _)) as (m2 & E2).
    + rewrite init_ids. intros a b t H. rewrite !dedup_In. auto.
    + exists f. split; split; intros x y H.
      * apply init_added in H. destruct H as (_ & -> & _). auto.
      * apply init_added in H. destruct H as (_ & _ & H). discriminate.
      * apply S1, LB, H.
      * apply S2, LB, H.
    + rewrite E2 in E. discriminate.
Qed.

(*EX
Example C26_ex_contradiction : load_value (document [a; b; c] [(a, b, MUST_LINK); (b, c, MUST_LINK); (c, a, CANNOT_LINK)]) = Raise ValueError.
Proof. vm_compute. reflexivity. Qed.
Example C26_ex_accepted : exists m, load_value (document [a; b; c] [(a, b, MUST_LINK); (b, c, CANNOT_LINK)]) = Ok m
  /\ inferred m a c (Some CANNOT_LINK).
Proof. eexists. split; vm_compute; reflexivity. Qed.
EX*)
