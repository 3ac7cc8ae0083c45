(** * Properties of preprocessing and vectorization (C56, C57, C83-C86). *)

From Coq Require Import String List Bool Arith NArith Lia Permutation Sorted.
From Verif Require Import Base Manager Spec ManagerProofs ManagerInv ManagerThms Sampling SamplingSpec SamplingProofs SamplingThms
  Rename RenameThms ClusterProofs Text TextSpec.
Import ListNotations.
Open Scope nat_scope.
Open Scope py_scope.

(*HEADER
From Coq Require Import String List Bool Arith NArith Permutation Sorted Lia.
From Verif Require Import Base Manager Spec SamplingSpec Text TextSpec TextThms.
Import ListNotations.
Open Scope nat_scope.

(** Oracles for the examples: lower case of ASCII letters, NFKD of a few characters, one
    token for each word; "the" is a stop word. *)
Definition ex_lower (s : pystr) : pystr := map (fun c => if (65 <=? c)%N && (c <=? 90)%N then (c + 32)%N else c) s.
Definition ex_nfkd (s : pystr) : pystr :=
  flat_map (fun c => if N.eqb c 233 then [101; 769] else if N.eqb c 8482 then [84; 77] else if N.eqb c 8229 then [46; 46] else [c])%N s.
Definition ex_combining (c : N) : bool := N.eqb c 769.
Fixpoint ex_split (w s : pystr) : list pystr :=
  match s with
  | [] => [w]
  | c :: s' => if N.eqb c 32 then w :: [c] :: ex_split [] s' else ex_split (w ++ [c]) s'
  end.
Definition ex_nlp (s : pystr) : list token :=
  map (fun w => mkToken w (removelast w) (eqb w [32%N]) false false (eqb w (str "the")) 0)
    (filter (fun w => negb (eqb w [])) (ex_split [] s)).
Definition ex_load (name : pystr) := if eqb name (str "fr_core_news_md") then Some ex_nlp else None.
Definition ex_words (s : pystr) : list pystr := filter (fun w => 2 <=? length w) (ex_split [] s).
Definition fr := str "fr_core_news_md".

HEADER*)

(** ** Dictionaries. *)
Lemma keys_dset_new {V} k (v : V) (d : dict pystr V) : ~ In k (keys d) -> dset k v d = d ++ [(k, v)].
Proof.
  induction d as [|[k' v'] d IH]; simpl; intro N; auto. destruct (eqb_spec k k'); [subst; tauto|]. f_equal. apply IH. tauto.
Qed.

Lemma fold_dset_map {V W} (g : pystr * V -> W) (l : list (pystr * V)) : forall d, NoDup (keys d ++ map fst l) ->
  fold_left (fun d e => dset (fst e) (g e) d) l d = d ++ map (fun e => (fst e, g e)) l.
Proof.
  induction l as [|e l IH]; intros d N; simpl; [rewrite app_nil_r; auto|].
  simpl in N. rewrite keys_dset_new.
  - rewrite IH; [rewrite <- app_assoc; reflexivity|]. unfold keys in *. rewrite map_app, <- app_assoc. exact N.
  - apply NoDup_remove_2 in N. intro X. apply N, in_or_app. auto.
Qed.

Lemma fold_dset_items {V W} (g : pystr * V -> W) (l : dict pystr V) : NoDup (keys l) ->
  fold_left (fun d e => dset (fst e) (g e) d) l [] = map (fun e => (fst e, g e)) l.
Proof. intro N. apply (fold_dset_map g l []). exact N. Qed.

Lemma dict_of_items_id {V} (l : dict pystr V) : NoDup (keys l) -> dict_of_items l = l.
Proof.
  intro N. unfold dict_of_items. rewrite (fold_dset_items (fun e => snd e)) by auto.
  clear N. induction l as [|[k v] l IH]; simpl; congruence.
Qed.

Lemma dget_map {V W} (f : V -> W) (l : dict pystr V) x : dget x (map (fun e => (fst e, f (snd e))) l) = option_map f (dget x l).
Proof. induction l as [|[k v] l IH]; simpl; auto. destruct (eqb x k); auto. Qed.

Lemma keys_map {V W} (f : pystr * V -> W) (l : dict pystr V) : keys (map (fun e => (fst e, f e)) l) = keys l.
Proof. unfold keys. rewrite map_map. auto. Qed.

(** ** Preprocessing. *)
Lemma listed_spec c : mem c punctuation = true <-> listed_punctuation c.
Proof. rewrite mem_In. unfold punctuation, listed_punctuation. simpl. intuition auto. Qed.

Lemma translate_spec s :
  Forall2 (fun c c' => (listed_punctuation c /\ c' = 32%N) \/ (~ listed_punctuation c /\ c' = c)) s (translate s).
Proof.
  induction s as [|c s IH]; cbn [translate map]; constructor; [|exact IH]. assert (K := listed_spec c).
  destruct (mem c punctuation); [left|right]; (split; [|reflexivity]); [tauto|]. intro X. apply K in X. discriminate.
Qed.

Lemma selected_filter {A} (P : A -> Prop) (f : A -> bool) l : (forall x, f x = true <-> P x) -> selected P l (filter f l).
Proof.
  intro H. induction l as [|x l IH]; simpl; [constructor|]. destruct (f x) eqn:E.
  - constructor; auto. apply H; auto.
  - constructor; auto. rewrite <- H. congruence.
Qed.

Lemma selected_det {A} (P : A -> Prop) l l1 : selected P l l1 -> forall l2, selected P l l2 -> l1 = l2.
Proof. induction 1; intros l2 S; inversion S; subst; auto; try tauto. f_equal. auto. Qed.

Lemma keep_token_spec stop parse t : keep_token stop parse t = true <-> allowed_token stop parse t.
Proof.
  unfold keep_token, allowed_token. rewrite !andb_true_iff, !orb_true_iff, !negb_true_iff, Nat.leb_le.
  destruct stop, parse; intuition congruence.
Qed.

Lemma join_spaced l : spaced l (join_words l).
Proof.
  induction l as [|w l IH]; [constructor|]. destruct l as [|w' l]; [constructor|].
  cbn [join_words]. apply spaced_more; [discriminate|exact IH].
Qed.

Lemma spaced_det l s : spaced l s -> s = join_words l.
Proof. induction 1; auto. subst. destruct l; [congruence|]. reflexivity. Qed.

Lemma stripped_filter combining s : stripped combining s (filter (fun c => negb (combining c)) s).
Proof. induction s as [|c s IH]; simpl; [constructor|]. destruct (combining c) eqn:E; simpl; [apply stripped_mark|apply stripped_other]; auto. Qed.

Section Pre.
  Variables lower strip nfkd : pystr -> pystr.
  Variable combining : N -> bool.
  Variable load : pystr -> option (pystr -> list token).
  Notation pre := (preprocess lower strip nfkd combining load).
  Notation pre_text := (preprocess_text lower strip nfkd combining).

  Lemma pre_run texts stop parse lemma name nlp : NoDup (keys texts) -> load name = Some nlp ->
    pre texts stop parse lemma name = Ok (map (fun e => (fst e, pre_text stop parse lemma nlp (snd e))) texts).
  Proof.
    intros N L. unfold preprocess. rewrite L. f_equal. apply (fold_dset_items (fun e => pre_text stop parse lemma nlp (snd e))). auto.
  Qed.

  Lemma join_nfkd l : spaces_separate nfkd -> nfkd (join_words l) = join_words (map nfkd l).
  Proof.
    intros (N & S). induction l as [|w l IH]; [exact N|]. destruct l as [|w' l]; [reflexivity|].
    cbn [join_words map] in *. change (space :: ?s) with ([32%N] ++ s). rewrite S, IH. reflexivity.
  Qed.

  Lemma join_strip l : combining 32%N = false ->
    filter (fun c => negb (combining c)) (join_words l) = join_words (map (filter (fun c => negb (combining c))) l).
  Proof.
    intro C. induction l as [|w l IH]; [reflexivity|]. destruct l as [|w' l]; [reflexivity|].
    cbn [join_words map] in *. rewrite filter_app. cbn [filter]. unfold space at 1. rewrite C. cbn [negb].
    change 32%N with space. rewrite IH. reflexivity.
  Qed.
End Pre.

(*PROP C56: preprocessing raises ValueError exactly when the language model is not installed (even without any text); otherwise it returns one text for each ID, in the order of the IDs, and each depends only on its own text. *)
Lemma C56_preprocess_ids_proof :
  forall lower strip nfkd combining load texts stop parse lemma name,
    NoDup (keys texts) ->
    (load name = None -> preprocess lower strip nfkd combining load texts stop parse lemma name = Raise ValueError) /\
    (load name <> None -> exists d, preprocess lower strip nfkd combining load texts stop parse lemma name = Ok d /\
       keys d = keys texts /\
       forall texts' d' x y, NoDup (keys texts') -> preprocess lower strip nfkd combining load texts' stop parse lemma name = Ok d' ->
         dget x texts = dget y texts' -> dget x d = dget y d').
Proof.
  intros lower strip nfkd cb load texts stop parse lemma name N. split.
  - intro L. unfold preprocess. rewrite L. reflexivity.
  - intro L. destruct (load name) as [nlp|] eqn:E; [|congruence]. eexists. split; [apply pre_run; eauto|].
    split; [apply (keys_map (fun e => preprocess_text lower strip nfkd cb stop parse lemma nlp (snd e)))|].
    intros texts' d' x y N' P X. rewrite (pre_run lower strip nfkd cb load texts' stop parse lemma name nlp) in P by auto.
    injection P; intros <-. rewrite !dget_map, X. reflexivity.
Qed.

(*EX
Example C56_ex : preprocess ex_lower (fun s => s) ex_nfkd ex_combining ex_load
    [(str "1", str "Look, the Map!"); (str "0", 233%N :: str "T-A")] true false false fr =
  Ok [(str "1", str "look map"); (str "0", str "et a")] /\
  preprocess ex_lower (fun s => s) ex_nfkd ex_combining ex_load [] false false false (str "xx") = Raise ValueError.
Proof. vm_compute. split; reflexivity. Qed.
EX*)

(*PROP C57: each preprocessed text is made of the allowed tokens of the lower-cased text with the punctuation replaced, in order, as they are or as lemmas, stripped, decomposed, without their combining marks and joined by single spaces. *)
Lemma C57_clean_texts_proof :
  forall lower strip nfkd combining load texts stop parse lemma name nlp d x text,
    NoDup (keys texts) -> load name = Some nlp -> spaces_separate nfkd -> combining 32%N = false ->
    preprocess lower strip nfkd combining load texts stop parse lemma name = Ok d -> dget x texts = Some text ->
    exists replaced tokens words out,
      Forall2 (fun c c' => (listed_punctuation c /\ c' = 32%N) \/ (~ listed_punctuation c /\ c' = c)) (lower text) replaced /\
      selected (allowed_token stop parse) (nlp replaced) tokens /\
      Forall2 (fun t w => stripped combining (nfkd (strip (if lemma then tk_lemma t else tk_text t))) w) tokens words /\
      spaced words out /\ dget x d = Some out /\ (forall c, In c out -> combining c = false).
Proof.
  intros lower strip nfkd cb load texts stop parse lemma name nlp d x text N L SP C P X.
  rewrite (pre_run lower strip nfkd cb load texts stop parse lemma name nlp) in P by auto. injection P; intros <-. clear P.
  set (tokens := filter (keep_token stop parse) (nlp (translate (lower text)))).
  set (ws := map (fun t => strip (if lemma then tk_lemma t else tk_text t)) tokens).
  assert (E : preprocess_text lower strip nfkd cb stop parse lemma nlp text = join_words (map (fun w => filter (fun c => negb (cb c)) (nfkd w)) ws)).
  { unfold preprocess_text. fold tokens.
    replace (if lemma then join_words (map (fun t => strip (tk_lemma t)) tokens) else join_words (map (fun t => strip (tk_text t)) tokens))
      with (join_words ws) by (unfold ws; destruct lemma; reflexivity).
    rewrite join_nfkd, join_strip, map_map by auto. reflexivity. }
  exists (translate (lower text)), tokens, (map (fun w => filter (fun c => negb (cb c)) (nfkd w)) ws), (preprocess_text lower strip nfkd cb stop parse lemma nlp text).
  split; [|split; [|split; [|split; [|split]]]].
  - apply translate_spec.
  - apply selected_filter. apply keep_token_spec.
  - unfold ws. rewrite map_map. clear. induction tokens as [|t l IH]; simpl; constructor; auto. apply stripped_filter.
  - rewrite E. apply join_spaced.
  - rewrite dget_map, X. reflexivity.
  - unfold preprocess_text. intros c H. apply filter_In in H. destruct H as [_ H]. apply negb_true_iff in H. auto.
Qed.

(*EX
Example C57_ex : preprocess ex_lower (fun s => s) ex_nfkd ex_combining ex_load [(str "0", str "the c" ++ [233%N] ++ str "dre")] false false true fr =
  Ok [(str "0", str "th cedr")] /\ ex_combining 32 = false.
Proof. vm_compute. split; reflexivity. Qed.
Example C57_ex_spaces : spaces_separate ex_nfkd.
Proof. split; [reflexivity|]. intros s s'. unfold ex_nfkd. rewrite flat_map_app. reflexivity. Qed.
EX*)

(*PROP C57: turning an option on only removes words. *)
Lemma C57_options_remove_words_proof :
  forall lower strip nfkd combining load texts stop parse stop' parse' lemma name d d' x text,
    NoDup (keys texts) -> spaces_separate nfkd -> combining 32%N = false ->
    (stop = true -> stop' = true) -> (parse = true -> parse' = true) ->
    preprocess lower strip nfkd combining load texts stop parse lemma name = Ok d ->
    preprocess lower strip nfkd combining load texts stop' parse' lemma name = Ok d' -> dget x texts = Some text ->
    exists words words' out out', spaced words out /\ spaced words' out' /\ subsequence words' words /\
      dget x d = Some out /\ dget x d' = Some out'.
Proof.
  intros lower strip nfkd cb load texts stop parse stop' parse' lemma name d d' x text N SP C H1 H2 P P' X.
  destruct (load name) as [nlp|] eqn:L; [|unfold preprocess in P; rewrite L in P; discriminate].
  rewrite (pre_run lower strip nfkd cb load texts stop parse lemma name nlp) in P by auto. injection P; intros <-. clear P.
  rewrite (pre_run lower strip nfkd cb load texts stop' parse' lemma name nlp) in P' by auto. injection P'; intros <-. clear P'.
  set (l := nlp (translate (lower text))).
  set (f := fun t => filter (fun c => negb (cb c)) (nfkd (strip (if lemma then tk_lemma t else tk_text t)))).
  assert (E : forall s p, preprocess_text lower strip nfkd cb s p lemma nlp text = join_words (map f (filter (keep_token s p) l))).
  { intros s p. unfold preprocess_text. fold l. set (tokens := filter (keep_token s p) l).
    replace (if lemma then join_words (map (fun t => strip (tk_lemma t)) tokens) else join_words (map (fun t => strip (tk_text t)) tokens))
      with (join_words (map (fun t => strip (if lemma then tk_lemma t else tk_text t)) tokens)) by (destruct lemma; reflexivity).
    rewrite join_nfkd, join_strip, !map_map by auto. reflexivity. }
  exists (map f (filter (keep_token stop parse) l)), (map f (filter (keep_token stop' parse') l)).
  exists (preprocess_text lower strip nfkd cb stop parse lemma nlp text), (preprocess_text lower strip nfkd cb stop' parse' lemma nlp text).
  rewrite !E. split; [apply join_spaced|]. split; [apply join_spaced|]. split; [|rewrite !dget_map, X; cbn [option_map]; rewrite !E; auto].
  clear -H1 H2. induction l as [|t l IH]; simpl; [constructor|].
  destruct (keep_token stop' parse' t) eqn:K.
  - assert (keep_token stop parse t = true) as ->.
    { apply keep_token_spec. apply keep_token_spec in K. unfold allowed_token in *. intuition auto. }
    simpl. constructor. auto.
  - destruct (keep_token stop parse t); simpl; [constructor|]; auto.
Qed.

(*PROP C83 (what fails): punctuation is replaced and letters are lower-cased before the decomposition, which brings new ones: with the values that Python gives for U+2122 (trade mark sign) and U+2025 (two dot leader) the preprocessed texts are "TM" and "..". *)
Lemma C83_no_punctuation_refuted_proof :
  forall (lower strip nfkd : pystr -> pystr) combining load name stop parse,
    lower [8482%N] = [8482%N] -> lower [8229%N] = [8229%N] -> strip [8482%N] = [8482%N] -> strip [8229%N] = [8229%N] ->
    nfkd [8482%N] = str "TM" -> nfkd [8229%N] = str ".." -> (forall c, In c (str "TM.") -> combining c = false) ->
    (exists nlp, load name = Some nlp /\
       forall c, In c [8482%N; 8229%N] -> exists lemma, nlp [c] = [mkToken [c] lemma false false false false 0]) ->
    preprocess lower strip nfkd combining load [(str "0", [8482%N]); (str "1", [8229%N])] stop parse false name
      = Ok [(str "0", str "TM"); (str "1", str "..")].
Proof.
  intros lower strip nfkd cb load name stop parse L1 L2 S1 S2 N1 N2 C (nlp & L & T).
  rewrite (pre_run lower strip nfkd cb load _ stop parse false name nlp); auto.
  2:{ constructor; [|constructor; [intros []|constructor]]. intros [X|[]]. vm_compute in X. discriminate. }
  destruct (T 8482%N) as [le1 T1]; [left; auto|]. destruct (T 8229%N) as [le2 T2]; [right; left; auto|].
  cbn [map fst snd]. unfold preprocess_text. rewrite L1, L2.
  change (translate [8482%N]) with [8482%N]. change (translate [8229%N]) with [8229%N]. rewrite T1, T2.
  assert (K : forall c le, keep_token stop parse (mkToken [c] le false false false false 0) = true).
  { intros. unfold keep_token. simpl. destruct stop, parse; reflexivity. }
  cbn [filter]. rewrite !K. cbn [map join_words tk_text]. rewrite S1, S2, N1, N2.
  assert (F : forall s, (forall c, In c s -> cb c = false) -> filter (fun c => negb (cb c)) s = s).
  { clear. induction s as [|c s IH]; simpl; intro H; auto. rewrite (H c) by auto. simpl. f_equal. auto. }
  rewrite !F; auto; intros c H; apply C; simpl in *; tauto.
Qed.

(*EX
Example C83_ex : preprocess ex_lower (fun s => s) ex_nfkd ex_combining ex_load [(str "0", [8482%N]); (str "1", [8229%N])] true true false fr
  = Ok [(str "0", str "TM"); (str "1", str "..")].
Proof. vm_compute. reflexivity. Qed.
EX*)

(*PROP C83 (what holds, without lemmas): every character of a preprocessed text is a space or comes from the decomposition of a character of the lower-cased text that is not listed as punctuation.  Missing: the decomposition itself, and lemmas, may bring punctuation and capitals. *)
Lemma C83_no_punctuation_partial_proof :
  forall lower strip nfkd combining load texts stop parse name nlp d x text out c,
    NoDup (keys texts) -> load name = Some nlp -> characterwise nfkd -> only_removes strip -> from_text nlp -> nfkd [32%N] = [32%N] ->
    preprocess lower strip nfkd combining load texts stop parse false name = Ok d ->
    dget x texts = Some text -> dget x d = Some out -> In c out ->
    c = 32%N \/ exists c0, In c0 (lower text) /\ ~ listed_punctuation c0 /\ In c (nfkd [c0]).
Proof.
  intros lower strip nfkd cb load texts stop parse name nlp d x text out c N L CW OR FT NS P X O I.
  rewrite (pre_run lower strip nfkd cb load texts stop parse false name nlp) in P by auto. injection P; intros <-. clear P.
  rewrite dget_map, X in O. injection O; intros <-. clear O. unfold preprocess_text in I.
  apply filter_In in I. destruct I as [I _]. apply CW in I. destruct I as (c0 & I0 & I).
  set (tokens := filter (keep_token stop parse) (nlp (translate (lower text)))) in I0.
  assert (J : c0 = 32%N \/ exists t, In t tokens /\ In c0 (strip (tk_text t))).
  { revert I0. generalize tokens. clear. induction tokens as [|t l IH]; [intros []|]. cbn [map].
    destruct l as [|t' l].
    - simpl. intro J. right. exists t. auto.
    - cbn [join_words map]. intro J. apply in_app_or in J. destruct J as [J|[J|J]]; [right; exists t; simpl; auto|left; auto|].
      apply IH in J. destruct J as [->|(u & U & J)]; auto. right. exists u. simpl in *. tauto. }
  destruct J as [->|(t & T & J)].
  { rewrite NS in I. destruct I as [<-|[]]. auto. }
  unfold tokens in T. apply filter_In in T. destruct T as [T _]. apply OR in J. eapply FT in J; eauto.
  unfold translate in J. apply in_map_iff in J. destruct J as (c1 & E & J). destruct (mem c1 punctuation) eqn:M.
  - subst c0. unfold space in I. rewrite NS in I. destruct I as [<-|[]]. auto.
  - subst c1. right. exists c0. split; auto. split; auto. intro LP. apply listed_spec in LP. congruence.
Qed.

(*EX
Example C83_partial_ex : characterwise ex_nfkd /\ ex_nfkd [32%N] = [32%N] /\ only_removes (fun s => s).
Proof.
  split; [|split; [reflexivity|intros s c H; exact H]]. intros s c H. unfold ex_nfkd in *. apply in_flat_map in H.
  destruct H as (c0 & I & H). exists c0. split; auto. simpl. rewrite app_nil_r. exact H.
Qed.
EX*)

(** ** Vectorization. *)
Lemma windows_In n l f : 1 <= n -> In f (windows n l) <-> exists i, i + n <= length l /\ f = join_words (firstn n (skipn i l)).
Proof.
  intro N. unfold windows. rewrite in_map_iff. split.
  - intros (i & <- & I). apply in_seq in I. exists i. split; auto. lia.
  - intros (i & L & ->). exists i. split; auto. apply in_seq. lia.
Qed.

Lemma skipn_S {A} k : forall (l : list A) x l', x :: l' = skipn k l -> l' = skipn (S k) l.
Proof. induction k as [|k IH]; intros [|y l] x l' E; try discriminate; [cbn in E; cbn; congruence|]. cbn [skipn] in E. apply IH in E. exact E. Qed.

Lemma windows_one l : windows 1 l = l.
Proof.
  unfold windows. replace (S (length l) - 1) with (length l) by lia.
  assert (G : forall k l', length l' + k = length l -> l' = skipn k l -> map (fun i => join_words (firstn 1 (skipn i l))) (seq k (length l')) = l').
  { intros k l'. revert k. induction l' as [|w l' IH]; intros k L E; [reflexivity|]. cbn [length seq map]. f_equal.
    - rewrite <- E. reflexivity.
    - apply IH; [simpl in L; lia|]. eapply skipn_S; eauto. }
  apply G; [lia|reflexivity].
Qed.

(** All windows with their positions and lengths. *)
Definition spots (l : list pystr) : list (nat * nat) :=
  flat_map (fun n => map (fun i => (i, n)) (seq 0 (S (length l) - n))) [1; 2; 3].

Lemma spots_In l i n : In (i, n) (spots l) <-> 1 <= n <= 3 /\ i + n <= length l.
Proof.
  unfold spots. rewrite in_flat_map. split.
  - intros (k & K & I). apply in_map_iff in I. destruct I as (j & E & J). injection E; intros; subst. apply in_seq in J.
    destruct K as [<-|[<-|[<-|[]]]]; lia.
  - intros (N & L). exists n. split; [simpl; lia|]. apply in_map_iff. exists i. split; auto. apply in_seq. lia.
Qed.

Lemma spots_NoDup l : NoDup (spots l).
Proof.
  unfold spots. cbn [flat_map]. rewrite app_nil_r.
  assert (G : forall n, NoDup (map (fun i => (i, n)) (seq 0 (S (length l) - n)))).
  { intro n. apply FinFun.Injective_map_NoDup; [intros x y E; congruence|apply seq_NoDup]. }
  assert (S : forall n x, In x (map (fun i => (i, n)) (seq 0 (S (length l) - n))) -> snd x = n).
  { intros n x I. apply in_map_iff in I. destruct I as (i & <- & _). auto. }
  apply NoDup_app_intro; [apply G|apply NoDup_app_intro; [apply G|apply G|]|].
  - intros x I J. apply S in I. apply S in J. congruence.
  - intros x I J. apply in_app_or in J. apply S in I. destruct J as [J|J]; apply S in J; congruence.
Qed.

Definition spot_term (l : list pystr) (e : nat * nat) : pystr := join_words (firstn (snd e) (skipn (fst e) l)).

Lemma ngrams_spots l : ngrams l = map (spot_term l) (spots l).
Proof.
  unfold ngrams, spots. cbn [flat_map]. rewrite app_nil_r, !map_app, !map_map.
  rewrite <- (windows_one l) at 1. reflexivity.
Qed.

Lemma filter_map_length {A B} (f : A -> B) (g : B -> bool) l : length (filter g (map f l)) = length (filter (fun x => g (f x)) l).
Proof. induction l as [|x l IH]; simpl; auto. destruct (g (f x)); simpl; auto. Qed.

Lemma term_count_spec l f : exists occ, occurrences l f occ /\ term_count (ngrams l) f = length occ.
Proof.
  exists (filter (fun e => eqb f (spot_term l e)) (spots l)). split; [split|].
  - apply NoDup_filter_list, spots_NoDup.
  - intros i n. rewrite filter_In, spots_In, eqb_eq. unfold spot_term. cbn [fst snd]. split.
    + intros ((N & L) & ->). split; auto. split; auto. apply join_spaced.
    + intros (N & L & S). split; auto. apply spaced_det in S. auto.
  - unfold term_count. rewrite ngrams_spots, filter_map_length. reflexivity.
Qed.

Lemma ngrams_phrase words t f : In f (ngrams (words t)) <-> phrase words t f.
Proof.
  rewrite ngrams_spots, in_map_iff. split.
  - intros ([i n] & <- & I). apply spots_In in I. destruct I as (N & L). set (l := words t) in *.
    exists (firstn i l), (firstn n (skipn i l)), (skipn n (skipn i l)). split; [rewrite !firstn_skipn; auto|].
    split; [rewrite firstn_length, skipn_length; lia|]. apply join_spaced.
  - intros (bf & ws & af & E & N & S). exists (length bf, length ws). rewrite E. split.
    + unfold spot_term. cbn [fst snd]. rewrite skipn_app, skipn_all, Nat.sub_diag. simpl.
      rewrite firstn_app, Nat.sub_diag, firstn_all. simpl. rewrite app_nil_r. symmetry. apply spaced_det. auto.
    + apply spots_In. rewrite !app_length. lia.
Qed.

Lemma filter_two {V} (g : V -> bool) (d : dict pystr V) : NoDup (keys d) ->
  (2 <= length (filter (fun e => g (snd e)) d) <->
   exists x y s t, x <> y /\ dget x d = Some s /\ dget y d = Some t /\ g s = true /\ g t = true).
Proof.
  intro N. set (F := filter (fun e => g (snd e)) d).
  assert (I : forall e, In e F <-> In e d /\ g (snd e) = true) by (intro; apply filter_In).
  assert (NF : NoDup (map fst F)).
  { unfold F. clear I F. induction d as [|e d IH]; simpl; [constructor|]. simpl in N. inversion N; subst.
    destruct (g (snd e)); simpl; auto. constructor; auto. intro J. apply H1. apply in_map_iff in J. destruct J as (e' & E & J).
    apply filter_In in J. apply in_map_iff. exists e'. tauto. }
  split.
  - destruct F as [|[x s] [|[y t] l]]; simpl; try lia. intros _. exists x, y, s, t.
    assert (X := proj1 (I (x, s)) (or_introl eq_refl)). assert (Y := proj1 (I (y, t)) (or_intror (or_introl eq_refl))).
    split; [intro E; subst; inversion NF; subst; simpl in *; tauto|].
    split; [apply In_dget; tauto|]. split; [apply In_dget; tauto|]. simpl in *. tauto.
  - intros (x & y & s & t & NE & X & Y & GX & GY).
    assert (IX : In (x, s) F) by (apply I; split; auto; apply dget_In; auto).
    assert (IY : In (y, t) F) by (apply I; split; auto; apply dget_In; auto).
    destruct F as [|e1 [|e2 l]]; simpl in *; try tauto; try lia.
    destruct IX as [IX|[]], IY as [IY|[]]. congruence.
Qed.

Section Docs.
  Variable words : pystr -> list pystr.

  Definition docs (texts : dict pystr pystr) : list (list pystr) := map (fun t => ngrams (words t)) (vals texts).
  Definition features (texts : dict pystr pystr) : list pystr :=
    filter (fun f => 2 <=? document_count (docs texts) f) (sorted_strings (dedup (List.concat (docs texts)))).
  Lemma docs_count texts f : document_count (docs texts) f = length (filter (fun e => mem f (ngrams (words (snd e)))) texts).
  Proof. unfold document_count, docs, vals. rewrite map_map, filter_map_length. reflexivity. Qed.

  Lemma common_count texts f : NoDup (keys texts) -> (2 <= document_count (docs texts) f <-> common_phrase words texts f).
  Proof.
    intro N. rewrite docs_count, (filter_two (fun t => mem f (ngrams (words t))) texts N).
    split; intros (x & y & s & t & NE & X & Y & A & B); exists x, y, s, t;
      rewrite ?mem_In, ?ngrams_phrase in *; auto.
  Qed.

  Lemma features_In texts f : NoDup (keys texts) -> (In f (features texts) <-> common_phrase words texts f).
  Proof.
    intro N. unfold features. rewrite filter_In, Nat.leb_le, common_count by auto. split; [tauto|]. intro C. split; auto.
    apply (Permutation_in _ (sorted_strings_perm _)). apply dedup_In. apply in_concat.
    destruct C as (x & y & s & t & _ & X & _ & P & _). exists (ngrams (words s)). split; [|apply ngrams_phrase; auto].
    unfold docs. apply in_map_iff. exists s. split; auto. apply dget_In in X. apply in_map_iff. exists (x, s). auto.
  Qed.

  Lemma features_sorted texts : StronglySorted (fun x y => str_ltb x y = true) (features texts).
  Proof.
    unfold features. set (l := sorted_strings _).
    assert (S : StronglySorted (fun x y => str_ltb x y = true) l) by (apply sorted_strings_sorted, dedup_NoDup).
    clearbody l. induction S as [|x l S IH F]; cbn [filter]; [constructor|]. destruct (2 <=? document_count (docs texts) x); auto. constructor; auto.
    apply Forall_forall. intros y Y. apply filter_In in Y. rewrite Forall_forall in F. apply F. tauto.
  Qed.
End Docs.

Section Vec.
  Variable D : Type.
  Variable words : pystr -> list pystr.
  Variable weight : nat -> nat -> nat -> D.
  Variable normalize : list D -> list D.
  Variable load : pystr -> option (pystr -> list D).
  Notation vect := (vectorize D words weight normalize load).

  Notation docs := (docs words).
  Notation features := (features words).

  Definition row (texts : dict pystr pystr) (t : pystr) : list D :=
    normalize (map (fun f => weight (term_count (ngrams (words t)) f) (document_count (docs texts) f) (length texts)) (features texts)).

  Lemma fit_run texts :
    fit_transform D words weight normalize (vals texts) =
      if Nat.eqb (length (features texts)) 0 then Raise ValueError else Ok (map (fun e => row texts (snd e)) texts).
  Proof.
    unfold fit_transform. fold (docs texts). set (v := dedup (List.concat (docs texts))).
    assert (LD : length (docs texts) = length texts) by (unfold docs, vals; rewrite !map_length; auto).
    destruct (Nat.eqb_spec (length v) 0) as [E|E].
    { assert (F : features texts = []).
      { unfold features. fold v. apply length_zero_iff_nil in E. rewrite E. reflexivity. }
      rewrite F. reflexivity. }
    destruct (Nat.ltb_spec (length (docs texts)) 2) as [L|L].
    { assert (F : features texts = []).
      { destruct (features texts) as [|f l] eqn:Q; auto. assert (I : In f (features texts)) by (rewrite Q; left; auto).
        unfold features in I. apply filter_In in I. destruct I as [_ I]. apply Nat.leb_le in I.
        assert (document_count (docs texts) f <= length (docs texts)); [|lia].
        unfold document_count. clear. induction (docs texts) as [|c l IH]; simpl; [lia|]. destruct (mem f c); simpl; lia. }
      rewrite F. reflexivity. }
    change (filter (fun f => 2 <=? document_count (docs texts) f) (sorted_strings v)) with (features texts).
    destruct (Nat.eqb (length (features texts)) 0); [reflexivity|]. f_equal.
    rewrite LD. unfold row. generalize (features texts), (document_count (docs texts)), (length texts). intros fs dc n.
    unfold docs, vals. rewrite !map_map. reflexivity.
  Qed.

  Lemma texts_run (texts : dict pystr pystr) : NoDup (keys texts) -> rmap (fun data_ID => dlookup data_ID texts) (keys texts) = Ok (vals texts).
  Proof.
    intro N. assert (G : forall l, incl l texts -> rmap (fun x => dlookup x texts) (keys l) = Ok (vals l)).
    { induction l as [|[k v] l IH]; intro I; [reflexivity|]. cbn [keys map fst rmap]. 
      assert (J : dget k texts = Some v) by (apply In_dget; auto; apply I; left; auto).
      unfold dlookup at 1. rewrite J. cbn [rbind]. change (map fst l) with (keys l). rewrite IH; [reflexivity|].
      intros e E. apply I. right. auto. }
    apply G. apply incl_refl.
  Qed.

  Lemma items_run (texts : dict pystr pystr) (g : pystr * pystr -> list D) :
    rmap (fun e => match nth_error (map g texts) (fst e) with Some r => Ok (snd e, r) | None => Raise IndexError end)
      (combine (seq 0 (length texts)) (keys texts)) = Ok (map (fun e => (fst e, g e)) texts).
  Proof.
    assert (G : forall l k, (forall i, nth_error (map g l) i = nth_error (map g texts) (k + i)) ->
       rmap (fun e => match nth_error (map g texts) (fst e) with Some r => Ok (snd e, r) | None => Raise IndexError end)
         (combine (seq k (length l)) (keys l)) = Ok (map (fun e => (fst e, g e)) l)).
    { induction l as [|e l IH]; intros k H; [reflexivity|]. cbn [length seq keys map combine rmap fst snd].
      assert (H0 := H 0). rewrite Nat.add_0_r in H0. rewrite <- H0. cbn [map nth_error rbind].
      change (map fst l) with (keys l). rewrite IH; [reflexivity|]. intro i. specialize (H (S i)). rewrite Nat.add_succ_comm. rewrite <- H. reflexivity. }
    apply (G texts 0). auto.
  Qed.

  Lemma vect_run texts ty name : NoDup (keys texts) ->
    vect texts ty name =
      if eqb ty (str "tfidf") then
        if Nat.eqb (length (features texts)) 0 then Raise ValueError else Ok (map (fun e => (fst e, row texts (snd e))) texts)
      else if eqb ty (str "spacy") then
        match load name with None => Raise ValueError | Some vector => Ok (map (fun e => (fst e, vector (snd e))) texts) end
      else Raise ValueError.
  Proof.
    intro N. unfold vectorize. destruct (eqb ty (str "tfidf")).
    - rewrite texts_run by auto. cbn [rbind]. rewrite fit_run. destruct (Nat.eqb (length (features texts)) 0); [reflexivity|]. cbn [rbind].
      rewrite (items_run texts (fun e => row texts (snd e))). cbn [rbind]. rewrite dict_of_items_id; auto.
      rewrite (keys_map (fun e => row texts (snd e))). auto.
    - destruct (eqb ty (str "spacy")); [|reflexivity]. destruct (load name) as [vector|]; [|reflexivity].
      rewrite dict_of_items_id; auto. rewrite (keys_map (fun e => vector (snd e))). auto.
  Qed.
End Vec.

(** A phrase that two texts share gives a word that they share. *)
Fixpoint first_word (s : pystr) : pystr :=
  match s with [] => [] | c :: s' => if N.eqb c 32 then [] else c :: first_word s' end.

Lemma first_word_app w s : ~ In 32%N w -> first_word (w ++ 32%N :: s) = w.
Proof.
  induction w as [|c w IH]; cbn [app first_word]; intro N; [reflexivity|].
  destruct (N.eqb_spec c 32) as [->|_]; [destruct N; left; reflexivity|]. f_equal. apply IH. intro I. apply N. right. auto.
Qed.

Lemma first_word_id w : ~ In 32%N w -> first_word w = w.
Proof.
  induction w as [|c w IH]; cbn [first_word]; intro N; [reflexivity|].
  destruct (N.eqb_spec c 32) as [->|_]; [destruct N; left; reflexivity|]. f_equal. apply IH. intro I. apply N. right. auto.
Qed.

Lemma phrase_word words t f : plain_words words -> phrase words t f -> In (first_word f) (words t).
Proof.
  intros P (bf & ws & af & E & L & S). destruct ws as [|w ws]; [simpl in L; lia|].
  assert (I : In w (words t)) by (rewrite E; apply in_or_app; right; left; auto).
  assert (N := P _ _ I). inversion S; subst; [rewrite first_word_id by auto|cbn [app]; rewrite first_word_app by auto]; auto.
Qed.

Lemma word_phrase words t w : In w (words t) -> phrase words t w.
Proof.
  intro I. apply in_split in I. destruct I as (l1 & l2 & E). exists l1, [w], l2. split; auto. split; [simpl; lia|constructor].
Qed.

Lemma common_word_phrase words texts : plain_words words ->
  ((exists f, common_phrase words texts f) <-> (exists w, common_word words texts w)).
Proof.
  intro P. split.
  - intros (f & x & y & s & t & NE & X & Y & A & B). exists (first_word f), x, y, s, t.
    repeat (split; auto); apply phrase_word; auto.
  - intros (w & x & y & s & t & NE & X & Y & A & B). exists w, x, y, s, t. repeat (split; auto); apply word_phrase; auto.
Qed.

(*PROP C56: a vectorization is about exactly the IDs of the texts, in their order; its vectors cover the manager that the usage guide creates from the same texts. *)
Lemma C56_vectorize_ids_proof :
  forall D words weight normalize load texts vectorizer_type name (d : dict pystr (list D)),
    NoDup (keys texts) -> vectorize D words weight normalize load texts vectorizer_type name = Ok d ->
    keys d = keys texts /\ covers (Some d) (init (keys texts)).
Proof.
  intros D words weight normalize load texts ty name d N E. rewrite vect_run in E by auto.
  assert (K : keys d = keys texts).
  { destruct (eqb ty (str "tfidf")).
    - destruct (Nat.eqb _ 0); [discriminate|]. injection E; intros <-. apply (keys_map (fun e => row D words weight normalize texts (snd e))).
    - destruct (eqb ty (str "spacy")); [|discriminate]. destruct (load name) as [v|]; [|discriminate]. injection E; intros <-.
      apply (keys_map (fun e => v (snd e))). }
  split; auto. exists d. split; auto. intros x X. rewrite K. apply managed_ids in X. rewrite init_ids in X. apply (proj1 (dedup_In _ _)) in X. exact X.
Qed.

(*EX
Example C56_vectorize_ex :
  vectorize nat ex_words (fun tf df n => tf * n) (fun r => r) (fun _ => None)
    [(str "1", str "lost card again"); (str "0", str "card again again")] (str "tfidf") fr =
  Ok [(str "1", [2; 2; 2]); (str "0", [4; 2; 2])].
Proof. vm_compute. reflexivity. Qed.
EX*)

(*PROP C84 (what fails): tf-idf vectorization raises ValueError whenever no word occurs in two texts, for instance for a single text. *)
Lemma C84_vectorize_total_refuted_proof :
  forall D words weight normalize load (texts : dict pystr pystr) name,
    NoDup (keys texts) -> plain_words words -> (length texts <= 1 \/ ~ exists w, common_word words texts w) ->
    vectorize D words weight normalize load texts (str "tfidf") name = Raise ValueError.
Proof.
  intros D words weight normalize load texts name N P H. rewrite vect_run, eqb_refl by auto.
  destruct (features words texts) as [|f l] eqn:F; [reflexivity|]. exfalso.
  assert (C : common_phrase words texts f) by (apply (proj1 (features_In words texts f N)); rewrite F; left; auto).
  destruct H as [H|H]; [|apply H, common_word_phrase; eauto].
  destruct C as (x & y & s & t & NE & X & Y & _). apply dget_In in X. apply dget_In in Y.
  destruct texts as [|e [|]]; simpl in *; try tauto; try lia. destruct X as [X|[]], Y as [Y|[]]. congruence.
Qed.

(*EX
Example C84_refuted_ex :
  vectorize nat ex_words (fun tf df n => tf * n) (fun r => r) (fun _ => None) [(str "0", str "lost card"); (str "1", str "open account")] (str "tfidf") fr
  = Raise ValueError.
Proof. vm_compute. reflexivity. Qed.
EX*)

(*PROP C84 (exact): vectorization never raises anything but ValueError, and does so exactly for tf-idf without a common word, for spaCy with a model that is not installed, and for other vectorizers. *)
Lemma C84_vectorize_total_partial_proof :
  forall D words weight normalize load (texts : dict pystr pystr) vectorizer_type name e,
    NoDup (keys texts) -> plain_words words ->
    (vectorize D words weight normalize load texts vectorizer_type name = Raise e <->
     e = ValueError /\
     ((vectorizer_type = str "tfidf" /\ ~ exists w, common_word words texts w) \/
      (vectorizer_type = str "spacy" /\ load name = None) \/
      (vectorizer_type <> str "tfidf" /\ vectorizer_type <> str "spacy"))).
Proof.
  intros D words weight normalize load texts ty name e N P. rewrite vect_run by auto.
  assert (TS : str "tfidf" <> str "spacy").
  { intro X. apply (f_equal (eqb (str "spacy"))) in X. vm_compute in X. discriminate. }
  assert (F : length (features words texts) = 0 <-> ~ exists w, common_word words texts w).
  { rewrite <- common_word_phrase by auto. split.
    - intros L (f & C). apply features_In in C; auto. apply length_zero_iff_nil in L. rewrite L in C. destruct C.
    - intro C. destruct (features words texts) as [|f l] eqn:Q; auto. exfalso. apply C. exists f. apply features_In; auto. rewrite Q. left; auto. }
  destruct (eqb_spec ty (str "tfidf")) as [->|N1].
  - destruct (Nat.eqb_spec (length (features words texts)) 0) as [L|L].
    + split; [intro X; split; [congruence|]; left; tauto|]. intros [-> _]. reflexivity.
    + split; [discriminate|]. intros (_ & [(_ & X)|[(X & _)|(X & _)]]); tauto.
  - destruct (eqb_spec ty (str "spacy")) as [->|N2].
    + destruct (load name).
      * split; [discriminate|]. intros (_ & [(X & _)|[(_ & X)|(_ & X)]]); congruence.
      * split; [intro X; split; [congruence|]; right; left; auto|]. intros [-> _]. reflexivity.
    + split; [intro X; split; [congruence|]; right; right; auto|]. intros [-> _]. reflexivity.
Qed.

(*EX
Example C84_ex : common_word ex_words [(str "0", str "lost card"); (str "1", str "my card")] (str "card").
Proof.
  exists (str "0"), (str "1"), (str "lost card"), (str "my card"). split; [discriminate|]. split; [reflexivity|]. split; [reflexivity|].
  vm_compute. tauto.
Qed.
EX*)

(*PROP C85: the vectors do not depend on the order in which the texts are given: the same texts in another order give the same vector for each ID, or the same error. *)
Lemma C85_order_of_texts_proof :
  forall D words weight normalize load (texts texts' : dict pystr pystr) vectorizer_type name,
    NoDup (keys texts) -> Permutation texts texts' ->
    match vectorize D words weight normalize load texts vectorizer_type name,
          vectorize D words weight normalize load texts' vectorizer_type name with
    | Ok d, Ok d' => Permutation d d' /\ forall x, dget x d = dget x d'
    | Raise e, Raise e' => e = e'
    | _, _ => False
    end.
Proof.
  intros D words weight normalize load texts texts' ty name N PM.
  assert (PK : Permutation (keys texts) (keys texts')) by (apply Permutation_map; auto).
  assert (N' : NoDup (keys texts')) by (eapply Permutation_NoDup; eauto).
  assert (G : forall g : pystr * pystr -> list D, Permutation (map (fun e => (fst e, g e)) texts) (map (fun e => (fst e, g e)) texts') /\
    forall x, dget x (map (fun e => (fst e, g e)) texts) = dget x (map (fun e => (fst e, g e)) texts')).
  { intro g. assert (PG : Permutation (map (fun e => (fst e, g e)) texts) (map (fun e => (fst e, g e)) texts')) by (apply Permutation_map; auto).
    split; auto. intro x.
    assert (K := keys_map g texts). assert (K' := keys_map g texts').
    destruct (dget x (map (fun e => (fst e, g e)) texts)) as [v|] eqn:E.
    - symmetry. apply In_dget; [rewrite K'; auto|]. apply (Permutation_in _ PG). apply dget_In. auto.
    - symmetry. apply dget_None. apply dget_None in E. intro I. apply E. rewrite K. rewrite K' in I.
      apply (Permutation_in _ (Permutation_sym PK)). auto. }
  assert (DC : forall f, document_count (docs words texts) f = document_count (docs words texts') f).
  { intro f. unfold document_count. apply Permutation_length. clear -PM.
    assert (P : Permutation (docs words texts) (docs words texts')) by (apply Permutation_map, Permutation_map; auto).
    revert P. generalize (docs words texts), (docs words texts'). clear. intros l l' P. induction P; simpl; auto.
    - destruct (mem f x); auto.
    - destruct (mem f x), (mem f y); auto. constructor.
    - eapply Permutation_trans; eauto. }
  assert (F : features words texts = features words texts').
  { apply sorted_unique; try apply features_sorted. intro f. rewrite !features_In by auto.
    rewrite <- !common_count by auto. rewrite DC. tauto. }
  assert (L : length texts = length texts') by (apply Permutation_length; auto).
  rewrite !vect_run by auto. rewrite <- F. destruct (eqb ty (str "tfidf")).
  - destruct (Nat.eqb (length (features words texts)) 0); [reflexivity|].
    assert (R : forall t, row D words weight normalize texts t = row D words weight normalize texts' t).
    { intro t. unfold row. rewrite <- F, L. f_equal. apply map_ext. intro f. rewrite DC. reflexivity. }
    rewrite (map_ext (fun e => (fst e, row D words weight normalize texts' (snd e))) (fun e => (fst e, row D words weight normalize texts (snd e)))).
    + apply (G (fun e => row D words weight normalize texts (snd e))).
    + intro e. rewrite R. reflexivity.
  - destruct (eqb ty (str "spacy")); [|reflexivity]. destruct (load name) as [v|]; [|reflexivity]. apply (G (fun e => v (snd e))).
Qed.

(*EX
Example C85_ex :
  vectorize nat ex_words (fun tf df n => tf * n) (fun r => r) (fun _ => None)
    [(str "0", str "card again again"); (str "1", str "lost card again")] (str "tfidf") fr =
  Ok [(str "0", [4; 2; 2]); (str "1", [2; 2; 2])].
Proof. vm_compute. reflexivity. Qed.
EX*)

(*PROP C86: the columns of a tf-idf vectorization are the phrases of one to three words that occur in at least two texts, sorted; an entry before normalization depends on the number of occurrences of the phrase in the text, the number of texts that hold it and the number of texts.  All the vectors have the same dimension when the normalization keeps it. *)
Lemma C86_tfidf_definition_proof :
  forall D words weight normalize load (texts : dict pystr pystr) name (d : dict pystr (list D)),
    NoDup (keys texts) -> vectorize D words weight normalize load texts (str "tfidf") name = Ok d ->
    exists columns, columns <> [] /\ StronglySorted (fun x y => str_ltb x y = true) columns /\
      (forall f, In f columns <-> common_phrase words texts f) /\
      (forall x t, dget x texts = Some t -> exists raw, dget x d = Some (normalize raw) /\
         Forall2 (fun f v => exists occ hs, occurrences (words t) f occ /\ holders words texts f hs /\
                               v = weight (length occ) (length hs) (length texts)) columns raw) /\
      ((forall r, length (normalize r) = length r) -> forall x v, dget x d = Some v -> length v = length columns).
Proof.
  intros D words weight normalize load texts name d N E. rewrite vect_run, eqb_refl in E by auto.
  destruct (Nat.eqb_spec (length (features words texts)) 0) as [L|L]; [discriminate|]. injection E; intros <-. clear E.
  exists (features words texts). split; [intro X; rewrite X in L; apply L; reflexivity|]. split; [apply features_sorted|].
  split; [intro; apply features_In; auto|]. split.
  - intros x t X. eexists. split; [rewrite dget_map, X; reflexivity|].
    assert (G : forall l, Forall2 (fun f v => exists occ hs, occurrences (words t) f occ /\ holders words texts f hs /\
                               v = weight (length occ) (length hs) (length texts)) l
      (map (fun f => weight (term_count (ngrams (words t)) f) (document_count (docs words texts) f) (length texts)) l)); [|apply G].
    induction l as [|f l IH]; cbn [map]; constructor; auto.
    destruct (term_count_spec (words t) f) as (occ & O & ->).
    exists occ, (map fst (filter (fun e => mem f (ngrams (words (snd e)))) texts)).
    split; auto. rewrite map_length, docs_count. split; auto. split.
    + clear -N. induction texts as [|e l IH]; simpl in *; [constructor|]. inversion N; subst.
      destruct (mem f _); simpl; auto. constructor; auto. intro J. apply H1. apply in_map_iff in J. destruct J as (e' & E & J).
      apply filter_In in J. apply in_map_iff. exists e'. tauto.
    + intro y. rewrite in_map_iff. split.
      * intros ([y' u] & <- & J). apply filter_In in J. destruct J as [J M]. exists u. cbn [fst snd] in *.
        split; [apply In_dget; auto|]. apply mem_In in M. apply ngrams_phrase. auto.
      * intros (u & Y & P). exists (y, u). split; auto. apply filter_In. split; [apply dget_In; auto|].
        apply mem_In. apply ngrams_phrase. auto.
  - intros KL x v V. rewrite dget_map in V. destruct (dget x texts); [|discriminate]. injection V; intros <-.
    unfold row. rewrite KL, map_length. reflexivity.
Qed.

(*EX
(** Columns "again", "card", "card again". *)
Example C86_ex :
  vectorize (nat * nat * nat) ex_words (fun tf df n => (tf, df, n)) (fun r => r) (fun _ => None)
    [(str "0", str "card again again"); (str "1", str "lost card again"); (str "2", str "card lost"); (str "3", str "xyz")] (str "tfidf") fr =
  Ok [(str "0", [(2, 2, 4); (1, 3, 4); (1, 2, 4); (0, 2, 4)]); (str "1", [(1, 2, 4); (1, 3, 4); (1, 2, 4); (1, 2, 4)]);
      (str "2", [(0, 2, 4); (1, 3, 4); (0, 2, 4); (1, 2, 4)]); (str "3", [(0, 2, 4); (0, 3, 4); (0, 2, 4); (0, 2, 4)])].
Proof. vm_compute. reflexivity. Qed.
EX*)
