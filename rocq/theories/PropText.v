(** Generated from TextThms.v by tools/gen_props.py: theorem statements,
    each closed by the lemma of the same name proved there. *)

From Coq Require Import String List Bool Arith NArith Permutation Sorted Lia.
From Verif Require Import Base Manager Spec SamplingSpec Text TextSpec TextThms.
Import ListNotations.
Open Scope nat_scope.

(** Oracles for the examples: lower case of ASCII letters, NFKD of a few characters, one
    token for each word; "the" is a stop word. *)
Definition ex_lower (s : pystr) : pystr := map (fun c => if (65 <=? c)%N && (c <=? 90)%N then (c + 32)%N else c) s.
Definition ex_nfkd (s : pystr) : pystr :=
  flat_map (fun c => if N.eqb c 233 then [101; 769] else if N.eqb c 8482 then [84; 77] else if N.eqb c 8229 then [46; 46] else [c])%N s.
Definition ex_combining (c : N) : bool := N.eqb c 769.
Fixpoint ex_split (w s : pystr) : list pystr :=
  match s with
  | [] => [w]
  | c :: s' => if N.eqb c 32 then w :: [c] :: ex_split [] s' else ex_split (w ++ [c]) s'
  end.
Definition ex_nlp (s : pystr) : list token :=
  map (fun w => mkToken w (removelast w) (eqb w [32%N]) false false (eqb w (str "the")) 0)
    (filter (fun w => negb (eqb w [])) (ex_split [] s)).
Definition ex_load (name : pystr) := if eqb name (str "fr_core_news_md") then Some ex_nlp else None.
Definition ex_words (s : pystr) : list pystr := filter (fun w => 2 <=? length w) (ex_split [] s).
Definition fr := str "fr_core_news_md".


(** C56: preprocessing raises ValueError exactly when the language model is not installed (even without any text); otherwise it returns one text for each ID, in the order of the IDs, and each depends only on its own text. *)
Theorem C56_preprocess_ids :
  forall lower strip nfkd combining load texts stop parse lemma name,
    NoDup (keys texts) ->
    (load name = None -> preprocess lower strip nfkd combining load texts stop parse lemma name = Raise ValueError) /\
    (load name <> None -> exists d, preprocess lower strip nfkd combining load texts stop parse lemma name = Ok d /\
       keys d = keys texts /\
       forall texts' d' x y, NoDup (keys texts') -> preprocess lower strip nfkd combining load texts' stop parse lemma name = Ok d' ->
         dget x texts = dget y texts' -> dget x d = dget y d').
Proof. exact C56_preprocess_ids_proof. Qed.
Print Assumptions C56_preprocess_ids.

Example C56_ex : preprocess ex_lower (fun s => s) ex_nfkd ex_combining ex_load
    [(str "1", str "Look, the Map!"); (str "0", 233%N :: str "T-A")] true false false fr =
  Ok [(str "1", str "look map"); (str "0", str "et a")] /\
  preprocess ex_lower (fun s => s) ex_nfkd ex_combining ex_load [] false false false (str "xx") = Raise ValueError.
Proof. vm_compute. split; reflexivity. Qed.

(** C57: each preprocessed text is made of the allowed tokens of the lower-cased text with the punctuation replaced, in order, as they are or as lemmas, stripped, decomposed, without their combining marks and joined by single spaces. *)
Theorem C57_clean_texts :
  forall lower strip nfkd combining load texts stop parse lemma name nlp d x text,
    NoDup (keys texts) -> load name = Some nlp -> spaces_separate nfkd -> combining 32%N = false ->
    preprocess lower strip nfkd combining load texts stop parse lemma name = Ok d -> dget x texts = Some text ->
    exists replaced tokens words out,
      Forall2 (fun c c' => (listed_punctuation c /\ c' = 32%N) \/ (~ listed_punctuation c /\ c' = c)) (lower text) replaced /\
      selected (allowed_token stop parse) (nlp replaced) tokens /\
      Forall2 (fun t w => stripped combining (nfkd (strip (if lemma then tk_lemma t else tk_text t))) w) tokens words /\
      spaced words out /\ dget x d = Some out /\ (forall c, In c out -> combining c = false).
Proof. exact C57_clean_texts_proof. Qed.
Print Assumptions C57_clean_texts.

Example C57_ex : preprocess ex_lower (fun s => s) ex_nfkd ex_combining ex_load [(str "0", str "the c" ++ [233%N] ++ str "dre")] false false true fr =
  Ok [(str "0", str "th cedr")] /\ ex_combining 32 = false.
Proof. vm_compute. split; reflexivity. Qed.
Example C57_ex_spaces : spaces_separate ex_nfkd.
Proof. split; [reflexivity|]. intros s s'. unfold ex_nfkd. rewrite flat_map_app. reflexivity. Qed.

(** C57: turning an option on only removes words. *)
Theorem C57_options_remove_words :
  forall lower strip nfkd combining load texts stop parse stop' parse' lemma name d d' x text,
    NoDup (keys texts) -> spaces_separate nfkd -> combining 32%N = false ->
    (stop = true -> stop' = true) -> (parse = true -> parse' = true) ->
    preprocess lower strip nfkd combining load texts stop parse lemma name = Ok d ->
    preprocess lower strip nfkd combining load texts stop' parse' lemma name = Ok d' -> dget x texts = Some text ->
    exists words words' out out', spaced words out /\ spaced words' out' /\ subsequence words' words /\
      dget x d = Some out /\ dget x d' = Some out'.
Proof. exact C57_options_remove_words_proof. Qed.
Print Assumptions C57_options_remove_words.

(** C83 (what fails): punctuation is replaced and letters are lower-cased before the decomposition, which brings new ones: with the values that Python gives for U+2122 (trade mark sign) and U+2025 (two dot leader) the preprocessed texts are "TM" and "..". *)
Theorem C83_no_punctuation_refuted :
  forall (lower strip nfkd : pystr -> pystr) combining load name stop parse,
    lower [8482%N] = [8482%N] -> lower [8229%N] = [8229%N] -> strip [8482%N] = [8482%N] -> strip [8229%N] = [8229%N] ->
    nfkd [8482%N] = str "TM" -> nfkd [8229%N] = str ".." -> (forall c, In c (str "TM.") -> combining c = false) ->
    (exists nlp, load name = Some nlp /\
       forall c, In c [8482%N; 8229%N] -> exists lemma, nlp [c] = [mkToken [c] lemma false false false false 0]) ->
    preprocess lower strip nfkd combining load [(str "0", [8482%N]); (str "1", [8229%N])] stop parse false name
      = Ok [(str "0", str "TM"); (str "1", str "..")].
Proof. exact C83_no_punctuation_refuted_proof. Qed.
Print Assumptions C83_no_punctuation_refuted.

Example C83_ex : preprocess ex_lower (fun s => s) ex_nfkd ex_combining ex_load [(str "0", [8482%N]); (str "1", [8229%N])] true true false fr
  = Ok [(str "0", str "TM"); (str "1", str "..")].
Proof. vm_compute. reflexivity. Qed.

(** C83 (what holds, without lemmas): every character of a preprocessed text is a space or comes from the decomposition of a character of the lower-cased text that is not listed as punctuation.  Missing: the decomposition itself, and lemmas, may bring punctuation and capitals. *)
Theorem C83_no_punctuation_partial :
  forall lower strip nfkd combining load texts stop parse name nlp d x text out c,
    NoDup (keys texts) -> load name = Some nlp -> characterwise nfkd -> only_removes strip -> from_text nlp -> nfkd [32%N] = [32%N] ->
    preprocess lower strip nfkd combining load texts stop parse false name = Ok d ->
    dget x texts = Some text -> dget x d = Some out -> In c out ->
    c = 32%N \/ exists c0, In c0 (lower text) /\ ~ listed_punctuation c0 /\ In c (nfkd [c0]).
Proof. exact C83_no_punctuation_partial_proof. Qed.
Print Assumptions C83_no_punctuation_partial.

Example C83_partial_ex : characterwise ex_nfkd /\ ex_nfkd [32%N] = [32%N] /\ only_removes (fun s => s).
Proof.
  split; [|split; [reflexivity|intros s c H; exact H]]. intros s c H. unfold ex_nfkd in *. apply in_flat_map in H.
  destruct H as (c0 & I & H). exists c0. split; auto. simpl. rewrite app_nil_r. exact H.
Qed.

(** C56: a vectorization is about exactly the IDs of the texts, in their order; its vectors cover the manager that the usage guide creates from the same texts. *)
Theorem C56_vectorize_ids :
  forall D words weight normalize load texts vectorizer_type name (d : dict pystr (list D)),
    NoDup (keys texts) -> vectorize D words weight normalize load texts vectorizer_type name = Ok d ->
    keys d = keys texts /\ covers (Some d) (init (keys texts)).
Proof. exact C56_vectorize_ids_proof. Qed.
Print Assumptions C56_vectorize_ids.

Example C56_vectorize_ex :
  vectorize nat ex_words (fun tf df n => tf * n) (fun r => r) (fun _ => None)
    [(str "1", str "lost card again"); (str "0", str "card again again")] (str "tfidf") fr =
  Ok [(str "1", [2; 2; 2]); (str "0", [4; 2; 2])].
Proof. vm_compute. reflexivity. Qed.

(** C84 (what fails): tf-idf vectorization raises ValueError whenever no word occurs in two texts, for instance for a single text. *)
Theorem C84_vectorize_total_refuted :
  forall D words weight normalize load (texts : dict pystr pystr) name,
    NoDup (keys texts) -> plain_words words -> (length texts <= 1 \/ ~ exists w, common_word words texts w) ->
    vectorize D words weight normalize load texts (str "tfidf") name = Raise ValueError.
Proof. exact C84_vectorize_total_refuted_proof. Qed.
Print Assumptions C84_vectorize_total_refuted.

Example C84_refuted_ex :
  vectorize nat ex_words (fun tf df n => tf * n) (fun r => r) (fun _ => None) [(str "0", str "lost card"); (str "1", str "open account")] (str "tfidf") fr
  = Raise ValueError.
Proof. vm_compute. reflexivity. Qed.

(** C84 (exact): vectorization never raises anything but ValueError, and does so exactly for tf-idf without a common word, for spaCy with a model that is not installed, and for other vectorizers. *)
Theorem C84_vectorize_total_partial :
  forall D words weight normalize load (texts : dict pystr pystr) vectorizer_type name e,
    NoDup (keys texts) -> plain_words words ->
    (vectorize D words weight normalize load texts vectorizer_type name = Raise e <->
     e = ValueError /\
     ((vectorizer_type = str "tfidf" /\ ~ exists w, common_word words texts w) \/
      (vectorizer_type = str "spacy" /\ load name = None) \/
      (vectorizer_type <> str "tfidf" /\ vectorizer_type <> str "spacy"))).
Proof. exact C84_vectorize_total_partial_proof. Qed.
Print Assumptions C84_vectorize_total_partial.

Example C84_ex : common_word ex_words [(str "0", str "lost card"); (str "1", str "my card")] (str "card").
Proof.
  exists (str "0"), (str "1"), (str "lost card"), (str "my card"). split; [discriminate|]. split; [reflexivity|]. split; [reflexivity|].
  vm_compute. tauto.
Qed.

(** C85: the vectors do not depend on the order in which the texts are given: the same texts in another order give the same vector for each ID, or the same error. *)
Theorem C85_order_of_texts :
  forall D words weight normalize load (texts texts' : dict pystr pystr) vectorizer_type name,
    NoDup (keys texts) -> Permutation texts texts' ->
    match vectorize D words weight normalize load texts vectorizer_type name,
          vectorize D words weight normalize load texts' vectorizer_type name with
    | Ok d, Ok d' => Permutation d d' /\ forall x, dget x d = dget x d'
    | Raise e, Raise e' => e = e'
    | _, _ => False
    end.
Proof. exact C85_order_of_texts_proof. Qed.
Print Assumptions C85_order_of_texts.

Example C85_ex :
  vectorize nat ex_words (fun tf df n => tf * n) (fun r => r) (fun _ => None)
    [(str "0", str "card again again"); (str "1", str "lost card again")] (str "tfidf") fr =
  Ok [(str "0", [4; 2; 2]); (str "1", [2; 2; 2])].
Proof. vm_compute. reflexivity. Qed.

(** C86: the columns of a tf-idf vectorization are the phrases of one to three words that occur in at least two texts, sorted; an entry before normalization depends on the number of occurrences of the phrase in the text, the number of texts that hold it and the number of texts.  All the vectors have the same dimension when the normalization keeps it. *)
Theorem C86_tfidf_definition :
  forall D words weight normalize load (texts : dict pystr pystr) name (d : dict pystr (list D)),
    NoDup (keys texts) -> vectorize D words weight normalize load texts (str "tfidf") name = Ok d ->
    exists columns, columns <> [] /\ StronglySorted (fun x y => str_ltb x y = true) columns /\
      (forall f, In f columns <-> common_phrase words texts f) /\
      (forall x t, dget x texts = Some t -> exists raw, dget x d = Some (normalize raw) /\
         Forall2 (fun f v => exists occ hs, occurrences (words t) f occ /\ holders words texts f hs /\
                               v = weight (length occ) (length hs) (length texts)) columns raw) /\
      ((forall r, length (normalize r) = length r) -> forall x v, dget x d = Some v -> length v = length columns).
Proof. exact C86_tfidf_definition_proof. Qed.
Print Assumptions C86_tfidf_definition.

(** Columns "again", "card", "card again". *)
Example C86_ex :
  vectorize (nat * nat * nat) ex_words (fun tf df n => (tf, df, n)) (fun r => r) (fun _ => None)
    [(str "0", str "card again again"); (str "1", str "lost card again"); (str "2", str "card lost"); (str "3", str "xyz")] (str "tfidf") fr =
  Ok [(str "0", [(2, 2, 4); (1, 3, 4); (1, 2, 4); (0, 2, 4)]); (str "1", [(1, 2, 4); (1, 3, 4); (1, 2, 4); (1, 2, 4)]);
      (str "2", [(0, 2, 4); (1, 3, 4); (0, 2, 4); (1, 2, 4)]); (str "3", [(0, 2, 4); (0, 3, 4); (0, 2, 4); (0, 2, 4)])].
Proof. vm_compute. reflexivity. Qed.
