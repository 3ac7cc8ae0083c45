(** * Model of [preprocess] and [vectorize]
    (/repo/src/cognitivefactory/interactive_clustering/utils/preprocessing.py:26-201,
    /repo/src/cognitivefactory/interactive_clustering/utils/vectorization.py:25-132).

    Oracles: the spaCy pipelines (a name is installed or not; a pipeline is a function of
    the text), [str.lower], [str.strip], [unicodedata.normalize("NFKD", _)],
    [unicodedata.combining], scikit-learn's word tokenizer, the weight of a term and the
    normalization of a row.  The rest of [TfidfVectorizer] (n-grams, vocabulary, pruning) is
    modelled after its documentation; scikit-learn is not in /repo.

    Simplifications: texts are strings ([str(text)] is the identity; in [preprocess] its
    result is overwritten by [text.lower()] anyway, 152-155); a sparse row is the list of
    its entries. *)

From Coq Require Import String List Bool Arith NArith.
From Verif Require Import Base Sampling Rename.
Import ListNotations.
Open Scope py_scope.

(** The attributes of a spaCy token that are read; [tk_ancestors] is [len(list(token.ancestors))]. *)
Record token := mkToken {
  tk_text : pystr; tk_lemma : pystr;
  tk_is_space : bool; tk_is_punct : bool; tk_is_quote : bool; tk_is_stop : bool;
  tk_ancestors : nat }.

(** The keys of [punctuation_translator] (92-129). *)
Definition punctuation : list N :=
  [46; 44; 59; 58; 33; 161; 63; 191; 8230; 8226; 40; 41; 123; 125; 91; 93; 171; 187; 94; 96; 39; 34; 92; 47; 124; 45; 95; 35; 38; 126; 64]%N.
Definition space : N := 32%N.

(** [translate(punctuation_translator)] *)
Definition translate (s : pystr) : pystr := map (fun c => if mem c punctuation then space else c) s.

(** [sep.join(l)] with the separator [" "]. *)
Fixpoint join_words (l : list pystr) : pystr :=
  match l with
  | [] => []
  | [w] => w
  | w :: l' => w ++ space :: join_words l'
  end.

(** [{k: v for k, v in items}] *)
Definition dict_of_items {V} (items : list (pystr * V)) : dict pystr V := fold_left (fun d e => dset (fst e) (snd e) d) items [].

Section Preprocessing.
  Variable lower strip nfkd : pystr -> pystr.
  Variable combining : N -> bool.
  (** [spacy.load]: [None] when the model is not installed. *)
  Variable spacy_load : pystr -> option (pystr -> list token).

  (** The filter of the tokens (164-182). *)
  Definition keep_token (apply_stopwords_deletion apply_parsing_filter : bool) (t : token) : bool :=
    negb (tk_is_space t) && (negb (tk_is_punct t) && negb (tk_is_quote t)) &&
    (negb apply_stopwords_deletion || negb (tk_is_stop t)) &&
    (negb apply_parsing_filter || (tk_ancestors t <=? 1)).

  (** The body of the loop (150-199). *)
  Definition preprocess_text (stop parse lemma : bool) (spacy_nlp : pystr -> list token) (text : pystr) : pystr :=
    let preprocessed_text := lower text in                                                     (* 155 *)
    let preprocessed_text := translate preprocessed_text in                                    (* 158 *)
    let tokens := filter (keep_token stop parse) (spacy_nlp preprocessed_text) in              (* 161-183 *)
    let preprocessed_text :=
      if lemma then join_words (map (fun t => strip (tk_lemma t)) tokens)                      (* 187 *)
      else join_words (map (fun t => strip (tk_text t)) tokens) in                             (* 191 *)
    filter (fun c => negb (combining c)) (nfkd preprocessed_text).                             (* 194-196 *)

  (** [preprocess] (26-201). *)
  Definition preprocess (dict_of_texts : dict pystr pystr) (stop parse lemma : bool) (spacy_language_model : pystr) : res (dict pystr pystr) :=
    match spacy_load spacy_language_model with
    | None => Raise ValueError                                                                 (* 143-144 *)
    | Some spacy_nlp =>
        Ok (fold_left (fun d e => dset (fst e) (preprocess_text stop parse lemma spacy_nlp (snd e)) d) dict_of_texts [])
    end.
End Preprocessing.

Section Vectorization.
  Variable D : Type.
  (** Lower-casing and the pattern of words of scikit-learn. *)
  Variable words : pystr -> list pystr.
  (** Weight of a term from its count in the text, the number of texts that hold it and the number of texts. *)
  Variable weight : nat -> nat -> nat -> D.
  Variable normalize : list D -> list D.
  (** [spacy.load] and the vector of a text. *)
  Variable spacy_load : pystr -> option (pystr -> list D).

  (** [ngram_range=(1, 3)]: the words, then the pairs, then the triples of consecutive words. *)
  Definition windows (n : nat) (l : list pystr) : list pystr :=
    map (fun i => join_words (firstn n (skipn i l))) (seq 0 (S (length l) - n)).
  Definition ngrams (l : list pystr) : list pystr := l ++ windows 2 l ++ windows 3 l.

  (** Number of occurrences in a text; number of texts with the term. *)
  Definition term_count (terms : list pystr) (f : pystr) : nat := length (filter (eqb f) terms).
  Definition document_count (documents : list (list pystr)) (f : pystr) : nat := length (filter (fun terms => mem f terms) documents).

  (** [TfidfVectorizer(analyzer="word", ngram_range=(1, 3), min_df=2).fit_transform(raw_documents)] *)
  Definition fit_transform (raw_documents : list pystr) : res (list (list D)) :=
    let documents := map (fun t => ngrams (words t)) raw_documents in
    let vocabulary := dedup (List.concat documents) in
    if Nat.eqb (length vocabulary) 0 then Raise ValueError            (* empty vocabulary *)
    else if length documents <? 2 then Raise ValueError               (* max_df corresponds to < documents than min_df *)
    else
      let features := filter (fun f => 2 <=? document_count documents f) (sorted_strings vocabulary) in
      if Nat.eqb (length features) 0 then Raise ValueError            (* After pruning, no terms remain *)
      else Ok (map (fun terms =>
                 normalize (map (fun f => weight (term_count terms f) (document_count documents f) (length documents)) features)) documents).

  (** [vectorize] (25-132). *)
  Definition vectorize (dict_of_texts : dict pystr pystr) (vectorizer_type spacy_language_model : pystr) : res (dict pystr (list D)) :=
    if eqb vectorizer_type (str "tfidf") then                                                  (* 81 *)
      texts <-- rmap (fun data_ID => dlookup data_ID dict_of_texts) (keys dict_of_texts) ;;;   (* 93 *)
      rows <-- fit_transform texts ;;;
      items <-- rmap (fun e => match nth_error rows (fst e) with Some row => Ok (snd e, row) | None => Raise IndexError end)
                  (combine (seq 0 (length dict_of_texts)) (keys dict_of_texts)) ;;;            (* 97 *)
      Ok (dict_of_items items)
    else if eqb vectorizer_type (str "spacy") then                                             (* 105 *)
      match spacy_load spacy_language_model with
      | None => Raise ValueError                                                               (* 118-121 *)
      | Some vector => Ok (dict_of_items (map (fun e => (fst e, vector (snd e))) dict_of_texts))  (* 124 *)
      end
    else Raise ValueError.                                                                     (* 132 *)
End Vectorization.
