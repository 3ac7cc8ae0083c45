(** * What preprocessing and vectorization should give. *)

From Coq Require Import String List Bool Arith NArith.
From Verif Require Import Base Text.
Import ListNotations.

(** The tokens that may stay: no spaces, punctuation or quotes; no stop words when they are
    deleted; only roots and their direct children when parsing is used. *)
Definition allowed_token (stop parse : bool) (t : token) : Prop :=
  tk_is_space t = false /\ tk_is_punct t = false /\ tk_is_quote t = false /\
  (stop = true -> tk_is_stop t = false) /\ (parse = true -> tk_ancestors t <= 1).

(** [l'] are the elements of [l] with a property, in order. *)
Inductive selected {A} (P : A -> Prop) : list A -> list A -> Prop :=
| selected_nil : selected P [] []
| selected_keep : forall x l l', P x -> selected P l l' -> selected P (x :: l) (x :: l')
| selected_drop : forall x l l', ~ P x -> selected P l l' -> selected P (x :: l) l'.

(** [l'] is [l] with some elements left out. *)
Inductive subsequence {A} : list A -> list A -> Prop :=
| subsequence_nil : subsequence [] []
| subsequence_keep : forall x l' l, subsequence l' l -> subsequence (x :: l') (x :: l)
| subsequence_drop : forall x l' l, subsequence l' l -> subsequence l' (x :: l).

(** Words with one space between them. *)
Inductive spaced : list pystr -> pystr -> Prop :=
| spaced_nil : spaced [] []
| spaced_one : forall w, spaced [w] w
| spaced_more : forall w l s, l <> [] -> spaced l s -> spaced (w :: l) (w ++ [32%N] ++ s).

(** A word without its combining marks. *)
Inductive stripped (combining : N -> bool) : pystr -> pystr -> Prop :=
| stripped_nil : stripped combining [] []
| stripped_mark : forall c s s', combining c = true -> stripped combining s s' -> stripped combining (c :: s) s'
| stripped_other : forall c s s', combining c = false -> stripped combining s s' -> stripped combining (c :: s) (c :: s').

(** Unicode: a space never combines with its neighbours, so NFKD can be applied to each side. *)
Definition spaces_separate (nfkd : pystr -> pystr) : Prop :=
  nfkd [] = [] /\ forall s s', nfkd (s ++ [32%N] ++ s') = nfkd s ++ [32%N] ++ nfkd s'.

(** Unicode: NFKD decomposes each character. *)
Definition characterwise (nfkd : pystr -> pystr) : Prop :=
  forall s c, In c (nfkd s) -> exists c0, In c0 s /\ In c (nfkd [c0]).

(** spaCy: the texts of the tokens come from the text. *)
Definition from_text (nlp : pystr -> list token) : Prop :=
  forall s t c, In t (nlp s) -> In c (tk_text t) -> In c s.
Definition only_removes (strip : pystr -> pystr) : Prop := forall s c, In c (strip s) -> In c s.

(** The punctuation that is to be replaced, as written in the code. *)
Definition listed_punctuation (c : N) : Prop :=
  In c (str ".,;:!?(){}[]^`'\/|-_#&~@") \/ c = 34%N (* quotation mark *) \/ c = 161%N \/ c = 191%N (* inverted ! and ? *) \/
  c = 8230%N (* ellipsis *) \/ c = 8226%N (* bullet *) \/ c = 171%N \/ c = 187%N (* guillemets *).

(** A word that occurs in two of the texts. *)
Definition common_word (words : pystr -> list pystr) (texts : dict pystr pystr) (w : pystr) : Prop :=
  exists x y s t, x <> y /\ dget x texts = Some s /\ dget y texts = Some t /\ In w (words s) /\ In w (words t).

(** The words of scikit-learn hold no space. *)
Definition plain_words (words : pystr -> list pystr) : Prop := forall t w, In w (words t) -> ~ In 32%N w.

(** One, two or three consecutive words of a text. *)
Definition phrase (words : pystr -> list pystr) (t f : pystr) : Prop :=
  exists before ws after, words t = before ++ ws ++ after /\ 1 <= length ws <= 3 /\ spaced ws f.
(** A phrase that occurs in at least two of the texts. *)
Definition common_phrase (words : pystr -> list pystr) (texts : dict pystr pystr) (f : pystr) : Prop :=
  exists x y s t, x <> y /\ dget x texts = Some s /\ dget y texts = Some t /\ phrase words s f /\ phrase words t f.
(** Positions and lengths of the occurrences of a phrase among the words of a text. *)
Definition occurrences (l : list pystr) (f : pystr) (occ : list (nat * nat)) : Prop :=
  NoDup occ /\ forall i n, In (i, n) occ <-> 1 <= n <= 3 /\ i + n <= length l /\ spaced (firstn n (skipn i l)) f.
(** The IDs of the texts that hold a phrase. *)
Definition holders (words : pystr -> list pystr) (texts : dict pystr pystr) (f : pystr) (ids : list pystr) : Prop :=
  NoDup ids /\ forall x, In x ids <-> exists t, dget x texts = Some t /\ phrase words t f.
