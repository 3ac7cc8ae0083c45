(** Generated from TellThms.v by tools/gen_props.py: theorem statements,
    each closed by the lemma of the same name proved there. *)

From Coq Require Import String List Bool Arith NArith Permutation Sorted Lia.
From Verif Require Import Base Manager Spec SamplingSpec Text TextSpec TellSpec TellThms.
Import ListNotations.
Open Scope nat_scope.
Fixpoint ex_split (w s : pystr) : list pystr :=
  match s with
  | [] => [w]
  | c :: s' => if N.eqb c 32 then w :: ex_split [] s' else ex_split (w ++ [c]) s'
  end.
Definition ex_words (s : pystr) : list pystr := filter (fun w => 2 <=? length w) (ex_split [] s).

(** C118 (what fails): tf-idf vectors do not tell different texts apart: all the texts that share no phrase with another text get the same vector. *)
Theorem C118_tell_apart_refuted :
  forall D words weight normalize load (texts : dict pystr pystr) name (d : dict pystr (list D)) x y s t,
    NoDup (keys texts) -> vectorize D words weight normalize load texts (str "tfidf") name = Ok d ->
    dget x texts = Some s -> dget y texts = Some t ->
    (forall f, common_phrase words texts f -> ~ phrase words s f /\ ~ phrase words t f) ->
    dget x d = dget y d.
Proof. exact C118_tell_apart_refuted_proof. Qed.
Print Assumptions C118_tell_apart_refuted.

(** "xyz" and "open account" have nothing to do with each other, and get the same vector. *)
Definition requests : dict pystr pystr :=
  [(str "0", str "lost card"); (str "1", str "my card"); (str "2", str "xyz"); (str "3", str "open account")].
Example C118_refuted_ex :
  vectorize nat ex_words (fun tf df n => tf * n) (fun r => r) (fun _ => None) requests (str "tfidf") (str "")
    = Ok [(str "0", [4]); (str "1", [4]); (str "2", [0]); (str "3", [0])].
Proof. vm_compute. reflexivity. Qed.

(** C118 (what holds): texts in which the phrases common to two texts occur equally often get the same vector; and texts with the same vector hold the same ones of these phrases, when a weight is zero exactly for a phrase that does not occur and normalization keeps zeros apart from other values. *)
Theorem C118_tell_apart_partial :
  forall D words weight normalize load (texts : dict pystr pystr) name (d : dict pystr (list D)) x y s t,
    NoDup (keys texts) -> vectorize D words weight normalize load texts (str "tfidf") name = Ok d ->
    dget x texts = Some s -> dget y texts = Some t ->
    (same_shared_counts words texts s t -> dget x d = dget y d) /\
    (forall zero, weight_of_presence zero weight -> keeps_zeros zero normalize -> dget x d = dget y d -> same_shared_phrases words texts s t).
Proof. exact C118_tell_apart_partial_proof. Qed.
Print Assumptions C118_tell_apart_partial.

(** Weights as in the theorem (a count, with every text in two), and two texts that are told apart by the phrase "lost card". *)
Definition calls : dict pystr pystr :=
  [(str "0", str "lost card"); (str "1", str "card lost"); (str "2", str "my lost card")].
Example C118_ex :
  weight_of_presence 0 (fun tf df n => tf) /\ keeps_zeros 0 (fun r : list nat => r) /\
  vectorize nat ex_words (fun tf df n => tf) (fun r => r) (fun _ => None) calls (str "tfidf") (str "")
    = Ok [(str "0", [1; 1; 1]); (str "1", [1; 1; 0]); (str "2", [1; 1; 1])] /\
  common_phrase ex_words calls (str "lost card").
Proof.
  split; [intros c df n; tauto|]. split; [intro r; split; auto; tauto|]. split; [vm_compute; reflexivity|].
  exists (str "0"), (str "2"), (str "lost card"), (str "my lost card"). split; [discriminate|]. split; [reflexivity|]. split; [reflexivity|]. split.
  - exists [], [str "lost"; str "card"], []. split; [vm_compute; reflexivity|]. split; [simpl; lia|].
    apply (spaced_more (str "lost") [str "card"]); [discriminate|constructor].
  - exists [str "my"], [str "lost"; str "card"], []. split; [vm_compute; reflexivity|]. split; [simpl; lia|].
    apply (spaced_more (str "lost") [str "card"]); [discriminate|constructor].
Qed.
