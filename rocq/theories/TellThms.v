(** * What tf-idf vectors tell about the texts. *)

From Coq Require Import String List Bool Arith NArith Lia Permutation Sorted.
From Verif Require Import Base Manager Spec SamplingSpec Text TextSpec TextThms TellSpec.
Import ListNotations.
Open Scope nat_scope.

(*HEADER
From Coq Require Import String List Bool Arith NArith Permutation Sorted Lia.
From Verif Require Import Base Manager Spec SamplingSpec Text TextSpec TellSpec TellThms.
Import ListNotations.
Open Scope nat_scope.
Fixpoint ex_split (w s : pystr) : list pystr :=
  match s with
  | [] => [w]
  | c :: s' => if N.eqb c 32 then w :: ex_split [] s' else ex_split (w ++ [c]) s'
  end.
Definition ex_words (s : pystr) : list pystr := filter (fun w => 2 <=? length w) (ex_split [] s).
HEADER*)

Lemma nodup_same_length {A} (l l' : list A) : NoDup l -> NoDup l' -> (forall x, In x l <-> In x l') -> length l = length l'.
Proof. intros N N' E. apply Permutation_length, NoDup_Permutation; auto. Qed.

Lemma occurrences_length l f occ occ' : occurrences l f occ -> occurrences l f occ' -> length occ = length occ'.
Proof. intros [N E] [N' E']. apply nodup_same_length; auto. intros [i k]. rewrite E, E'. tauto. Qed.
Lemma holders_length words texts f hs hs' : holders words texts f hs -> holders words texts f hs' -> length hs = length hs'.
Proof. intros [N E] [N' E']. apply nodup_same_length; auto. intro x. rewrite E, E'. tauto. Qed.

(** A text holds a phrase exactly when it has an occurrence. *)
Lemma occurrences_phrase words t f occ : occurrences (words t) f occ -> (occ = [] <-> ~ phrase words t f).
Proof.
  intros [_ E]. split.
  - intros -> (b & ws & a & Ew & Lw & Sp). assert (X : In (length b, length ws) []).
    { apply E. split; [lia|]. rewrite Ew, !app_length. split; [lia|]. rewrite skipn_app, skipn_all, Nat.sub_diag. simpl.
      rewrite firstn_app, Nat.sub_diag, firstn_all. simpl. rewrite app_nil_r. auto. }
    destruct X.
  - intro NP. destruct occ as [|[i k] occ]; auto. exfalso. apply NP. destruct (proj1 (E i k) (or_introl eq_refl)) as (L & Le & Sp).
    exists (firstn i (words t)), (firstn k (skipn i (words t))), (skipn k (skipn i (words t))).
    split; [rewrite (firstn_skipn k (skipn i (words t))), firstn_skipn; auto|]. split; auto.
    rewrite firstn_length, skipn_length. lia.
Qed.

Section Columns.
  Variables (D : Type) (words : pystr -> list pystr) (weight : nat -> nat -> nat -> D) (normalize : list D -> list D) (load : pystr -> option (pystr -> list D)).
  Variables (texts : dict pystr pystr) (name : pystr) (d : dict pystr (list D)).
  Hypothesis N : NoDup (keys texts).
  Hypothesis E : vectorize D words weight normalize load texts (str "tfidf") name = Ok d.
  Variables x y s t : pystr.
  Hypothesis X : dget x texts = Some s.
  Hypothesis Y : dget y texts = Some t.

  Lemma same_counts_same_vector : same_shared_counts words texts s t -> dget x d = dget y d.
  Proof.
    intro SC. destruct (C86_tfidf_definition_proof D words weight normalize load texts name d N E) as (columns & _ & _ & Cs & Vs & _).
    destruct (Vs x s X) as (r & -> & F). destruct (Vs y t Y) as (r' & -> & F'). f_equal. f_equal.
    assert (Cs' : forall f, In f columns -> common_phrase words texts f) by (intros f; apply Cs). clear - SC F F' Cs'. revert r' F'.
    induction F as [|f v columns r (occ & hs & O & Hh & Ev) _ IH]; intros r' F'; inversion F' as [|? v' ? r0 (occ' & hs' & O' & Hh' & Ev') F0]; subst; auto.
    f_equal; [|apply IH; auto; intros; apply Cs'; right; auto]. rewrite (SC f occ occ'), (holders_length words texts f hs hs'); auto. apply Cs'. left; auto.
  Qed.

  Lemma same_vector_same_phrases zero : weight_of_presence zero weight -> keeps_zeros zero normalize ->
    dget x d = dget y d -> same_shared_phrases words texts s t.
  Proof.
    intros WP KZ Eq f Cf. destruct (C86_tfidf_definition_proof D words weight normalize load texts name d N E) as (columns & _ & _ & Cs & Vs & _).
    destruct (Vs x s X) as (r & Er & F). destruct (Vs y t Y) as (r' & Er' & F'). rewrite Er, Er' in Eq. injection Eq as Eq.
    assert (Z : forall i, nth_error r i = Some zero <-> nth_error r' i = Some zero).
    { intro i. rewrite <- (proj2 (KZ r) i), <- (proj2 (KZ r') i), Eq. tauto. }
    apply Cs in Cf. apply In_nth_error in Cf as (i & Ei). clear - F F' Z Ei WP.
    assert (G : forall t r, Forall2 (fun f v => exists occ hs, occurrences (words t) f occ /\ holders words texts f hs /\ v = weight (length occ) (length hs) (length texts)) columns r ->
      (nth_error r i = Some zero <-> ~ phrase words t f) /\ (phrase words t f \/ ~ phrase words t f)).
    { clear - Ei WP. intros t r F. revert i Ei. induction F as [|f0 v columns r (occ & hs & O & Hh & Ev) _ IH]; intros [|i] Ei; try discriminate.
      - injection Ei as ->. rewrite <- (occurrences_phrase words t f occ O). simpl. split.
        + rewrite Ev. split.
          * intro X. injection X as X. apply WP in X. destruct occ; auto; discriminate.
          * intros ->. f_equal. apply WP. auto.
        + destruct occ as [|o occ0] eqn:Eo.
          * right. reflexivity.
          * left. destruct O as [_ O]. destruct o as [j k]. destruct (proj1 (O j k) (or_introl eq_refl)) as (L & Le & Sp).
            exists (firstn j (words t)), (firstn k (skipn j (words t))), (skipn k (skipn j (words t))).
            split; [rewrite (firstn_skipn k (skipn j (words t))), firstn_skipn; auto|]. split; auto. rewrite firstn_length, skipn_length. lia.
      - simpl in *. apply IH; auto. }
    destruct (G s r F) as [G1 D1], (G t r' F') as [G2 D2]. specialize (Z i). tauto.
  Qed.
End Columns.

(*PROP C118 (what fails): tf-idf vectors do not tell different texts apart: all the texts that share no phrase with another text get the same vector. *)
Lemma C118_tell_apart_refuted_proof :
  forall D words weight normalize load (texts : dict pystr pystr) name (d : dict pystr (list D)) x y s t,
    NoDup (keys texts) -> vectorize D words weight normalize load texts (str "tfidf") name = Ok d ->
    dget x texts = Some s -> dget y texts = Some t ->
    (forall f, common_phrase words texts f -> ~ phrase words s f /\ ~ phrase words t f) ->
    dget x d = dget y d.
Proof.
  intros D words weight normalize load texts name d x y s t N E X Y No. eapply same_counts_same_vector; eauto.
  intros f occ occ' C O O'. destruct (No f C) as [A B]. apply (occurrences_phrase words s f occ O) in A. apply (occurrences_phrase words t f occ' O') in B. subst. auto.
Qed.

(*EX
(** "xyz" and "open account" have nothing to do with each other, and get the same vector. *)
Definition requests : dict pystr pystr :=
  [(str "0", str "lost card"); (str "1", str "my card"); (str "2", str "xyz"); (str "3", str "open account")].
Example C118_refuted_ex :
  vectorize nat ex_words (fun tf df n => tf * n) (fun r => r) (fun _ => None) requests (str "tfidf") (str "")
    = Ok [(str "0", [4]); (str "1", [4]); (str "2", [0]); (str "3", [0])].
Proof. vm_compute. reflexivity. Qed.
EX*)

(*PROP C118 (what holds): texts in which the phrases common to two texts occur equally often get the same vector; and texts with the same vector hold the same ones of these phrases, when a weight is zero exactly for a phrase that does not occur and normalization keeps zeros apart from other values. *)
Lemma C118_tell_apart_partial_proof :
  forall D words weight normalize load (texts : dict pystr pystr) name (d : dict pystr (list D)) x y s t,
    NoDup (keys texts) -> vectorize D words weight normalize load texts (str "tfidf") name = Ok d ->
    dget x texts = Some s -> dget y texts = Some t ->
    (same_shared_counts words texts s t -> dget x d = dget y d) /\
    (forall zero, weight_of_presence zero weight -> keeps_zeros zero normalize -> dget x d = dget y d -> same_shared_phrases words texts s t).
Proof.
  intros D words weight normalize load texts name d x y s t N E X Y. split.
  - eapply same_counts_same_vector; eauto.
  - intros zero WP KZ. eapply same_vector_same_phrases; eauto.
Qed.

(*EX
(** Weights as in the theorem (a count, with every text in two), and two texts that are told apart by the phrase "lost card". *)
Definition calls : dict pystr pystr :=
  [(str "0", str "lost card"); (str "1", str "card lost"); (str "2", str "my lost card")].
Example C118_ex :
  weight_of_presence 0 (fun tf df n => tf) /\ keeps_zeros 0 (fun r : list nat => r) /\
  vectorize nat ex_words (fun tf df n => tf) (fun r => r) (fun _ => None) calls (str "tfidf") (str "")
    = Ok [(str "0", [1; 1; 1]); (str "1", [1; 1; 0]); (str "2", [1; 1; 1])] /\
  common_phrase ex_words calls (str "lost card").
Proof.
  split; [intros c df n; tauto|]. split; [intro r; split; auto; tauto|]. split; [vm_compute; reflexivity|].
  exists (str "0"), (str "2"), (str "lost card"), (str "my lost card"). split; [discriminate|]. split; [reflexivity|]. split; [reflexivity|]. split.
  - exists [], [str "lost"; str "card"], []. split; [vm_compute; reflexivity|]. split; [simpl; lia|].
    apply (spaced_more (str "lost") [str "card"]); [discriminate|constructor].
  - exists [str "my"], [str "lost"; str "card"], []. split; [vm_compute; reflexivity|]. split; [simpl; lia|].
    apply (spaced_more (str "lost") [str "card"]); [discriminate|constructor].
Qed.
EX*)
