(** * Relational reasoning: the functions of Base.v, Sampling.v, Rename.v and of the managers
    send related arguments to related results.

    [R] relates two sets of names.  It is fixed below; the only thing that is known about it
    is that it respects equality and the order of strings. *)

From Coq Require Import String List Bool Arith ZArith QArith Lia.
From Verif Require Import Base Manager Sampling Rename KMeans.
Import ListNotations.
Open Scope nat_scope.
Open Scope py_scope.

(** ** Relations on compound values *)
Inductive RO {A B} (R : A -> B -> Prop) : option A -> option B -> Prop :=
| RO_none : RO R None None
| RO_some : forall x y, R x y -> RO R (Some x) (Some y).
Inductive RR {A B} (R : A -> B -> Prop) : res A -> res B -> Prop :=
| RR_ok : forall x y, R x y -> RR R (Ok x) (Ok y)
| RR_raise : forall e, RR R (Raise e) (Raise e).
Inductive RP {A B C D} (R : A -> B -> Prop) (S : C -> D -> Prop) : A * C -> B * D -> Prop :=
| RP_pair : forall a b c d, R a b -> S c d -> RP R S (a, c) (b, d).
Notation RL := Forall2.
Notation RD R S := (Forall2 (RP R S)).
(** Methods: related objects become related objects, and related values are returned. *)
Definition RM {S1 S2 A B} (I : S1 -> S2 -> Prop) (R : A -> B -> Prop) (m1 : M S1 A) (m2 : M S2 B) : Prop :=
  forall s1 s2, I s1 s2 -> I (fst (m1 s1)) (fst (m2 s2)) /\ RR R (snd (m1 s1)) (snd (m2 s2)).

Class RelEq {K} `{EqB K} (R : K -> K -> Prop) : Prop := releq : forall x y x' y', R x x' -> R y y' -> eqb x y = eqb x' y'.
#[global] Instance RelEq_eq {K} `{EqB K} : RelEq (@eq K).
Proof. intros x y x' y' -> ->. auto. Qed.
#[global] Instance RelEq_list {K} `{EqB K} (R : K -> K -> Prop) `{RelEq K R} : RelEq (RL R).
Proof.
  intros x y x' y' F G. change (list_eqb x y = list_eqb x' y'). revert y y' G.
  induction F as [|a b l l' Rab F IH]; intros ? ? [|c d k k' Rcd G]; cbn [list_eqb]; auto.
  rewrite (releq _ _ _ _ Rab Rcd), (IH _ _ G). auto.
Qed.

Lemma RL_eq {A} (l l' : list A) : RL eq l l' <-> l = l'.
Proof.
  split; [induction 1; congruence|]. intros <-. induction l; constructor; auto.
Qed.
Lemma RR_eq {A} (l l' : res A) : RR eq l l' <-> l = l'.
Proof. split; [intros [? ? ->|]; auto|]. intros <-. destruct l; constructor; auto. Qed.
Lemma RO_eq {A} (l l' : option A) : RO eq l l' <-> l = l'.
Proof. split; [intros [|? ? ->]; auto|]. intros <-. destruct l; constructor; auto. Qed.
Lemma RR_mono {A B} (R S : A -> B -> Prop) r r' : (forall x y, R x y -> S x y) -> RR R r r' -> RR S r r'.
Proof. intros H [x y E|e]; constructor; auto. Qed.
Lemma RL_mono {A B} (R S : A -> B -> Prop) r r' : (forall x y, R x y -> S x y) -> RL R r r' -> RL S r r'.
Proof. induction 2; constructor; auto. Qed.

(** ** Lists *)
Section Lists.
  Context {A B C D : Type} (R : A -> B -> Prop) (S : C -> D -> Prop).
  Lemma RL_length l l' : RL R l l' -> length l = length l'.
  Proof. induction 1; cbn; auto. Qed.
  Lemma RL_app a a' b b' : RL R a a' -> RL R b b' -> RL R (a ++ b) (a' ++ b').
  Proof. intros F G. induction F; cbn; auto. Qed.
  Lemma RL_rev l l' : RL R l l' -> RL R (rev l) (rev l').
  Proof. induction 1; cbn; auto. apply RL_app; auto. Qed.
  Lemma RL_map f f' l l' : (forall x x', R x x' -> S (f x) (f' x')) -> RL R l l' -> RL S (map f l) (map f' l').
  Proof. intro H. induction 1; cbn; auto. Qed.
  Lemma RL_flat_map f f' l l' : (forall x x', R x x' -> RL S (f x) (f' x')) -> RL R l l' -> RL S (flat_map f l) (flat_map f' l').
  Proof. intro H. induction 1 as [|x y l l' E F IH]; cbn; auto. specialize (H x y E). clear E F. induction H; cbn; auto. Qed.
  Lemma RL_filter p p' l l' : (forall x x', R x x' -> p x = p' x') -> RL R l l' -> RL R (filter p l) (filter p' l').
  Proof. intro H. induction 1 as [|x y l l' E F IH]; cbn; auto. rewrite (H x y E). destruct (p' y); auto. Qed.
  Lemma RL_existsb p p' l l' : (forall x x', R x x' -> p x = p' x') -> RL R l l' -> existsb p l = existsb p' l'.
  Proof. intro H. induction 1 as [|x y l l' E F IH]; cbn; auto. rewrite (H x y E), IH. auto. Qed.
  Lemma RL_forallb p p' l l' : (forall x x', R x x' -> p x = p' x') -> RL R l l' -> forallb p l = forallb p' l'.
  Proof. intro H. induction 1 as [|x y l l' E F IH]; cbn; auto. rewrite (H x y E), IH. auto. Qed.
  Lemma RL_firstn n l l' : RL R l l' -> RL R (firstn n l) (firstn n l').
  Proof. intro F. revert n. induction F; intros [|n]; cbn; auto. Qed.
  Lemma RL_nth_error l l' i : RL R l l' -> RO R (nth_error l i) (nth_error l' i).
  Proof. intro F. revert i. induction F; intros [|i]; cbn; auto; constructor; auto. Qed.
  Lemma RL_fold_left f f' l l' : (forall a a' x x', S a a' -> R x x' -> S (f a x) (f' a' x')) -> RL R l l' -> forall a a', S a a' -> S (fold_left f l a) (fold_left f' l' a').
  Proof. intro H. induction 1; cbn; auto. Qed.
  Lemma RL_combine l l' k k' : RL R l l' -> RL S k k' -> RL (RP R S) (combine l k) (combine l' k').
  Proof. intro F. revert k k'. induction F; intros k k' [|? ? ? ? ? ?]; cbn; auto; constructor; auto. constructor; auto. Qed.
  Lemma RL_prod l l' k k' : RL R l l' -> RL S k k' -> RL (RP R S) (list_prod l k) (list_prod l' k').
  Proof.
    intros F G. induction F as [|x x' l l' E F IH]; cbn; auto. apply Forall2_app; [|exact IH].
    clear - E G. induction G; cbn; auto. constructor; auto. constructor; auto.
  Qed.
  Lemma RP_fst p p' : RP R S p p' -> R (fst p) (fst p').
  Proof. intros []; auto. Qed.
  Lemma RP_snd p p' : RP R S p p' -> S (snd p) (snd p').
  Proof. intros []; auto. Qed.
End Lists.

Lemma RL_enum {A B} (R : A -> B -> Prop) l l' : RL R l l' -> RL (RP eq R) (enum l) (enum l').
Proof. intro F. unfold enum. rewrite (RL_length _ _ _ F). apply RL_combine; auto. apply RL_eq. auto. Qed.
Lemma RL_insert {A} (R : A -> A -> Prop) lt lt' x x' l l' : (forall a a' b b', R a a' -> R b b' -> lt a b = lt' a' b') -> R x x' -> RL R l l' -> RL R (insert_before lt x l) (insert_before lt' x' l').
Proof. intros H E. induction 1 as [|y y' l l' Ey F IH]; cbn; auto. rewrite (H y y' x x') by auto. destruct (lt' y' x'); auto. Qed.
Lemma RL_sorted {A} (R : A -> A -> Prop) lt lt' l l' : (forall a a' b b', R a a' -> R b b' -> lt a b = lt' a' b') -> RL R l l' -> RL R (sorted_by lt l) (sorted_by lt' l').
Proof. intro H. induction 1; cbn; auto. apply RL_insert; auto. Qed.
Lemma RL_py_min {A} (R : A -> A -> Prop) lt lt' l l' : (forall a a' b b', R a a' -> R b b' -> lt a b = lt' a' b') -> RL R l l' -> RR R (py_min lt l) (py_min lt' l').
Proof.
  intro H. intros [|x x' l0 l0' E F]; cbn; constructor. revert x x' E. induction F as [|y y' l0 l0' Ey F IH]; cbn; auto.
  intros x x' E. rewrite (H y y' x x') by auto. destruct (lt' y' x'); auto.
Qed.
Lemma RL_pop_last {A} (R : A -> A -> Prop) l l' : RL R l l' -> RO (RP (RL R) R) (pop_last l) (pop_last l').
Proof. intro F. unfold pop_last. destruct (RL_rev _ _ _ F); constructor. constructor; auto. apply RL_rev; auto. Qed.

(** ** Exceptions *)
Lemma rbind_rel {A A' B B'} (R : A -> A' -> Prop) (S : B -> B' -> Prop) r r' k k' :
  RR R r r' -> (forall x x', R x x' -> RR S (k x) (k' x')) -> RR S (rbind r k) (rbind r' k').
Proof. intros [x y E|e] H; cbn; auto. constructor. Qed.
Lemma rmap_rel {A A' B B'} (R : A -> A' -> Prop) (S : B -> B' -> Prop) f f' l l' :
  (forall x x', R x x' -> RR S (f x) (f' x')) -> RL R l l' -> RR (RL S) (rmap f l) (rmap f' l').
Proof.
  intro H. induction 1 as [|x y l l' E F IH]; cbn; [constructor; auto|]. eapply rbind_rel; [apply H; auto|]. intros a a' Ea.
  eapply rbind_rel; [apply IH|]. intros b b' Eb. constructor. auto.
Qed.
Lemma rfilter_rel {A A'} (R : A -> A' -> Prop) f f' l l' :
  (forall x x', R x x' -> RR eq (f x) (f' x')) -> RL R l l' -> RR (RL R) (rfilter f l) (rfilter f' l').
Proof.
  intro H. induction 1 as [|x y l l' E F IH]; cbn; [constructor; auto|]. eapply rbind_rel; [apply H; auto|]. intros a a' <-.
  eapply rbind_rel; [apply IH|]. intros b b' Eb. constructor. destruct a; auto.
Qed.
Lemma rfold_rel {A A' B B'} (R : A -> A' -> Prop) (S : B -> B' -> Prop) f f' l l' :
  (forall b b' x x', S b b' -> R x x' -> RR S (f b x) (f' b' x')) -> RL R l l' -> forall b b', S b b' -> RR S (rfold f l b) (rfold f' l' b').
Proof.
  intro H. induction 1 as [|x y l l' E F IH]; cbn; intros b b' Eb; [constructor; auto|]. eapply rbind_rel; [apply H; eauto|]. auto.
Qed.

(** ** Dictionaries *)
Section Dicts.
  Context {K : Type} `{EqB K} (R : K -> K -> Prop) `{RelEq K R}.
  Lemma mem_rel x x' l l' : R x x' -> RL R l l' -> mem x l = mem x' l'.
  Proof. intros E F. induction F; cbn; auto. rewrite (releq x x0 x' y) by auto. rewrite IHF. auto. Qed.
  Lemma dedup_rel l l' : RL R l l' -> RL R (dedup l) (dedup l').
  Proof. induction 1 as [|x y l l' E F IH]; cbn; auto. constructor; auto. eapply RL_filter; eauto. cbn. intros a a' Ea. rewrite (releq x a y a') by auto. auto. Qed.
  Lemma ounion_rel a a' b b' : RL R a a' -> RL R b b' -> RL R (ounion a b) (ounion a' b').
  Proof.
    intros F G. unfold ounion. apply RL_app; auto. eapply RL_filter; eauto. intros x x' E. cbn. rewrite (mem_rel x x' a a') by auto. auto.
  Qed.
  Lemma list_remove_rel x x' l l' : R x x' -> RL R l l' -> RL R (list_remove x l) (list_remove x' l').
  Proof. intros E F. induction F as [|y y' l l' Ey F IH]; cbn; auto. rewrite (releq x y x' y') by auto. destruct (eqb x' y'); auto. Qed.

  Context {V V' : Type} (S : V -> V' -> Prop).
  Lemma keys_rel d d' : RD R S d d' -> RL R (keys d) (keys d').
  Proof. intro F. eapply RL_map; [|exact F]. intros [] [] []; auto. Qed.
  Lemma vals_rel d d' : RD R S d d' -> RL S (vals d) (vals d').
  Proof. intro F. eapply RL_map; [|exact F]. intros [] [] []; auto. Qed.
  Lemma dget_rel x x' d d' : R x x' -> RD R S d d' -> RO S (dget x d) (dget x' d').
  Proof.
    intros E. induction 1 as [|? ? ? ? [a b c e Ea Ec] F IH]; cbn; [constructor|]. rewrite (releq x a x' b) by auto. destruct (eqb x' b); auto. constructor; auto.
  Qed.
  Lemma dlookup_rel x x' d d' : R x x' -> RD R S d d' -> RR S (dlookup x d) (dlookup x' d').
  Proof. intros E F. unfold dlookup. destruct (dget_rel x x' d d' E F); constructor; auto. Qed.
  Lemma dset_rel x x' v v' d d' : R x x' -> S v v' -> RD R S d d' -> RD R S (dset x v d) (dset x' v' d').
  Proof.
    intros E Ev. induction 1 as [|? ? ? ? [a b c e Ea Ec] F IH]; cbn; [repeat constructor; auto|]. rewrite (releq x a x' b) by auto.
    destruct (eqb x' b); constructor; auto; constructor; auto.
  Qed.
  Lemma dpop_rel x x' d d' : R x x' -> RD R S d d' -> RD R S (dpop x d) (dpop x' d').
  Proof.
    intros E. induction 1 as [|? ? ? ? [a b c e Ea Ec] F IH]; cbn; auto. rewrite (releq x a x' b) by auto.
    destruct (eqb x' b); auto. constructor; auto; constructor; auto.
  Qed.
  Lemma dcomp_rel f f' l l' : (forall x x', R x x' -> S (f x) (f' x')) -> RL R l l' -> RD R S (dcomp f l) (dcomp f' l').
  Proof. intros Hf F. unfold dcomp. eapply RL_map; [|apply dedup_rel; eauto]. intros x x' E. constructor; auto. Qed.
End Dicts.

(** ** Methods *)
Section Methods.
  Context {S1 S2 : Type} (I : S1 -> S2 -> Prop).
  Lemma ret_rel {A B} (R : A -> B -> Prop) a b : R a b -> RM I R (ret a) (ret b).
  Proof. intros E s1 s2 Hs. cbn. split; auto. constructor; auto. Qed.
  Lemma raise_rel {A B} (R : A -> B -> Prop) e : RM I R (raise e) (raise e).
  Proof. intros s1 s2 Hs. cbn. split; auto. constructor; auto. Qed.
  Lemma bind_rel {A A' B B'} (R : A -> A' -> Prop) (S : B -> B' -> Prop) m m' k k' :
    RM I R m m' -> (forall x x', R x x' -> RM I S (k x) (k' x')) -> RM I S (bind m k) (bind m' k').
  Proof.
    intros Hm Hk s1 s2 Hs. unfold bind. destruct (Hm s1 s2 Hs) as [E1 E2]. destruct (m s1) as [t1 r1], (m' s2) as [t2 r2]. cbn in E1, E2.
    destruct E2 as [x y E|e]; [apply Hk; auto|]. cbn. split; auto. constructor.
  Qed.
  Lemma gets_rel {A B} (R : A -> B -> Prop) f f' : (forall s s', I s s' -> R (f s) (f' s')) -> RM I R (gets f) (gets f').
  Proof. intros H s1 s2 Hs. cbn. split; auto. constructor; auto. Qed.
  Lemma modify_rel f f' : (forall s s', I s s' -> I (f s) (f' s')) -> RM I eq (modify f) (modify f').
  Proof. intros H s1 s2 Hs. cbn. split; auto. constructor; auto. Qed.
  Lemma lift_rel {A B} (R : A -> B -> Prop) r r' : RR R r r' -> RM I R (lift r) (lift r').
  Proof. intros H s1 s2 Hs. cbn. split; auto. Qed.
  Lemma for_rel {A B} (R : A -> B -> Prop) (f : A -> M S1 unit) (f' : B -> M S2 unit) l l' : (forall x x', R x x' -> RM I eq (f x) (f' x')) -> RL R l l' -> RM I eq (for_ l f) (for_ l' f').
  Proof.
    intro H. induction 1 as [|x y l l' E F IH]; cbn; [apply ret_rel; auto|]. eapply bind_rel; [apply H; auto|]. intros. apply IH.
  Qed.
  Lemma require_rel (b b' : bool) : b = b' -> RM I eq (require b) (require b').
  Proof. intros <-. destruct b; [apply ret_rel|apply raise_rel]; auto. Qed.
  Lemma mfilter_rel {A B} (R : A -> B -> Prop) (f : A -> M S1 bool) (f' : B -> M S2 bool) l l' : (forall x x', R x x' -> RM I eq (f x) (f' x')) -> RL R l l' -> RM I (RL R) (mfilter f l) (mfilter f' l').
  Proof.
    intro H. induction 1 as [|x y l l' E F IH]; cbn; [apply ret_rel; auto|]. eapply bind_rel; [apply H; auto|]. intros b ? <-.
    eapply bind_rel; [apply IH|]. intros k k' Ek. apply ret_rel. destruct b; auto.
  Qed.
  Lemma if_rel {A} (P : A -> A -> Prop) (b b' : bool) x x' y y' : b = b' -> P x x' -> P y y' -> P (if b then x else y) (if b' then x' else y').
  Proof. intros <-. destruct b; auto. Qed.
End Methods.
