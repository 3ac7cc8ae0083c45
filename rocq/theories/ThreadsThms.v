(** * Calls from several threads (C140) *)

From Coq Require Import String List Bool Arith ZArith QArith Lia.
(*HEADER
From Coq Require Import String List Bool Arith ZArith QArith.
From Verif Require Import Base Manager Spec ManagerThms Threads ThreadSpec ThreadsThms.
Import ListNotations.
Open Scope nat_scope.

Definition A : pystr := str "a".
Definition B : pystr := str "b".
Definition C : pystr := str "c".
Definition D : pystr := str "d".
Definition E : pystr := str "e".
Definition F : pystr := str "f".
(** a and b must link, c and d cannot, e and f are alone. *)
Definition ex : mgr := run [CallAddConstraint A B MUST_LINK 1%Q; CallAddConstraint C D CANNOT_LINK 1%Q] (init [D; A; B; C; E; F]).
Lemma ex_reachable : reachable ex. Proof. apply run_reachable. Qed.
(** Four threads: c = e, an addition that raises as a and b must link, and the same question twice. *)
Definition calls : list tcall := [TAdd C E MUST_LINK 1%Q; TAdd B A CANNOT_LINK 1%Q; TGetInferred F F; TGetInferred F F].
(** The threads take turns. *)
Definition turns : list nat := [0; 1; 2; 3; 3; 2; 1; 0; 0; 1; 2; 3; 0; 1; 0; 0; 1; 0; 0; 0; 0; 0; 0; 0; 0; 0; 0; 0; 0; 0; 0].
HEADER*)
From Verif Require Import Base Manager Spec Closure ManagerProofs ManagerInv ManagerQueries ManagerThms Threads ThreadSpec.
Import ListNotations.
Open Scope nat_scope.

(** ** A program alone is the method *)
Definition does {A} (p : prog A) (q : M mgr A) : Prop := forall m, alone p m = q m.

Lemma alone_bind {A B} (p : prog A) (k : A -> prog B) m :
  alone (pbind p k) m = match alone p m with (m1, Ok a) => alone (k a) m1 | (m1, Raise e) => (m1, Raise e) end.
Proof. revert m. induction p as [[a|e]|f g IH]; intro m; cbn [pbind alone]; auto. Qed.

Lemma does_bind {A B} (p : prog A) q (k : A -> prog B) k' : does p q -> (forall a, does (k a) (k' a)) -> does (pbind p k) (bind q k').
Proof.
  intros E K m. rewrite alone_bind, E. unfold bind. destruct (q m) as [m1 [a|e]]; [apply K|reflexivity].
Qed.
Lemma does_for {A} (l : list A) f g : (forall a, does (f a) (g a)) -> does (pfor l f) (for_ l g).
Proof. intro H. induction l as [|x l IH]; cbn [pfor for_]; [intro; reflexivity|]. apply does_bind; auto. Qed.
Lemma does_require b : does (prequire b) (require b).
Proof. intro m. destruct b; reflexivity. Qed.
Lemma does_in_dict x : does (p_in_dict x) (in_dict x).
Proof. intro. reflexivity. Qed.
Lemma does_in_trans x : does (p_in_trans x) (in_trans x).
Proof. intro. reflexivity. Qed.
Lemma does_get_constraint a b : does (p_get_constraint a b) (get_constraint a b).
Proof. intro m. unfold get_constraint, bind, gets, lift. cbn. destruct (dlookup a (cdict m)); reflexivity. Qed.
Lemma does_set_constraint a b v : does (p_set_constraint a b v) (set_constraint a b v).
Proof. intro m. unfold set_constraint, bind, gets, lift, modify. cbn. destruct (dlookup a (cdict m)); reflexivity. Qed.
Lemma does_set_ml a l : does (p_set_ml a l) (set_ml a l).
Proof. intro m. unfold set_ml, get_trans, bind, gets, lift, modify. cbn. destruct (dlookup a (ctrans m)); reflexivity. Qed.
Lemma does_set_cl a l : does (p_set_cl a l) (set_cl a l).
Proof. intro m. unfold set_cl, get_trans, bind, gets, lift, modify. cbn. destruct (dlookup a (ctrans m)); reflexivity. Qed.

Lemma does_inferred a b : does (p_get_inferred_constraint a b) (get_inferred_constraint a b).
Proof.
  unfold p_get_inferred_constraint, get_inferred_constraint.
  do 2 (apply does_bind; [apply does_in_trans|intro]; apply does_bind; [apply does_require|intro]).
  intro m. unfold get_trans, bind, gets, lift. cbn. destruct (dlookup b (ctrans m)) as [t|e] eqn:E; cbn; [|reflexivity].
  destruct (mem a (t_ml t)); [reflexivity|]. cbn. rewrite E. cbn. destruct (mem a (t_cl t)); reflexivity.
Qed.
Lemma does_added a b : does (p_get_added_constraint a b) (get_added_constraint a b).
Proof.
  unfold p_get_added_constraint, get_added_constraint.
  do 2 (apply does_bind; [apply does_in_dict|intro]; apply does_bind; [apply does_require|intro]).
  destruct (str_leb a b); apply does_get_constraint.
Qed.

Lemma does_transitivity a b t : does (p_add_constraint_transitivity a b t) (fun m => match add_constraint_transitivity a b t m with (m1, Ok _) => (m1, Ok tt) | (m1, Raise e) => (m1, Raise e) end).
Proof.
  intro m. unfold p_add_constraint_transitivity, add_constraint_transitivity.
  destruct (eqb t MUST_LINK).
  - unfold bind at 1. unfold bind at 1. unfold get_trans at 1. unfold bind at 1. unfold gets at 1, lift at 1.
    cbn [pbind p_ml pread alone]. destruct (dlookup a (ctrans m)) as [t1|e1] eqn:E1; cbn [rbind pbind alone]; [|reflexivity].
    unfold bind at 1. unfold get_trans at 1. unfold bind at 1. unfold gets at 1, lift at 1.
    destruct (dlookup b (ctrans m)) as [t2|e2] eqn:E2; cbn [rbind pbind alone]; [|reflexivity].
    cbn [p_cl pread pbind alone]. rewrite E1. cbn [rbind pbind alone]. rewrite E2. cbn [rbind pbind alone].
    assert (D : does (pbind (pfor (ounion (t_ml t1) (t_ml t2)) (fun x => pbind (p_set_ml x (ounion (t_ml t1) (t_ml t2))) (fun _ => p_set_cl x (ounion (t_cl t1) (t_cl t2)))))
                 (fun _ => pfor (ounion (t_cl t1) (t_cl t2)) (fun x => pbind (p_cl x) (fun cl => p_set_cl x (ounion cl (ounion (t_ml t1) (t_ml t2)))))))
              (bind (for_ (ounion (t_ml t1) (t_ml t2)) (fun x => bind (set_ml x (ounion (t_ml t1) (t_ml t2))) (fun _ => set_cl x (ounion (t_cl t1) (t_cl t2)))))
                 (fun _ => for_ (ounion (t_cl t1) (t_cl t2)) (fun x => bind (get_trans x) (fun t => set_cl x (ounion (t_cl t) (ounion (t_ml t1) (t_ml t2)))))))).
    { apply does_bind; [apply does_for|]; intro.
      - apply does_bind; [apply does_set_ml|intro; apply does_set_cl].
      - apply does_for. intros x m'. unfold get_trans at 1. unfold bind, gets, lift. cbn [p_cl pread pbind alone].
        destruct (dlookup x (ctrans m')) as [u|e] eqn:E; cbn [rbind pbind alone]; [|reflexivity]. apply does_set_cl. }
    etransitivity; [exact (D m)|]. destruct (bind _ _ m) as [m1 [[]|e]]; reflexivity.
  - unfold bind at 1. unfold bind at 1. unfold get_trans at 1. unfold bind at 1. unfold gets at 1, lift at 1.
    cbn [pbind p_cl p_ml pread alone]. destruct (dlookup a (ctrans m)) as [t1|e1] eqn:E1; cbn [rbind pbind alone]; [|reflexivity].
    unfold bind at 1. unfold get_trans at 1. unfold bind at 1. unfold gets at 1, lift at 1.
    destruct (dlookup b (ctrans m)) as [t2|e2] eqn:E2; cbn [rbind pbind alone]; [|reflexivity].
    rewrite E2. cbn [rbind pbind alone]. rewrite E1. cbn [rbind pbind alone]. rewrite E1. cbn [rbind pbind alone].
    unfold bind at 1. unfold get_trans at 1. unfold bind at 1. unfold gets at 1, lift at 1. rewrite E1. cbn [rbind pbind alone].
    assert (D : does (pbind (pfor (t_ml t1) (fun x => p_set_cl x (ounion (t_cl t1) (t_ml t2))))
                 (fun _ => pbind (p_ml b) (fun ml2 => pfor ml2 (fun x => p_set_cl x (ounion (t_cl t2) (t_ml t1))))))
              (bind (for_ (t_ml t1) (fun x => set_cl x (ounion (t_cl t1) (t_ml t2))))
                 (fun _ => bind (get_trans b) (fun t => for_ (t_ml t) (fun x => set_cl x (ounion (t_cl t2) (t_ml t1))))))).
    { apply does_bind; [apply does_for; intro; apply does_set_cl|]. intros _ m'. unfold get_trans at 1. unfold bind, gets, lift.
      cbn [p_ml pread pbind alone]. destruct (dlookup b (ctrans m')) as [u|e] eqn:E; cbn [rbind pbind alone]; [|reflexivity].
      apply does_for. intro. apply does_set_cl. }
    etransitivity; [exact (D m)|]. destruct (bind _ _ m) as [m1 [[]|e]]; reflexivity.
Qed.

Lemma does_add a b t v : does (p_add_constraint a b t v) (add_constraint a b t v).
Proof.
  unfold p_add_constraint, add_constraint.
  do 2 (apply does_bind; [apply does_in_dict|intro]; apply does_bind; [apply does_require|intro]).
  apply does_bind; [apply does_require|intro]. apply does_bind; [apply does_inferred|intros o].
  apply does_bind; [destruct o; [apply does_require|intro; reflexivity]|intro].
  apply does_bind; [apply does_added|intros [c|]]; [intro; reflexivity|].
  apply does_bind; [destruct (str_leb a b); apply does_set_constraint|]. intros _ m. rewrite alone_bind, does_transitivity.
  unfold bind. destruct (add_constraint_transitivity a b t m) as [m1 [r|e]]; reflexivity.
Qed.

Lemma does_exec c : does (p_exec c) (exec (as_call c)).
Proof.
  destruct c; cbn [p_exec as_call exec]; (apply does_bind; [|intro; intro; reflexivity]).
  - apply does_add.
  - apply does_added.
  - apply does_inferred.
Qed.

(** ** What a program can see and change *)
Definition agree (X : pystr -> Prop) (m m' : mgr) : Prop :=
  keys (cdict m) = keys (cdict m') /\ keys (ctrans m) = keys (ctrans m') /\
  forall x, X x -> dget x (cdict m) = dget x (cdict m') /\ dget x (ctrans m) = dget x (ctrans m').

Lemma agree_refl X m : agree X m m.
Proof. repeat split; auto. Qed.
Lemma agree_sym X m m' : agree X m m' -> agree X m' m.
Proof. intros (A & B & C). repeat split; auto; symmetry; apply C; auto. Qed.
Lemma agree_trans X m m' m'' : agree X m m' -> agree X m' m'' -> agree X m m''.
Proof. intros (A & B & C) (A' & B' & C'). repeat split; try congruence; intros; destruct (C x H), (C' x H); congruence. Qed.
Lemma agree_weaken (X Y : pystr -> Prop) m m' : (forall x, Y x -> X x) -> agree X m m' -> agree Y m m'.
Proof. intros W (A & B & C). repeat split; auto; apply C; auto. Qed.

(** [safe X W m p]: run alone from [m], the program [p] looks at the entries of [X] only and changes those of [W] only. *)
Inductive safe {A} (X W : pystr -> Prop) : mgr -> prog A -> Prop :=
| safe_done : forall m r, safe X W m (Done r)
| safe_step : forall m f k,
    (forall m', agree X m m' -> k m' = k m /\ agree X (f m) (f m') /\ agree (fun x => ~ W x) m' (f m')) ->
    safe X W (f m) (k m) -> safe X W m (Step f k).

Section Safe.
  Variables X W : pystr -> Prop.

  Lemma safe_bind {A B} (p : prog A) (k : A -> prog B) m :
    safe X W m p -> (forall m1 a, alone p m = (m1, Ok a) -> safe X W m1 (k a)) -> safe X W m (pbind p k).
  Proof.
    induction 1 as [m [a|e]|m f g H S IH]; intro K; cbn [pbind].
    - apply K. reflexivity.
    - constructor.
    - constructor; [|apply IH; exact K].
      intros m' G. destruct (H m' G) as (E & R). rewrite E. auto.
  Qed.

  Lemma safe_read {A} (q : mgr -> res A) m : (forall m', agree X m m' -> q m' = q m) -> safe X W m (pread q).
  Proof.
    intro H. constructor; [|constructor]. intros m' G. rewrite (H m' G). split; [reflexivity|]. split; [exact G|apply agree_refl].
  Qed.
  Lemma safe_require b m : safe X W m (prequire b).
  Proof. constructor. Qed.

  Lemma safe_in_dict x m : safe X W m (p_in_dict x).
  Proof. apply safe_read. intros m' (A & _). rewrite A. reflexivity. Qed.
  Lemma safe_in_trans x m : safe X W m (p_in_trans x).
  Proof. apply safe_read. intros m' (_ & A & _). rewrite A. reflexivity. Qed.
  Lemma safe_get_constraint a b m : X a -> safe X W m (p_get_constraint a b).
  Proof. intro Xa. apply safe_read. intros m' (_ & _ & H). unfold dlookup at 1 3. destruct (H a Xa) as [-> _]. reflexivity. Qed.
  Lemma safe_ml a m : X a -> safe X W m (p_ml a).
  Proof. intro Xa. apply safe_read. intros m' (_ & _ & H). unfold dlookup. destruct (H a Xa) as [_ ->]. reflexivity. Qed.
  Lemma safe_cl a m : X a -> safe X W m (p_cl a).
  Proof. intro Xa. apply safe_read. intros m' (_ & _ & H). unfold dlookup. destruct (H a Xa) as [_ ->]. reflexivity. Qed.

  Lemma agree_dict m m' a row : agree X m m' -> In a (keys (cdict m)) -> agree X (mkMgr (dset a row (cdict m)) (ctrans m)) (mkMgr (dset a row (cdict m')) (ctrans m')).
  Proof.
    intros (A & B & C) I. unfold agree; cbn [cdict ctrans]. rewrite !keys_dset_in by (rewrite <- ?A; auto).
    repeat split; auto; [|apply C; auto]. rewrite !dget_dset. destruct (eqb x a); auto. apply C; auto.
  Qed.
  Lemma frame_dict m a row : W a -> In a (keys (cdict m)) -> agree (fun x => ~ W x) m (mkMgr (dset a row (cdict m)) (ctrans m)).
  Proof.
    intros Wa I. unfold agree; cbn [cdict ctrans]. rewrite keys_dset_in by auto. repeat split; auto.
    rewrite dget_dset_other; auto. intros ->. auto.
  Qed.
  Lemma agree_trans_set m m' a row : agree X m m' -> In a (keys (ctrans m)) -> agree X (mkMgr (cdict m) (dset a row (ctrans m))) (mkMgr (cdict m') (dset a row (ctrans m'))).
  Proof.
    intros (A & B & C) I. unfold agree; cbn [cdict ctrans]. rewrite !keys_dset_in by (rewrite <- ?B; auto).
    repeat split; auto; [apply C; auto|]. rewrite !dget_dset. destruct (eqb x a); auto. apply C; auto.
  Qed.
  Lemma frame_trans_set m a row : W a -> In a (keys (ctrans m)) -> agree (fun x => ~ W x) m (mkMgr (cdict m) (dset a row (ctrans m))).
  Proof.
    intros Wa I. unfold agree; cbn [cdict ctrans]. rewrite keys_dset_in by auto. repeat split; auto.
    rewrite dget_dset_other; auto. intros ->. auto.
  Qed.

  Lemma safe_set_constraint a b v m : X a -> W a -> safe X W m (p_set_constraint a b v).
  Proof.
    intros Xa Wa. constructor; [|constructor]. intros m' G. unfold dlookup. pose proof G as (A & B & C).
    destruct (C a Xa) as [D _]. rewrite <- D. destruct (dget a (cdict m)) as [row|] eqn:E; cbn [rbind].
    - assert (I := dget_Some_key _ _ E). split; [reflexivity|]. split; [apply agree_dict; auto|apply frame_dict; rewrite <- ?A; auto].
    - split; [reflexivity|]. split; [exact G|apply agree_refl].
  Qed.
  Lemma safe_set_ml a l m : X a -> W a -> safe X W m (p_set_ml a l).
  Proof.
    intros Xa Wa. constructor; [|constructor]. intros m' G. unfold dlookup. pose proof G as (A & B & C).
    destruct (C a Xa) as [_ D]. rewrite <- D. destruct (dget a (ctrans m)) as [row|] eqn:E; cbn [rbind].
    - assert (I := dget_Some_key _ _ E). split; [reflexivity|]. split; [apply agree_trans_set; auto|apply frame_trans_set; rewrite <- ?B; auto].
    - split; [reflexivity|]. split; [exact G|apply agree_refl].
  Qed.
  Lemma safe_set_cl a l m : X a -> W a -> safe X W m (p_set_cl a l).
  Proof.
    intros Xa Wa. constructor; [|constructor]. intros m' G. unfold dlookup. pose proof G as (A & B & C).
    destruct (C a Xa) as [_ D]. rewrite <- D. destruct (dget a (ctrans m)) as [row|] eqn:E; cbn [rbind].
    - assert (I := dget_Some_key _ _ E). split; [reflexivity|]. split; [apply agree_trans_set; auto|apply frame_trans_set; rewrite <- ?B; auto].
    - split; [reflexivity|]. split; [exact G|apply agree_refl].
  Qed.

  Lemma safe_for {A} (P : mgr -> Prop) (l : list A) f m :
    (forall x m, In x l -> P m -> safe X W m (f x)) -> (forall x m, In x l -> P m -> P (fst (alone (f x) m))) -> P m ->
    safe X W m (pfor l f) /\ P (fst (alone (pfor l f) m)).
  Proof.
    revert m. induction l as [|x l IH]; intros m F G Pm; cbn [pfor].
    - split; [constructor|exact Pm].
    - assert (H : forall m1 a, alone (f x) m = (m1, Ok a) -> safe X W m1 (pfor l f) /\ P (fst (alone (pfor l f) m1))).
      { intros m1 a E. apply IH; [intros; apply F; [right|]; auto|intros; apply G; [right|]; auto|].
        specialize (G x m (or_introl eq_refl) Pm). rewrite E in G. exact G. }
      split.
      + apply safe_bind; [apply F; [left|]; auto|]. intros m1 a E. apply (H m1 a E).
      + rewrite alone_bind. assert (G' := G x m (or_introl eq_refl) Pm). destruct (alone (f x) m) as [m1 [a|e]]; [|exact G'].
        apply (H m1 a eq_refl).
  Qed.
End Safe.

(** ** The footprint of the calls *)
Definition near (m : mgr) (a : pystr) : list pystr := match dget a (ctrans m) with Some t => t_ml t ++ t_cl t | None => [] end.
Definition reads (m : mgr) (c : tcall) : list pystr :=
  match c with
  | TAdd a b _ _ => a :: b :: near m a ++ near m b
  | TGetAdded a b | TGetInferred a b => [a; b]
  end.
Definition writes (m : mgr) (c : tcall) : list pystr := match c with TAdd _ _ _ _ => reads m c | _ => [] end.

(** The sets "MUST_LINK" are those of [m0]. *)
Definition keeps (m0 m : mgr) : Prop := forall x t, dget x (ctrans m) = Some t -> exists t0, dget x (ctrans m0) = Some t0 /\ t_ml t = t_ml t0.

Lemma keeps_cl m0 m x l : keeps m0 m -> keeps m0 (fst (alone (p_set_cl x l) m)).
Proof.
  intro K. cbn. unfold dlookup. destruct (dget x (ctrans m)) as [t|] eqn:E; cbn [rbind fst]; auto.
  intros y u G. cbn [ctrans] in G. rewrite dget_dset in G. destruct (eqb_spec y x) as [->|N].
  - injection G as <-. cbn. apply K. exact E.
  - apply K. exact G.
Qed.

Section Calls.
  Variables X W : pystr -> Prop.

  Lemma safe_inferred a b m : X b -> safe X W m (p_get_inferred_constraint a b).
  Proof.
    intro Xb. unfold p_get_inferred_constraint.
    do 2 (apply safe_bind; [apply safe_in_trans|intros ? ? _]; apply safe_bind; [apply safe_require|intros ? ? _]).
    apply safe_bind; [apply safe_ml; auto|intros ? ml _]. destruct (mem a ml); [constructor|].
    apply safe_bind; [apply safe_cl; auto|intros ? cl _]. destruct (mem a cl); constructor.
  Qed.
  Lemma safe_added a b m : X a -> X b -> safe X W m (p_get_added_constraint a b).
  Proof.
    intros Xa Xb. unfold p_get_added_constraint.
    do 2 (apply safe_bind; [apply safe_in_dict|intros ? ? _]; apply safe_bind; [apply safe_require|intros ? ? _]).
    destruct (str_leb a b); apply safe_get_constraint; auto.
  Qed.

  Lemma alone_ml a m m1 l : alone (p_ml a) m = (m1, Ok l) -> m1 = m /\ exists t, dget a (ctrans m) = Some t /\ l = t_ml t.
  Proof. cbn. unfold dlookup. destruct (dget a (ctrans m)) as [t|]; cbn; intro H; inversion H. eauto. Qed.
  Lemma alone_cl a m m1 l : alone (p_cl a) m = (m1, Ok l) -> m1 = m /\ exists t, dget a (ctrans m) = Some t /\ l = t_cl t.
  Proof. cbn. unfold dlookup. destruct (dget a (ctrans m)) as [t|]; cbn; intro H; inversion H. eauto. Qed.

  Lemma safe_transitivity a b t m : X a -> X b -> (forall x, X x -> W x) -> (forall x, In x (near m a) \/ In x (near m b) -> X x) ->
    safe X W m (p_add_constraint_transitivity a b t).
  Proof.
    intros Xa Xb XW N. unfold p_add_constraint_transitivity, near in *. destruct (eqb t MUST_LINK).
    - apply safe_bind; [apply safe_ml; auto|]. intros m1 ml1 E. apply alone_ml in E as (-> & t1 & E1 & ->).
      apply safe_bind; [apply safe_ml; auto|]. intros m1 ml2 E. apply alone_ml in E as (-> & t2 & E2 & ->).
      apply safe_bind; [apply safe_cl; auto|]. intros m1 cl1 E. apply alone_cl in E as (-> & t1' & E1' & ->).
      apply safe_bind; [apply safe_cl; auto|]. intros m1 cl2 E. apply alone_cl in E as (-> & t2' & E2' & ->).
      rewrite E1 in E1'. injection E1' as <-. rewrite E2 in E2'. injection E2' as <-. rewrite E1, E2 in N.
      apply safe_bind; [|intros m1 _ _].
      + apply (safe_for X W (fun _ => True)); auto. intros x m1 I _. assert (Xx : X x) by (apply N; rewrite !in_app_iff; apply ounion_In in I as [|]; auto).
        apply safe_bind; [apply safe_set_ml; auto|]. intros. apply safe_set_cl; auto.
      + apply (safe_for X W (fun _ => True)); auto. intros x m2 I _. assert (Xx : X x) by (apply N; rewrite !in_app_iff; apply ounion_In in I as [|]; auto).
        apply safe_bind; [apply safe_cl; auto|]. intros. apply safe_set_cl; auto.
    - apply safe_bind; [apply safe_cl; auto|]. intros m1 cl1 E. apply alone_cl in E as (-> & _).
      apply safe_bind; [apply safe_ml; auto|]. intros m1 ml2 E. apply alone_ml in E as (-> & _).
      apply safe_bind; [apply safe_cl; auto|]. intros m1 cl2 E. apply alone_cl in E as (-> & _).
      apply safe_bind; [apply safe_ml; auto|]. intros m1 ml1 E. apply alone_ml in E as (-> & _).
      apply safe_bind; [apply safe_ml; auto|]. intros m1 ml1' E. apply alone_ml in E as (-> & t1 & E1 & ->).
      destruct (safe_for X W (keeps m) (t_ml t1) (fun x => p_set_cl x (ounion cl1 ml2)) m) as [S K].
      + intros x m1 I _. assert (X x) by (apply N; rewrite E1, in_app_iff; auto). apply safe_set_cl; auto.
      + intros x m1 _. apply keeps_cl.
      + intros x u G. eauto.
      + apply safe_bind; [exact S|]. intros m1 r R. rewrite R in K. cbn [fst] in K. clear S R.
        apply safe_bind; [apply safe_ml; auto|]. intros m2 ml E. apply alone_ml in E as (-> & t2 & E2 & ->).
        apply (safe_for X W (fun _ => True)); auto. intros x m2 I _.
        assert (X x). { destruct (K _ _ E2) as (t0 & E0 & M). apply N. rewrite E0, in_app_iff, <- M. auto. }
        apply safe_set_cl; auto.
  Qed.

  Lemma alone_quiet_inferred a b m : fst (alone (p_get_inferred_constraint a b) m) = m.
  Proof.
    rewrite does_inferred. unfold get_inferred_constraint, bind, in_trans, gets, require, ret, raise, get_trans, lift, bind, gets.
    destruct (mem a (keys (ctrans m))); [|reflexivity]. destruct (mem b (keys (ctrans m))); [|reflexivity].
    destruct (dlookup b (ctrans m)) as [t|] eqn:E; [|reflexivity]. destruct (mem a (t_ml t)); [reflexivity|]. rewrite E. destruct (mem a (t_cl t)); reflexivity.
  Qed.
  Lemma alone_quiet_added a b m : fst (alone (p_get_added_constraint a b) m) = m.
  Proof.
    rewrite does_added. unfold get_added_constraint, bind, in_dict, gets, require, ret, raise, get_constraint, lift, bind, gets.
    destruct (mem a (keys (cdict m))); [|reflexivity]. destruct (mem b (keys (cdict m))); [|reflexivity].
    destruct (str_leb a b); [destruct (dlookup a (cdict m))|destruct (dlookup b (cdict m))]; reflexivity.
  Qed.
  Lemma alone_set_constraint a b v m : ctrans (fst (alone (p_set_constraint a b v) m)) = ctrans m.
  Proof. cbn. destruct (dlookup a (cdict m)); reflexivity. Qed.

  Lemma safe_add a b t v m : X a -> X b -> (forall x, X x -> W x) -> (forall x, In x (near m a) \/ In x (near m b) -> X x) ->
    safe X W m (p_add_constraint a b t v).
  Proof.
    intros Xa Xb XW N. unfold p_add_constraint.
    apply safe_bind; [apply safe_in_dict|]. intros m1 k1 E. injection E as <- <-. apply safe_bind; [apply safe_require|]. intros m1 [] E.
    assert (m1 = m) as -> by (cbn in E; congruence). clear E.
    apply safe_bind; [apply safe_in_dict|]. intros m1 k2 E. injection E as <- <-. apply safe_bind; [apply safe_require|]. intros m1 [] E.
    assert (m1 = m) as -> by (cbn in E; congruence). clear E.
    apply safe_bind; [apply safe_require|]. intros m1 [] E. assert (m1 = m) as -> by (cbn in E; congruence). clear E.
    apply safe_bind; [apply safe_inferred; auto|]. intros m1 o E. assert (Q := alone_quiet_inferred a b m). rewrite E in Q. cbn in Q. subst m1. clear E.
    apply safe_bind; [apply safe_require|]. intros m1 [] E. assert (m1 = m) as -> by (cbn in E; congruence). clear E.
    apply safe_bind; [apply safe_added; auto|]. intros m1 d E. assert (Q := alone_quiet_added a b m). rewrite E in Q. cbn in Q. subst m1. clear E.
    destruct d; [constructor|].
    apply safe_bind; [destruct (str_leb a b); apply safe_set_constraint; auto|]. intros m1 u E.
    assert (Q : ctrans m1 = ctrans m). { destruct (str_leb a b); [rewrite <- (alone_set_constraint a b (Some (t, 1%Q)) m)|rewrite <- (alone_set_constraint b a (Some (t, 1%Q)) m)]; rewrite E; reflexivity. }
    apply safe_bind; [|intros; constructor]. apply safe_transitivity; auto. unfold near. rewrite Q. exact N.
  Qed.
End Calls.

Lemma safe_call m c : safe (fun x => In x (reads m c)) (fun x => In x (writes m c)) m (p_exec c).
Proof.
  destruct c as [a b t v|a b|a b]; cbn [p_exec reads writes]; (apply safe_bind; [|intros; constructor]).
  - apply safe_add; cbn; auto. intros x H. rewrite in_app_iff. auto.
  - apply safe_added; cbn; auto.
  - apply safe_inferred; cbn; auto.
Qed.

Lemma dict_ext {V} (d d' : dict pystr V) : NoDup (keys d) -> keys d = keys d' -> (forall x, dget x d = dget x d') -> d = d'.
Proof.
  revert d'. induction d as [|[x v] d IH]; intros [|[y w] d'] N K E; try discriminate; [reflexivity|].
  cbn in K. injection K as <- K. inversion N; subst. assert (v = w). { specialize (E x). cbn in E. rewrite eqb_refl in E. congruence. }
  subst w. f_equal. apply IH; auto. intro z. destruct (eq_dec_of z x) as [Q|Q].
  - subst z. transitivity (@None V); [|symmetry]; apply dget_None; auto. change (map fst d') with (keys d') in K. rewrite <- K. auto.
  - specialize (E z). cbn [dget] in E. apply eqb_neq in Q. rewrite Q in E. exact E.
Qed.

(** ** Any order of the actions *)
Section Orders.
Context {V : Type}.
Definition item := ((pystr -> Prop) * (pystr -> Prop) * (mgr * res V))%type.
Definition sees (i : item) : pystr -> Prop := fst (fst i).
Definition alters (i : item) : pystr -> Prop := snd (fst i).
Definition ends_as (i : item) : mgr * res V := snd i.
Definition foreign (i j : item) : Prop := (forall x, alters i x -> ~ sees j x) /\ (forall x, alters j x -> ~ sees i x).

(** The thread [p] is where it would be alone, and sees what it would see alone. *)
Definition on_track (m : mgr) (i : item) (p : prog V) : Prop :=
  exists s, safe (sees i) (alters i) s p /\ agree (sees i) s m /\ alone p s = ends_as i.

Lemma on_track_other m m' i j p : foreign i j -> agree (fun x => ~ alters i x) m m' -> on_track m j p -> on_track m' j p.
Proof.
  intros [F1 F2] G (s & S & H & E). exists s. split; [exact S|]. split; [|exact E]. eapply agree_trans; [exact H|].
  eapply agree_weaken; [|exact G]. intros x Y Z. apply (F1 x); auto.
Qed.

Lemma Forall2_split {A B} (R : A -> B -> Prop) xs l1 p l2 : Forall2 R xs (l1 ++ p :: l2) ->
  exists ys1 i ys2, xs = ys1 ++ i :: ys2 /\ Forall2 R ys1 l1 /\ R i p /\ Forall2 R ys2 l2.
Proof.
  intro F. apply Forall2_app_inv_r in F as (ys1 & ys2 & F1 & F2 & ->). inversion F2; subst. exists ys1, x, l. auto.
Qed.

Lemma pairs_app {A} (R : A -> A -> Prop) l1 a l2 : ForallOrdPairs R (l1 ++ a :: l2) -> Forall (fun b => R b a) l1 /\ Forall (R a) l2.
Proof.
  induction l1 as [|b l1 IH]; cbn; intro F; inversion F; subst.
  - split; [constructor|auto].
  - destruct (IH H2) as [F1 F2]. split; auto. constructor; auto. rewrite Forall_forall in H1. apply H1. apply in_or_app. right; left; auto.
Qed.

Lemma Forall2_Forall_imp {A B} (R R' : A -> B -> Prop) (P : A -> Prop) xs ys : Forall P xs -> Forall2 R xs ys -> (forall a b, P a -> R a b -> R' a b) -> Forall2 R' xs ys.
Proof. intros F G H. induction G; inversion F; subst; constructor; auto. Qed.

Lemma tracked m0 m ps m' rs xs : interleaved m ps m' rs -> ForallOrdPairs foreign xs ->
  agree (fun x => ~ Exists (fun i => alters i x) xs) m0 m -> Forall2 (on_track m) xs ps ->
  rs = map (fun i => snd (ends_as i)) xs /\
  agree (fun x => ~ Exists (fun i => alters i x) xs) m0 m' /\
  (forall i, In i xs -> agree (sees i) (fst (ends_as i)) m').
Proof.
  intros T O. induction T as [m rs|m l1 f k l2 m' rs T IH]; intros G F.
  - assert (R : rs = map (fun i => snd (ends_as i)) xs /\ (forall i, In i xs -> agree (sees i) (fst (ends_as i)) m)).
    { clear G O. revert rs F. induction xs as [|i xs IHx]; intros [|r rs] F; try (inversion F; fail).
      - split; [reflexivity|intros i []].
      - cbn [map] in F. assert (HH : on_track m i (Done r) /\ Forall2 (on_track m) xs (map Done rs)) by (inversion F; auto). destruct HH as [H2 H3]. destruct (IHx rs H3) as [-> A].
        destruct H2 as (s & S & H & E). cbn [alone] in E. cbn [map]. rewrite <- E. split; [reflexivity|].
        intros j [<-|I]; [rewrite <- E; exact H|auto]. }
    destruct R as [-> A]. auto.
  - apply Forall2_split in F as (ys1 & i & ys2 & -> & F1 & (s & S & H & E) & F2).
    assert (P := pairs_app foreign _ _ _ O). destruct P as [P1 P2].
    inversion S as [|s' f' k' L S']; subst. destruct (L m H) as (K & A & B).
    apply IH.
    + eapply agree_trans; [exact G|]. eapply agree_weaken; [|exact B]. intros x N Y. apply N. apply Exists_app. right. left. exact Y.
    + apply Forall2_app; [|constructor].
      * eapply Forall2_Forall_imp; [exact P1|exact F1|]. intros j p [Q1 Q2] R. apply (on_track_other m (f m) i j p); [split; auto|exact B|exact R].
      * exists (f s). rewrite K. split; [exact S'|]. split; [exact A|exact E].
      * eapply Forall2_Forall_imp; [exact P2|exact F2|]. intros j p Q R. apply (on_track_other m (f m) i j p); [exact Q|exact B|exact R].
Qed.


(** Two executions of the same programs end alike. *)
Lemma same_end m xs ps m1 rs1 m2 rs2 : NoDup (keys (cdict m)) -> NoDup (keys (ctrans m)) ->
  ForallOrdPairs foreign xs -> (forall i x, In i xs -> alters i x -> sees i x) ->
  (forall x, Exists (fun i => alters i x) xs \/ ~ Exists (fun i => alters i x) xs) -> Forall2 (on_track m) xs ps ->
  interleaved m ps m1 rs1 -> interleaved m ps m2 rs2 -> m1 = m2 /\ rs1 = rs2.
Proof.
  intros N1 N2 O AS DEC F T1 T2.
  destruct (tracked m m _ m1 rs1 _ T1 O (agree_refl _ m) F) as (R1 & G1 & S1).
  destruct (tracked m m _ m2 rs2 _ T2 O (agree_refl _ m) F) as (R2 & G2 & S2).
  split; [|congruence].
  assert (E : forall x, dget x (cdict m1) = dget x (cdict m2) /\ dget x (ctrans m1) = dget x (ctrans m2)).
  { intro x. destruct (DEC x) as [H|Y].
    - apply Exists_exists in H as (i & I & Y). assert (Z := AS i x I Y).
      destruct (S1 _ I) as (_ & _ & D1). destruct (S2 _ I) as (_ & _ & D2).
      destruct (D1 x Z), (D2 x Z). split; congruence.
    - destruct G1 as (_ & _ & D1). destruct G2 as (_ & _ & D2). destruct (D1 x Y), (D2 x Y). split; congruence. }
  destruct G1 as (K1 & L1 & _), G2 as (K2 & L2 & _).
  destruct m1 as [d1 t1], m2 as [d2 t2]; cbn [cdict ctrans] in *. f_equal; apply dict_ext; try congruence; intro x; apply E.
Qed.
End Orders.

Definition item_of (m : mgr) (c : tcall) : item := (fun x => In x (reads m c), fun x => In x (writes m c), alone (p_exec c) m).

(** The calls one after the other are one of the orders. *)
Lemma lone_step {A} (p : prog A) m l m' rs : interleaved (fst (alone p m)) (Done (snd (alone p m)) :: l) m' rs -> interleaved m (p :: l) m' rs.
Proof. revert m. induction p as [r|f k IH]; intros m T; cbn [alone fst snd] in T; auto. apply (one_step m [] f k l m' rs). cbn. apply IH. exact T. Qed.

Lemma done_first {A} (r : res A) m l m' rs : interleaved m l m' rs -> interleaved m (Done r :: l) m' (r :: rs).
Proof.
  induction 1 as [m rs|m l1 f k l2 m' rs T IH]; [apply (all_done m (r :: rs))|].
  apply (one_step m (Done r :: l1) f k l2 m' (r :: rs)). exact IH.
Qed.

Lemma in_turn cs m : interleaved m (map p_exec cs) (fst (one_by_one (map as_call cs) m)) (snd (one_by_one (map as_call cs) m)).
Proof.
  revert m. induction cs as [|c cs IH]; intro m; cbn [map one_by_one]; [apply (all_done m [])|].
  apply lone_step. rewrite does_exec. destruct (exec (as_call c) m) as [m1 r] eqn:E. cbn [fst snd]. specialize (IH m1).
  destruct (one_by_one (map as_call cs) m1) as [m2 rs]. cbn [fst snd] in *. apply done_first. exact IH.
Qed.

Lemma near_inferred m a x : Inv m -> In x (near m a) -> exists t, ask (get_inferred_constraint x a) m = Ok (Some t).
Proof.
  intros I H. unfold near in H. destruct (dget a (ctrans m)) as [t|] eqn:E; [|destruct H].
  assert (Ka := dget_Some_key _ _ E).
  assert (Kx : In x (keys (ctrans m))).
  { apply in_app_iff in H as [H|H].
    - exact (rep_ml_incl (inv_rep _ I) a t E x H).
    - exact (rep_cl_incl (inv_rep _ I) a t E x H). }
  unfold ask, get_inferred_constraint, bind, in_trans, gets, require, ret, get_trans, lift, bind, gets.
  apply mem_In in Ka, Kx. rewrite Kx, Ka. unfold dlookup. rewrite E.
  destruct (mem x (t_ml t)) eqn:M1; [eexists; reflexivity|]. destruct (mem x (t_cl t)) eqn:M2; [eexists; cbn; rewrite E, M2; reflexivity|].
  exfalso. apply mem_nIn in M1, M2. apply in_app_iff in H as [|]; auto.
Qed.

Lemma writes_changes m c x : Inv m -> In x (writes m c) -> changes m c x.
Proof.
  intros I H. destruct c as [a b t v| |]; cbn in H; [|destruct H|destruct H]. cbn [changes].
  destruct H as [<-|[<-|H]]; auto. right; right. apply in_app_iff in H as [H|H]; destruct (near_inferred m _ x I H) as [u U]; eauto.
Qed.
Lemma reads_about m c x : Inv m -> In x (reads m c) -> changes m c x \/ about c x.
Proof.
  intros I H. destruct c as [a b t v| |]; [left; apply writes_changes; auto| |]; cbn in *; intuition.
Qed.

(** ** Playing one order of the actions *)
Fixpoint act {A} (n : nat) (m : mgr) (ps : list (prog A)) : option (mgr * list (prog A)) :=
  match ps, n with
  | [], _ => None
  | Step f k :: ps, 0 => Some (f m, k m :: ps)
  | Done _ :: _, 0 => None
  | p :: ps, S n => match act n m ps with Some (m', ps') => Some (m', p :: ps') | None => None end
  end.
Fixpoint finished {A} (ps : list (prog A)) : option (list (res A)) :=
  match ps with
  | [] => Some []
  | Done r :: ps => match finished ps with Some rs => Some (r :: rs) | None => None end
  | Step _ _ :: _ => None
  end.
Fixpoint play {A} (turns : list nat) (m : mgr) (ps : list (prog A)) : option (mgr * list (res A)) :=
  match turns with
  | [] => match finished ps with Some rs => Some (m, rs) | None => None end
  | n :: turns => match act n m ps with Some (m', ps') => play turns m' ps' | None => None end
  end.

Lemma act_split {A} n m (ps : list (prog A)) m' ps' : act n m ps = Some (m', ps') ->
  exists l1 f k l2, ps = l1 ++ Step f k :: l2 /\ m' = f m /\ ps' = l1 ++ k m :: l2.
Proof.
  revert n ps'. induction ps as [|p ps IH]; intros n ps' H; [destruct n; discriminate|].
  destruct n as [|n].
  - destruct p as [|f k]; [discriminate|]. cbn in H. injection H as <- <-. exists [], f, k, ps. auto.
  - assert (H' : match act n m ps with Some (m', ps') => Some (m', p :: ps') | None => None end = Some (m', ps')) by (destruct p; exact H).
    destruct (act n m ps) as [[m1 q]|] eqn:E; [|discriminate]. injection H' as <- <-.
    destruct (IH n q E) as (l1 & f & k & l2 & -> & -> & ->). exists (p :: l1), f, k, l2. auto.
Qed.
Lemma finished_done {A} (ps : list (prog A)) rs : finished ps = Some rs -> ps = map Done rs.
Proof.
  revert rs. induction ps as [|[r|] ps IH]; cbn; intros rs H; [injection H as <-; reflexivity| |discriminate].
  destruct (finished ps) as [l|]; [|discriminate]. injection H as <-. cbn. f_equal. auto.
Qed.
Lemma play_interleaved {A} turns m (ps : list (prog A)) m' rs : play turns m ps = Some (m', rs) -> interleaved m ps m' rs.
Proof.
  revert m ps. induction turns as [|n turns IH]; cbn; intros m ps H.
  - destruct (finished ps) as [l|] eqn:E; [|discriminate]. injection H as <- <-. apply finished_done in E. subst. constructor.
  - destruct (act n m ps) as [[m1 q]|] eqn:E; [|discriminate]. apply act_split in E as (l1 & f & k & l2 & -> & -> & ->). constructor. auto.
Qed.

(*PROP C140: one call alone, action by action, ends with the manager and the result of the method. *)
Lemma C140_alone_proof : forall c m, alone (p_exec c) m = exec (as_call c) m.
Proof. exact does_exec. Qed.

(*EX
Example C140_alone_ex : snd (alone (p_exec (TAdd C E MUST_LINK 1%Q)) ex) = Ok (VBool true) /\ snd (alone (p_exec (TAdd D C MUST_LINK 1%Q)) ex) = Raise ValueError.
Proof. split; vm_compute; reflexivity. Qed.
EX*)

(*PROP C140, partial: any number of threads, each with one call (an addition of a constraint, a get of an added or of an inferred
    constraint), on a manager that a user can hold. When no data that one call can change is changed or asked about by another one,
    then however their reads and writes are interleaved, they return what the calls return one after the other and they leave the
    same manager. *)
Lemma C140_apart_partial_proof : forall m cs m' rs,
    reachable m -> ForallOrdPairs (apart m) cs ->
    interleaved m (map p_exec cs) m' rs -> (m', rs) = one_by_one (map as_call cs) m.
Proof.
  intros m cs m' rs R O T. assert (I := reachable_inv m R).
  assert (F : ForallOrdPairs foreign (map (item_of m) cs)).
  { clear T. induction O as [|c cs H O IH]; cbn; constructor; auto. apply Forall_forall. intros i J. apply in_map_iff in J as (d & <- & J).
    rewrite Forall_forall in H. specialize (H d J). unfold apart in H. split; intros x Y Z; cbn in Y, Z.
    - apply writes_changes in Y; auto. apply reads_about in Z; auto. destruct (H x) as [P _]. destruct (P Y). tauto.
    - apply writes_changes in Y; auto. apply reads_about in Z; auto. destruct (H x) as [P Q]. destruct Z as [Z|Z]; [destruct (P Z); auto|apply (Q Y); auto]. }
  assert (E : m' = fst (one_by_one (map as_call cs) m) /\ rs = snd (one_by_one (map as_call cs) m)).
  { apply (same_end m (map (item_of m) cs) (map p_exec cs)); auto.
    - apply (inv_nodup m I).
    - rewrite (inv_keys m I). apply (inv_nodup m I).
    - intros i x J Y. apply in_map_iff in J as (c & <- & J). unfold alters, sees in *. cbn [item_of fst snd] in *. destruct c; cbn [writes] in Y; [exact Y|destruct Y|destruct Y].
    - intro x. destruct (Exists_dec (fun c => In x (writes m c)) cs (fun c => in_dec eq_dec_of x (writes m c))) as [H|H].
      + left. apply Exists_exists in H as (c & J & Y). apply Exists_exists. exists (item_of m c). split; [apply in_map; auto|exact Y].
      + right. intro Q. apply H. apply Exists_exists in Q as (i & J & Q). apply in_map_iff in J as (c & <- & J). apply Exists_exists. eauto.
    - clear. induction cs as [|c cs IH]; cbn; constructor; auto. exists m. split; [apply safe_call|]. split; [apply agree_refl|reflexivity].
    - apply in_turn. }
  destruct E as [-> ->]. destruct (one_by_one (map as_call cs) m). reflexivity.
Qed.
(*EX
Lemma calls_apart : ForallOrdPairs (apart ex) calls.
Proof.
  assert (N : forall x y t, ask (get_inferred_constraint x y) ex = Ok (Some t) -> In x [D; A; B; C; E; F]).
  { intros x y t H. destruct (mem x [D; A; B; C; E; F]) eqn:M; [apply mem_In; exact M|]. exfalso.
    unfold ask, get_inferred_constraint, bind, in_trans, gets, require, raise in H. change (keys (ctrans ex)) with [D; A; B; C; E; F] in H. rewrite M in H. discriminate. }
  assert (P1 : forall x, changes ex (TAdd C E MUST_LINK 1%Q) x -> In x [C; E; D]).
  { intros x [->|[->|(u & [H|H])]]; cbn; auto; destruct (N _ _ _ H) as [<-|[<-|[<-|[<-|[<-|[<-|[]]]]]]]; auto; vm_compute in H; discriminate. }
  assert (P2 : forall x, changes ex (TAdd B A CANNOT_LINK 1%Q) x -> In x [A; B]).
  { intros x [->|[->|(u & [H|H])]]; cbn; auto; destruct (N _ _ _ H) as [<-|[<-|[<-|[<-|[<-|[<-|[]]]]]]]; auto; vm_compute in H; discriminate. }
  assert (G1 : apart ex (TAdd C E MUST_LINK 1%Q) (TGetInferred F F)).
  { intro x. split; [|intros []]. intro H. split; [intros []|]. specialize (P1 x H). intros [K|K]; subst x; destruct P1 as [K|[K|[K|[]]]]; discriminate. }
  assert (G2 : apart ex (TAdd B A CANNOT_LINK 1%Q) (TGetInferred F F)).
  { intro x. split; [|intros []]. intro H. split; [intros []|]. specialize (P2 x H). intros [K|K]; subst x; destruct P2 as [K|[K|[]]]; discriminate. }
  assert (G3 : apart ex (TAdd C E MUST_LINK 1%Q) (TAdd B A CANNOT_LINK 1%Q)).
  { intro x. split.
    - intro H. specialize (P1 x H). split; [intro K; specialize (P2 x K)|intros [K|K]; subst x; destruct P1 as [K|[K|[K|[]]]]; discriminate].
      destruct P1 as [<-|[<-|[<-|[]]]]; destruct P2 as [K'|[K'|[]]]; discriminate.
    - intro H. specialize (P2 x H). intros [K|K]; subst x; destruct P2 as [K|[K|[]]]; discriminate. }
  assert (G4 : apart ex (TGetInferred F F) (TGetInferred F F)) by (intro x; split; intros []).
  repeat (constructor; auto).
Qed.
(** They can indeed be interleaved so, and the result is that of one after the other. *)
Example C140_apart_ex : exists m',
  interleaved ex (map p_exec calls) m' [Ok (VBool true); Raise ValueError; Ok (VInferred (Some MUST_LINK)); Ok (VInferred (Some MUST_LINK))] /\
  ask (get_inferred_constraint E D) m' = Ok (Some CANNOT_LINK) /\ ask (get_inferred_constraint E D) ex = Ok None.
Proof.
  destruct (play turns ex (map p_exec calls)) as [[m' rs]|] eqn:P; [|vm_compute in P; discriminate].
  assert (Q := play_interleaved _ _ _ _ _ P).
  assert (R : (m', rs) = one_by_one (map as_call calls) ex) by (apply (C140_apart_partial _ _ _ _ ex_reachable calls_apart Q)).
  assert (S1 : m' = fst (one_by_one (map as_call calls) ex)) by (rewrite <- R; reflexivity).
  assert (S2 : rs = snd (one_by_one (map as_call calls) ex)) by (rewrite <- R; reflexivity).
  exists m'. split; [clear P R; subst rs|subst m'; split; vm_compute; reflexivity].
  change [Ok (VBool true); Raise ValueError; Ok (VInferred (Some MUST_LINK)); Ok (VInferred (Some MUST_LINK))] with (snd (one_by_one (map as_call calls) ex)).
  exact Q.
Qed.
EX*)

(** ** Threads that make several calls, each in its part of the data *)
Section Part.
  Variable part : list pystr.
  (** The constraints of the data of the part stay in the part. *)
  Definition inside (m : mgr) : Prop := forall x, In x part -> incl (near m x) part.
  Definition guards {A} (p : prog A) (Q : A -> Prop) : Prop :=
    forall m, inside m -> inside (fst (alone p m)) /\ match snd (alone p m) with Ok a => Q a | Raise _ => True end.

  Lemma guards_bind {A B} (p : prog A) (k : A -> prog B) Q R : guards p Q -> (forall a, Q a -> guards (k a) R) -> guards (pbind p k) R.
  Proof.
    intros G K m I. rewrite alone_bind. destruct (G m I) as [I1 H]. destruct (alone p m) as [m1 [a|e]]; cbn [fst snd] in *; [|auto].
    apply K; auto.
  Qed.
  Lemma guards_done {A} (r : res A) (Q : A -> Prop) : match r with Ok a => Q a | Raise _ => True end -> guards (Done r) Q.
  Proof. intros H m I. split; auto. Qed.
  Lemma guards_quiet {A} (p : prog A) : (forall m, fst (alone p m) = m) -> guards p (fun _ => True).
  Proof. intros H m I. rewrite H. split; auto. destruct (snd (alone p m)); auto. Qed.
  Lemma guards_for {A} (l : list A) f : (forall x, In x l -> guards (f x) (fun _ => True)) -> guards (pfor l f) (fun _ => True).
  Proof.
    induction l as [|x l IH]; intro H; cbn [pfor]; [apply guards_done; exact Logic.I|].
    apply (guards_bind _ _ (fun _ => True)); [apply H; left; auto|]. intros _ _. apply IH. intros; apply H; right; auto.
  Qed.
  Lemma guards_ml a : In a part -> guards (p_ml a) (fun l => incl l part).
  Proof.
    intros Ia m I. cbn. split; [exact I|]. unfold dlookup. destruct (dget a (ctrans m)) as [t|] eqn:E; cbn; auto.
    specialize (I a Ia). unfold near in I. rewrite E in I. intros x H. apply I. apply in_app_iff. auto.
  Qed.
  Lemma guards_cl a : In a part -> guards (p_cl a) (fun l => incl l part).
  Proof.
    intros Ia m I. cbn. split; [exact I|]. unfold dlookup. destruct (dget a (ctrans m)) as [t|] eqn:E; cbn; auto.
    specialize (I a Ia). unfold near in I. rewrite E in I. intros x H. apply I. apply in_app_iff. auto.
  Qed.
  Lemma guards_set_ml a l : incl l part -> guards (p_set_ml a l) (fun _ => True).
  Proof.
    intros L m I. cbn. unfold dlookup. destruct (dget a (ctrans m)) as [t|] eqn:E; cbn [rbind]; [|auto]. split; [|auto].
    intros x Ix. specialize (I x Ix). unfold near in *. cbn [ctrans]. rewrite dget_dset. destruct (eqb_spec x a) as [Q|Q]; [|exact I].
    subst x. rewrite E in I. cbn [t_ml t_cl]. intros y H. apply in_app_iff in H as [H|H]; [auto|]. apply I, in_app_iff. auto.
  Qed.
  Lemma guards_set_cl a l : incl l part -> guards (p_set_cl a l) (fun _ => True).
  Proof.
    intros L m I. cbn. unfold dlookup. destruct (dget a (ctrans m)) as [t|] eqn:E; cbn [rbind]; [|auto]. split; [|auto].
    intros x Ix. specialize (I x Ix). unfold near in *. cbn [ctrans]. rewrite dget_dset. destruct (eqb_spec x a) as [Q|Q]; [|exact I].
    subst x. rewrite E in I. cbn [t_ml t_cl]. intros y H. apply in_app_iff in H as [H|H]; [|auto]. apply I, in_app_iff. auto.
  Qed.
  Lemma guards_set_constraint a b v : guards (p_set_constraint a b v) (fun _ => True).
  Proof.
    intros m I. assert (H := alone_set_constraint a b v m). split; [|destruct (snd (alone (p_set_constraint a b v) m)); auto].
    intros x Ix. unfold near. rewrite H. apply I. exact Ix.
  Qed.
  Lemma ounion_incl (l l' : list pystr) : incl l part -> incl l' part -> incl (ounion l l') part.
  Proof. intros H H' x I. apply ounion_In in I as [|]; auto. Qed.

  Lemma guards_transitivity a b t : In a part -> In b part -> guards (p_add_constraint_transitivity a b t) (fun _ => True).
  Proof.
    intros Ia Ib. unfold p_add_constraint_transitivity. destruct (eqb t MUST_LINK).
    - eapply guards_bind; [apply guards_ml; auto|]. intros ml1 L1. eapply guards_bind; [apply guards_ml; auto|]. intros ml2 L2.
      eapply guards_bind; [apply guards_cl; auto|]. intros cl1 L3. eapply guards_bind; [apply guards_cl; auto|]. intros cl2 L4.
      assert (U1 := ounion_incl _ _ L1 L2). assert (U2 := ounion_incl _ _ L3 L4).
      eapply guards_bind; [apply guards_for|intros _ _; apply guards_for].
      + intros x _. eapply guards_bind; [apply guards_set_ml; auto|]. intros _ _. apply guards_set_cl; auto.
      + intros x Ix. eapply guards_bind; [apply guards_cl; auto|]. intros cl L. apply guards_set_cl. apply ounion_incl; auto.
    - eapply guards_bind; [apply guards_cl; auto|]. intros cl1 L1. eapply guards_bind; [apply guards_ml; auto|]. intros ml2 L2.
      eapply guards_bind; [apply guards_cl; auto|]. intros cl2 L3. eapply guards_bind; [apply guards_ml; auto|]. intros ml1 L4.
      eapply guards_bind; [apply guards_ml; auto|]. intros ml1' _.
      eapply guards_bind; [apply guards_for; intros x _; apply guards_set_cl; apply ounion_incl; auto|]. intros _ _.
      eapply guards_bind; [apply guards_ml; auto|]. intros ml2' _. apply guards_for. intros x _. apply guards_set_cl. apply ounion_incl; auto.
  Qed.

  Lemma guards_require b : guards (prequire b) (fun _ => True).
  Proof. apply guards_quiet. reflexivity. Qed.
  Lemma guards_in_dict x : guards (p_in_dict x) (fun _ => True).
  Proof. apply guards_quiet. reflexivity. Qed.

  Lemma guards_add a b t v : In a part -> In b part -> guards (p_add_constraint a b t v) (fun _ => True).
  Proof.
    intros Ia Ib. unfold p_add_constraint.
    do 2 (eapply guards_bind; [apply guards_in_dict|intros ? _]; eapply guards_bind; [apply guards_require|intros ? _]).
    eapply guards_bind; [apply guards_require|intros ? _].
    eapply guards_bind; [apply guards_quiet, alone_quiet_inferred|intros ? _]. eapply guards_bind; [apply guards_require|intros ? _].
    eapply guards_bind; [apply guards_quiet, alone_quiet_added|intros [c|] _]; [apply guards_done; exact Logic.I|].
    eapply guards_bind; [destruct (str_leb a b); apply guards_set_constraint|intros ? _].
    eapply guards_bind; [apply guards_transitivity; auto|intros ? _]. apply guards_done; exact Logic.I.
  Qed.

  Lemma guards_call c : (forall x, about c x -> In x part) -> guards (p_exec c) (fun _ => True).
  Proof.
    intro H. destruct c as [a b t v|a b|a b]; cbn [p_exec]; (eapply guards_bind; [|intros ? _; apply guards_done; exact Logic.I]).
    - apply guards_add; apply H; cbn; auto.
    - apply guards_quiet, alone_quiet_added.
    - apply guards_quiet, alone_quiet_inferred.
  Qed.

  Notation zone := (fun x => In x part).
  Lemma safe_catch {A} (p : prog A) X W m : safe X W m p -> safe X W m (pcatch p).
  Proof.
    induction 1 as [m r|m f k H S IH]; cbn [pcatch]; constructor; auto.
    intros m' G. destruct (H m' G) as (E & R). rewrite E. auto.
  Qed.
  Lemma alone_catch {A} (p : prog A) m : alone (pcatch p) m = (fst (alone p m), Ok (snd (alone p m))).
  Proof. revert m. induction p as [r|f k IH]; intro m; cbn [pcatch alone]; auto. Qed.

  Lemma safe_part c m : inside m -> (forall x, about c x -> In x part) -> safe zone zone m (p_exec c).
  Proof.
    intros I H. destruct c as [a b t v|a b|a b]; cbn [p_exec]; (apply safe_bind; [|intros; constructor]).
    - apply safe_add; auto; try (apply H; cbn; auto). intros x [J|J]; [apply (I a)|apply (I b)]; auto; apply H; cbn; auto.
    - apply safe_added; apply H; cbn; auto.
    - apply safe_inferred; apply H; cbn; auto.
  Qed.

  Lemma safe_session cs m : inside m -> stays_in part cs -> safe zone zone m (p_session cs).
  Proof.
    revert m. induction cs as [|c cs IH]; intros m I H; cbn [p_session]; [constructor|].
    assert (Hc : forall x, about c x -> In x part) by (intros x A; apply (H c x); [left|]; auto).
    apply safe_bind; [apply safe_catch, safe_part; auto|]. intros m1 r E. rewrite alone_catch in E. injection E as <- _.
    apply safe_bind; [|intros; constructor]. apply IH.
    - apply (guards_call c Hc m I).
    - intros d x J. apply H. right. exact J.
  Qed.
End Part.

Lemma alone_session cs m : alone (p_session cs) m = (fst (one_by_one (map as_call cs) m), Ok (snd (one_by_one (map as_call cs) m))).
Proof.
  revert m. induction cs as [|c cs IH]; intro m; cbn [p_session map one_by_one]; [reflexivity|].
  rewrite alone_bind, alone_catch. assert (E := does_exec c m). rewrite E. destruct (exec (as_call c) m) as [m1 r]. cbn [fst snd].
  rewrite alone_bind, IH. destruct (one_by_one (map as_call cs) m1) as [m2 rs]. reflexivity.
Qed.

Lemma sessions_in_order css m :
  interleaved m (map p_session css) (fst (in_order (map (map as_call) css) m)) (map Ok (snd (in_order (map (map as_call) css) m))).
Proof.
  revert m. induction css as [|cs css IH]; intro m; cbn [map in_order]; [apply (all_done m [])|].
  apply lone_step. rewrite alone_session. destruct (one_by_one (map as_call cs) m) as [m1 rs]. cbn [fst snd]. specialize (IH m1).
  destruct (in_order (map (map as_call) css) m1) as [m2 rss]. cbn [fst snd map] in *. apply done_first. exact IH.
Qed.

Lemma part_inside m part : Inv m -> closed_part m part -> inside part m.
Proof. intros I H x Ix y Iy. destruct (near_inferred m x y I Iy) as [t T]. apply (H x y t); auto. Qed.

(*PROP C140, partial: any number of threads, each with any number of calls, and parts of the data, one for each thread, without a common data
    and without an inferred constraint from one part to outside of it. When every thread asks about and adds constraints between data of its part
    only, then however their reads and writes are interleaved, they return what they return, and leave the manager they leave, when one
    thread runs after the other. *)
Lemma C140_parts_partial_proof : forall m parts css m' rss,
    reachable m -> ForallOrdPairs disjoint parts -> Forall2 (fun part cs => closed_part m part /\ stays_in part cs) parts css ->
    interleaved m (map p_session css) m' rss ->
    m' = fst (in_order (map (map as_call) css) m) /\ rss = map Ok (snd (in_order (map (map as_call) css) m)).
Proof.
  intros m parts css m' rss R O F T. assert (I := reachable_inv m R).
  set (xs := map (fun pc : list pystr * list tcall => ((fun x => In x (fst pc)), (fun x => In x (fst pc)), alone (p_session (snd pc)) m)) (combine parts css) : list (@item (list (res value)))).
  assert (L : length parts = length css) by (clear - F; induction F; cbn; auto).
  apply (same_end m xs (map p_session css)); auto.
  - apply (inv_nodup m I).
  - rewrite (inv_keys m I). apply (inv_nodup m I).
  - subst xs. clear F T. revert css L. induction O as [|p parts H O IH]; intros css L; [constructor|]. destruct css as [|cs css]; [discriminate|].
    cbn [combine map]. constructor; [|apply IH; auto]. apply Forall_forall. intros i J. apply in_map_iff in J as ([q d] & <- & J).
    apply in_combine_l in J. rewrite Forall_forall in H. specialize (H q J). split; intros x Y Z; cbn in Y, Z; [apply (H x)|apply (H x)]; auto.
  - intros i x J Y. apply in_map_iff in J as (pc & <- & J). exact Y.
  - intro x. destruct (Exists_dec (fun pc : list pystr * list tcall => In x (fst pc)) (combine parts css) (fun pc => in_dec eq_dec_of x (fst pc))) as [H|H].
    + left. apply Exists_exists in H as (pc & J & Y). apply Exists_exists. eexists. split; [apply in_map; exact J|exact Y].
    + right. intro Q. apply H. apply Exists_exists in Q as (i & J & Q). apply in_map_iff in J as (pc & <- & J). apply Exists_exists. eauto.
  - subst xs. clear T O L. induction F as [|p cs parts css [P1 P2] F IH]; cbn; constructor; auto.
    exists m. split; [|split; [apply agree_refl|reflexivity]]. apply safe_session; auto. apply part_inside; auto.
  - apply sessions_in_order.
Qed.
(*EX
(** Two threads: a, b, f and c, d, e. *)
Definition sessions : list (list tcall) :=
  [[TAdd F A CANNOT_LINK 1%Q; TAdd B F MUST_LINK 1%Q; TGetInferred B F]; [TAdd C E MUST_LINK 1%Q; TGetInferred E D]].
Example C140_parts_ex : Forall2 (fun part cs => closed_part ex part /\ stays_in part cs) [[A; B; F]; [C; D; E]] sessions /\
  ForallOrdPairs disjoint [[A; B; F]; [C; D; E]] /\
  snd (in_order (map (map as_call) sessions) ex) =
  [[Ok (VBool true); Raise ValueError; Ok (VInferred (Some CANNOT_LINK))]; [Ok (VBool true); Ok (VInferred (Some CANNOT_LINK))]].
Proof.
  assert (N : forall x y t, ask (get_inferred_constraint x y) ex = Ok (Some t) -> In x [D; A; B; C; E; F]).
  { intros x y t H. destruct (mem x [D; A; B; C; E; F]) eqn:M; [apply mem_In; exact M|]. exfalso.
    unfold ask, get_inferred_constraint, bind, in_trans, gets, require, raise in H. change (keys (ctrans ex)) with [D; A; B; C; E; F] in H. rewrite M in H. discriminate. }
  split; [|split; [|vm_compute; reflexivity]].
  - constructor; [|constructor; [|constructor]]; (split; [intros x y t Ix H; assert (J := N y x t H)|]).
    + destruct Ix as [<-|[<-|[<-|[]]]]; destruct J as [<-|[<-|[<-|[<-|[<-|[<-|[]]]]]]]; cbn; auto; vm_compute in H; discriminate.
    + intros c x [<-|[<-|[<-|[]]]] [->| ->]; cbn; auto.
    + destruct Ix as [<-|[<-|[<-|[]]]]; destruct J as [<-|[<-|[<-|[<-|[<-|[<-|[]]]]]]]; cbn; auto; vm_compute in H; discriminate.
    + intros c x [<-|[<-|[]]] [->| ->]; cbn; auto.
  - constructor; [constructor; [|constructor]|constructor; [constructor|constructor]].
    intros x [<-|[<-|[<-|[]]]] [H|[H|[H|[]]]]; discriminate.
Qed.
EX*)

(** ** Orders of the actions that go wrong *)
(*PROP C140, refuted: two threads add a = b and b = c at the same time. Both calls return True and both constraints are in the
    manager, but get_inferred_constraint answers None for a and b, and for a and c. *)
Lemma C140_lost_refuted_proof :
  exists ids a b c m',
    interleaved (init ids) (map p_exec [TAdd a b MUST_LINK 1%Q; TAdd b c MUST_LINK 1%Q]) m' [Ok (VBool true); Ok (VBool true)] /\
    ask (get_added_constraint a b) m' = Ok (Some (MUST_LINK, 1%Q)) /\
    ask (get_added_constraint b c) m' = Ok (Some (MUST_LINK, 1%Q)) /\
    ask (get_inferred_constraint a b) m' = Ok None /\
    ask (get_inferred_constraint a c) m' = Ok None.
Proof.
  exists [str "a"; str "b"; str "c"], (str "a"), (str "b"), (str "c").
  set (turns := repeat 0 14 ++ repeat 1 14 ++ repeat 0 4 ++ repeat 1 4).
  set (r := play turns (init [str "a"; str "b"; str "c"]) (map p_exec [TAdd (str "a") (str "b") MUST_LINK 1%Q; TAdd (str "b") (str "c") MUST_LINK 1%Q])).
  assert (R : exists m', r = Some (m', [Ok (VBool true); Ok (VBool true)]) /\ m' = match r with Some (m', _) => m' | None => init [] end).
  { destruct r as [[m' rs]|] eqn:E; [|vm_compute in E; discriminate]. exists m'. split; auto. f_equal. f_equal. vm_compute in E. congruence. }
  destruct R as (m' & R & M). exists m'. split; [eapply play_interleaved; exact R|]. subst m'. clear R. repeat split; vm_compute; reflexivity.
Qed.

(*PROP C140, refuted: two threads add a = b and a <> b at the same time. Both calls return True; then the added constraint is
    CANNOT_LINK and the inferred one is MUST_LINK. *)
Lemma C140_conflict_refuted_proof :
  exists ids a b m',
    interleaved (init ids) (map p_exec [TAdd a b MUST_LINK 1%Q; TAdd a b CANNOT_LINK 1%Q]) m' [Ok (VBool true); Ok (VBool true)] /\
    ask (get_added_constraint a b) m' = Ok (Some (CANNOT_LINK, 1%Q)) /\
    ask (get_inferred_constraint a b) m' = Ok (Some MUST_LINK).
Proof.
  exists [str "a"; str "b"], (str "a"), (str "b").
  set (turns := repeat 0 9 ++ repeat 1 9 ++ repeat 0 9 ++ repeat 1 11).
  set (r := play turns (init [str "a"; str "b"]) (map p_exec [TAdd (str "a") (str "b") MUST_LINK 1%Q; TAdd (str "a") (str "b") CANNOT_LINK 1%Q])).
  assert (R : exists m', r = Some (m', [Ok (VBool true); Ok (VBool true)]) /\ m' = match r with Some (m', _) => m' | None => init [] end).
  { destruct r as [[m' rs]|] eqn:E; [|vm_compute in E; discriminate]. exists m'. split; auto. f_equal. f_equal. vm_compute in E. congruence. }
  destruct R as (m' & R & M). exists m'. split; [eapply play_interleaved; exact R|]. subst m'. clear R. repeat split; vm_compute; reflexivity.
Qed.
