(** * Properties of MPCKMeans (C48 to C51, C76 to C80). *)

From Coq Require Import String List Bool Arith ZArith QArith Qabs Lia Permutation Sorted.
From Verif Require Import Base Manager Spec Closure ManagerProofs ManagerInv ManagerQueries ManagerThms
  Sampling SamplingSpec SamplingProofs SamplingThms Rename ClusterSpec RenameThms ClusterProofs Spectral SpectralThms
  Mpckmeans MpckSpec MpckGraph MpckRun.
Import ListNotations.
Open Scope nat_scope.
Open Scope py_scope.

(*HEADER
From Coq Require Import String List Bool Arith ZArith QArith Permutation Sorted Lia.
From Verif Require Import Base Manager Spec ManagerThms SamplingSpec ClusterSpec Mpckmeans MpckSpec MpckThms.
Import ListNotations.
Open Scope nat_scope.
Open Scope py_scope.

(** The examples use rational numbers ([Qops], in MpckThms.v), points on a line, enumerate
    sets in the order of insertion, do not shuffle, and draw the first indices. *)
Lemma Qops_order : strict_weak_order (o_ltb Q Qops).
Proof. exact Qlt_swo. Qed.
Lemma Qops_argmin : exact_argmin Qops.
Proof. exact Qargmin_exact. Qed.
Lemma id_order : valid_order (fun l => l).
Proof. intro. apply Permutation_refl. Qed.
Lemma id_shuffle : valid_shuffle (fun _ l => l).
Proof. intros t l. apply Permutation_refl. Qed.
Lemma zero_first : valid_first (fun (_ : nat) (_ : list Q) => 0%nat).
Proof. intros n w L. exact L. Qed.
Lemma seq_sample : valid_sample (fun _ k => seq 0 k).
Proof. intros n k L. split; [apply seq_length|]. split; [apply seq_NoDup|]. intros i J. apply in_seq in J. lia. Qed.
Definition A := str "a". Definition B := str "b". Definition C := str "c". Definition E := str "d".
Definition ex : mgr := run [CallAddConstraint A B MUST_LINK 1%Q] (init [A; B; C]).
Lemma ex_reachable : reachable ex.
Proof. apply run_reachable. Qed.
Definition vecs : dict pystr Z := [(A, 0); (B, 6); (C, 10)]%Z.
HEADER*)

(** ** Exact numbers, for the examples *)
Fixpoint argmin_first {D} (ltb : D -> D -> bool) (l : list D) : nat :=
  match l with
  | [] => 0
  | x :: l' => match l' with
               | [] => 0
               | _ => if ltb (nth (argmin_first ltb l') l' x) x then S (argmin_first ltb l') else 0
               end
  end.
Lemma argmin_first_spec {D} (ltb : D -> D -> bool) : strict_weak_order ltb -> forall l z, l <> [] ->
  argmin_first ltb l < length l /\
  (forall j, j < length l -> ltb (nth j l z) (nth (argmin_first ltb l) l z) = false) /\
  (forall j, j < argmin_first ltb l -> ltb (nth (argmin_first ltb l) l z) (nth j l z) = true).
Proof.
  intros (Irr & Tr & Co). induction l as [|x l IH]; intros z NE; [congruence|]. cbn [argmin_first]. destruct l as [|y l].
  - cbn. split; [lia|]. split; [|lia]. intros [|j] L; [apply Irr|lia].
  - set (l' := y :: l) in *. destruct (IH z) as (I1 & I2 & I3); [discriminate|]. set (a := argmin_first ltb l') in *. rewrite (nth_indep l' x z) by auto. destruct (ltb (nth a l' z) x) eqn:E.
    + cbn [length nth]. split; [lia|]. split.
      * intros [|j] L; [|apply I2; cbn in *; lia]. destruct (ltb x (nth a l' z)) eqn:F; auto. rewrite <- (Irr x). symmetry. eapply Tr; eauto.
      * intros [|j] L; auto. apply I3. lia.
    + cbn [length nth]. split; [lia|]. split; [|lia]. intros [|j] L; auto. destruct (ltb (nth j l' z) x) eqn:F; auto. rewrite <- E. symmetry.
      destruct (Co _ (nth a l' z) _ F) as [G|G]; auto. rewrite (I2 j) in G; [discriminate|cbn in *; lia].
Qed.
Definition Qltb (x y : Q) : bool := negb (Qle_bool y x).
Lemma Qltb_lt x y : Qltb x y = true <-> (x < y)%Q.
Proof.
  unfold Qltb. rewrite negb_true_iff. split; intro H.
  - apply Qnot_le_lt. intro L. apply Qle_bool_iff in L. congruence.
  - destruct (Qle_bool y x) eqn:E; auto. apply Qle_bool_iff in E. exfalso. apply (Qlt_not_le x y); auto.
Qed.
Lemma Qlt_swo : strict_weak_order Qltb.
Proof.
  split; [|split].
  - intro x. destruct (Qltb x x) eqn:E; auto. apply Qltb_lt in E. exfalso. apply (Qlt_irrefl x); auto.
  - intros x y z. rewrite !Qltb_lt. apply Qlt_trans.
  - intros x y z. rewrite !Qltb_lt. intro H. destruct (Qlt_le_dec x y); auto. right. eapply Qle_lt_trans; eauto.
Qed.
Definition Qops : ops Q := {|
  o_of_nat n := inject_Z (Z.of_nat n);
  o_half := 1 # 2;
  o_tiny := 1 # 1000000000;
  o_add x y := Qred (x + y);
  o_sub x y := Qred (x - y);
  o_mul x y := Qred (x * y);
  o_div x y := Qred (x / y);
  o_sq x := Qred (x * x);
  o_sqrt x := x;
  o_ltb := Qltb;
  o_small x := Qle_bool (Qabs x) (1 # 1000000);
  o_sum l := fold_left (fun s x => Qred (s + x)) l (0#1);
  o_min l := fold_left (fun s x => if Qltb x s then x else s) (tl l) (hd (0#1) l);
  o_mean l := Qred (fold_left (fun s x => Qred (s + x)) l (0#1) / inject_Z (Z.of_nat (length l)));
  o_argmin := argmin_first Qltb;
  o_mahalanobis x y a := fold_left (fun s e => Qred (s + snd e * (fst (fst e) - snd (fst e)) * (fst (fst e) - snd (fst e)))) (combine (combine x y) a) (0#1);
  o_logdet _ := 0#1 |}.
Lemma Qargmin_exact : exact_argmin Qops.
Proof. intros l z NE. apply argmin_first_spec; auto. apply Qlt_swo. Qed.
Definition mpck_Q (limit : nat) (p : mp_params Q) := cluster Z Q Qops (fun x => [inject_Z x]) limit (fun l => l) (fun _ _ => 0) (fun _ k => seq 0 k) (fun _ l => l) p.

(** ** Auxiliary facts *)
Lemma exact_valid {D} (o : ops D) : exact_argmin o -> valid_argmin o.
Proof. intros H l NE. destruct l as [|z l]; [congruence|]. apply (H (z :: l) z NE). Qed.

Lemma nodup_count {A B C} (da : forall x y : B, {x = y} + {x <> y}) (db : forall x y : C, {x = y} + {x <> y}) (f : A -> B) (g : A -> C) l :
  (forall x y, In x l -> In y l -> f x = f y <-> g x = g y) -> length (nodup da (map f l)) = length (nodup db (map g l)).
Proof.
  induction l as [|a l IH]; intro H; auto. cbn [map nodup]. assert (IH' := IH (fun x y X Y => H x y (or_intror X) (or_intror Y))).
  destruct (in_dec da (f a) (map f l)) as [I1|I1], (in_dec db (g a) (map g l)) as [I2|I2]; auto; [exfalso|exfalso|cbn; auto].
  - apply in_map_iff in I1 as (x & E & X). apply I2. apply in_map_iff. exists x. split; auto. apply H; simpl; auto.
  - apply in_map_iff in I2 as (x & E & X). apply I1. apply in_map_iff. exists x. split; auto. apply H; simpl; auto.
Qed.
Lemma vals_get (d : dict pystr Z) : NoDup (keys d) -> vals d = map (fun x => match dget x d with Some v => v | None => 0%Z end) (keys d).
Proof.
  intro ND. unfold vals, keys. rewrite map_map. apply map_ext_in. intros [x v] J. cbn [fst snd]. rewrite (In_dget x d v); auto.
Qed.
Lemma nb_same d1 d2 : NoDup (keys d1) -> NoDup (keys d2) -> same_partition d1 d2 -> nb_clusters_of d1 = nb_clusters_of d2.
Proof.
  intros N1 N2 [K S]. unfold nb_clusters_of. rewrite (vals_get d1), (vals_get d2) by auto.
  rewrite (nodup_count Z.eq_dec Z.eq_dec _ (fun x => match dget x d2 with Some v => v | None => 0%Z end) (keys d1)).
  - apply Permutation_length, NoDup_Permutation; try apply NoDup_nodup. intro v. rewrite !nodup_In, !in_map_iff. split; intros (x & E & X); exists x; split; auto; apply K; auto.
  - intros x y X Y. specialize (S x y X Y). assert (X2 := proj1 (K x) X). assert (Y2 := proj1 (K y) Y).
    apply dget_In_key in X as [vx Ex], Y as [vy Ey], X2 as [wx Fx], Y2 as [wy Fy]. rewrite Ex, Ey, Fx, Fy in *. split; intro Q; [|]; assert (Q' := f_equal Some Q); apply S in Q'; congruence.
Qed.

Lemma combine_keys {A B} (ks : list A) : forall zs : list B, length ks = length zs -> keys (combine ks zs) = ks.
Proof. unfold keys. induction ks as [|x ks IH]; intros [|z zs] Q; try discriminate; auto. cbn [combine map fst]. f_equal. apply IH. injection Q; auto. Qed.
Lemma combine_vals {A B} (ks : list A) : forall zs : list B, length ks = length zs -> vals (combine ks zs) = zs.
Proof. unfold vals. induction ks as [|x ks IH]; intros [|z zs] Q; try discriminate; auto. cbn [combine map snd]. f_equal. apply IH. injection Q; auto. Qed.

Lemma dget_app_l {V} x (d e : dict pystr V) : In x (keys d) -> dget x (d ++ e) = dget x d.
Proof.
  induction d as [|[y v] d IH]; intro J; [destruct J|]. cbn [app dget]. destruct (eqb x y) eqn:E; auto. apply IH. destruct J as [J|J]; auto. exfalso. cbn in J. subst y. rewrite eqb_refl in E. discriminate.
Qed.
Lemma dget_app_r {V} x (d e : dict pystr V) : ~ In x (keys d) -> dget x (d ++ e) = dget x e.
Proof.
  induction d as [|[y v] d IH]; intro J; auto. cbn [app dget]. destruct (eqb x y) eqn:E; [|apply IH; intro K; apply J; simpl; auto]. exfalso. apply J. apply eqb_eq in E. simpl; auto.
Qed.
Lemma filter_nil_iff {A} (f : A -> bool) l : filter f l = [] <-> forall x, In x l -> f x = false.
Proof.
  induction l as [|a l IH]; cbn; [tauto|]. destruct (f a) eqn:E.
  - split; [discriminate|]. intro H. rewrite H in E; [discriminate|auto].
  - rewrite IH. split; [intros H x [<-|J]; auto|auto].
Qed.

(** ** Constraints *)
Section Graphs.
  Variable order : list nat -> list nat.
  Hypothesis ORD : valid_order order.
  Variable limit : nat.
  Variable m : mgr.
  Hypothesis I : Inv m.
  Notation l := (ids m).
  Notation n := (length (ids m)).
  Lemma constrained_ml i j : i < n -> constrained m l MUST_LINK i j <-> j < n /\ mli m i j = true.
  Proof.
    intro Li. unfold constrained, mli. split.
    - intros (x & y & X & Y & H). apply at_nth in X as [_ ->]. apply at_nth in Y as [Lj ->]. split; auto. apply inferred_ml in H; auto using at_In.
    - intros [Lj H]. exists (at_ m i), (at_ m j). split; [apply at_nth; auto|]. split; [apply at_nth; auto|]. apply inferred_ml; auto using at_In.
  Qed.
  Lemma constrained_cl i j : i < n -> constrained m l CANNOT_LINK i j <-> j < n /\ cli m i j = true.
  Proof.
    intro Li. unfold constrained, cli. split.
    - intros (x & y & X & Y & H). apply at_nth in X as [_ ->]. apply at_nth in Y as [Lj ->]. split; auto. apply inferred_cl in H; auto using at_In.
    - intros [Lj H]. exists (at_ m i), (at_ m j). split; [apply at_nth; auto|]. split; [apply at_nth; auto|]. apply inferred_cl; auto using at_In.
  Qed.
  Lemma constrained_bound t i j : constrained m l t i j -> j < n.
  Proof. intros (x & y & _ & Y & _). apply nth_error_Some. congruence. Qed.
  Lemma class_comp i : i < n -> length (class m i) = length (comp_of m (at_ m i)).
  Proof.
    intro Li. rewrite <- (map_length (at_ m)). apply Permutation_length, NoDup_Permutation.
    - assert (INJ : forall a b, a < n -> b < n -> at_ m a = at_ m b -> a = b).
      { intros a b La Lb Q. apply (proj1 (NoDup_nth l []) (inv_nodup m I)); auto. }
      assert (G : forall js, (forall j, In j js -> j < n) -> NoDup js -> NoDup (map (at_ m) js)).
      { induction js as [|j js IH]; intros Lj ND; cbn; [constructor|]. apply NoDup_cons_iff in ND as [NI ND]. constructor; [|apply IH; auto; intros; apply Lj; simpl; auto].
        intro J. apply in_map_iff in J as (j' & E & J). apply NI. rewrite (INJ j j'); auto; apply Lj; simpl; auto. }
      apply G; [|apply class_NoDup]. intros j J. apply class_In in J. tauto.
    - apply comp_of_NoDup; auto.
    - intro x. rewrite comp_of_In by auto using at_In. rewrite in_map_iff. split.
      + intros (j & <- & J). apply class_In in J as [Lj J]. apply ml_linked; auto using at_In.
      + intro L. assert (X : In x l) by (eapply linked_ids; eauto; apply at_In; auto). apply In_nth_error in X as [j X]. apply at_nth in X as [Lj ->]. exists j. split; auto. apply class_In. split; auto.
        apply ml_linked; auto using at_In.
  Qed.
  Lemma small_comps : small limit m <-> forall c, In c (comps m) -> length c <= limit.
  Proof.
    unfold small. split.
    - intros H c J. apply comps_In in J as (x & X & ->). apply In_nth_error in X as [i X]. apply at_nth in X as [Li ->]. rewrite <- class_comp by auto. auto.
    - intros H i Li. rewrite class_comp by auto. apply H, comps_In. exists (at_ m i). split; auto using at_In.
  Qed.
  Lemma graphs_run :
    ((forall c, In c (comps m) -> length c <= limit) ->
     exists mg cg cs, constraint_graphs limit order m l = Ok (mg, cg, cs) /\
       graph_of n (constrained m l MUST_LINK) mg /\ graph_of n (constrained m l CANNOT_LINK) cg /\ exact_neighborhoods m l cs) /\
    ((exists c, In c (comps m) /\ limit < length c) -> constraint_graphs limit order m l = Raise RecursionError).
  Proof.
    destruct (constraint_graphs_run order ORD limit m I) as [H1 H2]. split.
    - intro S. apply small_comps in S. destruct (H1 S) as (mg & cg & cs & v & E & Gm & Gc & [T1 T2 T3 T4 T5 T6]). exists mg, cg, cs. split; auto.
      split; [eapply graph_of_ext; [exact Gm|]; intros i j Li; symmetry; apply constrained_ml; auto|]. split; [eapply graph_of_ext; [exact Gc|]; intros i j Li; symmetry; apply constrained_cl; auto|].
      split; auto. split; [|split; auto].
      + intro i. split; [|intro Li; apply T3; auto]. intro J. apply in_concat in J as (c & C1 & C2). destruct (T5 c C1) as (i0 & _ & _ & H). apply H in C2. tauto.
      + intros c J. destruct (T5 c J) as (i & Li & Ji & H). exists i. split; auto. intro j. rewrite H, constrained_ml by auto. reflexivity.
    - intros (c & J & L). apply H2. intro S. assert (Q := proj1 small_comps S c J). lia.
  Qed.
  Lemma graph_exact t g : graph_of n (constrained m l t) g -> exact_graph m t l g.
  Proof. intros [K H]. split; auto. Qed.
End Graphs.

(*PROP C48: on every reachable manager the graphs of MPCKMeans are exactly the inferred constraints and its neighborhoods are the connected components; "Inconsistent constraints" is never raised.  A component larger than the recursion limit raises RecursionError. *)
Lemma C48_mpckmeans_constraints_proof :
  forall limit order m l comps,
    valid_order order -> reachable m -> ask get_list_of_managed_data_IDs m = Ok l -> ask get_connected_components m = Ok comps ->
    ((forall c, In c comps -> length c <= limit) ->
     exists mg cg cs, constraint_graphs limit order m l = Ok (mg, cg, cs) /\
       exact_graph m MUST_LINK l mg /\ exact_graph m CANNOT_LINK l cg /\ exact_neighborhoods m l cs) /\
    ((exists c, In c comps /\ limit < length c) -> constraint_graphs limit order m l = Raise RecursionError).
Proof.
  intros limit order m l0 cs0 ORD R EI EC. apply reachable_inv in R. rewrite ask_managed in EI by auto. injection EI as <-. rewrite ask_components in EC by auto. injection EC as <-.
  destruct (graphs_run order ORD limit m R) as [H1 H2]. split; [|exact H2]. intro S. destruct (H1 S) as (mg & cg & cs & E & Gm & Gc & EN). exists mg, cg, cs. split; [exact E|]. split; [apply graph_exact; exact Gm|]. split; [apply graph_exact; exact Gc|exact EN].
Qed.

(*EX
Example C48_ex :
  let m := run [CallAddConstraint A B MUST_LINK 1%Q; CallAddConstraint B C CANNOT_LINK 1%Q] (init [A; B; C; E]) in
  constraint_graphs 2 (fun l => l) m [A; B; C; E] =
    Ok ([(0, [0; 1]); (1, [0; 1]); (2, [2]); (3, [3])], [(0, [2]); (1, [2]); (2, [0; 1]); (3, [])], [[1; 0]; [2]; [3]]) /\
  constraint_graphs 1 (fun l => l) m [A; B; C; E] = Raise RecursionError.
Proof. vm_compute. split; reflexivity. Qed.
EX*)

(** ** Calls *)
Lemma make_ok {D} (o : ops D) model it w p : make_mpckmeans D o model it w = Ok p -> exists r, mp_max_iteration D p = S r /\ mp_w D p = w /\ Z.to_nat it = S r.
Proof.
  unfold make_mpckmeans. destruct (negb (eqb model (str "MPC"))); [discriminate|]. destruct (Z.ltb_spec it 1); [discriminate|]. destruct (o_ltb D o w (o_of_nat D o 0)); [discriminate|].
  intro E. injection E as <-. exists (Z.to_nat it - 1). cbn. split; [lia|]. split; [auto|lia].
Qed.

(** ** IDs in an array of numpy *)
Lemma np_str_plain x : ~ ends_with_nul x -> np_str x = x.
Proof.
  induction x as [|c x IH]; intro H; auto. cbn [np_str]. rewrite IH.
  - destruct x; auto. destruct (N.eqb_spec c 0); auto. subst. exfalso. apply H. exists []. auto.
  - intros (y & ->). apply H. exists (c :: y). auto.
Qed.
Lemma np_str_not_nul x : ~ ends_with_nul (np_str x).
Proof.
  induction x as [|c x IH]; cbn [np_str].
  - intros (y & E). destruct y; discriminate.
  - destruct (np_str x) as [|c' r] eqn:E.
    + destruct (N.eqb_spec c 0) as [->|NE]; intros (y & Q); destruct y as [|c1 y]; try discriminate; cbn in Q; [congruence|]. injection Q as _ Q. destruct y; discriminate.
    + intros (y & Q). destruct y as [|c1 y]; [discriminate|]. cbn in Q. injection Q as <- Q. apply IH. exists y. auto.
Qed.
Lemma fold_dset_NoDup {V} (l : list (pystr * V)) : forall d, NoDup (keys d) -> NoDup (keys (fold_left (fun d e => dset (fst e) (snd e) d) l d)).
Proof. induction l as [|e l IH]; intros d H; auto. apply IH, NoDup_keys_dset, H. Qed.
Lemma fold_dset_keys {V} (l : list (pystr * V)) x : forall d, In x (keys (fold_left (fun d e => dset (fst e) (snd e) d) l d)) <-> In x (keys d) \/ In x (keys l).
Proof. unfold keys at 3. induction l as [|e l IH]; intro d; cbn [fold_left map In]; [tauto|]. rewrite IH, In_keys_dset. intuition. Qed.
Lemma fold_dset_id {V} (l : list (pystr * V)) : forall d, NoDup (keys d ++ map fst l) -> fold_left (fun d e => dset (fst e) (snd e) d) l d = d ++ l.
Proof.
  induction l as [|[k v] l IH]; intros d H; cbn [fold_left map fst snd] in *; [rewrite app_nil_r; auto|].
  assert (NI : ~ In k (keys d)). { intro J. apply NoDup_remove in H. apply (proj2 H), in_app_iff. auto. }
  rewrite dset_out by auto. rewrite IH, <- app_assoc; auto. unfold keys. rewrite map_app, <- app_assoc. exact H.
Qed.

Section Calls.
  Context {vec D : Type}.
  Variable o : ops D.
  Variable flatten : vec -> list D.
  Variable limit : nat.
  Variable order : list nat -> list nat.
  Variable first : nat -> list D -> nat.
  Variable sample : nat -> nat -> list nat.
  Variable shuffle : nat -> list nat -> list nat.
  Hypothesis ORD : valid_order order.
  Hypothesis SHF : valid_shuffle shuffle.
  Hypothesis SMP : valid_sample sample.
  Hypothesis ARG : valid_argmin o.
  Variable p : mp_params D.
  Variable r : nat.
  Hypothesis MI : mp_max_iteration D p = S r.
  Variable m : mgr.
  Hypothesis I : Inv m.
  Variable vectors : dict pystr vec.
  Notation l := (ids m).
  Notation n := (length (ids m)).
  Notation X := (map flatten (vals vectors)).
  Notation N := (length (vals vectors)).
  Notation cluster := (cluster vec D o flatten limit order first sample shuffle p m vectors).
  Notation one := (o_of_nat D o 1).
  Notation w := (mp_w D p).
  Notation kk z := (Nat.min (Z.to_nat z) n).

  Definition raw (L : list nat) : dict pystr Z :=
    fold_left (fun d e => dset (fst e) (snd e) d) (combine (map np_str (keys vectors)) (map Z.of_nat L)) [].
  Definition missing (d : dict pystr Z) : dict pystr Z := map (fun x => (x, (-1)%Z)) (filter (fun x => negb (mem x (keys d))) l).

  Lemma raw_NoDup L : NoDup (keys (raw L)).
  Proof. apply fold_dset_NoDup. constructor. Qed.
  Lemma raw_np x L : length L = N -> In x (keys (raw L)) <-> In x (map np_str (keys vectors)).
  Proof.
    intro E. unfold raw. rewrite fold_dset_keys. rewrite (combine_keys (map np_str (keys vectors)) (map Z.of_nat L)); [cbn; tauto|].
    unfold keys, vals in *. rewrite !map_length in *. auto.
  Qed.
  Lemma fold_missing (ids : list pystr) : NoDup ids -> forall d : dict pystr Z,
    fold_left (fun d x => if mem x (keys d) then d else dset x (-1)%Z d) ids d = d ++ map (fun x => (x, (-1)%Z)) (filter (fun x => negb (mem x (keys d))) ids).
  Proof.
    induction ids as [|x ids IH]; intros NDi d; cbn [fold_left filter map]; [rewrite app_nil_r; auto|]. apply NoDup_cons_iff in NDi as [NI NDi].
    destruct (mem x (keys d)) eqn:E; cbn [negb map]; auto. apply mem_nIn in E. rewrite IH, dset_out by auto. rewrite <- app_assoc. cbn [app]. f_equal. f_equal. f_equal. apply filter_ext_in.
    intros y Y. f_equal. apply eq_true_iff_eq. rewrite !mem_In. unfold keys. rewrite map_app, in_app_iff. cbn. split; [intros [?|[->|[]]]; auto; contradiction|auto].
  Qed.

  (** What is known about a call. *)
  Record returned (z : Z) (L : list nat) (Cs : matrix D) (d0 d : dict pystr Z) : Prop := {
    rt_nb : (2 <= z)%Z;
    rt_n : 2 <= n;
    rt_eq : N = n;
    rt_comps : forall c, In c (comps m) -> length c <= limit;
    rt_run : exists mg cg cs C0, constraint_graphs limit order m l = Ok (mg, cg, cs) /\
       graph_of n (constrained m l MUST_LINK) mg /\ graph_of n (constrained m l CANNOT_LINK) cg /\ exact_neighborhoods m l cs /\
       initialize_cluster_centers D o first sample X (kk z) cs = Ok C0 /\
       iterate D o order shuffle X (kk z) w mg cg (S r) 0 C0 (repeat one (width D X)) None = Ok (Cs, Some L);
    rt_len : length L = N;
    rt_labels : forall c, In c L <-> c < kk z;
    rt_ren : rename_clusters_by_order (raw L) = Ok d0;
    rt_final : d = d0 ++ missing d0 }.

  (** The exceptions of the numerical part, when there are [n] IDs and [k] clusters. *)
  Definition fails (k : nat) (e : exn) : Prop :=
    ((exists c, In c (comps m) /\ limit < length c) /\ e = RecursionError) \/
    ((forall c, In c (comps m) -> length c <= limit) /\
     ((N < n /\ e = IndexError) \/ (n < N /\ n = 0 /\ (e = AssertionError \/ e = ValueError)) \/ (n = 0 /\ N = 0 /\ e = IndexError) \/
      (0 < n <= N /\ k < length (comps m) /\ e = IndexError) \/
      (0 < n < N /\ (e = AssertionError \/ e = KeyError)) \/ (0 < n /\ N = n /\ (e = AssertionError \/ (k < 10 /\ e = ValueError))))).

  Lemma neighborhoods_comps cs : exact_neighborhoods m l cs -> length cs = length (comps m).
  Proof.
    intros (NC & CV & CL & _). assert (H : forall c, In c cs -> exists i, i < n /\ In i c /\ forall j, In j c <-> j < n /\ mli m i j = true).
    { intros c J. destruct (CL c J) as (i & Ji & H). assert (Li : i < n) by (apply CV, in_concat; eauto). exists i. split; auto. split; auto. intro j. rewrite H, constrained_ml by auto. reflexivity. }
    clear CL. set (f := fun c => comp_of m (at_ m (hd 0 c))).
    assert (HD : forall c, In c cs -> hd 0 c < n /\ In (hd 0 c) c /\ forall j, In j c <-> j < n /\ mli m (hd 0 c) j = true).
    { intros c J. destruct (H c J) as (i & Li & Ji & E). assert (Jh : In (hd 0 c) c) by (destruct c; [destruct Ji|simpl; auto]). assert (Eh := proj1 (E _) Jh). destruct Eh as [Lh Mh]. split; auto. split; auto.
      intro j. rewrite E. split; intros [Lj Mj]; split; auto; [eapply mli_trans; [|exact Lh|exact Li| |apply mli_sym; eauto|exact Mj]|eapply mli_trans; [|exact Li|exact Lh| |exact Mh|exact Mj]]; auto. }
    rewrite <- (map_length f cs). apply Permutation_length, NoDup_Permutation; [|apply comps_NoDup|].
    - clear H CV. revert NC HD. induction cs as [|c l' IH]; intros NC HD; cbn [map]; [constructor|]. cbn [concat] in NC. apply NoDup_app_inv in NC as (_ & NC & DJ). constructor.
      + intro J. apply in_map_iff in J as (c' & E & J). destruct (HD c (or_introl eq_refl)) as (L1 & I1 & _). destruct (HD c' (or_intror J)) as (L2 & I2 & E2).
        apply (DJ (hd 0 c) I1). apply in_concat. exists c'. split; auto. apply E2. split; auto. apply ml_linked; auto using at_In. apply comp_of_In; auto using at_In. unfold f in E. rewrite E. apply self_comp; auto using at_In.
      + apply IH; auto. intros c' J. apply HD. simpl; auto.
    - intro c. rewrite in_map_iff, comps_In. split.
      + intros (c' & <- & J). exists (at_ m (hd 0 c')). split; auto. apply at_In, HD; auto.
      + intros (x & X & ->). apply In_nth_error in X as [i X]. apply at_nth in X as [Li ->]. assert (J : In i (concat cs)) by (apply CV; auto). apply in_concat in J as (c' & J1 & J2).
        exists c'. split; auto. destruct (HD c' J1) as (L1 & I1 & E1). apply E1 in J2 as [_ M]. unfold f. symmetry. apply comp_of_share; auto using at_In. apply comp_of_In; auto using at_In. apply ml_linked; auto using at_In.
  Qed.

  Lemma call_cases z : (2 <= z)%Z ->
    (exists L Cs d0 d, returned z L Cs d0 d /\ forall s, cluster (Some z) s = (mkMpckmeans D (Some d) (Some Cs) (Some L), Ok d)) \/
    (exists e, fails (kk z) e /\ forall s, cluster (Some z) s = (s, Raise e)).
  Proof.
    intro Z2. unfold Mpckmeans.cluster, bind, lift, raise, ret, modify. rewrite ask_managed by auto. rewrite (proj2 (Z.ltb_ge z 2)) by auto. cbv zeta. rewrite MI.
    destruct (graphs_run order ORD limit m I) as [H1 H2].
    assert (DEC : (forall c, In c (comps m) -> length c <= limit) \/ exists c, In c (comps m) /\ limit < length c).
    { destruct (forallb (fun c => length c <=? limit) (comps m)) eqn:E.
      - left. rewrite forallb_forall in E. intros c J. apply Nat.leb_le. auto.
      - right. assert (T : existsb (fun c => negb (length c <=? limit)) (comps m) = true).
        { clear - E. induction (comps m) as [|c cs IH]; cbn in *; [discriminate|]. destruct (length c <=? limit); cbn in *; auto. }
        apply existsb_exists in T as (c & J & T). exists c. split; auto. apply negb_true_iff, Nat.leb_gt in T. auto. }
    destruct DEC as [SM|BIG].
    2: { right. exists RecursionError. split; [left; auto|]. intro s. rewrite (H2 BIG). auto. }
    destruct (H1 SM) as (mg & cg & cs & EG & Gm & Gc & EN). assert (EN' := EN). destruct EN' as (NC & CV & CL & _). assert (LCS := neighborhoods_comps cs EN).
    set (k := kk z). assert (LX : length X = N) by apply map_length.
    rewrite EG.
    destruct (initialize_cluster_centers D o first sample X k cs) as [C0|e] eqn:EI.
    2: { right. exists e. split; [|intro s; auto]. right. split; auto. destruct (Nat.lt_ge_cases N n) as [L|L].
      - left. split; auto. rewrite (init_short o first sample X k n cs CV) in EI by (rewrite LX; auto). congruence.
      - right. destruct (Nat.eq_dec n 0) as [E0|E0].
        + right. left. split; auto. assert (cs = []). { destruct cs as [|c cs']; auto. destruct (CL c (or_introl eq_refl)) as (i & Ji & _). assert (In i (concat (c :: cs'))) by (apply in_concat; exists c; simpl; auto). apply CV in H. lia. }
          subst cs. unfold initialize_cluster_centers in EI. cbn [rmap rbind] in EI. replace k with 0 in EI by (unfold k; lia). cbn in EI. destruct (vals vectors) as [|v0 vs]; [|discriminate]. cbn in EI. cbn. split; [auto|congruence].
        + right. right. left. split; [lia|]. destruct (init_cases o first sample X k n cs CV) as [[C' E']|[Lk E']]; try (rewrite ?LX; unfold k; lia); auto; rewrite E' in EI; [discriminate|]. rewrite <- LCS. split; auto. congruence. }
    destruct (Nat.lt_ge_cases N n) as [L|L].
    { rewrite (init_short o first sample X k n cs CV) in EI by (rewrite LX; auto). discriminate. }
    destruct (iterate D o order shuffle X k w mg cg (S r) 0 C0 (repeat one (width D X)) None) as [[Cs ls]|e] eqn:ET.
    2: { right. exists e. split; [|intro s; auto]. right. split; auto. right. destruct (Nat.eq_dec n 0) as [E0|E0].
      - assert (Ecs : cs = []). { destruct cs as [|c cs']; auto. destruct (CL c (or_introl eq_refl)) as (i & Ji & _). assert (In i (concat (c :: cs'))) by (apply in_concat; exists c; simpl; auto). apply CV in H. lia. }
        subst cs. unfold initialize_cluster_centers in EI. cbn [rmap rbind] in EI. replace k with 0 in * by (unfold k; lia). cbn in EI.
        destruct (vals vectors) as [|v0 vs] eqn:EV; [cbn in EI; discriminate|]. cbn in EI. injection EI as <-. left. split; [cbn; lia|]. split; auto. rewrite <- EV in *.
        cbn [iterate] in ET. destruct (farthest_pair_cases o X (repeat one (width D X))) as [[far Ef]|Ef]; rewrite Ef in ET; cbn [rbind] in ET; [|left; congruence]. right.
        unfold assign_clusters, assign_points in ET. destruct (shuffle 0 (seq 0 (length X))) as [|i is] eqn:ES.
        + exfalso. assert (J : In 0 (shuffle 0 (seq 0 (length X)))) by (apply (Permutation_in _ (SHF 0 _)), in_seq; rewrite LX, EV; cbn; lia). rewrite ES in J. destruct J.
        + cbn [rfold assign_point length seq rmap rbind] in ET. unfold assign_point in ET. cbn [length seq rmap rbind] in ET. congruence.
      - assert (LK : 0 < k <= n) by (unfold k; lia). assert (LC0 := init_length o first sample X k n cs CV C0 ltac:(rewrite LX; auto) LK SMP EI).
        destruct (Nat.eq_dec N n) as [EQ|NE].
        + right. right. right. right. split; [lia|]. split; auto.
          destruct (iterate_cases o order first sample shuffle ORD SHF ARG X k w mg cg n _ _ Gm (constrained_bound m MUST_LINK) Gc (constrained_bound m CANNOT_LINK) ltac:(rewrite LX; auto) ltac:(rewrite LX; lia) r 0 C0 (repeat one (width D X)) None LC0)
            as [(C' & L' & E' & _)|[E'|[K E']]]; rewrite E' in ET; [discriminate|left; congruence|right; split; auto; congruence].
        + right. right. right. left. split; [lia|].
          destruct (iterate_out o order shuffle ORD SHF X k w mg cg n _ _ Gm (constrained_bound m MUST_LINK) Gc (constrained_bound m CANNOT_LINK) r 0 C0 (repeat one (width D X)) None ltac:(rewrite LX; lia) ltac:(lia) LC0) as [E'|E']; rewrite E' in ET; [left|right]; congruence. }
    left. destruct (Nat.eq_dec n 0) as [E0|E0].
    { exfalso. assert (Ecs : cs = []). { destruct cs as [|c cs']; auto. destruct (CL c (or_introl eq_refl)) as (i & Ji & _). assert (In i (concat (c :: cs'))) by (apply in_concat; exists c; simpl; auto). apply CV in H. lia. }
      subst cs. unfold initialize_cluster_centers in EI. cbn [rmap rbind] in EI. replace k with 0 in * by (unfold k; lia). cbn in EI.
      destruct (vals vectors) as [|v0 vs] eqn:EV; [cbn in EI; discriminate|]. cbn in EI. injection EI as <-. rewrite <- EV in *.
      cbn [iterate] in ET. destruct (farthest_pair_cases o X (repeat one (width D X))) as [[far Ef]|Ef]; rewrite Ef in ET; cbn [rbind] in ET; [|discriminate].
      unfold assign_clusters, assign_points in ET. destruct (shuffle 0 (seq 0 (length X))) as [|i is] eqn:ES.
      + assert (J : In 0 (shuffle 0 (seq 0 (length X)))) by (apply (Permutation_in _ (SHF 0 _)), in_seq; rewrite LX, EV; cbn; lia). rewrite ES in J. destruct J.
      + cbn [rfold assign_point length seq rmap rbind] in ET. unfold assign_point in ET. cbn [length seq rmap rbind] in ET. discriminate. }
    assert (LK : 0 < k <= n) by (unfold k; lia). assert (LC0 := init_length o first sample X k n cs CV C0 ltac:(rewrite LX; auto) LK SMP EI).
    destruct (Nat.eq_dec N n) as [EQ|NE].
    2: { exfalso. destruct (iterate_out o order shuffle ORD SHF X k w mg cg n _ _ Gm (constrained_bound m MUST_LINK) Gc (constrained_bound m CANNOT_LINK) r 0 C0 (repeat one (width D X)) None ltac:(rewrite LX; lia) ltac:(lia) LC0) as [E'|E']; congruence. }
    destruct (iterate_cases o order first sample shuffle ORD SHF ARG X k w mg cg n _ _ Gm (constrained_bound m MUST_LINK) Gc (constrained_bound m CANNOT_LINK) ltac:(rewrite LX; auto) ltac:(rewrite LX; lia) r 0 C0 (repeat one (width D X)) None LC0)
      as [(C' & L' & E' & LC' & LL' & IL')|[E'|[K E']]]; rewrite E' in ET; [|discriminate|discriminate]. injection ET as <- <-. rewrite LX in LL'.
    destruct (rename_run (raw L') (raw_NoDup L')) as (d0 & ER & KD & CAN & SP).
    exists L', C', d0, (d0 ++ missing d0). split.
    - split; auto.
      + apply Nat.nlt_ge. intro L1. assert (n = 1) by lia. rewrite iterate_same in E'; [discriminate|]. intros p0 q0 Lpq. rewrite LX in Lpq. lia.
      + exists mg, cg, cs, C0. auto 8.
    - intro s. cbn [snd fst]. fold (raw L'). rewrite ER. cbn [mp_centers mp_labels]. rewrite fold_missing by (apply inv_nodup; auto). reflexivity.
  Qed.
  Lemma bad_nb nb s : match nb with None => True | Some z => (z < 2)%Z end -> cluster nb s = (s, Raise ValueError).
  Proof.
    intro H. unfold Mpckmeans.cluster, bind, lift, raise. rewrite ask_managed by auto. destruct nb as [z|]; auto. rewrite (proj2 (Z.ltb_lt z 2)) by auto. auto.
  Qed.
  Lemma call_returned nb s s' d : cluster nb s = (s', Ok d) -> exists z L Cs d0, nb = Some z /\ returned z L Cs d0 d /\ s' = mkMpckmeans D (Some d) (Some Cs) (Some L).
  Proof.
    intro E. destruct nb as [z|]; [|rewrite bad_nb in E; [discriminate|auto]]. destruct (Z.lt_ge_cases z 2) as [Lz|Lz]; [rewrite bad_nb in E; [discriminate|auto]|].
    destruct (call_cases z Lz) as [(L & Cs & d0 & d' & R & Q)|(e & _ & Q)]; rewrite Q in E; [|discriminate]. injection E as <- <-. exists z, L, Cs, d0. auto.
  Qed.
End Calls.

(** What [returned] says in terms of the specification. *)
Section Returned.
  Context {vec D : Type}.
  Variable o : ops D.
  Variable flatten : vec -> list D.
  Variable limit : nat.
  Variable order : list nat -> list nat.
  Variable first : nat -> list D -> nat.
  Variable sample : nat -> nat -> list nat.
  Variable shuffle : nat -> list nat -> list nat.
  Variable p : mp_params D.
  Variable r : nat.
  Variable m : mgr.
  Hypothesis I : Inv m.
  Variable vectors : dict pystr vec.
  Hypothesis ND : NoDup (keys vectors).
  Hypothesis PL : forall x, In x (keys vectors) -> ~ ends_with_nul x.
  Variables (z : Z) (L : list nat) (Cs : matrix D) (d0 d : dict pystr Z).
  Hypothesis RT : returned o flatten limit order first sample shuffle p r m vectors z L Cs d0 d.
  Notation X := (map flatten (vals vectors)).
  Notation N := (length (vals vectors)).
  Notation k := (Nat.min (Z.to_nat z) (length (ids m))).

  Lemma keys_vals : length (keys vectors) = N.
  Proof. unfold keys, vals. rewrite !map_length. auto. Qed.
  Lemma raw_plain : raw vectors L = combine (keys vectors) (map Z.of_nat L).
  Proof.
    unfold raw. replace (map np_str (keys vectors)) with (keys vectors).
    - apply fold_dset_id. cbn [keys map app]. change (map fst (combine (keys vectors) (map Z.of_nat L))) with (keys (combine (keys vectors) (map Z.of_nat L))). rewrite combine_keys; auto.
      rewrite map_length, (rt_len _ _ _ _ _ _ _ _ _ _ _ _ _ _ _ _ RT). apply keys_vals.
    - rewrite <- (map_id (keys vectors)) at 1. apply map_ext_in. intros x J. symmetry. apply np_str_plain. auto.
  Qed.
  Lemma keys_raw : length L = N -> keys (raw vectors L) = keys vectors.
  Proof. intro E. rewrite raw_plain. apply combine_keys. rewrite map_length, E. apply keys_vals. Qed.
  Lemma vals_raw : length L = N -> vals (raw vectors L) = map Z.of_nat L.
  Proof. intro E. rewrite raw_plain. apply combine_vals. rewrite map_length, E. apply keys_vals. Qed.
  Lemma label_of i a : nth_error (keys vectors) i = Some a -> dget a (raw vectors L) = Some (Z.of_nat (nth i L 0)).
  Proof.
    intro E. assert (Li : i < N) by (rewrite <- keys_vals; apply nth_error_Some; congruence). apply In_dget; [rewrite keys_raw; auto; apply RT|]. rewrite raw_plain.
    rewrite (combine_nths (str "") 0%Z) by (rewrite map_length, (rt_len _ _ _ _ _ _ _ _ _ _ _ _ _ _ _ _ RT); apply keys_vals). apply in_map_iff. exists i. split; [|apply in_seq; rewrite keys_vals; lia].
    rewrite (nth_error_nth _ _ (str "") E). f_equal. change 0%Z with (Z.of_nat 0). apply map_nth.
  Qed.
  Lemma renamed : canonical d0 /\ (forall x, In x (keys d0) <-> In x (keys vectors)) /\ same_partition (raw vectors L) d0 /\ NoDup (keys d0).
  Proof.
    destruct RT as [_ _ _ _ _ LL _ ER _]. destruct (rename_run (raw vectors L)) as (d' & E & KD & CAN & SP); [rewrite keys_raw; auto|]. rewrite ER in E. injection E as <-.
    split; auto. split; [|split; auto; apply sorted_NoDup, CAN]. intro x. rewrite <- (proj1 SP), keys_raw; tauto.
  Qed.
  Lemma nb_renamed : nb_clusters_of d0 = k.
  Proof.
    destruct renamed as (_ & _ & SP & ND0). rewrite <- (nb_same (raw vectors L) d0); auto; [|rewrite keys_raw; auto; apply RT]. unfold nb_clusters_of. rewrite vals_raw by apply RT.
    rewrite <- (seq_length k 0), <- (map_length Z.of_nat). apply Permutation_length, NoDup_Permutation; [apply NoDup_nodup|apply FinFun.Injective_map_NoDup; [intros a b Q; lia|apply seq_NoDup]|].
    intro v. rewrite nodup_In, !in_map_iff. split; intros (c & <- & J); exists c; (split; auto).
    - apply (rt_labels _ _ _ _ _ _ _ _ _ _ _ _ _ _ _ _ RT) in J. apply in_seq. lia.
    - apply in_seq in J. apply (rt_labels _ _ _ _ _ _ _ _ _ _ _ _ _ _ _ _ RT). lia.
  Qed.
  Lemma keys_final x : In x (keys d) <-> In x (keys vectors) \/ In x (ids m).
  Proof.
    destruct renamed as (_ & K & _ & _). rewrite (rt_final _ _ _ _ _ _ _ _ _ _ _ _ _ _ _ _ RT). unfold keys at 1, missing. rewrite map_app, map_map. cbn [fst]. rewrite map_id. fold (keys d0). rewrite in_app_iff, filter_In, negb_true_iff, K.
    split; [intros [?|[? _]]; auto|]. intros [?|J]; auto. destruct (mem x (keys d0)) eqn:E; [left; apply K; apply mem_In; auto|right; auto].
  Qed.
  Lemma get_vector x : In x (keys vectors) -> dget x d = dget x d0 /\ exists v, dget x d = Some v /\ (0 <= v)%Z.
  Proof.
    intro J. destruct renamed as (CAN & K & _ & ND0). apply K in J. assert (E : dget x d = dget x d0).
    { rewrite (rt_final _ _ _ _ _ _ _ _ _ _ _ _ _ _ _ _ RT). apply dget_app_l. auto. }
    split; auto. apply dget_In_key in J as [v Ev]. exists v. split; [congruence|]. apply dget_In in Ev. apply (in_map snd) in Ev. cbn in Ev. fold (vals d0) in Ev.
    destruct CAN as [_ F]. clear - F Ev. revert F Ev. generalize 0%Z at 1 as nx. induction (vals d0) as [|u l IH]; intros nx F []; destruct F as [B F]; [lia|]. eapply IH; eauto.
  Qed.
  Lemma get_missing x : In x (ids m) -> ~ In x (keys vectors) -> dget x d = Some (-1)%Z.
  Proof.
    intros J NJ. destruct renamed as (_ & K & _ & ND0). rewrite (rt_final _ _ _ _ _ _ _ _ _ _ _ _ _ _ _ _ RT). rewrite dget_app_r by (rewrite K; auto). unfold missing. apply (dget_map_fun (fun _ => (-1)%Z)).
    apply filter_In. split; auto. apply negb_true_iff, mem_nIn. rewrite K. auto.
  Qed.
  Lemma same_labels i j a b : nth_error (keys vectors) i = Some a -> nth_error (keys vectors) j = Some b -> dget a d = dget b d <-> nth i L 0 = nth j L 0.
  Proof.
    intros Ea Eb. assert (Ja := nth_error_In _ _ Ea). assert (Jb := nth_error_In _ _ Eb). rewrite (proj1 (get_vector a Ja)), (proj1 (get_vector b Jb)).
    destruct renamed as (_ & K & [_ SP] & _). rewrite <- SP by (rewrite keys_raw; auto; apply RT). rewrite (label_of i a Ea), (label_of j b Eb). split; [intro Q; injection Q; lia|intros ->; auto].
  Qed.
  Lemma exact_ids : (forall x, In x (keys vectors) <-> In x (ids m)) -> d = d0.
  Proof.
    intro H. destruct renamed as (_ & K & _ & _). rewrite (rt_final _ _ _ _ _ _ _ _ _ _ _ _ _ _ _ _ RT). unfold missing. rewrite (proj2 (filter_nil_iff _ _)); [apply app_nil_r|].
    intros x J. apply negb_false_iff, mem_In. apply K, H, J.
  Qed.
End Returned.

(*PROP C49 (refuted): the labels depend on the order of the vectors only, never on their IDs: constraint [i, j] of the manager is applied to the [i]-th and [j]-th vectors, whoever they belong to. *)
Lemma C49_ids_ignored_refuted_proof :
  forall vec D o flatten limit order first sample shuffle model it w p m (vectors1 vectors2 : dict pystr vec) nb s s1 d1,
    valid_order order -> valid_shuffle shuffle -> valid_sample sample -> valid_argmin o -> reachable m ->
    NoDup (keys vectors1) -> NoDup (keys vectors2) -> vals vectors1 = vals vectors2 ->
    make_mpckmeans D o model it w = Ok p ->
    cluster vec D o flatten limit order first sample shuffle p m vectors1 nb s = (s1, Ok d1) ->
    exists s2 d2, cluster vec D o flatten limit order first sample shuffle p m vectors2 nb s = (s2, Ok d2) /\
      mp_labels D s2 = mp_labels D s1 /\ mp_centers D s2 = mp_centers D s1.
Proof.
  intros vec D o flatten limit order first sample shuffle model it w p m v1 v2 nb s s1 d1 ORD SHF SMP ARG R N1 N2 EV MK E. apply reachable_inv in R. apply make_ok in MK as (r & MI & _ & _).
  destruct (call_returned o flatten limit order first sample shuffle ORD SHF SMP ARG p r MI m R v1 nb s s1 d1 E) as (z & L & Cs & d0 & -> & RT & ->).
  destruct (call_cases o flatten limit order first sample shuffle ORD SHF SMP ARG p r MI m R v2 z (rt_nb _ _ _ _ _ _ _ _ _ _ _ _ _ _ _ _ RT)) as [(L2 & C2 & d02 & d2 & RT2 & Q)|(e & _ & Q)].
  - exists (mkMpckmeans D (Some d2) (Some C2) (Some L2)), d2. split; auto. cbn [mp_labels mp_centers].
    destruct (rt_run _ _ _ _ _ _ _ _ _ _ _ _ _ _ _ _ RT) as (mg & cg & cs & C0 & E1 & _ & _ & _ & E2 & E3). destruct (rt_run _ _ _ _ _ _ _ _ _ _ _ _ _ _ _ _ RT2) as (mg' & cg' & cs' & C0' & F1 & _ & _ & _ & F2 & F3).
    rewrite E1 in F1. injection F1 as <- <- <-. rewrite EV in *. rewrite E2 in F2. injection F2 as <-. rewrite E3 in F3. injection F3 as <- <-. auto.
  - exfalso. specialize (Q s). destruct (rt_run _ _ _ _ _ _ _ _ _ _ _ _ _ _ _ _ RT) as (mg & cg & cs & C0 & E1 & _ & _ & _ & E2 & E3).
    assert (NB := rt_nb _ _ _ _ _ _ _ _ _ _ _ _ _ _ _ _ RT). unfold Mpckmeans.cluster, bind, lift, raise, ret, modify in Q. rewrite ask_managed in Q by auto. rewrite (proj2 (Z.ltb_ge z 2)) in Q by auto. cbv zeta in Q.
    rewrite E1, <- EV, E2, MI, E3 in Q. cbn [snd fst] in Q. destruct (rename_run (raw v2 L) (raw_NoDup v2 L)) as (d2 & ER & _). unfold raw in ER. rewrite ER in Q. discriminate.
Qed.

(*PROP C49 (refuted, wrong data): with the vectors in another order than the IDs of the manager, MPCKMeans joins data without constraint and separates a must-link. *)
Lemma C49_wrong_data_refuted_proof :
  exists m p vectors1 vectors2 d1 d2 s1 s2,
    reachable m /\ make_mpckmeans Q Qops (str "MPC") 10 (1#1)%Q = Ok p /\
    Permutation vectors1 vectors2 /\ NoDup (keys vectors1) /\
    mpck_Q 100 p m vectors1 (Some 2%Z) (fresh_mpckmeans Q) = (s1, Ok d1) /\
    mpck_Q 100 p m vectors2 (Some 2%Z) (fresh_mpckmeans Q) = (s2, Ok d2) /\
    respects_must_links m d1 /\ ~ respects_must_links m d2 /\ ~ same_partition d1 d2.
Proof.
  pose (a := str "a"). pose (b := str "b"). pose (c := str "c").
  pose (m := run [CallAddConstraint a b MUST_LINK 1%Q] (init [a; b; c])).
  exists m, (mkMPParams Q 10 (1#1)%Q), [(a, 0%Z); (b, 6%Z); (c, 10%Z)], [(a, 0%Z); (c, 10%Z); (b, 6%Z)], [(a, 0%Z); (b, 0%Z); (c, 1%Z)], [(a, 0%Z); (b, 1%Z); (c, 0%Z)].
  eexists. eexists. assert (R : reachable m) by apply run_reachable. assert (Iv := reachable_inv _ R).
  split; [exact R|]. split; [reflexivity|]. split; [apply perm_skip, perm_swap|]. split.
  { apply (NoDup_count_occ (list_eq_dec N.eq_dec)). intro x. cbn [keys map fst count_occ]. repeat destruct (list_eq_dec N.eq_dec _ x); subst; try discriminate; try lia; vm_compute in *; congruence. }
  split; [vm_compute; reflexivity|]. split; [vm_compute; reflexivity|].
  assert (IDS : ids m = [a; b; c]) by (vm_compute; reflexivity).
  assert (AB : inferred m a b (Some MUST_LINK)) by (apply inferred_ml; [exact Iv|rewrite IDS; simpl; auto|rewrite IDS; simpl; auto|vm_compute; reflexivity]).
  assert (Ma : managed m a) by (apply managed_ids; rewrite IDS; simpl; auto). assert (Mb : managed m b) by (apply managed_ids; rewrite IDS; simpl; auto).
  split; [|split].
  - intros x y Mx My H. apply managed_ids in Mx, My. apply inferred_ml in H; auto. rewrite IDS in Mx, My. simpl in Mx, My.
    destruct Mx as [<-|[<-|[<-|[]]]], My as [<-|[<-|[<-|[]]]]; try (vm_compute; reflexivity); vm_compute in H; discriminate.
  - intro H. specialize (H a b Ma Mb AB). vm_compute in H. discriminate.
  - intros [_ H]. specialize (H a b). assert (Ka : In a (keys [(a, 0%Z); (b, 0%Z); (c, 1%Z)])) by (simpl; auto). assert (Kb : In b (keys [(a, 0%Z); (b, 0%Z); (c, 1%Z)])) by (simpl; auto).
    assert (Q0 := proj1 (H Ka Kb) ltac:(vm_compute; reflexivity)). vm_compute in Q0. discriminate.
Qed.

(*EX
Example C49_ex :
  result (mpck_Q 100 (mkMPParams Q 10 (1#1)%Q) ex [(A, 0); (B, 6); (C, 10)]%Z (Some 2%Z)) (fresh_mpckmeans Q) = Ok [(A, 0); (B, 0); (C, 1)]%Z /\
  result (mpck_Q 100 (mkMPParams Q 10 (1#1)%Q) ex [(A, 0); (C, 10); (B, 6)]%Z (Some 2%Z)) (fresh_mpckmeans Q) = Ok [(A, 0); (B, 1); (C, 0)]%Z.
Proof. split; vm_compute; reflexivity. Qed.
EX*)

(*PROP C78: what MPCKMeans computes: the first centres from the components, then iterations (farthest pair, greedy assignment by distance plus penalties in the drawn order, repair of empty clusters, means, metric) until the centres are stable or the iterations are used up; IDs are together exactly when their vectors have the same label. *)
Lemma C78_mpckmeans_functional_proof :
  forall vec D o flatten limit order first sample shuffle model it w p m (vectors : dict pystr vec) nb s s' d l,
    valid_order order -> valid_shuffle shuffle -> valid_first first -> valid_sample sample -> exact_argmin o -> strict_weak_order (o_ltb D o) ->
    (forall v v', In v (vals vectors) -> In v' (vals vectors) -> length (flatten v) = length (flatten v')) ->
    reachable m -> NoDup (keys vectors) -> (forall x, In x (keys vectors) -> ~ ends_with_nul x) -> make_mpckmeans D o model it w = Ok p ->
    cluster vec D o flatten limit order first sample shuffle p m vectors nb s = (s', Ok d) ->
    ask get_list_of_managed_data_IDs m = Ok l ->
    let x := fun i => nth i (map flatten (vals vectors)) [] in
    let n := length l in
    let k := Nat.min (match nb with Some z => Z.to_nat z | None => 0 end) n in
    exists cs C0 C L,
      exact_neighborhoods m l cs /\
      first_centers o n (length (x 0)) x k first sample cs C0 /\
      iterates o n (length (x 0)) x k w (constrained m l MUST_LINK) (constrained m l CANNOT_LINK) (fun t => shuffle t (seq 0 n))
        0 (Z.to_nat it) C0 (repeat (o_of_nat D o 1) (length (x 0))) C L /\
      mp_centers D s' = Some C /\ mp_labels D s' = Some (map L (seq 0 n)) /\ mp_predicted D s' = Some d /\
      forall i j a b, nth_error (keys vectors) i = Some a -> nth_error (keys vectors) j = Some b -> dget a d = dget b d <-> L i = L j.
Proof.
  intros vec D o flatten limit order first sample shuffle model it w p m vectors nb s s' d l0 ORD SHF FST SMP ARG SW WX R ND PL MK E EI. apply reachable_inv in R. apply make_ok in MK as (r & MI & <- & ET).
  rewrite ask_managed in EI by auto. injection EI as <-. assert (ARG' := exact_valid o ARG).
  destruct (call_returned o flatten limit order first sample shuffle ORD SHF SMP ARG' p r MI m R vectors nb s s' d E) as (z & L & Cs & d0 & -> & RT & ->). intros x n k.
  assert (RT' := RT). destruct RT' as [Z2 N2 EN SM (mg & cg & cs & C0 & EG & Gm & Gc & NB & EC & EIt) LL IL ER ED]. assert (LX : length (map flatten (vals vectors)) = n) by (rewrite map_length; exact EN).
  assert (NB' := NB). destruct NB' as (NC & CV & _). exists cs, C0, Cs, (fun i => nth i L 0). rewrite ET.
  assert (LK : 0 < k <= n) by (unfold k, n; lia).
  assert (WX' : forall r0, In r0 (map flatten (vals vectors)) -> length r0 = width D (map flatten (vals vectors))).
  { intros r0 J. unfold width, row. apply in_map_iff in J as (v & <- & J). destruct (vals vectors) as [|v0 vs]; [destruct J|]. cbn [map nth]. apply WX; simpl; auto. }
  split; auto. split.
  { pose proof (init_spec o first sample (map flatten (vals vectors)) k n cs CV NC C0 SW FST LX LK SMP EC) as H. rewrite LX in H. exact H. }
  split.
  { assert (LC0 : length C0 = k) by (apply (init_length o first sample (map flatten (vals vectors)) k n cs CV C0); auto; lia).
    assert (WC0 : forall r0, In r0 C0 -> length r0 = width D (map flatten (vals vectors))) by (apply (init_width o first sample (map flatten (vals vectors)) k n cs CV C0); auto; lia).
    pose proof (iterate_spec o order first sample shuffle ORD SHF ARG' (map flatten (vals vectors)) k (mp_w D p) mg cg n _ _ Gm (constrained_bound m MUST_LINK) Gc (constrained_bound m CANNOT_LINK) SW ARG LX ltac:(lia) r 0 C0 _ None Cs L LC0 WC0 EIt) as H.
    rewrite LX in H. exact H. }
  split; auto. split.
  { cbn [mp_labels]. f_equal. assert (EL : length L = n) by (rewrite LL; exact EN). rewrite <- EL. clear. induction L as [|c L IH]; auto. cbn [length seq map nth]. f_equal. rewrite IH at 1. rewrite <- seq_shift, map_map. reflexivity. }
  split; auto. intros i j a b Ea Eb. apply (same_labels o flatten limit order first sample shuffle p r m vectors ND PL z L Cs d0 d RT i j a b Ea Eb).
Qed.

(*EX
(** Two must-linked IDs and a third one, two clusters. *)
Example C78_ex : exists s',
  mpck_Q 100 (mkMPParams Q 10 (1#1)%Q) ex vecs (Some 2%Z) (fresh_mpckmeans Q) = (s', Ok [(A, 0); (B, 0); (C, 1)]%Z) /\
  mp_labels Q s' = Some [0; 0; 1] /\ mp_centers Q s' = Some [[3#1]; [10#1]]%Q.
Proof. eexists. split; [vm_compute; reflexivity|]. split; vm_compute; reflexivity. Qed.
(** Four components and two clusters: the first centres come from the traversal. *)
Example C78_ex_traversal : exists s',
  mpck_Q 100 (mkMPParams Q 10 (1#1)%Q) (init [A; B; C; E]) [(A, 0); (B, 1); (C, 10); (E, 12)]%Z (Some 2%Z) (fresh_mpckmeans Q)
  = (s', Ok [(A, 0); (B, 0); (C, 1); (E, 1)]%Z).
Proof. eexists. vm_compute. reflexivity. Qed.
EX*)

(*PROP C49 (partial): when the vectors are given in the order of the manager, the penalties are exactly those of the constraints inferred between the data who own the vectors.  Missing: any other order (refuted above). *)
Lemma C49_right_data_partial_proof :
  forall vec D o flatten limit order first sample shuffle model it w p m (vectors : dict pystr vec) nb s s' d,
    valid_order order -> valid_shuffle shuffle -> valid_first first -> valid_sample sample -> exact_argmin o -> strict_weak_order (o_ltb D o) ->
    (forall v v', In v (vals vectors) -> In v' (vals vectors) -> length (flatten v) = length (flatten v')) ->
    reachable m -> NoDup (keys vectors) -> (forall x, In x (keys vectors) -> ~ ends_with_nul x) -> make_mpckmeans D o model it w = Ok p ->
    cluster vec D o flatten limit order first sample shuffle p m vectors nb s = (s', Ok d) ->
    ask get_list_of_managed_data_IDs m = Ok (keys vectors) ->
    let x := fun i => nth i (map flatten (vals vectors)) [] in
    let n := length vectors in
    let k := Nat.min (match nb with Some z => Z.to_nat z | None => 0 end) n in
    exists C0 C L,
      iterates o n (length (x 0)) x k w
        (fun i j => exists a b, nth_error (keys vectors) i = Some a /\ nth_error (keys vectors) j = Some b /\ inferred m a b (Some MUST_LINK))
        (fun i j => exists a b, nth_error (keys vectors) i = Some a /\ nth_error (keys vectors) j = Some b /\ inferred m a b (Some CANNOT_LINK))
        (fun t => shuffle t (seq 0 n))
        0 (Z.to_nat it) C0 (repeat (o_of_nat D o 1) (length (x 0))) C L /\
      forall i j a b, nth_error (keys vectors) i = Some a -> nth_error (keys vectors) j = Some b -> dget a d = dget b d <-> L i = L j.
Proof.
  intros vec D o flatten limit order first sample shuffle model it w p m vectors nb s s' d ORD SHF FST SMP ARG SW WX R ND PL MK E EI x n k.
  destruct (C78_mpckmeans_functional_proof vec D o flatten limit order first sample shuffle model it w p m vectors nb s s' d (keys vectors) ORD SHF FST SMP ARG SW WX R ND PL MK E EI) as (cs & C0 & Cs & L & _ & _ & RUN & _ & _ & _ & H).
  exists C0, Cs, L. split; [|exact H]. assert (EL : length (keys vectors) = n) by apply map_length. rewrite EL in RUN. exact RUN.
Qed.

(*EX
Example C49_partial_ex : ask get_list_of_managed_data_IDs ex = Ok (keys vecs) /\ reachable ex.
Proof. split; [vm_compute; reflexivity|apply ex_reachable]. Qed.
EX*)

(*PROP C50 (refuted): with fewer than ten clusters, MPCKMeans raises ValueError whenever the assignment leaves a cluster empty: after the repair it counts the clusters with minlength 10. *)
Lemma C50_empty_clusters_refuted_proof :
  forall D (o : ops D) X k A centers L,
    length L = length X -> k <= length X -> length centers = k -> (forall c, In c L -> c < k) ->
    (exists c, c < k /\ ~ In c L) -> k < 10 ->
    handle_empty_clusters D o X k A centers (map Some L) = Raise ValueError.
Proof.
  intros D o X k A centers L LL LK LC Lc (c & Lk & NI) K10. pose proof (handle_run o (fun _ _ => 0) (fun _ _ => []) X k A centers L LC LK LL Lc) as H. cbv zeta in H.
  assert (J : In c (empties X k (fun i => nth i L 0))) by (apply empties_In; auto). destruct (empties X k _) as [|e es]; [destruct J|]. cbn [orb] in H. rewrite (proj2 (Nat.leb_gt 10 k)) in H by auto. exact H.
Qed.

(*EX
(** Two must-linked IDs, two clusters: both go to the same cluster, and the call fails. *)
Example C50_refuted_ex :
  handle_empty_clusters Q Qops [[0#1]; [1#1]]%Q 2 [1#1]%Q [[1#2]; [0#1]]%Q (map Some [1; 1]) = Raise ValueError /\
  result (mpck_Q 100 (mkMPParams Q 10 (1#1)%Q) (run [CallAddConstraint A B MUST_LINK 1%Q] (init [A; B])) [(A, 0); (B, 1)]%Z (Some 2%Z)) (fresh_mpckmeans Q)
  = Raise ValueError.
Proof. split; vm_compute; reflexivity. Qed.
EX*)

(*PROP C50 (partial): with at least ten clusters every empty cluster receives the movable point that is farthest from its centre, and no cluster is empty on return.  Missing: fewer than ten clusters (refuted above). *)
Lemma C50_empty_clusters_partial_proof :
  forall D (o : ops D) X k A centers L,
    length L = length X -> 10 <= k <= length X -> length centers = k -> (forall c, In c L -> c < k) -> strict_weak_order (o_ltb D o) ->
    exists L' es, handle_empty_clusters D o X k A centers (map Some L) = Ok L' /\ length L' = length X /\
      (forall c, In c L' <-> c < k) /\
      StronglySorted lt es /\ (forall c, In c es <-> c < k /\ ~ In c L) /\
      fills o (length X) (fun i => nth i X []) A centers es (fun i => nth i L 0) (fun i => nth i L' 0).
Proof.
  intros D o X k A centers L LL LK LC Lc SW. pose proof (handle_run o (fun _ _ => 0) (fun _ _ => []) X k A centers L LC (proj2 LK) LL Lc) as H. cbv zeta in H. rewrite (proj2 (Nat.leb_le 10 k)), orb_true_r in H by lia.
  destruct H as (L' & E & LL' & IL & F). exists L', (empties X k (fun i => nth i L 0)). split; auto. split; auto. split; auto. split.
  - unfold empties. assert (SF : forall (f : nat -> bool) l, StronglySorted lt l -> StronglySorted lt (filter f l)).
    { intros f l SS. induction SS as [|y l SS IHs FF]; cbn; [constructor|]. destruct (f y); auto. constructor; auto. apply Forall_forall. intros q Jq. apply filter_In in Jq as [Jq _]. rewrite Forall_forall in FF. auto. }
    apply SF, seq_sorted.
  - split; [intro c; apply empties_In; auto|apply F; auto].
Qed.

(*EX
(** Ten clusters, cluster 0 is empty: point 1 is farther from the centre of cluster 9 than point 0. *)
Example C50_partial_ex :
  handle_empty_clusters Q Qops (map (fun i => [inject_Z (Z.of_nat i)]) (seq 0 10)) 10 [1#1]%Q
    ([[1#2]]%Q ++ map (fun i => [inject_Z (Z.of_nat i)]) (seq 2 8) ++ [[0#1]]%Q) (map Some [9; 9; 1; 2; 3; 4; 5; 6; 7; 8])
  = Ok [9; 0; 1; 2; 3; 4; 5; 6; 7; 8].
Proof. vm_compute. reflexivity. Qed.
EX*)

(*PROP C50 (partial, whole call): when there are as many vectors as IDs, at least ten clusters, at most as many components as clusters, and no metric makes all points equal, the call returns. *)
Lemma C50_returns_partial_proof :
  forall vec D o flatten limit order first sample shuffle model it w p m (vectors : dict pystr vec) nb s comps l,
    valid_order order -> valid_shuffle shuffle -> valid_sample sample -> valid_argmin o ->
    reachable m -> NoDup (keys vectors) -> make_mpckmeans D o model it w = Ok p ->
    ask get_list_of_managed_data_IDs m = Ok l -> ask get_connected_components m = Ok comps ->
    length vectors = length l -> (10 <= nb)%Z -> 10 <= length l -> length comps <= Z.to_nat nb -> (forall c, In c comps -> length c <= limit) ->
    (forall A, exists v v' i j, i < j /\ nth_error (vals vectors) i = Some v' /\ nth_error (vals vectors) j = Some v /\
       o_ltb D o (o_of_nat D o 0) (o_mahalanobis D o (flatten v) (flatten v') A) = true) ->
    exists d, result (cluster vec D o flatten limit order first sample shuffle p m vectors (Some nb)) s = Ok d.
Proof.
  intros vec D o flatten limit order first sample shuffle model it w p m vectors nb s cs0 l0 ORD SHF SMP ARG R ND MK EI EC LV NB LN LCo SM HF. apply reachable_inv in R. apply make_ok in MK as (r & MI & _ & _).
  rewrite ask_managed in EI by auto. injection EI as <-. rewrite ask_components in EC by auto. injection EC as <-.
  assert (Nb2 : (2 <= nb)%Z) by lia.
  destruct (call_cases o flatten limit order first sample shuffle ORD SHF SMP ARG p r MI m R vectors nb Nb2) as [(L & Cs & d0 & d & _ & Q)|(e & _ & Q)].
  { exists d. unfold result. rewrite Q. auto. }
  exfalso. specialize (Q s). destruct (graphs_run order ORD limit m R) as [H1 _]. destruct (H1 SM) as (mg & cg & cs & EG & Gm & Gc & EN). assert (EN' := EN). destruct EN' as (NC & CV & _).
  assert (LCS := neighborhoods_comps m R cs EN). set (k := Nat.min (Z.to_nat nb) (length (ids m))) in *.
  assert (LCk : length cs <= k).
  { unfold k. apply Nat.min_glb; [lia|]. rewrite LCS. assert (G : length (comps m) <= length (ids m)); auto. unfold comps. clear. assert (G : forall l acc, length (comps_aux m l acc) <= length l + length acc).
    { induction l as [|x l IH]; intro acc; cbn [comps_aux length]; auto. eapply Nat.le_trans; [apply IH|]. destruct (mem _ acc); rewrite ?app_length; cbn; lia. }
    specialize (G (ids m) []). cbn in G. lia. }
  unfold Mpckmeans.cluster, bind, lift, raise, ret, modify in Q. rewrite ask_managed in Q by auto. rewrite (proj2 (Z.ltb_ge nb 2)) in Q by auto. cbv zeta in Q. rewrite EG in Q. fold k in Q.
  set (X := map flatten (vals vectors)) in *. assert (LX : length X = length (ids m)) by (unfold X, vals; rewrite !map_length; auto).
  assert (LK : 10 <= k <= length (ids m)) by (unfold k; lia).
  destruct (init_cases o first sample X k (length (ids m)) cs CV ltac:(lia) ltac:(lia) SMP) as [[C0 EI]|[K _]]; [|lia]. rewrite EI, MI in Q.
  assert (LC0 := init_length o first sample X k (length (ids m)) cs CV C0 ltac:(lia) ltac:(lia) SMP EI).
  destruct (iterate_returns o order first sample shuffle ORD SHF ARG X k (mp_w D p) mg cg (length (ids m)) _ _ Gm (constrained_bound m MUST_LINK) Gc (constrained_bound m CANNOT_LINK) r 0 C0 (repeat (o_of_nat D o 1) (width D X)) None LX ltac:(lia)) as (Cs & L & EIt); auto.
  { intro A. destruct (HF A) as (v & v' & i & j & Lij & Ei & Ej & H). exists j, i. split; [|unfold row, X].
    - split; auto. unfold X. rewrite map_length. apply nth_error_Some. congruence.
    - rewrite (nth_error_nth (map flatten (vals vectors)) j [] (map_nth_error flatten _ _ Ej)), (nth_error_nth (map flatten (vals vectors)) i [] (map_nth_error flatten _ _ Ei)). exact H. }
  rewrite EIt in Q. cbn [snd fst] in Q.
  destruct (iterate_cases o order first sample shuffle ORD SHF ARG X k (mp_w D p) mg cg (length (ids m)) _ _ Gm (constrained_bound m MUST_LINK) Gc (constrained_bound m CANNOT_LINK) LX ltac:(lia) r 0 C0 (repeat (o_of_nat D o 1) (width D X)) None LC0) as [(C' & L' & E' & _ & LL & _)|[E'|[_ E']]]; rewrite EIt in E'; [|discriminate|discriminate].
  injection E' as <- <-. destruct (rename_run (raw vectors L) (raw_NoDup vectors L)) as (d2 & ER & _). unfold raw in ER. rewrite ER in Q. discriminate.
Qed.

(*EX
(** The repair at work in a whole call: eleven IDs, the first two must-linked, eleven clusters. *)
Example C50_returns_ex : let names := map (fun c => [c]) (map N.of_nat (seq 97 11)) in
  let m := run [CallAddConstraint (str "a") (str "b") MUST_LINK 1%Q] (init names) in
  result (mpck_Q 100 (mkMPParams Q 1 (1#1)%Q) m (combine names (map Z.of_nat (seq 0 11))) (Some 11%Z)) (fresh_mpckmeans Q)
  = Ok (combine names (map Z.of_nat (seq 0 11))).
Proof. vm_compute. reflexivity. Qed.
EX*)

(*PROP C51 (refuted): MPCKMeans never returns when all vectors are equal (the distance of a vector to itself is not positive). *)
Lemma C51_identical_vectors_refuted_proof :
  forall vec D o flatten limit order first sample shuffle model it w p m (vectors : dict pystr vec) nb s x,
    valid_order order -> valid_shuffle shuffle -> valid_sample sample -> valid_argmin o ->
    reachable m -> NoDup (keys vectors) -> make_mpckmeans D o model it w = Ok p ->
    (forall v, In v (vals vectors) -> flatten v = x) -> (forall A, o_ltb D o (o_of_nat D o 0) (o_mahalanobis D o x x A) = false) ->
    (forall d, result (cluster vec D o flatten limit order first sample shuffle p m vectors nb) s <> Ok d) /\
    (forall comps l z, ask get_connected_components m = Ok comps -> ask get_list_of_managed_data_IDs m = Ok l -> nb = Some z -> (2 <= z)%Z ->
       length vectors = length l -> l <> [] -> length comps <= Nat.min (Z.to_nat z) (length l) -> (forall c, In c comps -> length c <= limit) ->
       result (cluster vec D o flatten limit order first sample shuffle p m vectors nb) s = Raise AssertionError).
Proof.
  intros vec D o flatten limit order first sample shuffle model it w p m vectors nb s x ORD SHF SMP ARG R ND MK EQ HF. apply reachable_inv in R. apply make_ok in MK as (r & MI & _ & _).
  assert (FAR : forall A p0 q0, q0 < p0 < length (map flatten (vals vectors)) -> o_ltb D o (o_of_nat D o 0) (o_mahalanobis D o (row D (map flatten (vals vectors)) p0) (row D (map flatten (vals vectors)) q0) A) = false).
  { intros A p0 q0 L. assert (G : forall i, i < length (map flatten (vals vectors)) -> row D (map flatten (vals vectors)) i = x).
    { intros i Li. unfold row. assert (J := nth_In _ [] Li). apply in_map_iff in J as (v & E & J). rewrite <- E. auto. }
    rewrite !G by lia. apply HF. }
  split.
  - intros d E. unfold result in E. destruct (cluster _ _ _ _ _ _ _ _ _ _ _ _ _ s) as [s' rr] eqn:Ec. cbn [snd] in E. subst rr.
    destruct (call_returned o flatten limit order first sample shuffle ORD SHF SMP ARG p r MI m R vectors nb s s' d Ec) as (z & L & Cs & d0 & -> & RT & _).
    destruct (rt_run _ _ _ _ _ _ _ _ _ _ _ _ _ _ _ _ RT) as (mg & cg & cs & C0 & _ & _ & _ & _ & _ & E3). rewrite iterate_same in E3; [discriminate|]. apply FAR.
  - intros cs0 l0 z EC EI -> Z2 LV NE LCo SM. rewrite ask_managed in EI by auto. injection EI as <-. rewrite ask_components in EC by auto. injection EC as <-.
    destruct (graphs_run order ORD limit m R) as [H1 _]. destruct (H1 SM) as (mg & cg & cs & EG & _ & _ & EN). assert (EN' := EN). destruct EN' as (NC & CV & _). assert (LCS := neighborhoods_comps m R cs EN).
    set (k := Nat.min (Z.to_nat z) (length (ids m))) in *. set (X := map flatten (vals vectors)) in *. assert (LX : length X = length (ids m)) by (unfold X, vals; rewrite !map_length; auto).
    assert (0 < length (ids m)) by (destruct (ids m); [congruence|cbn; lia]).
    destruct (init_cases o first sample X k (length (ids m)) cs CV ltac:(lia) ltac:(unfold k; lia) SMP) as [[C0 EI]|[K _]]; [|lia].
    unfold result, Mpckmeans.cluster, bind, lift, raise, ret, modify. rewrite ask_managed by auto. rewrite (proj2 (Z.ltb_ge z 2)) by auto. cbv zeta. rewrite EG. fold k. fold X. rewrite EI, MI. rewrite iterate_same by apply FAR. reflexivity.
Qed.

(*EX
Example C51_ex : result (mpck_Q 100 (mkMPParams Q 10 (1#1)%Q) ex [(A, 5); (B, 5); (C, 5)]%Z (Some 2%Z)) (fresh_mpckmeans Q) = Raise AssertionError.
Proof. vm_compute. reflexivity. Qed.
EX*)

(*PROP C76: a call of MPCKMeans that returns had nb_clusters >= 2, at least two IDs, as many vectors as IDs, and no component beyond the recursion limit; a call that raises leaves the object unchanged and raises for one of the listed reasons. *)
Lemma C76_mpckmeans_errors_proof :
  forall vec D o flatten limit order first sample shuffle model it w p m (vectors : dict pystr vec) nb s comps l,
    valid_order order -> valid_shuffle shuffle -> valid_sample sample -> valid_argmin o ->
    reachable m -> NoDup (keys vectors) -> make_mpckmeans D o model it w = Ok p ->
    ask get_list_of_managed_data_IDs m = Ok l -> ask get_connected_components m = Ok comps ->
    let call := cluster vec D o flatten limit order first sample shuffle p m vectors nb s in
    let n := length l in let N := length vectors in
    let small := forall c, In c comps -> length c <= limit in
    match call with
    | (s', Ok d) => (exists z, nb = Some z /\ (2 <= z)%Z) /\ 2 <= n /\ N = n /\ small
    | (s', Raise e) => s' = s /\
        ((match nb with None => True | Some z => (z < 2)%Z end /\ e = ValueError) \/
         exists z, nb = Some z /\ (2 <= z)%Z /\
           ((~ small /\ e = RecursionError) \/
            (small /\ ((N < n /\ e = IndexError) \/                                         (* a vector is missing *)
              (n = 0 /\ (e = IndexError \/ e = AssertionError \/ e = ValueError)) \/
              (Nat.min (Z.to_nat z) n < length comps /\ n <= N /\ e = IndexError) \/        (* no farther component *)
              (n < N /\ e = KeyError) \/                                                    (* a vector too many *)
              (n <= N /\ e = AssertionError) \/                                             (* all points equal *)
              (N = n /\ Nat.min (Z.to_nat z) n < 10 /\ e = ValueError)))))                  (* an empty cluster *)
    end.
Proof.
  intros vec D o flatten limit order first sample shuffle model it w p m vectors nb s cs0 l0 ORD SHF SMP ARG R ND MK EI EC. apply reachable_inv in R. apply make_ok in MK as (r & MI & _ & _).
  rewrite ask_managed in EI by auto. injection EI as <-. rewrite ask_components in EC by auto. injection EC as <-. cbv zeta. replace (length vectors) with (length (vals vectors)) by apply map_length.
  assert (BAD : match nb with None => True | Some z => (z < 2)%Z end \/ exists z, nb = Some z /\ (2 <= z)%Z) by (destruct nb as [z|]; auto; destruct (Z.lt_ge_cases z 2); [auto|right; eauto]).
  destruct BAD as [BAD|(z & -> & Z2)]; [rewrite bad_nb by auto; auto|].
  destruct (call_cases o flatten limit order first sample shuffle ORD SHF SMP ARG p r MI m R vectors z Z2) as [(L & Cs & d0 & d & RT & Q)|(e & F & Q)]; rewrite Q.
  - destruct RT as [_ N2 EN SM _ _ _ _ _]. split; [eauto|]. auto.
  - split; auto. right. exists z. split; auto. split; auto. destruct F as [[(c & J & Lc) ->]|[SM F]].
    + left. split; auto. intro SM. apply SM in J. lia.
    + right. split; auto. destruct F as [[? ?]|[(? & ? & [?|?])|[(? & ? & ?)|[(? & ? & ?)|[(? & [?|?])|(? & ? & [?|[? ?]])]]]]]; subst e;
        first [left; split; [lia|reflexivity]|right; left; split; [lia|solve [auto]]|right; right; left; split; [lia|split; [lia|reflexivity]]|right; right; right; left; split; [lia|reflexivity]|
               right; right; right; right; left; split; [lia|reflexivity]|right; right; right; right; right; split; [lia|split; [lia|reflexivity]]].
Qed.

(*EX
Example C76_ex :
  let p := mkMPParams Q 10 (1#1)%Q in let s := fresh_mpckmeans Q in
  mpck_Q 100 p ex vecs None s = (s, Raise ValueError) /\ mpck_Q 100 p ex vecs (Some 1%Z) s = (s, Raise ValueError) /\
  mpck_Q 1 p ex vecs (Some 2%Z) s = (s, Raise RecursionError) /\
  mpck_Q 100 p ex [(A, 0); (B, 1)]%Z (Some 2%Z) s = (s, Raise IndexError) /\
  mpck_Q 100 p ex (vecs ++ [(E, 5%Z)]) (Some 2%Z) s = (s, Raise KeyError) /\
  mpck_Q 100 p (init [A; B; C]) [(A, 1); (B, 1); (C, 1)]%Z (Some 2%Z) s = (s, Raise IndexError).
Proof. vm_compute. repeat split. Qed.
EX*)

(*PROP C76 (constructor): the constructor accepts exactly the model "MPC", at least one iteration and a weight that is not negative. *)
Lemma C76_mpckmeans_constructor_proof :
  forall D (o : ops D) model it w,
    (forall p, make_mpckmeans D o model it w = Ok p ->
       model = str "MPC" /\ (1 <= it)%Z /\ o_ltb D o w (o_of_nat D o 0) = false /\ mp_max_iteration D p = Z.to_nat it /\ mp_w D p = w) /\
    (model = str "MPC" -> (1 <= it)%Z -> o_ltb D o w (o_of_nat D o 0) = false -> exists p, make_mpckmeans D o model it w = Ok p) /\
    (forall e, make_mpckmeans D o model it w = Raise e -> e = ValueError).
Proof.
  intros D o model it w. unfold make_mpckmeans. destruct (eqb model (str "MPC")) eqn:E; cbn [negb].
  - apply eqb_eq in E. destruct (Z.ltb_spec it 1).
    + split; [discriminate|]. split; [lia|]. congruence.
    + destruct (o_ltb D o w (o_of_nat D o 0)) eqn:F.
      * split; [discriminate|]. split; [discriminate|]. congruence.
      * split; [intros p Q; injection Q as <-; auto 8|]. split; [eauto|discriminate].
  - split; [discriminate|]. split; [|congruence]. intro Q. subst model. rewrite eqb_refl in E. discriminate.
Qed.

(*EX
Example C76_constructor_ex :
  make_mpckmeans Q Qops (str "MPC") 100 (1#1)%Q = Ok (mkMPParams Q 100 (1#1)%Q) /\ make_mpckmeans Q Qops (str "COP") 100 (1#1)%Q = Raise ValueError /\
  make_mpckmeans Q Qops (str "MPC") 0 (1#1)%Q = Raise ValueError /\ make_mpckmeans Q Qops (str "MPC") 1 (-1#1)%Q = Raise ValueError.
Proof. vm_compute. repeat split. Qed.
EX*)

(*PROP C77: with vectors for exactly the managed IDs, a result is about exactly the managed IDs, is numbered canonically and has exactly min(nb_clusters, number of IDs) clusters. *)
Lemma C77_mpckmeans_partition_proof :
  forall vec D o flatten limit order first sample shuffle model it w p m (vectors : dict pystr vec) nb s s' d l,
    valid_order order -> valid_shuffle shuffle -> valid_sample sample -> valid_argmin o ->
    reachable m -> NoDup (keys vectors) -> (forall x, In x (keys vectors) -> ~ ends_with_nul x) -> make_mpckmeans D o model it w = Ok p ->
    ask get_list_of_managed_data_IDs m = Ok l -> (forall x, In x (keys vectors) <-> managed m x) ->
    cluster vec D o flatten limit order first sample shuffle p m vectors nb s = (s', Ok d) ->
    canonical d /\ covers_exactly m d /\ mp_predicted D s' = Some d /\
    exists z, nb = Some z /\ nb_clusters_of d = Nat.min (Z.to_nat z) (length l).
Proof.
  intros vec D o flatten limit order first sample shuffle model it w p m vectors nb s s' d l0 ORD SHF SMP ARG R ND PL MK EI HK E. apply reachable_inv in R. apply make_ok in MK as (r & MI & _ & _).
  rewrite ask_managed in EI by auto. injection EI as <-.
  destruct (call_returned o flatten limit order first sample shuffle ORD SHF SMP ARG p r MI m R vectors nb s s' d E) as (z & L & Cs & d0 & -> & RT & ->).
  destruct (renamed o flatten limit order first sample shuffle p r m vectors ND PL z L Cs d0 d RT) as (CAN & K & SP & ND0).
  assert (HK' : forall x, In x (keys vectors) <-> In x (ids m)) by (intro x; rewrite HK; apply managed_ids).
  assert (Ed := exact_ids o flatten limit order first sample shuffle p r m vectors ND PL z L Cs d0 d RT HK'). subst d. split; auto. split; [intro x; rewrite K; apply HK|]. split; auto. exists z. split; auto.
  apply (nb_renamed o flatten limit order first sample shuffle p r m vectors ND PL z L Cs d0 d0 RT).
Qed.

(*EX
Example C77_ex : exists s', mpck_Q 100 (mkMPParams Q 10 (1#1)%Q) ex [(C, 10); (B, 6); (A, 0)]%Z (Some 2%Z) (fresh_mpckmeans Q) = (s', Ok [(A, 0); (B, 1); (C, 1)]%Z).
Proof. eexists. vm_compute. reflexivity. Qed.
EX*)

(*PROP C79: the result and the final object of a call of MPCKMeans do not depend on earlier calls. *)
Lemma C79_mpckmeans_no_memory_proof :
  forall vec D o flatten limit order first sample shuffle p m (vectors : dict pystr vec) nb s1 s2,
    result (cluster vec D o flatten limit order first sample shuffle p m vectors nb) s1 = result (cluster vec D o flatten limit order first sample shuffle p m vectors nb) s2 /\
    forall s1' s2' d1 d2,
      cluster vec D o flatten limit order first sample shuffle p m vectors nb s1 = (s1', Ok d1) ->
      cluster vec D o flatten limit order first sample shuffle p m vectors nb s2 = (s2', Ok d2) -> s1' = s2'.
Proof.
  intros vec D o flatten limit order first sample shuffle p m vectors nb s1 s2. unfold result, cluster, bind, lift, raise, ret, modify.
  destruct (ask get_list_of_managed_data_IDs m) as [l|e]; [|split; [reflexivity|discriminate]]. destruct nb as [z|]; [|split; [reflexivity|discriminate]]. destruct (z <? 2)%Z; [split; [reflexivity|discriminate]|]. cbv zeta.
  destruct (constraint_graphs limit order m l) as [[[mg cg] cs]|e]; [|split; [reflexivity|discriminate]]. destruct (initialize_cluster_centers _ _ _ _ _ _ _) as [C0|e]; [|split; [reflexivity|discriminate]].
  destruct (iterate _ _ _ _ _ _ _ _ _ _ _ _ _ _) as [[C1 [L|]]|e]; [|split; [reflexivity|discriminate]|split; [reflexivity|discriminate]]. cbn [fst snd].
  destruct (rename_clusters_by_order _) as [d|e]; [|split; [reflexivity|discriminate]]. cbn [mp_centers mp_labels]. split; [reflexivity|]. intros s1' s2' d1 d2 E1 E2. congruence.
Qed.

(*EX
Example C79_ex : forall s, result (mpck_Q 100 (mkMPParams Q 10 (1#1)%Q) ex vecs (Some 2%Z)) s = Ok [(A, 0); (B, 0); (C, 1)]%Z.
Proof.
  intro s. unfold mpck_Q. rewrite (proj1 (C79_mpckmeans_no_memory Z Q Qops _ _ _ _ _ _ _ _ _ _ s (fresh_mpckmeans Q))).
  vm_compute. reflexivity.
Qed.
EX*)

(*PROP C80 (refuted): vectors of unknown data are accepted in place of missing ones: the result contains the unknown ID, and gives -1 to the managed ID without vector. *)
Lemma C80_foreign_vectors_refuted_proof :
  exists m p vectors s' d x y,
    reachable m /\ make_mpckmeans Q Qops (str "MPC") 10 (1#1)%Q = Ok p /\ NoDup (keys vectors) /\
    mpck_Q 100 p m vectors (Some 2%Z) (fresh_mpckmeans Q) = (s', Ok d) /\
    ~ managed m x /\ In x (keys d) /\ managed m y /\ ~ In y (keys vectors) /\ dget y d = Some (-1)%Z.
Proof.
  pose (a := str "a"). pose (b := str "b"). pose (c := str "c").
  exists (init [a; b]), (mkMPParams Q 10 (1#1)%Q), [(a, 0%Z); (c, 10%Z)]. eexists. exists [(a, 0%Z); (c, 1%Z); (b, (-1)%Z)], c, b.
  split; [apply (run_reachable _ [])|]. split; [reflexivity|]. split.
  { constructor; [intros [Q0|[]]; vm_compute in Q0; discriminate|]. constructor; [intros []|constructor]. }
  split; [vm_compute; reflexivity|]. split; [rewrite managed_ids; vm_compute; intros [Q0|[Q0|[]]]; discriminate|]. split; [simpl; auto|].
  split; [apply managed_ids; vm_compute; auto|]. split; [intros [Q0|[Q0|[]]]; vm_compute in Q0; discriminate|]. vm_compute. reflexivity.
Qed.

(*PROP C80 (partial): whatever the IDs of the vectors, a result has exactly the IDs of the vectors and of the manager; exactly the managed IDs without vector get -1, the others are numbered canonically.  Missing: rejecting the call (refuted above). *)
Lemma C80_foreign_vectors_partial_proof :
  forall vec D o flatten limit order first sample shuffle model it w p m (vectors : dict pystr vec) nb s s' d,
    valid_order order -> valid_shuffle shuffle -> valid_sample sample -> valid_argmin o ->
    reachable m -> NoDup (keys vectors) -> (forall x, In x (keys vectors) -> ~ ends_with_nul x) -> make_mpckmeans D o model it w = Ok p ->
    cluster vec D o flatten limit order first sample shuffle p m vectors nb s = (s', Ok d) ->
    (forall x, In x (keys d) <-> In x (keys vectors) \/ managed m x) /\
    (forall x, In x (keys d) -> dget x d = Some (-1)%Z <-> ~ In x (keys vectors)) /\
    exists d0 absent, d = d0 ++ absent /\ canonical d0 /\ (forall x, In x (keys d0) <-> In x (keys vectors)).
Proof.
  intros vec D o flatten limit order first sample shuffle model it w p m vectors nb s s' d ORD SHF SMP ARG R ND PL MK E. apply reachable_inv in R. apply make_ok in MK as (r & MI & _ & _).
  destruct (call_returned o flatten limit order first sample shuffle ORD SHF SMP ARG p r MI m R vectors nb s s' d E) as (z & L & Cs & d0 & -> & RT & _).
  assert (KF := keys_final o flatten limit order first sample shuffle p r m vectors ND PL z L Cs d0 d RT).
  destruct (renamed o flatten limit order first sample shuffle p r m vectors ND PL z L Cs d0 d RT) as (CAN & K & _ & _).
  split; [intro x; rewrite KF, managed_ids; reflexivity|]. split.
  - intros x X. apply KF in X. split.
    + intros Q0 J. destruct (get_vector o flatten limit order first sample shuffle p r m vectors ND PL z L Cs d0 d RT x J) as (_ & v & Ev & Lv). rewrite Q0 in Ev. injection Ev as <-. lia.
    + intro NJ. apply (get_missing o flatten limit order first sample shuffle p r m vectors ND PL z L Cs d0 d RT); auto. tauto.
  - exists d0, (missing m d0). split; auto. apply RT.
Qed.

(*EX
Example C80_ex : result (mpck_Q 100 (mkMPParams Q 10 (1#1)%Q) (init [A; B]) [(A, 0); (C, 10)]%Z (Some 2%Z)) (fresh_mpckmeans Q) = Ok [(A, 0); (C, 1); (B, -1)]%Z.
Proof. vm_compute. reflexivity. Qed.
EX*)

(*PROP C102 (refuted): in every call of MPCKMeans that returns, each managed ID that ends with the character NUL gets the label -1 of a missing data, whatever its vector. *)
Lemma C102_nul_refuted_proof :
  forall vec D o flatten limit order first sample shuffle model it w p m (vectors : dict pystr vec) nb s s' d,
    valid_order order -> valid_shuffle shuffle -> valid_sample sample -> valid_argmin o ->
    reachable m -> NoDup (keys vectors) -> make_mpckmeans D o model it w = Ok p ->
    cluster vec D o flatten limit order first sample shuffle p m vectors nb s = (s', Ok d) ->
    forall x, managed m x -> ends_with_nul x -> dget x d = Some (-1)%Z.
Proof.
  intros vec D o flatten limit order first sample shuffle model it w p m vectors nb s s' d ORD SHF SMP ARG R ND MK E x MX NX. apply reachable_inv in R. apply make_ok in MK as (r & MI & _ & _).
  destruct (call_returned o flatten limit order first sample shuffle ORD SHF SMP ARG p r MI m R vectors nb s s' d E) as (z & L & Cs & d0 & -> & RT & _).
  destruct RT as [_ _ _ _ _ LL _ ER ->]. destruct (rename_run (raw vectors L) (raw_NoDup vectors L)) as (d' & E' & _ & _ & SP). rewrite ER in E'. injection E' as <-.
  assert (NK : ~ In x (keys d0)).
  { intro J. apply (proj1 SP) in J. apply (raw_np (D:=D)) in J; auto. apply in_map_iff in J as (y & <- & _). apply (np_str_not_nul y). auto. }
  rewrite dget_app_r by auto. unfold missing. apply (dget_map_fun (fun _ => (-1)%Z)). apply filter_In. split; [apply managed_ids; auto|]. apply negb_true_iff, mem_nIn. auto.
Qed.

(*EX
(** [B0] has a vector and is managed, but the result gives its label to [B]. *)
Definition B0 : pystr := B ++ [0%N].
Example C102_ex : result (mpck_Q 100 (mkMPParams Q 10 (1#1)%Q) (init [A; B0]) [(A, 0); (B0, 10)]%Z (Some 2%Z)) (fresh_mpckmeans Q) = Ok [(A, 0); (B, 1); (B0, -1)]%Z /\ ends_with_nul B0.
Proof. split; [vm_compute; reflexivity|exists B; reflexivity]. Qed.
EX*)

(*PROP C102 (partial): an ID with a vector gets a cluster if it does not end with NUL.  Missing: the other IDs (refuted above). *)
Lemma C102_plain_partial_proof :
  forall vec D o flatten limit order first sample shuffle model it w p m (vectors : dict pystr vec) nb s s' d,
    valid_order order -> valid_shuffle shuffle -> valid_sample sample -> valid_argmin o ->
    reachable m -> NoDup (keys vectors) -> make_mpckmeans D o model it w = Ok p ->
    cluster vec D o flatten limit order first sample shuffle p m vectors nb s = (s', Ok d) ->
    forall x, In x (keys vectors) -> ~ ends_with_nul x -> exists c, dget x d = Some c /\ (0 <= c)%Z.
Proof.
  intros vec D o flatten limit order first sample shuffle model it w p m vectors nb s s' d ORD SHF SMP ARG R ND MK E x JX NX. apply reachable_inv in R. apply make_ok in MK as (r & MI & _ & _).
  destruct (call_returned o flatten limit order first sample shuffle ORD SHF SMP ARG p r MI m R vectors nb s s' d E) as (z & L & Cs & d0 & -> & RT & _).
  destruct RT as [_ _ _ _ _ LL _ ER ->]. destruct (rename_run (raw vectors L) (raw_NoDup vectors L)) as (d' & E' & _ & CAN & SP). rewrite ER in E'. injection E' as <-.
  assert (J : In x (keys d0)). { apply (proj1 SP). apply (raw_np (D:=D)); auto. apply in_map_iff. exists x. split; auto. apply np_str_plain; auto. }
  rewrite dget_app_l by auto. apply dget_In_key in J as [v Ev]. exists v. split; auto. apply dget_In in Ev. apply (in_map snd) in Ev. cbn in Ev. fold (vals d0) in Ev.
  destruct CAN as [_ F]. clear - F Ev. revert F Ev. generalize 0%Z at 1 as nx. induction (vals d0) as [|u l IH]; intros nx F []; destruct F as [B F]; [lia|]. eapply IH; eauto.
Qed.
