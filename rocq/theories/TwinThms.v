(** * Clusters of data with the same vector (C122 to C124). *)

From Coq Require Import String List Bool Arith ZArith QArith Lia Permutation.
(*HEADER
From Coq Require Import String List Bool Arith ZArith QArith Permutation Lia.
From Verif Require Import Base Manager Spec ManagerInv ManagerQueries ManagerThms SamplingSpec ClusterSpec ClusterProofs KMeans KMeansSpec Hierarchical HierSpec Dbscan DbscanSpec TwinSpec TwinThms.
Import ListNotations.
Open Scope nat_scope.
HEADER*)
From Verif Require Import Base Manager Spec Closure ManagerProofs ManagerInv ManagerQueries ManagerThms
  Sampling SamplingSpec SamplingProofs SamplingThms Rename ClusterSpec RenameThms ClusterProofs KMeans KMeansSpec KMeansProofs KMeansThms
  Hierarchical HierSpec HierProofs HierRun HierTree HierThms CutSpec CutThms Dbscan DbscanSpec DbscanThms TwinSpec.
Import ListNotations.
Open Scope nat_scope.
Open Scope py_scope.

(** ** KMeans. *)
Section Nearest.
  Context {vec D : Type}.
  Variable pairwise : list vec -> list vec -> nat -> nat -> D.
  Variable ltb : D -> D -> bool.
  Variable dsum : list D -> D.
  Variable mean : list vec -> vec.
  Variable tol : D.
  Variable m : mgr.
  Variable vectors : dict pystr vec.
  Hypothesis I : Inv m.
  Hypothesis BV : by_vectors2 pairwise.
  Hypothesis TO : strict_total_order ltb.

  Lemma last_round k C prev raw fc : cop_run pairwise ltb dsum mean tol m (ids m) vectors k C prev raw fc -> ids m <> [] -> keys C <> [] ->
    exists C', keys C' <> [] /\ nearest_assignment pairwise ltb m (ids m) vectors C' raw.
  Proof using.
    intros Run NE. induction Run as [n C prev raw C' NA _ _|n C prev raw C' fin fc NA CO _ _ IH]; intro K; [eauto|].
    apply IH. destruct CO as (_ & CO & _). destruct NA as (Kr & _). intro E.
    assert (V : vals raw <> []) by (intro V; apply NE; rewrite <- Kr; unfold keys; unfold vals in V; destruct raw; [auto|discriminate]).
    destruct (vals raw) as [|c vs] eqn:Ev; [congruence|]. assert (X : In c (keys C')) by (apply CO; left; auto). rewrite E in X. destruct X.
  Qed.

  Lemma alone x : unconstrained m x -> managed m x -> leader m (ids m) x /\ forall labels c, ~ blocked m labels x c.
  Proof using I.
    intros U X. split.
    - split; auto. intros y Y Q. destruct (eq_dec_of y x) as [->|N]; auto. specialize (U y Y N). unfold inferred in *. congruence.
    - intros labels c (y & Y & Q & _). destruct (eq_dec_of y x) as [->|N].
      + apply managed_ids in X. apply inferred_cl in Q; auto. rewrite cl_irrefl in Q; auto. discriminate.
      + specialize (U y Y N). unfold inferred in *. congruence.
  Qed.

  Lemma nearest_twins C raw x y : keys C <> [] -> nearest_assignment pairwise ltb m (ids m) vectors C raw ->
    managed m x -> managed m y -> twins vectors x y -> unconstrained m x -> unconstrained m y -> (exists rows, vectors_are vectors (ids m) rows) ->
    dget x raw = dget y raw.
  Proof using I BV TO.
    intros K (_ & _ & NA) X Y (v & Vx & Vy) Ux Uy (rows & VR).
    destruct (alone x Ux X) as [Lx Bx], (alone y Uy Y) as [Ly By].
    destruct (NA x Lx) as (cx & Ex & [(Cx & Mx)|(_ & Q & _)]).
    2:{ destruct (keys C) as [|c ks]; [congruence|]. exfalso. apply (Bx raw c). apply Q. left. auto. }
    destruct (NA y Ly) as (cy & Ey & [(Cy & My)|(_ & Q & _)]).
    2:{ destruct (keys C) as [|c ks]; [congruence|]. exfalso. apply (By raw c). apply Q. left. auto. }
    rewrite Ex, Ey. f_equal. destruct (Z.eq_dec cx cy) as [E|N]; auto. exfalso.
    apply managed_ids in X, Y. destruct (In_nth_error _ _ X) as [i Ni], (In_nth_error _ _ Y) as [j Nj].
    assert (Rij : nth_error rows i = nth_error rows j).
    { assert (G : forall p z w, nth_error (ids m) p = Some z -> dget z vectors = Some w -> nth_error rows p = Some w).
      { intros p z w Np Gz. assert (Q := map_nth_error (fun x => dget x vectors) p (ids m) Np). unfold vectors_are in VR. rewrite VR, Gz in Q.
        destruct (nth_error rows p) as [w'|] eqn:Nr; [rewrite (map_nth_error Some p rows Nr) in Q; congruence|].
        apply nth_error_None in Nr. assert (L : p < length (map Some rows)) by (apply nth_error_Some; congruence). rewrite map_length in L. lia. }
      rewrite (G i x v), (G j y v); auto. }
    destruct (In_nth_error _ _ Cx) as [p Np], (In_nth_error _ _ Cy) as [q Nq].
    set (dx := pairwise rows (vals C) i p). set (dy := pairwise rows (vals C) i q).
    assert (D1 : distance_to pairwise (ids m) vectors C x cx dx) by (exists rows, i, p; auto).
    assert (D2 : distance_to pairwise (ids m) vectors C x cy dy) by (exists rows, i, q; auto).
    assert (D3 : distance_to pairwise (ids m) vectors C y cx dx) by (exists rows, j, p; unfold dx; rewrite (BV rows (vals C) i j p Rij); auto).
    assert (D4 : distance_to pairwise (ids m) vectors C y cy dy) by (exists rows, j, q; unfold dy; rewrite (BV rows (vals C) i j q Rij); auto).
    assert (A1 : ltb dy dx = false) by (destruct (ltb dy dx) eqn:L; auto; exfalso; apply (Bx raw cy), (Mx cy dx dy); auto).
    assert (A2 : ltb dx dy = false) by (destruct (ltb dx dy) eqn:L; auto; exfalso; apply (By raw cx), (My cx dy dx); auto).
    assert (Eq : dx = dy) by (apply TO; auto).
    assert (BF : before (keys C) cx cy \/ before (keys C) cy cx).
    { clear -Cx Cy N. revert Cx Cy. induction (keys C) as [|z ks IH]; intros Cx Cy; [destruct Cx|]. destruct Cx as [->|Cx], Cy as [->|Cy]; [congruence|left|right|].
      - exists [], ks. auto.
      - exists [], ks. auto.
      - destruct (IH Cx Cy) as [(a & b & -> & J)|(a & b & -> & J)]; [left|right]; exists (z :: a), b; auto. }
    destruct BF as [B|B]; [apply (Bx raw cy), (Mx cy dx dy)|apply (By raw cx), (My cx dy dx)]; auto.
  Qed.
End Nearest.

(*PROP C122: two data with the same vector, about which nothing is known, are put in the same cluster by KMeans, whatever is known about the others and wherever the run stops. *)
Lemma C122_kmeans_twins_proof :
  forall vec D (eqD : EqB D) pairwise ltb dzero dsum mean shuffle set_order model it tol p m vectors nb s d x y,
    valid_set_order set_order -> valid_shuffle shuffle -> strict_total_order ltb -> by_vectors2 pairwise -> reachable m ->
    make_kmeans D ltb dzero model it tol = Ok p ->
    result (KMeans.cluster vec D pairwise ltb dsum mean shuffle set_order p m vectors (Some nb)) s = Ok d ->
    managed m x -> managed m y -> twins vectors x y -> unconstrained m x -> unconstrained m y ->
    dget x d = dget y d.
Proof.
  intros vec D eqD pairwise ltb dzero dsum mean shuffle set_order model it tol p m vectors nb s d x y SO SH TO BV R MK E X Y T Ux Uy.
  unfold result in E. destruct (KMeans.cluster vec D pairwise ltb dsum mean shuffle set_order p m vectors (Some nb) s) as [s' r] eqn:Ec. cbn [snd] in E. subst r.
  destruct (C58_kmeans_is_cop_run_proof vec D eqD pairwise ltb dzero dsum mean shuffle set_order model it tol p m vectors nb s s' d SO SH (proj1 TO) R MK Ec)
    as (l & first & raw & El & IC & Run & SPk).
  assert (MX := make_kmeans_max _ _ _ _ _ _ MK). apply reachable_inv in R.
  assert (El' : ask get_list_of_managed_data_IDs m = Ok (ids m)) by reflexivity. rewrite El' in El. injection El as <-. clear El'.
  assert (E' : result (KMeans.cluster vec D pairwise ltb dsum mean shuffle set_order p m vectors (Some nb)) s = Ok d) by (unfold result; rewrite Ec; auto).
  destruct (KMeansThms.returned_valid pairwise ltb dsum mean shuffle set_order SH p MX m vectors (Some nb) s d R E') as (n & En & N & NE & COV). injection En as <-.
  assert (K : keys first <> []).
  { destruct IC as (chosen & _ & _ & _ & Kf & _). rewrite Kf. destruct (ids m) as [|z l]; [congruence|]. simpl length.
    destruct (Z.to_nat nb) eqn:Zn; [lia|]. simpl. discriminate. }
  destruct (last_round pairwise ltb dsum mean tol m vectors _ _ _ _ _ Run NE K) as (C' & K' & NA).
  assert (Q : dget x raw = dget y raw).
  { apply (nearest_twins pairwise ltb m vectors R BV TO C' raw x y K'); auto. clear -COV. induction (ids m) as [|z l IH]; [exists []; reflexivity|].
    destruct IH as [rows VR]; [intros w W; apply COV; right; auto|]. destruct (dget z vectors) as [v|] eqn:G.
    - exists (v :: rows). unfold vectors_are. simpl. rewrite G. f_equal. exact VR.
    - exfalso. assert (Z := COV z (or_introl eq_refl)). apply dget_None in G. auto. }
  destruct NA as (Kr & _). destruct SPk as (_ & SP). apply SP; auto; rewrite Kr; apply managed_ids; auto.
Qed.

(*EX
(** "b" and "d" are at the same place; "a" and "c" must be linked, "a" and "e" must not. *)
Definition pw2 (X Y : list Z) (i j : nat) : Z := Z.abs (nth i X 0 - nth j Y 0)%Z.
Definition kmeans_line := KMeans.cluster Z Z pw2 Z.ltb line_sum line_mean (fun l => l) (fun l => nodup Z.eq_dec l) (mkKParams Z 150 1%Z).
Definition five : mgr := run [CallAddConstraint (str "a") (str "c") MUST_LINK 1%Q; CallAddConstraint (str "a") (str "e") CANNOT_LINK 1%Q]
  (init [str "a"; str "b"; str "c"; str "d"; str "e"]).
Definition five_points : dict pystr Z := [(str "a", 0); (str "b", 5); (str "c", 9); (str "d", 5); (str "e", 10)]%Z.
Example C122_ex :
  reachable five /\ by_vectors2 pw2 /\ twins five_points (str "b") (str "d") /\ unconstrained five (str "b") /\ unconstrained five (str "d") /\
  result (kmeans_line five five_points (Some 2%Z)) (fresh_kmeans Z) = Ok [(str "a", 0); (str "b", 1); (str "c", 0); (str "d", 1); (str "e", 1)]%Z.
Proof.
  split; [apply run_reachable|]. split.
  { intros X Y i i' j E. unfold pw2. f_equal. f_equal. destruct (nth_error X i) as [u|] eqn:N.
    - rewrite (nth_error_nth _ _ _ N). symmetry in E. rewrite (nth_error_nth _ _ _ E). auto.
    - symmetry in E. apply nth_error_None in N, E. rewrite !nth_overflow by auto. auto. }
  split; [exists 5%Z; split; reflexivity|].
  assert (In5 : forall x, managed five x <-> In x [str "a"; str "b"; str "c"; str "d"; str "e"]) by (intro x; rewrite managed_ids; reflexivity).
  split; [|split; [|vm_compute; reflexivity]]; intros y Y N; apply In5 in Y; simpl in Y; repeat destruct Y as [<-|Y]; try tauto; vm_compute; reflexivity.
Qed.
EX*)

Lemma row_of {vec} (m : mgr) (vectors : dict pystr vec) rows p z w : map (fun x => dget x vectors) (ids m) = map Some rows -> nth_error (ids m) p = Some z ->
  (dget z vectors = Some w <-> nth_error rows p = Some w).
Proof.
  intros VR Np. assert (Q := map_nth_error (fun x => dget x vectors) p (ids m) Np). rewrite VR in Q.
  destruct (nth_error rows p) as [w'|] eqn:Nr; [rewrite (map_nth_error Some p rows Nr) in Q; split; congruence|].
  apply nth_error_None in Nr. assert (L : p < length (map Some rows)) by (apply nth_error_Some; congruence). rewrite map_length in L. lia.
Qed.
Lemma covered_rows {vec} (vectors : dict pystr vec) l : (forall x, In x l -> In x (keys vectors)) -> exists rows, map (fun x => dget x vectors) l = map Some rows.
Proof.
  induction l as [|z l IH]; intro C; [exists []; reflexivity|]. destruct IH as [rows VR]; [intros w W; apply C; right; auto|].
  destruct (dget z vectors) as [v|] eqn:G; [exists (v :: rows); simpl; rewrite G; f_equal; exact VR|].
  exfalso. apply dget_None in G. apply G, C. left; auto.
Qed.
Lemma map_Some_inj {A} : forall l l' : list A, map Some l = map Some l' -> l = l'.
Proof. induction l as [|r l IH]; intros [|r' l'] E; try discriminate; auto. injection E as -> E. f_equal. auto. Qed.
Lemma position_pairs_cross {A} (l1 l2 : list A) a b : In a l1 -> In b l2 -> In (a, b) (position_pairs (l1 ++ l2)).
Proof.
  intros H B. induction l1 as [|c l1 IH]; [destruct H|]. simpl. apply in_or_app. destruct H as [->|H]; [left|right; auto].
  apply in_map_iff. exists b. split; auto. apply in_or_app. auto.
Qed.

Lemma pairs_In {A} (l : list A) a b : In (a, b) (position_pairs l) -> In a l /\ In b l.
Proof.
  induction l as [|x l IH]; simpl; [tauto|]. intro P. apply in_app_or in P as [P|P].
  - apply in_map_iff in P as (y & E & Y). injection E as <- <-. auto.
  - apply IH in P. tauto.
Qed.

(** ** Hierarchical clustering. *)
Section Pure.
  Context {vec D : Type} {eqD : EqB D}.
  Variable pairwise : list vec -> nat -> nat -> D.
  Variable cdistance : vec -> vec -> D.
  Variable ltb : D -> D -> bool.
  Variable dsum : list D -> D.
  Variable ddiv : D -> nat -> D.
  Variable inf zero : D.
  Variable mean : list vec -> vec.
  Variable linkage : pystr.
  Variable m : mgr.
  Variable vectors : dict pystr vec.
  Hypothesis I : Inv m.
  Hypothesis TO : strict_total_order ltb.
  Hypothesis SEP : separates pairwise ltb zero.
  Hypothesis FIN : ltb zero inf = true.
  Hypothesis EASE : at_ease m vectors.
  Hypothesis LINK : linkage_separates cdistance ltb dsum ddiv zero mean linkage.
  Variable rows : list vec.
  Hypothesis VR : map (fun x => dget x vectors) (ids m) = map Some rows.
  Notation tree := (tree vec).
  Notation members := (t_members vec).
  Notation ldist := (linkage_distance pairwise cdistance ltb dsum ddiv inf linkage m vectors).
  Notation nearest := (closest pairwise cdistance ltb dsum ddiv inf linkage m vectors).
  Notation halted := (stopped pairwise cdistance ltb dsum ddiv inf linkage m vectors).
  Notation dis := (distance_is pairwise m vectors).
  Notation trace_ := (run_trace mean vectors nearest halted).
  Notation forest_ok := (forest_ok mean m vectors).
  Notation twins_ := (twins vectors).

  Lemma row_exists p z : nth_error (ids m) p = Some z -> exists w, nth_error rows p = Some w /\ dget z vectors = Some w.
  Proof using VR.
    intro Np. destruct (nth_error rows p) as [w|] eqn:N; [exists w; split; auto; apply (row_of m vectors rows p z w VR Np); auto|].
    exfalso. apply nth_error_None in N. assert (L : p < length (ids m)) by (apply nth_error_Some; congruence).
    assert (V := f_equal (@length _) VR). rewrite !map_length in V. lia.
  Qed.

  Lemma dis_zero a b d : dis (a, b) d -> (d = zero <-> twins_ a b) /\ ltb d zero = false.
  Proof using SEP VR.
    intros (l & rows' & i & j & El & VR' & Na & Nb & ->). rewrite ask_managed in El. injection El as <-. simpl in Na, Nb.
    assert (E : rows' = rows) by (apply map_Some_inj; rewrite <- VR; symmetry; exact VR').
    subst rows'. destruct (row_exists i a Na) as (u & U & Gu), (row_exists j b Nb) as (v & V & Gv). destruct (SEP rows i j u v U V) as [Z P]. split; auto. rewrite Z. split.
    - intros ->. exists v. auto.
    - intros (w & Wa & Wb). congruence.
  Qed.
  Lemma dis_twins a b : In a (ids m) -> In b (ids m) -> twins_ a b -> dis (a, b) zero.
  Proof using SEP VR.
    intros A B T. destruct (In_nth_error _ _ A) as [i Ni], (In_nth_error _ _ B) as [j Nj].
    assert (Q : dis (a, b) (pairwise rows i j)) by (exists (ids m), rows, i, j; rewrite ask_managed; auto 6).
    rewrite (proj2 (proj1 (dis_zero a b _ Q)) T) in Q. exact Q.
  Qed.

  Definition pure (F : list tree) : Prop := forall x y, together F x y -> twins_ x y.
  Definition complete (F : list tree) : Prop := forall x y, In x (ids m) -> In y (ids m) -> twins_ x y -> together F x y.

  Lemma compatible (t1 t2 : tree) : ~ incompatible m t1 t2.
  Proof using EASE. intros (a & b & _ & _ & Q). apply (proj1 (EASE a b)). auto. Qed.

  Lemma twins_sym a b : twins_ a b -> twins_ b a.
  Proof using. intros (v & A & B). exists v. auto. Qed.
  Lemma twins_trans a b c : twins_ a b -> twins_ b c -> twins_ a c.
  Proof using. intros (v & A & B) (w & B' & C'). exists v. split; auto. congruence. Qed.

  (** The centroid of a cluster of twins is their vector. *)
  Lemma centroid_pure it (F : list tree) t x v : exact_mean mean -> forest_ok it F -> pure F -> In t F -> In x (members t) -> dget x vectors = Some v -> t_centroid vec t = v.
  Proof using.
    intros EM FO PU T X V. assert (NO : In t (flat_map nodes F)) by (apply in_flat_map; exists t; split; auto; apply in_nodes_self).
    destruct (no_centroid _ _ _ _ (proj1 (fo_nodes _ _ _ _ _ FO t NO))) as (r & VA & ->).
    assert (AL : forall y, In y (members t) -> dget y vectors = Some v).
    { intros y Y. destruct (PU x y) as (w & Wx & Wy); [exists t; auto|congruence]. }
    assert (Er : r = repeat v (length r)).
    { unfold vectors_are in VA. clear -VA AL. revert r VA. induction (members t) as [|y l IH]; intros [|w r] E; try discriminate; auto.
      simpl in E. injection E as E1 E2. rewrite (AL y (or_introl eq_refl)) in E1. injection E1 as <-. simpl. f_equal. apply IH; auto. intros z Z; apply AL; right; auto. }
    assert (NE : length r <> 0).
    { intro Z. apply (f_equal (@length _)) in VA. rewrite !map_length, Z in VA. destruct (members t); [destruct X|discriminate]. }
    rewrite Er. destruct (length r) as [|n]; [congruence|]. apply EM.
  Qed.

  (** The distance of two clusters of twins. *)
  Lemma ldist_pure it (F : list tree) t1 t2 x y : forest_ok it F -> pure F -> In t1 F -> In t2 F -> In x (members t1) -> In y (members t2) -> twins_ x y -> ldist t1 t2 zero.
  Proof using I SEP TO EASE LINK VR.
    intros FO PU T1 T2 X Y T. right. split; [apply compatible|].
    assert (G := trees_inids _ _ _ _ _ FO). rewrite Forall_forall in G. destruct (G t1 T1) as [N1 I1], (G t2 T2) as [N2 I2].
    assert (AL : forall a b, In a (members t1 ++ members t2) -> In b (members t1 ++ members t2) -> twins_ a b).
    { assert (AX : forall a, In a (members t1 ++ members t2) -> twins_ a x).
      { intros a A. apply in_app_or in A as [A|A]; [apply PU; exists t1; auto|]. apply (twins_trans a y); [apply PU; exists t2; auto|apply twins_sym; auto]. }
      intros a b A B. apply (twins_trans a x); [auto|apply twins_sym; auto]. }
    assert (AZ : forall a b d, In a (members t1) -> In b (members t2) -> dis (a, b) d -> d = zero).
    { intros a b d A B Q. apply (dis_zero a b d Q). apply AL; apply in_or_app; auto. }
    assert (Z : dis (x, y) zero) by (apply dis_twins; auto).
    destruct TO as [[IR _] _].
    destruct LINK as [LE |[LE |[(LE & SE2 & EM)|(LE & ZS & ZD)]]]; [right; left|left|right; right; left|right; right; right]; (split; [exact LE|]).
    1,2: split; [exists x, y; auto|]; intros a b d' A B Q; rewrite (AZ a b d' A B Q); apply IR.
    - destruct T as (v & Vx & Vy). rewrite (centroid_pure it F t1 x v), (centroid_pure it F t2 y v); auto. symmetry. apply SE2. auto.
    - exists (map (fun _ => zero) (position_pairs (members t1 ++ members t2))). split.
      + assert (Q : forall l, (forall p, In p l -> dis p zero) -> Forall2 dis l (map (fun _ => zero) l)).
        { induction l as [|p l IH]; intro H; constructor; [apply H; left; auto|apply IH; intros; apply H; right; auto]. }
        apply Q. intros [a b] P. apply pairs_In in P as [A B]. apply dis_twins; [| |apply AL; auto]; apply in_app_or in A, B; destruct A, B; auto.
      + set (l := position_pairs _). assert (E : dsum (map (fun _ => zero) l) = zero).
        { apply ZS; intros d D0; apply in_map_iff in D0 as (p & <- & _); auto. }
        rewrite E. symmetry. apply ZD; auto. destruct (members t1); [congruence|]. destruct (members t2); [congruence|]. simpl. lia.
  Qed.

  Lemma ldist_zero it (F : list tree) t1 t2 d : forest_ok it F -> pure F -> In t1 F -> In t2 F -> ldist t1 t2 d ->
    ltb d zero = false /\ (d = zero -> exists a b, In a (members t1) /\ In b (members t2) /\ twins_ a b).
  Proof using I SEP TO EASE LINK VR.
    intros FO PU T1 T2 L.
    assert (G := trees_inids _ _ _ _ _ FO). rewrite Forall_forall in G. destruct (G t1 T1) as [N1 I1], (G t2 T2) as [N2 I2].
    assert (XY : exists x y, In x (members t1) /\ In y (members t2)).
    { destruct (members t1) as [|x l1]; [congruence|]. destruct (members t2) as [|y l2]; [congruence|]. exists x, y. split; left; auto. }
    destruct XY as (x & y & X & Y).
    destruct L as [[Q _]|[_ [(_ & (a & b & A & B & Q) & _)|[(_ & (a & b & A & B & Q) & _)|[(E & Ed)|(E & ds & Fd & Ed)]]]]].
    - destruct (compatible _ _ Q).
    - destruct (dis_zero a b d Q) as [Z P]. split; auto. intro E. exists a, b. split; auto. split; auto. apply Z; auto.
    - destruct (dis_zero a b d Q) as [Z P]. split; auto. intro E. exists a, b. split; auto. split; auto. apply Z; auto.
    - destruct LINK as [E' |[E' |[(_ & SE2 & EM)|(E' & _)]]]; try (rewrite E in E'; discriminate).
      destruct (In_nth_error _ _ (I1 x X)) as [i Ni], (In_nth_error _ _ (I2 y Y)) as [j Nj].
      destruct (row_exists i x Ni) as (u & _ & Gu), (row_exists j y Nj) as (v & _ & Gv).
      rewrite (centroid_pure it F t1 x u), (centroid_pure it F t2 y v) in Ed by auto. subst d. destruct (SE2 u v) as [Z P]. split; auto.
      intro E0. apply Z in E0. subst v. exists x, y. split; auto. split; auto. exists u. auto.
    - destruct LINK as [E' |[E' |[(E' & _)|(_ & ZS & ZD)]]]; try (rewrite E in E'; discriminate).
      assert (PO : forall e, In e ds -> ltb e zero = false).
      { intros e J. destruct (Forall2_In_r _ _ _ _ Fd J) as ([a b] & _ & Q). apply (dis_zero a b e Q). }
      assert (LP : 0 < length (members t1) * length (members t2)) by (destruct (members t1); [congruence|]; destruct (members t2); [congruence|]; simpl; lia).
      destruct (ZS ds PO) as [Z1 P1]. destruct (ZD (dsum ds) _ LP P1) as [Z2 P2]. subst d. split; auto. intro E0. apply Z2 in E0.
      exists x, y. split; auto. split; auto.
      assert (J : In (x, y) (position_pairs (members t1 ++ members t2))) by (apply position_pairs_cross; auto).
      destruct (Forall2_In_l _ _ _ _ Fd J) as (e & Je & Q). apply (dis_zero x y e Q). apply (proj1 Z1 E0); auto.
  Qed.

  Lemma together_dec (F : list tree) x y : together F x y \/ ~ together F x y.
  Proof using.
    clear. induction F as [|t F IH]; [right; intros (t & [] & _)|]. destruct IH as [(u & U & A)|N]; [left; exists u; split; [right; auto|auto]|].
    destruct (in_dec eq_dec_of x (members t)) as [X|X], (in_dec eq_dec_of y (members t)) as [Y|Y];
      [left; exists t; split; [left; auto|auto]|right..]; intros (u & [<-|U] & A & B); try tauto; apply N; exists u; auto.
  Qed.

  (** Two twins apart make a pair at distance zero. *)
  Lemma apart_pair it F x y : forest_ok it F -> pure F ->
    In x (ids m) -> In y (ids m) -> twins_ x y -> ~ together F x y -> exists u1 u2, before F u1 u2 /\ ldist u1 u2 zero.
  Proof using I SEP TO EASE LINK VR.
    intros FO PU X Y T NT. destruct (in_forest mean m vectors it F x FO X) as (tx & Tx & Mx & _), (in_forest mean m vectors it F y FO Y) as (ty & Ty & My & _).
    assert (NQ : tx <> ty) by (intros ->; apply NT; exists ty; auto).
    destruct (before_total F tx ty Tx Ty NQ) as [B|B].
    - exists tx, ty. split; auto. exact (ldist_pure it F tx ty x y FO PU Tx Ty Mx My T).
    - exists ty, tx. split; auto. exact (ldist_pure it F ty tx y x FO PU Ty Tx My Mx (twins_sym _ _ T)).
  Qed.

  (** While some twins are apart, clusters of twins are merged. *)
  Lemma purity it F root tr : trace_ it F root tr -> forest_ok it F -> pure F \/ complete F ->
    forall G, In G tr -> (pure G /\ (complete G \/ exists it', forest_ok it' G /\ exists G', In G' tr /\ S (length G') = length G)) \/ complete G.
  Proof using All.
    induction 1 as [it t|it l1 t1 l2 t2 l3 t root tr CL NO A IH|it ts root L ST NO]; intros FO PC G J.
    - destruct J as [<-|[]]. right. intros x y X Y _.
      destruct (in_forest mean m vectors it [t] x FO X) as (tx & [<-|[]] & Mx & _), (in_forest mean m vectors it [t] y FO Y) as (ty & [<-|[]] & My & _).
      exists t. split; [left; auto|auto].
    - set (ts := l1 ++ t1 :: l2 ++ t2 :: l3) in *.
      assert (FO' := merge_ok mean m vectors I it l1 t1 l2 t2 l3 t FO NO (compatible t1 t2)).
      assert (M0 : members t = members t1 ++ members t2) by (destruct NO as (_ & _ & -> & _); simpl; rewrite app_nil_r; auto).
      assert (UP : forall x y, together ts x y -> together (l1 ++ l2 ++ l3 ++ [t]) x y) by (intros x y; exact (together_up ddiv inf mean vectors it l1 t1 l2 t2 l3 t x y NO)).
      assert (N : pure (l1 ++ l2 ++ l3 ++ [t]) \/ complete (l1 ++ l2 ++ l3 ++ [t])).
      { destruct PC as [PU|CO]; [|right; intros x y X Y T; apply UP, CO; auto].
        destruct CL as (d & Ld & NI & Min).
        assert (T1 : In t1 ts) by (apply in_elt). assert (T2 : In t2 ts) by (apply in_or_app; right; right; apply in_elt).
        destruct (ldist_zero it ts t1 t2 d FO PU T1 T2 Ld) as [Pd Zd].
        destruct (eqb d zero) eqn:Ez.
        - apply eqb_eq in Ez. left. destruct (Zd Ez) as (a & b & Ma & Mb & T).
          assert (ZA : forall z, In z (members t) -> twins_ z a).
          { intros z Z. rewrite M0 in Z. apply in_app_or in Z as [Z|Z]; [apply PU; exists t1; auto|]. apply (twins_trans z b); [apply PU; exists t2; auto|apply twins_sym; auto]. }
          intros x y (u & U & X & Y). assert (Q : In u ts \/ u = t) by (unfold ts; rewrite !in_app_iff in *; simpl in *; rewrite in_app_iff; simpl; intuition).
          destruct Q as [Q| ->]; [apply PU; exists u; auto|]. apply (twins_trans x a); [auto|apply twins_sym; auto].
        - right. intros x y X Y T. apply UP. destruct (together_dec ts x y) as [K|K]; auto. exfalso.
          destruct (apart_pair it ts x y FO PU X Y T K) as (u1 & u2 & B & L0). destruct (Min u1 u2 zero B L0) as [Q _].
          assert (E : d = zero) by (apply TO; auto). subst d. rewrite eqb_refl in Ez. discriminate. }
      destruct J as [<-|J].
      + destruct PC as [PU|CO]; [|right; auto]. left. split; auto. right. exists it. split; auto. exists (l1 ++ l2 ++ l3 ++ [t]). split.
        * right. eapply trace_head; eauto.
        * unfold ts. rewrite !app_length. simpl. rewrite !app_length. simpl. lia.
      + destruct (IH FO' N G J) as [(PU & [K|(it' & K & G' & J' & E)])|K]; auto. left. split; auto. right. exists it'. split; auto. exists G'. split; [right; auto|auto].
    - destruct J as [<-|[<-|[]]].
      + right. destruct PC as [PU|CO]; auto. intros x y X Y T. destruct (together_dec ts x y) as [K|K]; auto. exfalso.
        destruct ST as (NL & _).
        destruct (apart_pair it ts x y FO PU X Y T K) as (v1 & v2 & B & L1). assert (Q := NL v1 v2 zero B L1). congruence.
      + right. intros x y X Y T. assert (M0 : members root = flat_map members ts) by apply NO.
        assert (Z0 : forall z, In z (ids m) -> In z (members root)) by (intros z Z0; rewrite M0; apply (Permutation_in z (Permutation_sym (fo_members _ _ _ _ _ FO))); auto).
        exists root. split; [left; auto|auto].
  Qed.

  Lemma NoDup_members it F : forest_ok it F -> NoDup (flat_map members F).
  Proof using I. intro FO. apply (Permutation_NoDup (Permutation_sym (fo_members _ _ _ _ _ FO))). apply inv_nodup; auto. Qed.
  Lemma one_tree (F : list tree) t u z : NoDup (flat_map members F) -> In t F -> In u F -> In z (members t) -> In z (members u) -> t = u.
  Proof using.
    induction F as [|w F IH]; intros ND T U Zt Zu; [destruct T|]. simpl in ND.
    assert (DJ : forall v, In v F -> In z (members v) -> ~ In z (members w)).
    { intros v V Zv Zw. apply in_split in Zw as (a & b & Ew). rewrite Ew, <- app_assoc in ND. apply NoDup_remove_2 in ND. apply ND.
      apply in_or_app. right. apply in_or_app. right. apply in_flat_map. eauto. }
    destruct T as [->|T], U as [->|U]; auto.
    - exfalso. eapply DJ; eauto.
    - exfalso. eapply DJ; eauto.
    - apply IH; auto. clear -ND. induction (members w) as [|p l IHl]; simpl in ND; auto. inversion ND; auto.
  Qed.

  (** Clusters of twins, some twins apart: more clusters than vectors. *)
  Lemma many it F x y reps : forest_ok it F -> pure F -> In x (ids m) -> In y (ids m) -> twins_ x y -> ~ together F x y ->
    NoDup reps -> (forall a, In a reps -> managed m a) -> (forall a b, In a reps -> In b reps -> twins_ a b -> a = b) -> length reps < length F.
  Proof using I.
    intros FO PU X Y T NT ND MA DI.
    assert (TS : forall l, (forall a, In a l -> managed m a) -> exists ts, Forall2 (fun r t => In t F /\ In r (members t)) l ts).
    { induction l as [|r l IH]; intro Ml; [exists []; constructor|]. destruct IH as [ts Fs]; [intros; apply Ml; right; auto|].
      destruct (in_forest mean m vectors it F r FO) as (t & Tt & Mt & _); [apply managed_ids; auto; apply Ml; left; auto|]. exists (t :: ts). constructor; auto. }
    destruct (TS reps MA) as [ts Fs].
    assert (BACK : forall t, In t ts -> In t F /\ exists r, In r reps /\ In r (members t)).
    { intros t Tt. destruct (Forall2_In_r _ _ _ _ Fs Tt) as (r & Rr & A & B). eauto. }
    assert (NDt : NoDup ts).
    { clear BACK MA. revert ND DI. induction Fs as [|r t l ts [A B] Fs IH]; intros ND DI; constructor.
      - intro Tt. destruct (Forall2_In_r _ _ _ _ Fs Tt) as (r' & Rr' & A' & B'). inversion ND; subst. apply H1.
        rewrite (DI r r'); auto; [left; auto|right; auto|]. apply PU. exists t. auto.
      - inversion ND; subst. apply IH; auto. intros a b Ra Rb. apply DI; right; auto. }
    assert (LT : length ts = length reps) by (clear -Fs; induction Fs; simpl; auto).
    destruct (in_forest mean m vectors it F x FO X) as (tx & Tx & Mx & _), (in_forest mean m vectors it F y FO Y) as (ty & Ty & My & _).
    assert (K : exists t, In t F /\ ~ In t ts).
    { destruct (Exists_dec (fun r => In r (members tx)) reps (fun r => in_dec eq_dec_of r (members tx))) as [H|H].
      - apply Exists_exists in H as (rx & Rx & Mrx). exists ty. split; auto. intro Q. destruct (BACK ty Q) as (_ & ry & Ry & Mry).
        assert (E : rx = ry).
        { apply DI; auto. apply (twins_trans rx x); [apply PU; exists tx; auto|]. apply (twins_trans x y); auto. apply PU; exists ty; auto. }
        subst ry. apply NT. exists ty. split; auto. split; auto.
        assert (tx = ty) by (exact (one_tree F tx ty rx (NoDup_members it F FO) Tx Ty Mrx Mry)). congruence.
      - exists tx. split; auto. intro Q. apply H. apply Exists_exists. destruct (BACK tx Q) as (_ & r & A & B). eauto. }
    destruct K as (t & Tt & Nt). rewrite <- LT. change (length (t :: ts) <= length F). apply NoDup_incl_length; [constructor; auto|].
    intros u [<-|U]; auto. apply BACK; auto.
  Qed.
End Pure.

(*PROP C123: with each linkage (average and ward when means and sums are exact enough), no CANNOT_LINK and MUST_LINK between identical
    vectors only, cutting by iteration into at most as many clusters as there are different vectors keeps data with the same vector together. *)
Lemma C123_hierarchical_twins_partial_proof :
  forall vec D (eqD : EqB D) pairwise cdistance ltb dsum ddiv inf zero mean linkage m vectors nb s s' d k d' x y,
    strict_total_order ltb -> separates pairwise ltb zero -> ltb zero inf = true -> reachable m -> at_ease m vectors ->
    linkage_separates cdistance ltb dsum ddiv zero mean linkage ->
    Hierarchical.cluster vec D pairwise cdistance ltb dsum ddiv inf mean linkage m vectors nb s = (s', Ok d) ->
    compute_predicted_clusters vec (Z.of_nat k) (str "iteration") s' = (s', Ok d') -> different_vectors m vectors k ->
    managed m x -> managed m y -> twins vectors x y -> dget x d' = dget y d'.
Proof.
  intros vec D eqD pairwise cdistance ltb dsum ddiv inf zero mean linkage m vectors nb s s' d k d' x y TO SEP FIN R EASE LINK E Ec (reps & ND & Lk & MA & DI) X Y T.
  apply reachable_inv in R. assert (MK : make_hierarchical linkage = Ok linkage) by (destruct LINK as [-> |[-> |[(-> & _)|(-> & _)]]]; reflexivity).
  destruct (trace_of_run eqD pairwise cdistance ltb dsum ddiv inf mean linkage m vectors nb s s' d TO R MK E) as (root & first & tr & _ & ST & TR & Q).
  destruct (Q (Z.of_nat k)) as (d0 & F & Ec' & (J & _ & Min) & [_ G] & _ & Co). rewrite Ec in Ec'. injection Ec' as <-.
  assert (FO := start_ok mean m vectors R first ST).
  assert (PU : pure vectors first) by (intros a b K; apply EASE; exact (start_ml mean m vectors R first ST a b K)).
  assert (X' := proj1 (managed_ids m x) X). assert (Y' := proj1 (managed_ids m y) Y).
  apply G; [apply Co; auto|apply Co; auto|]. change (together F x y).
  assert (COV : forall z, In z (ids m) -> In z (keys vectors)).
  { intros z Z. destruct (in_dec eq_dec_of z (keys vectors)) as [K|K]; auto. exfalso.
    destruct (HierThms.cluster_fails pairwise cdistance ltb dsum ddiv inf mean linkage m vectors nb s R) as [C1 C2].
    destruct nb as [n|]; [|rewrite C1 in E; [discriminate|exact Logic.I]].
    destruct (Z_lt_le_dec n 2) as [L|L]; [rewrite C1 in E; [discriminate|exact L]|].
    rewrite (proj2 (C2 n eq_refl L)) in E; [discriminate|eauto]. }
  destruct (covered_rows vectors (ids m) COV) as (rows & VR).
  destruct (purity pairwise cdistance ltb dsum ddiv inf zero mean linkage m vectors R TO SEP FIN EASE LINK rows VR 1 first root tr TR FO (or_introl PU) F J)
    as [(PF & [C|(it & FF & F' & J' & L)])|C]; auto.
  destruct (together_dec F x y) as [K|K]; auto. exfalso.
  assert (LM := many mean m vectors R it F x y reps FF PF X' Y' T K ND MA DI).
  assert (A := Min F' J'). lia.
Qed.

(*EX
Example C123_ex : forall name, In name [str "single"; str "complete"; str "average"; str "ward"] ->
  let s' := fst (Hierarchical.cluster Z Z on_line (fun u v => Z.abs (u - v)%Z) Z.ltb line_sum line_part 1000000%Z line_mean
                   name (init six_ids) six_points (Some 3%Z) (fresh_hier Z)) in
  result (compute_predicted_clusters Z 3 (str "iteration")) s' =
    Ok [(str "a", 0); (str "b", 0); (str "c", 0); (str "d", 0); (str "e", 1); (str "f", 2)]%Z.
Proof. intros name [<-|[<-|[<-|[<-|[]]]]]; vm_compute; reflexivity. Qed.
Example C123_hypotheses : reachable (init six_ids) /\ at_ease (init six_ids) six_points /\ separates on_line Z.ltb 0%Z /\ different_vectors (init six_ids) six_points 3 /\
  forall name, In name [str "single"; str "complete"; str "average"; str "ward"] -> linkage_separates (fun u v => Z.abs (u - v)%Z) Z.ltb line_sum line_part 0%Z line_mean name.
Proof. split; [exact (run_reachable _ [])|]. split; [exact six_at_ease|]. split; [exact on_line_separates|]. split; [exact six_different|exact line_linkages]. Qed.
EX*)

Lemma on_line_separates : separates on_line Z.ltb 0%Z.
Proof.
  intros X i j u v U V. unfold on_line. rewrite (nth_error_nth _ _ _ U), (nth_error_nth _ _ _ V). split; [lia|apply Z.ltb_ge; lia].
Qed.
Lemma on_line_by_vectors : by_vectors on_line.
Proof.
  intros X i i' j j' E1 E2. unfold on_line. assert (Q : forall p q, nth_error X p = nth_error X q -> nth p X 0%Z = nth q X 0%Z).
  { intros p q E. destruct (nth_error X p) as [u|] eqn:N.
    - rewrite (nth_error_nth _ _ _ N). symmetry in E. rewrite (nth_error_nth _ _ _ E). auto.
    - symmetry in E. apply nth_error_None in N, E. rewrite !nth_overflow by auto. auto. }
  rewrite (Q i i' E1), (Q j j' E2). auto.
Qed.

Lemma line_linkages name : In name [str "single"; str "complete"; str "average"; str "ward"] ->
  linkage_separates (fun u v => Z.abs (u - v)%Z) Z.ltb line_sum line_part 0%Z line_mean name.
Proof.
  intros [<-|[<-|[<-|[<-|[]]]]]; [left; auto|right; left; auto|right; right; left|right; right; right]; (split; [reflexivity|]).
  - split.
    + intros u v. split; [lia|apply Z.ltb_ge; lia].
    + intros v n. unfold line_mean. assert (E : forall k, fold_right Z.add 0%Z (repeat v k) = (v * Z.of_nat k)%Z).
      { induction k as [|k IH]; [simpl; lia|]. change (v + fold_right Z.add 0%Z (repeat v k) = v * Z.of_nat (S k))%Z. rewrite IH. lia. }
      rewrite E, repeat_length. apply Z.div_mul. lia.
  - split.
    + intros l P. induction l as [|d l IH]; simpl.
      * split; [split; [intros _ d []|auto]|reflexivity].
      * assert (Pd : (0 <= d)%Z) by (apply Z.ltb_ge, P; left; auto). destruct IH as [IH1 IH2]; [intros; apply P; right; auto|]. apply Z.ltb_ge in IH2.
        split; [|apply Z.ltb_ge; lia]. split.
        -- intros E e [<-|J]; [lia|]. apply IH1; auto. lia.
        -- intro A. rewrite (A d (or_introl eq_refl)). rewrite (proj2 IH1); auto.
    + intros d n L P. apply Z.ltb_ge in P. unfold line_part. assert (0 < Z.of_nat n)%Z by lia.
      assert (Q := Z.div_le_upper_bound (- d) (Z.of_nat n) 0 ltac:(auto) ltac:(lia)). split; [|apply Z.ltb_ge; lia]. split.
      * intro E. assert (E0 : (- d / Z.of_nat n = 0)%Z) by lia. assert (M := Z.mod_pos_bound (- d) (Z.of_nat n) ltac:(auto)). assert (D0 := Z.div_mod (- d) (Z.of_nat n) ltac:(lia)). rewrite E0 in D0. lia.
      * intros ->. rewrite Z.div_0_l by lia. reflexivity.
Qed.

Ltac each H := simpl in H; repeat (destruct H as [<-|H]); try destruct H.

(** Six points, four of them the same. *)
Definition six_ids : list pystr := [str "a"; str "b"; str "c"; str "d"; str "e"; str "f"].
Definition six_points : dict pystr Z := [(str "a", 0); (str "b", 0); (str "c", 0); (str "d", 0); (str "e", 10); (str "f", 13)]%Z.

Lemma six_at_ease : at_ease (init six_ids) six_points.
Proof.
  assert (I : Inv (init six_ids)) by (apply reachable_inv, (run_reachable _ [])).
  intros a b. split.
  - intro Q. destruct (inferred_inI _ I a b _ Q) as [A B]. change (ids (init six_ids)) with six_ids in A, B. each A; each B; vm_compute in Q; discriminate.
  - intro Q. destruct (inferred_inI _ I a b _ Q) as [A B]. change (ids (init six_ids)) with six_ids in A, B.
    each A; each B; vm_compute in Q; try discriminate; eexists; split; vm_compute; reflexivity.
Qed.
Lemma six_different : different_vectors (init six_ids) six_points 3.
Proof.
  exists [str "a"; str "e"; str "f"]. split; [repeat constructor; simpl; intuition discriminate|]. split; [reflexivity|]. split.
  - intros a A. apply managed_ids. each A; simpl; tauto.
  - intros a b A B (v & Va & Vb). each A; each B; vm_compute in Va, Vb; congruence.
Qed.

(*PROP C123 is false for the clusters that [cluster] returns, which are cut by size: with each linkage, data with the same vector can be
    separated while different data stay together. *)
Lemma C123_hierarchical_twins_refuted_proof :
  forall name, In name [str "single"; str "complete"; str "average"; str "ward"] ->
  exists m vectors d x y z w,
    reachable m /\ at_ease m vectors /\ separates on_line Z.ltb 0%Z /\ different_vectors m vectors 3 /\
    linkage_separates (fun u v => Z.abs (u - v)%Z) Z.ltb line_sum line_part 0%Z line_mean name /\
    result (Hierarchical.cluster Z Z on_line (fun u v => Z.abs (u - v)%Z) Z.ltb line_sum line_part 1000000%Z line_mean
              name m vectors (Some 3%Z)) (fresh_hier Z) = Ok d /\
    (managed m x /\ managed m y /\ twins vectors x y /\ dget x d <> dget y d) /\
    (managed m z /\ managed m w /\ ~ twins vectors z w /\ dget z d = dget w d).
Proof.
  intros name J. exists (init six_ids), six_points, [(str "a", 0); (str "b", 0); (str "c", 1); (str "d", 1); (str "e", 2); (str "f", 2)]%Z, (str "a"), (str "c"), (str "e"), (str "f").
  split; [exact (run_reachable _ [])|]. split; [exact six_at_ease|]. split; [exact on_line_separates|]. split; [exact six_different|]. split; [exact (line_linkages name J)|]. split.
  - each J; vm_compute; reflexivity.
  - repeat split; try (apply managed_ids; simpl; tauto); try (vm_compute; discriminate); try reflexivity.
    + exists 0%Z. split; reflexivity.
    + intros (v & A & B). vm_compute in A, B. congruence.
Qed.

(** ** DBScan. *)
Section Dense.
  Variable l : list pystr.
  Variables near must cannot : pystr -> pystr -> Prop.
  Variables enough big : nat -> Prop.
  Hypothesis NOCL : forall a b, ~ cannot a b.
  Variables x y : pystr.
  Hypothesis X : In x l.
  Hypothesis Y : In y l.
  Hypothesis Mx : forall z, In z l -> must z x -> z = x.
  Hypothesis My : forall z, In z l -> must z y -> z = y.
  Hypothesis Nx : near x x.
  Hypothesis NTO : forall z, In z l -> (near z x <-> near z y).
  Hypothesis NFROM : forall z, In z l -> (near x z <-> near y z).

  Section Local.
    Variable N : pystr -> list pystr.
    Variable sg : pystr -> pystr -> Prop.
    Hypothesis TU : turns l near cannot enough N sg.
    Hypothesis DE : enough (length (N x)).
    Notation local_ := (DbscanSpec.local l cannot enough N sg).
    Notation noise_ := (DbscanSpec.noise l cannot enough N sg).
    Notation reach_ := (DbscanSpec.reach l must cannot enough N sg).
    Notation owns_ := (DbscanSpec.owns l must cannot enough N sg).
    Notation core_ := (DbscanSpec.core l must cannot enough N sg).
    Notation absorbs_ := (DbscanSpec.absorbs l near cannot enough N sg).

    Lemma no_ever z : ~ ever l cannot enough N sg z.
    Proof using NOCL. intros (w & _ & (_ & _ & (a & b & _ & _ & Q)) & _). exact (NOCL a b Q). Qed.
    Lemma no_sg z w : In z l -> ~ sg z w.
    Proof using TU NOCL. destruct TU as (_ & _ & S). intros Z Q. apply S in Q as (v & _ & (_ & _ & (a & b & _ & _ & Q)) & _); auto. exact (NOCL a b Q). Qed.
    Lemma in_N z w : In z l -> (In w (N z) <-> In w l /\ near z w).
    Proof using TU NOCL. destruct TU as (_ & A & _). intro Z. rewrite A by auto. assert (Q := no_sg z w Z). tauto. Qed.

    Lemma enough_y : enough (length (N y)).
    Proof using NOCL X Y NFROM TU DE.
      assert (P : Permutation (N x) (N y)).
      { apply NoDup_Permutation; [apply TU; auto|apply TU; auto|]. intro w. rewrite !in_N by auto. split; intros [W Q]; split; auto; apply NFROM; auto. }
      apply Permutation_length in P. rewrite <- P. auto.
    Qed.

    Lemma local_alike k : In k l -> (local_ k x <-> local_ k y).
    Proof using NOCL X Y NTO TU.
      intro K. unfold DbscanSpec.local. assert (E := no_ever k). assert (Q : In x (N k) <-> In y (N k)).
      { rewrite !in_N by auto. rewrite (NTO k K). tauto. }
      tauto.
    Qed.

    Lemma local_self : local_ x x /\ local_ y y.
    Proof using NOCL X Y NTO NFROM Nx TU DE.
      assert (Ny : near y y) by (apply NFROM, NTO; auto).
      split; right; (split; [apply no_ever|]); split; auto using enough_y; apply in_N; auto.
    Qed.

    Lemma reach_local z : In z l -> (reach_ z x <-> local_ z x) /\ (reach_ z y <-> local_ z y).
    Proof using NOCL X Y NTO NFROM Nx TU DE Mx My.
      intro Z. destruct local_self as [A B]. unfold DbscanSpec.reach. split; split; auto; intros [->|[Q|[Q _]]]; auto.
      - rewrite (Mx z Z Q). auto.
      - rewrite (My z Z Q). auto.
    Qed.
    Lemma reach_alike z : In z l -> (reach_ z x <-> reach_ z y).
    Proof using NOCL X Y NTO NFROM Nx TU DE Mx My. intro Z. destruct (reach_local z Z) as [-> ->]. apply local_alike; auto. Qed.

    Lemma before_left z w : before l z w -> In z l.
    Proof using. clear. intros (a & b & E & _). rewrite E. apply in_elt. Qed.
    Lemma owns_alike z : In z l -> (owns_ z x <-> owns_ z y).
    Proof using NOCL X Y NTO NFROM Nx TU DE Mx My.
      intro Z. unfold DbscanSpec.owns. split; intros (_ & R & F); (split; [auto|]); (split; [apply (reach_alike z Z); auto|]); intros w W Q; apply (F w W);
        apply (reach_alike w (before_left w z W)); auto.
    Qed.

    Lemma core_alike z : In z l -> owns_ z z -> (core_ z x <-> core_ z y).
    Proof using NOCL X Y NTO NFROM Nx TU DE Mx My.
      intros Z O. assert (A := owns_alike z Z). unfold DbscanSpec.core. split; intros [[_ Q]|Q]; right.
      - apply A. assert (E := Mx z Z Q). subst z. auto.
      - apply A. auto.
      - apply A. assert (E := My z Z Q). subst z. auto.
      - apply A. auto.
    Qed.

    Lemma absorbs_alike C ks C' ks' : absorbs_ C ks C' ks' -> incl ks l -> (C x <-> C y) -> (C' x <-> C' y) /\ incl ks' ks.
    Proof using NOCL X Y NTO TU.
      induction 1 as [C C' E|C C' k ks E _|C C' k ks ks' _ _ IH]; intros IN A.
      - rewrite <- !E. split; auto. apply incl_refl.
      - rewrite <- !E. split; auto. apply incl_refl.
      - destruct IH as [B I2]; [intros z Q; apply IN; right; auto|rewrite (local_alike k) by (apply IN; left; auto); tauto|].
        split; auto. apply incl_tl. auto.
    Qed.

    Lemma grow_alike xs ks Cs ks' : DbscanSpec.grow l near must cannot enough N sg xs ks Cs ks' -> incl ks l -> (forall z, In z xs -> In z l /\ owns_ z z) ->
      Forall (fun C : pystr -> Prop => C x <-> C y) Cs /\ incl ks' ks.
    Proof using NOCL X Y NTO NFROM Nx TU DE Mx My.
      induction 1 as [ks|z xs ks C ks' Cs ks'' AB _ IH]; intros IN LE; [split; [constructor|apply incl_refl]|].
      destruct (LE z (or_introl eq_refl)) as [Z O]. destruct (absorbs_alike _ _ _ _ AB IN (core_alike z Z O)) as [A I1].
      destruct IH as [B I2]; [eapply incl_tran; eauto|intros w W; apply LE; right; auto|]. split; [constructor; auto|eapply incl_tran; eauto].
    Qed.

    Lemma takes_alike Cs R T : NoDup R -> incl R l -> Forall (fun C : pystr -> Prop => C x <-> C y) Cs -> takes l cannot enough big N sg Cs R T ->
      forall r, In r R -> (In x (T r) <-> In y (T r)).
    Proof using NOCL X Y NTO TU.
      intros ND IN FA TK.
      assert (IC : forall t, in_core Cs t x <-> in_core Cs t y).
      { intro t. rewrite Forall_forall in FA. unfold in_core. split; intros (C & E & Q); exists C; split; auto; apply (FA C); auto; eapply nth_error_In; eauto. }
      assert (P : forall R1 R2, R = R1 ++ R2 -> forall r, In r R1 -> (In x (T r) <-> In y (T r))).
      { induction R1 as [|r R1 IH] using rev_ind; intros R2 E r' J; [destruct J|]. apply in_app_or in J as [J|[<-|[]]].
        - apply (IH (r :: R2)); auto. rewrite E, <- app_assoc. reflexivity.
        - assert (Jr : In r R) by (rewrite E; apply in_or_app; left; apply in_elt).
          destruct (TK r Jr) as [_ A]. rewrite !A. rewrite (local_alike r) by (apply IN; auto).
          assert (BF : forall r', before R r' r -> In r' R1).
          { intros r' (a & b & Er & J). apply in_split in J as (b1 & b2 & ->). rewrite E in ND. rewrite E in Er. rewrite <- app_assoc in ND, Er. simpl in ND, Er.
            rewrite app_comm_cons, app_assoc in Er. destruct (NoDup_split_unique _ _ _ _ _ ND Er) as [-> _]. apply in_elt. }
          assert (PR : forall r', before R r' r -> (In x (T r') <-> In y (T r'))) by (intros r' B; apply (IH (r :: R2)); [rewrite E, <- app_assoc; reflexivity|auto]).
          assert (C1 : (forall t, ~ in_core Cs t x) <-> (forall t, ~ in_core Cs t y)) by (split; intros Q t W; apply (Q t), IC; auto).
          assert (C2 : (forall r', before R r' r -> big (length (T r')) -> ~ In x (T r')) <-> (forall r', before R r' r -> big (length (T r')) -> ~ In y (T r'))).
          { split; intros Q r' B G W; apply (Q r' B G), (PR r' B); auto. }
          tauto. }
      intros r J. apply (P R []); auto. rewrite app_nil_r. auto.
    Qed.
  End Local.

  Lemma dense_alike d : dbscan_result l near must cannot enough big d -> (forall n, (exists nb, NoDup nb /\ n = length nb /\ forall z, In z nb <-> In z l /\ near x z) -> enough n) ->
    dget x d = dget y d \/ exists v w, dget x d = Some v /\ dget y d = Some w /\ (v < 0)%Z /\ (w < 0)%Z.
  Proof using All.
    intros (N & sg & L & K & Cs & ks & R & T & TU & (NL & EL & _) & (_ & EK) & GR & (NR & ER & _) & TK & g & G1 & G2 & G3 & G4 & G5) DE0.
    assert (DE : enough (length (N x))).
    { apply DE0. exists (N x). split; [apply TU; auto|]. split; auto. intro z. apply (in_N N sg TU); auto. }
    assert (IK : incl K l) by (intros z Z; apply EK in Z; tauto).
    destruct (grow_alike N sg TU DE L K Cs ks GR IK) as [FA IS]; [intros z Z; apply EL in Z as (A & B & _); auto|].
    assert (IC : forall t, in_core Cs t x <-> in_core Cs t y).
    { intro t. rewrite Forall_forall in FA. unfold in_core. split; intros (C & E & Q); exists C; split; auto; apply (FA C); auto; eapply nth_error_In; eauto. }
    assert (IR : incl R l) by (intros z Z; apply IK, IS, ER; auto).
    assert (TA := takes_alike N sg TU Cs R T NR IR FA TK).
    assert (E1 : forall t, g x = Some (inl t) <-> g y = Some (inl t)).
    { intro t. rewrite !G1, IC. split; intros [A B]; split; auto; intros t' Q; apply B, IC; auto. }
    assert (E2 : forall r, g x = Some (inr r) <-> g y = Some (inr r)).
    { intro r. rewrite !G2. split; intros (A & B & Q); (split; [auto|]); (split; [auto|]); apply (TA r A); auto. }
    assert (E : g x = g y).
    { destruct (g x) as [[t|r]|]; [symmetry; apply E1; auto|symmetry; apply E2; auto|]. destruct (g y) as [[t|r]|]; auto.
      - discriminate (proj2 (E1 t) eq_refl).
      - discriminate (proj2 (E2 r) eq_refl). }
    destruct (g x) as [c|] eqn:Gx.
    - left. apply (proj2 (G5 x y X Y ltac:(congruence))). congruence.
    - right. destruct (G3 x X Gx) as (v & Ev & Lv), (G3 y Y (eq_sym E)) as (w & Ew & Lw). exists v, w. auto.
  Qed.
End Dense.

(*PROP C124: without CANNOT_LINK, two data with the same vector, about which nothing is known, that have enough neighbours are in the same
    cluster or are both ignored. *)
Lemma C124_dbscan_twins_partial_proof :
  forall vec D pairwise leb ltb of_nat setlist eps ms p m vectors nb s d x y,
    valid_setlist setlist -> make_dbscan D leb of_nat eps ms = Ok p -> (forall rows i, leb (pairwise rows i i) eps = true) ->
    strict_weak_order ltb -> (forall x y, leb x y = negb (ltb y x)) -> by_vectors pairwise -> reachable m -> ~ managed m (str "NONE") ->
    (forall a b, ~ inferred m a b (Some CANNOT_LINK)) ->
    result (Dbscan.cluster vec D pairwise leb ltb of_nat setlist p m vectors nb) s = Ok d ->
    managed m x -> managed m y -> twins vectors x y -> unconstrained m x -> unconstrained m y ->
    dense pairwise leb eps (Z.to_nat ms) m vectors x ->
    dget x d = dget y d \/ exists v w, dget x d = Some v /\ dget y d = Some w /\ (v < 0)%Z /\ (w < 0)%Z.
Proof.
  intros vec D pairwise leb ltb of_nat setlist eps ms p m vectors nb s d x y SL MK RF SW LE BV R NN NOCL E X Y (v & Vx & Vy) Ux Uy (dl & NDl & Ll & Dl).
  assert (I := reachable_inv m R). assert (El := ask_managed m).
  assert (DR := C75_dbscan_functional_proof vec D pairwise leb ltb of_nat setlist eps ms p m vectors nb s d (ids m) SL MK RF SW LE R NN E El).
  assert (X' := proj1 (managed_ids m x) X). assert (Y' := proj1 (managed_ids m y) Y).
  assert (TW : forall a b a' b' e, In a (ids m) -> In b (ids m) -> In a' (ids m) -> In b' (ids m) -> dget a vectors = dget a' vectors -> dget b vectors = dget b' vectors ->
     distance_is pairwise m vectors (a, b) e -> distance_is pairwise m vectors (a', b') e).
  { intros a b a' b' e Ia Ib Ia' Ib' Ea Eb (l & rows & i & j & El' & VR & Na & Nb & ->). rewrite El in El'. injection El' as <-. simpl in Na, Nb.
    destruct (In_nth_error _ _ Ia') as [i' Na'], (In_nth_error _ _ Ib') as [j' Nb']. exists (ids m), rows, i', j'. split; auto. split; auto. split; auto. split; auto.
    assert (RW : forall q q' z z', nth_error (ids m) q = Some z -> nth_error (ids m) q' = Some z' -> dget z vectors = dget z' vectors -> nth_error rows q = nth_error rows q').
    { intros q q' z z' Nq Nq' Ez. assert (Lr : length rows = length (ids m)) by (apply (f_equal (@length _)) in VR; rewrite !map_length in VR; auto).
      destruct (nth_error rows q) as [w|] eqn:W.
      - symmetry. apply (row_of m vectors rows q' z' w VR Nq'). rewrite <- Ez. apply (row_of m vectors rows q z w VR Nq). auto.
      - exfalso. apply nth_error_None in W. assert (q < length (ids m)) by (apply nth_error_Some; congruence). lia. }
    apply BV; eapply RW; eauto. }
  assert (MU : forall z w, unconstrained m w -> In w (ids m) -> In z (ids m) -> inferred m z w (Some MUST_LINK) -> z = w).
  { intros z w U W Z Q. destruct (eq_dec_of z w) as [->|N]; auto. apply managed_ids in Z. specialize (U z Z N). apply managed_ids in Z.
    apply inferred_ml in Q; auto. rewrite ml_sym in Q by auto. assert (Q' : inferred m w z (Some MUST_LINK)) by (apply inferred_ml; auto). unfold inferred in *. congruence. }
  assert (WI : forall a b, within pairwise leb eps m vectors a b -> In a (ids m) /\ In b (ids m)).
  { intros a b (e & (l & rows & i & j & El' & _ & Na & Nb & _) & _). rewrite El in El'. injection El' as <-. simpl in Na, Nb. split; eapply nth_error_In; eauto. }
  apply (dense_alike (ids m) (DbscanSpec.within pairwise leb eps m vectors) (fun a b => inferred m a b (Some MUST_LINK)) (fun a b => inferred m a b (Some CANNOT_LINK))
    (fun n => Z.to_nat ms <= n) (fun n => leb eps (of_nat n) = true)); auto.
  - destruct dl as [|w dl].
    + simpl in Ll. apply make_ok in MK as (_ & _ & _ & MS & _). lia.
    + destruct (Dl w (or_introl eq_refl)) as (e & (l & rows & i & j & El' & VR & Na & Nb & _) & _). rewrite El in El'. injection El' as <-. simpl in Na, Nb.
      exists (pairwise rows i i). split; auto. exists (ids m), rows, i, i. auto.
  - intros z Z. split; intros (e & Q & Le); exists e; (split; [|exact Le]); [apply (TW z x z y e)|apply (TW z y z x e)]; auto; congruence.
  - intros z Z. split; intros (e & Q & Le); exists e; (split; [|exact Le]); [apply (TW x z y z e)|apply (TW y z x z e)]; auto; congruence.
  - intros n (nbs & ND & -> & EQ). apply (Nat.le_trans _ (length dl)); auto. apply NoDup_incl_length; auto. intros z Z. apply EQ. split; [apply (WI x z)|]; auto.
Qed.

(*EX
(** Two groups of points at the same place. *)
Definition db_line (eps : Z) (ms : nat) := Dbscan.cluster Z Z on_line Z.leb Z.ltb Z.of_nat dedup (mkDBParams Z eps ms).
Definition two_ids : list pystr := [str "a"; str "b"; str "c"; str "d"; str "e"].
Definition two_points : dict pystr Z := [(str "a", 0); (str "b", 9); (str "c", 0); (str "d", 9); (str "e", 1)]%Z.
Example C124_ex : result (db_line 2 2 (init two_ids) two_points None) fresh_dbscan =
  Ok [(str "a", 0); (str "b", 1); (str "c", 0); (str "d", 1); (str "e", 0)]%Z.
Proof. vm_compute; reflexivity. Qed.
Example C124_hypotheses : make_dbscan Z Z.leb Z.of_nat 2%Z 2%Z = Ok (mkDBParams Z 2%Z 2) /\ by_vectors on_line /\ twins two_points (str "a") (str "c") /\
  unconstrained (init two_ids) (str "a") /\ unconstrained (init two_ids) (str "c") /\ dense on_line Z.leb 2%Z 2 (init two_ids) two_points (str "a").
Proof.
  split; [reflexivity|]. split; [exact on_line_by_vectors|]. split; [exists 0%Z; split; reflexivity|].
  assert (In5 : forall x, managed (init two_ids) x <-> In x two_ids) by (intro x; rewrite managed_ids; reflexivity).
  split; [|split]; try (intros y Y N; apply In5 in Y; simpl in Y; repeat destruct Y as [<-|Y]; try tauto; vm_compute; reflexivity).
  exists [str "a"; str "c"]. split; [repeat constructor; simpl; intuition discriminate|]. split; [simpl; lia|].
  intros y [<-|[<-|[]]]; exists 0%Z; (split; [|reflexivity]); exists two_ids, [0; 9; 0; 9; 1]%Z.
  - exists 0, 0. repeat split; reflexivity.
  - exists 0, 2. repeat split; reflexivity.
Qed.
EX*)

Definition eight_ids : list pystr := [str "x"; str "z"; str "y"; str "w"; str "a"; str "b"; str "c"; str "d"].
Definition eight_points : dict pystr Z :=
  [(str "x", 1); (str "z", 0); (str "y", 1); (str "w", -1); (str "a", 100); (str "b", 100); (str "c", 100); (str "d", 100)]%Z.

(*PROP C124 is false for data that have too few neighbours: without any constraint, two data with the same vector can be in different clusters. *)
Lemma C124_dbscan_twins_refuted_proof :
  exists p m vectors d x y v w,
    make_dbscan Z Z.leb Z.of_nat 1%Z 4%Z = Ok p /\ reachable m /\ (forall a, managed m a -> unconstrained m a) /\
    result (Dbscan.cluster Z Z on_line Z.leb Z.ltb Z.of_nat dedup p m vectors None) fresh_dbscan = Ok d /\
    managed m x /\ managed m y /\ twins vectors x y /\ dget x d = Some v /\ dget y d = Some w /\ v <> w /\ (0 <= v)%Z /\ (0 <= w)%Z.
Proof.
  exists (mkDBParams Z 1%Z 4), (init eight_ids), eight_points.
  exists [(str "a", 0); (str "b", 0); (str "c", 0); (str "d", 0); (str "w", 1); (str "x", 2); (str "y", 1); (str "z", 1)]%Z, (str "x"), (str "y"), 2%Z, 1%Z.
  split; [reflexivity|]. split; [exact (run_reachable _ [])|]. split.
  { intros a A b B N. apply managed_ids in A, B. change (ids (init eight_ids)) with eight_ids in A, B. each A; each B; try congruence; vm_compute; reflexivity. }
  split; [vm_compute; reflexivity|]. split; [apply managed_ids; simpl; tauto|]. split; [apply managed_ids; simpl; tauto|].
  split; [exists 1%Z; split; reflexivity|]. split; [reflexivity|]. split; [reflexivity|]. lia.
Qed.
