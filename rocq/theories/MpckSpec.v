(** * What MPCKMeans should and does compute, independent of how it is computed. *)

From Coq Require Import String List Bool Arith ZArith Permutation.
From Verif Require Import Base Manager Spec SamplingSpec ClusterSpec Mpckmeans.
Import ListNotations.
Open Scope nat_scope.

(** Python enumerates a set in some order; [np.random.shuffle] permutes. *)
Definition valid_order (order : list nat -> list nat) : Prop := forall s, Permutation s (order s).
Definition valid_shuffle (shuffle : nat -> list nat -> list nat) : Prop := forall t l, Permutation l (shuffle t l).
(** [np.random.choice]: a valid index; distinct valid indices. *)
Definition valid_first {D} (first : nat -> list D -> nat) : Prop := forall n weights, 0 < n -> first n weights < n.
Definition valid_sample (sample : nat -> nat -> list nat) : Prop :=
  forall n k, k <= n -> length (sample n k) = k /\ NoDup (sample n k) /\ forall i, In i (sample n k) -> i < n.
(** [np.argmin] returns an index of the array. *)
Definition valid_argmin {D} (o : ops D) : Prop := forall l, l <> [] -> o_argmin D o l < length l.

(** The manager infers a constraint of type [t] between the [i]-th and the [j]-th ID of [l]. *)
Definition constrained (m : mgr) (l : list pystr) (t : pystr) (i j : nat) : Prop :=
  exists x y, nth_error l i = Some x /\ nth_error l j = Some y /\ inferred m x y (Some t).

(** A graph on the positions of [l] that holds exactly the inferred constraints of type [t]. *)
Definition exact_graph (m : mgr) (t : pystr) (l : list pystr) (g : dict nat (list nat)) : Prop :=
  keys g = seq 0 (length l) /\
  forall i, i < length l -> exists s, dget i g = Some s /\ NoDup s /\ forall j, In j s <-> constrained m l t i j.

(** The connected components, as positions of [l], by smallest position. *)
Definition exact_neighborhoods (m : mgr) (l : list pystr) (cs : list (list nat)) : Prop :=
  NoDup (concat cs) /\ (forall i, In i (concat cs) <-> i < length l) /\
  (forall c, In c cs -> exists i, In i c /\ forall j, In j c <-> constrained m l MUST_LINK i j) /\
  (forall a c b, cs = a ++ c :: b -> exists i, In i c /\ forall j, j < i -> In j (concat a)).

(** First smallest value. *)
Definition exact_argmin {D} (o : ops D) : Prop := forall l z, l <> [] ->
  o_argmin D o l < length l /\
  (forall j, j < length l -> o_ltb D o (nth j l z) (nth (o_argmin D o l) l z) = false) /\
  (forall j, j < o_argmin D o l -> o_ltb D o (nth (o_argmin D o l) l z) (nth j l z) = true).

(** ** The algorithm as a relation *)
Section Result.
  Context {D : Type}.
  Variable o : ops D.
  Variables n width : nat.               (* number of points, of coordinates *)
  Variable x : nat -> list D.            (* the points *)
  Variable k : nat.                      (* number of clusters *)
  Variable w : D.                        (* weight of the constraints *)
  Variables must cannot : nat -> nat -> Prop.
  Variable visits : nat -> list nat.     (* order in which iteration [t] visits the points *)

  Notation zero := (o_of_nat D o 0).
  Notation two := (o_of_nat D o 2).
  Notation add := (o_add D o).
  Notation sub := (o_sub D o).
  Notation mul := (o_mul D o).
  Notation sq := (o_sq D o).
  Notation ltb := (o_ltb D o).
  Notation dist A p q := (o_mahalanobis D o (x p) (x q) A).
  Notation coord v d := (nth d v zero).
  Definition greater (a b : D) : D := if ltb a b then b else a.

  (** [v] is the sum of [f a] over all [a] with [P a], added in some order. *)
  Definition total {A} (P : A -> Prop) (f : A -> D) (v : D) : Prop :=
    exists l, NoDup l /\ (forall a, In a l <-> P a) /\ v = fold_left (fun t a => add t (f a)) l zero.

  (** The farthest pair of points for the metric [A]; they are different points. *)
  Definition farthest (A : list D) (p q : nat) : Prop :=
    q < p < n /\ ltb zero (dist A p q) = true /\
    forall p' q', q' < p' < n ->
      ltb (dist A p q) (dist A p' q') = false /\
      (p' < p \/ (p' = p /\ q' < q) -> ltb (dist A p' q') (dist A p q) = true).

  (** Distance to the centre, plus a penalty for each broken constraint with a point that
      already has a label. *)
  Definition cost (A : list D) (far : D) (C : list (list D)) (L : nat -> option nat) (i c : nat) (v : D) : Prop :=
    exists tm tc,
      total (fun j => must i j /\ exists c', L j = Some c' /\ c' <> c) (fun j => mul (mul two w) (dist A i j)) tm /\
      total (fun j => cannot i j /\ L j = Some c) (fun j => mul (mul two w) (sub far (dist A i j))) tc /\
      v = add (add (sub (o_mahalanobis D o (x i) (nth c C []) A) (o_logdet D o A)) tm) tc.

  (** The first of the [k] clusters of least cost. *)
  Definition best (A : list D) (far : D) (C : list (list D)) (L : nat -> option nat) (i c : nat) : Prop :=
    c < k /\ exists v, (forall c', c' < k -> cost A far C L i c' (v c')) /\
      (forall c', c' < k -> ltb (v c') (v c) = false) /\ (forall c', c' < c -> ltb (v c) (v c') = true).

  Inductive assigns (A : list D) (far : D) (C : list (list D)) : list nat -> (nat -> option nat) -> (nat -> option nat) -> Prop :=
  | assigns_nil L L' : (forall j, L j = L' j) -> assigns A far C [] L L'
  | assigns_cons i is L c L' : best A far C L i c ->
      assigns A far C is (fun j => if Nat.eqb j i then Some c else L j) L' -> assigns A far C (i :: is) L L'.

  (** A point that can leave its cluster; the one that is farthest from its centre goes to the
      empty cluster. *)
  Definition crowded (L : nat -> nat) (p : nat) : Prop := p < n /\ exists q, q < n /\ q <> p /\ L q = L p.
  Definition moves (A : list D) (C : list (list D)) (L : nat -> nat) (p : nat) : Prop :=
    let own := fun p => o_mahalanobis D o (x p) (nth (L p) C []) A in
    crowded L p /\ forall q, crowded L q -> ltb (own p) (own q) = false /\
      (L q < L p \/ (L q = L p /\ q < p) -> ltb (own q) (own p) = true).
  Inductive fills (A : list D) (C : list (list D)) : list nat -> (nat -> nat) -> (nat -> nat) -> Prop :=
  | fills_nil L L' : (forall i, i < n -> L i = L' i) -> fills A C [] L L'
  | fills_cons e es L p L' : moves A C L p ->
      fills A C es (fun i => if Nat.eqb i p then e else L i) L' -> fills A C (e :: es) L L'.

  (** Mean of some points. *)
  Definition mean_of (is : list nat) : list D := map (fun d => o_mean D o (map (fun i => coord (x i) d) is)) (seq 0 width).

  (** One iteration: labels, centres, metric. *)
  Definition step (t : nat) (C : list (list D)) (A : list D) (L : nat -> nat) (C' : list (list D)) (A' : list D) : Prop :=
    exists p q L0 es, farthest A p q /\
      assigns A (dist A p q) C (visits t) (fun _ => None) (fun i => if i <? n then Some (L0 i) else None) /\
      es = filter (fun c => forallb (fun i => negb (Nat.eqb (L0 i) c)) (seq 0 n)) (seq 0 k) /\
      (es = [] \/ 10 <= k) /\ fills A C es L0 L /\
      C' = map (fun c => mean_of (filter (fun i => Nat.eqb (L i) c) (seq 0 n))) (seq 0 k) /\
      length A' = width /\
      forall d, d < width -> exists tm tc,
        total (fun e => fst e < n /\ must (fst e) (snd e) /\ L (fst e) <> L (snd e))
              (fun e => mul (mul (o_half D o) w) (sq (sub (coord (x (fst e)) d) (coord (x (snd e)) d)))) tm /\
        total (fun e => fst e < n /\ cannot (fst e) (snd e) /\ L (fst e) = L (snd e))
              (fun e => mul w (greater (sub (sq (sub (coord (x p) d) (coord (x q) d)))
                                            (sq (sub (coord (x (fst e)) d) (coord (x (snd e)) d)))) zero)) tc /\
        coord A' d = o_div D o (o_of_nat D o n)
          (greater (add (add (o_sum D o (map (fun i => sq (sub (coord (x i) d) (coord (nth (L i) C' []) d))) (seq 0 n))) tm) tc) (o_tiny D o)).

  Definition close (C C' : list (list D)) : Prop :=
    forall c d, c < k -> d < width -> o_small D o (sub (coord (nth c C []) d) (coord (nth c C' []) d)) = true.

  (** Iterations until the centres are stable, at most [r]. *)
  Inductive iterates : nat -> nat -> list (list D) -> list D -> list (list D) -> (nat -> nat) -> Prop :=
  | iterates_stop t r C A L C' A' : step t C A L C' A' -> close C C' \/ r = 0 -> iterates t (S r) C A C' L
  | iterates_go t r C A L C' A' C'' L' : step t C A L C' A' -> ~ close C C' -> iterates (S t) r C' A' C'' L' -> iterates t (S r) C A C'' L'.

  (** The first centres: with more components than clusters, a farthest first traversal of
      their means; else all the means and some other points. *)
  Definition gain (cs : list (list nat)) (done : list nat) (c : nat) : D :=
    mul (o_div D o (o_of_nat D o (length (nth c cs []))) (o_of_nat D o n))
        (o_min D o (map (fun t => o_sqrt D o (o_sum D o (map (fun e => sq (sub (fst e) (snd e))) (combine (mean_of (nth c cs [])) (mean_of (nth t cs [])))))) done)).
  Definition traverses (cs : list (list nat)) (chosen : list nat) : Prop :=
    length chosen = k /\ NoDup chosen /\ (forall c, In c chosen -> c < length cs) /\
    forall a c b, chosen = a ++ c :: b -> a <> [] -> ltb zero (gain cs a c) = true /\
      forall c', c' < length cs -> ~ In c' a -> ltb (gain cs a c) (gain cs a c') = false /\ (c' < c -> ltb (gain cs a c') (gain cs a c) = true).
  Definition first_centers (first : nat -> list D -> nat) (sample : nat -> nat -> list nat) (cs : list (list nat)) (C : list (list D)) : Prop :=
    (k < length cs /\ exists chosen, traverses cs chosen /\
       hd_error chosen = Some (first (length cs) (map (fun c => o_div D o (o_of_nat D o (length c)) (o_of_nat D o n)) cs)) /\
       C = map (fun c => mean_of (nth c cs [])) chosen) \/
    (length cs <= k /\ C = map mean_of cs ++ map x (sample n (k - length cs))).
End Result.

(** The string ends with the character NUL. *)
Definition ends_with_nul (x : pystr) : Prop := exists y, x = y ++ [0%N].
