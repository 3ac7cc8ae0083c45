(** * Random choices as functions of the random integers.

    CPython's [random.sample] and [random.shuffle] (Lib/random.py), which draw all their
    randomness from [_randbelow(n)], an integer below [n].  A run of the generator is the list
    of these integers, and the lists of possible runs are enumerated below: the runs of one
    list are taken to be equally likely.  In the branch of [random.sample] with a set, an
    integer already drawn is drawn again; only the accepted integers are in the run. *)

From Coq Require Import List Bool Arith ZArith.
From Verif Require Import Base.
Import ListNotations.
Open Scope nat_scope.

Lemma pair_eqb_eq {A B} `{EqB A} `{EqB B} (p q : A * B) : eqb (fst p) (fst q) && eqb (snd p) (snd q) = true <-> p = q.
Proof.
  destruct p as [x y], q as [x' y']. cbn [fst snd]. rewrite andb_true_iff, !eqb_eq. split.
  - intros [-> ->]. reflexivity.
  - intro E. injection E as -> ->. auto.
Qed.
#[global] Instance EqB_pair {A B} `{EqB A} `{EqB B} : EqB (A * B) :=
  { eqb := fun p q => eqb (fst p) (fst q) && eqb (snd p) (snd q); eqb_eq := pair_eqb_eq }.

(** [l[i] = x] *)
Fixpoint set_nth {A} (i : nat) (x : A) (l : list A) : list A :=
  match l, i with
  | [], _ => []
  | _ :: l', 0 => x :: l'
  | y :: l', S i' => y :: set_nth i' x l'
  end.

(** [random.sample], branch with a pool: [j = randbelow(n - i); result[i] = pool[j];
    pool[j] = pool[n - i - 1]]; [n] stands for [n - i]. *)
Fixpoint pool_sample {A} (pool : list A) (n : nat) (js : list nat) : list A :=
  match js with
  | [] => []
  | j :: js' =>
      match nth_error pool j, nth_error pool (n - 1) with
      | Some x, Some y => x :: pool_sample (set_nth j y pool) (n - 1) js'
      | _, _ => []
      end
  end.
Fixpoint pool_runs (n k : nat) : list (list nat) :=
  match k with
  | 0 => [[]]
  | S k' => flat_map (fun j => map (cons j) (pool_runs (n - 1) k')) (seq 0 n)
  end.

(** [random.sample], branch with a set: [result[i] = population[j]] for [k] different [j]. *)
Fixpoint set_sample {A} (population : list A) (js : list nat) : list A :=
  match js with
  | [] => []
  | j :: js' => match nth_error population j with Some x => x :: set_sample population js' | None => [] end
  end.
Fixpoint set_runs (n : nat) (used : list nat) (k : nat) : list (list nat) :=
  match k with
  | 0 => [[]]
  | S k' => flat_map (fun j => map (cons j) (set_runs n (j :: used) k')) (filter (fun j => negb (mem j used)) (seq 0 n))
  end.

Definition random_sample {A} (pool : bool) (js : list nat) (l : list A) (k : nat) : list A :=
  if pool then pool_sample l (length l) js else set_sample l js.
Definition sample_runs (pool : bool) (n k : nat) : list (list nat) :=
  if pool then pool_runs n k else set_runs n [] k.

(** [random.shuffle]: [for i in reversed(range(1, len(x))): j = randbelow(i + 1); x[i], x[j] = x[j], x[i]]. *)
Definition swap {A} (i j : nat) (l : list A) : list A :=
  match nth_error l i, nth_error l j with
  | Some x, Some y => set_nth j x (set_nth i y l)
  | _, _ => l
  end.
Fixpoint shuffle_from {A} (i : nat) (js : list nat) (l : list A) : list A :=
  match i, js with
  | S i', j :: js' => shuffle_from i' js' (swap i j l)
  | _, _ => l
  end.
Fixpoint runs_from (i : nat) : list (list nat) :=
  match i with
  | 0 => [[]]
  | S i' => flat_map (fun j => map (cons j) (runs_from i')) (seq 0 (i + 1))
  end.
Definition random_shuffle {A} (js : list nat) (l : list A) : list A := shuffle_from (length l - 1) js l.
Definition shuffle_runs (n : nat) : list (list nat) := runs_from (n - 1).

(** How many runs have an answer satisfying [P]. *)
Definition how_many (P : list nat -> bool) (runs : list (list nat)) : nat := length (filter P runs).
