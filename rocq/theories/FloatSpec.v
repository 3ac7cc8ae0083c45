(** * The distances of Python: binary64 numbers, and what they stand for. *)

From Coq Require Import List Bool ZArith QArith SpecFloat.
From Verif Require Import Base.
Import ListNotations.

(** The numbers that a binary64 can hold: the pairs mantissa-exponent that the format has, the
    zeros, the infinities and "not a number".  [SFltb] and [SFleb], from Coq's standard library, are
    the comparisons of the IEEE standard, which are those of Python on floats. *)
Definition binary64 (x : spec_float) : Prop := valid_binary 53 1024 x = true.

(** What a float stands for: a rational, or one of the infinities. *)
Inductive extended := MinusInfinity | Finite (q : Q) | PlusInfinity.
Definition same (v w : extended) : Prop :=
  match v, w with
  | MinusInfinity, MinusInfinity | PlusInfinity, PlusInfinity => True
  | Finite p, Finite q => (p == q)%Q
  | _, _ => False
  end.
Definition stands_for (x : spec_float) (v : extended) : Prop :=
  match x with
  | S754_zero _ => same v (Finite 0)
  | S754_infinity s => same v (if s then MinusInfinity else PlusInfinity)
  | S754_nan => False
  | S754_finite s m e => same v (Finite ((if s then - inject_Z (Zpos m) else inject_Z (Zpos m)) * 2 ^ e))
  end.

(** The usual order. *)
Definition less (v w : extended) : Prop :=
  match v, w with
  | MinusInfinity, MinusInfinity => False
  | MinusInfinity, _ => True
  | Finite p, Finite q => (p < q)%Q
  | Finite _, PlusInfinity => True
  | _, _ => False
  end.

(** The floats that are numbers, and those that are not the second zero of the format either. *)
Definition is_number (x : spec_float) : bool :=
  valid_binary 53 1024 x && match x with S754_nan => false | _ => true end.
Definition is_plain (x : spec_float) : bool :=
  is_number x && match x with S754_zero true => false | _ => true end.
Definition number := {x : spec_float | is_number x = true}.
Definition plain := {x : spec_float | is_plain x = true}.
Definition lt_number (x y : number) : bool := SFltb (proj1_sig x) (proj1_sig y).
Definition le_number (x y : number) : bool := SFleb (proj1_sig x) (proj1_sig y).
Definition lt_plain (x y : plain) : bool := SFltb (proj1_sig x) (proj1_sig y).

(** [float("inf")] (hierarchical.py 470, 600; kmeans.py 236). *)
Definition infinite : plain := exist _ (S754_infinity false) eq_refl.

(** The formula of scikit-learn's euclidean_distances on vectors with one coordinate:
    sqrt(max(0, x*x - 2*x*y + y*y)), each operation rounded. *)
Definition euclidean (X : list spec_float) (i j : nat) : spec_float :=
  let x := nth i X S754_nan in let y := nth j X S754_nan in
  let times := SFmul 53 1024 in let plus := SFadd 53 1024 in
  let two := S754_finite false 4503599627370496 (-51) in
  let d := plus (plus (times (SFopp two) (times x y)) (times x x)) (times y y) in
  let d := match d with S754_nan => d | _ => if SFltb d (S754_zero false) then S754_zero false else d end in
  if Nat.eqb i j then S754_zero false else SFsqrt 53 1024 d.
