(** Model_Round.v -- UtilRound (util.go), on float64. *)
From Coq Require Import ZArith NArith List String Ascii Bool SpecFloat.
From Verif Require Import Base Model_Lex Model_Float.
Import ListNotations.
Local Open Scope Z_scope.

(** The float64 nearest to n/d (n >= 0, d > 0) with that sign, infinite on overflow: how IEEE
    754 defines the result of every operation below. *)
Definition float_of (neg : bool) (n d : Z) : spec_float :=
  match nearest F64 neg n d with Some f => f | None => S754_infinity neg end.

(** Go's x * y on float64 *)
Definition fmul (x y : spec_float) : spec_float :=
  match x, y with
  | S754_nan, _ | _, S754_nan => S754_nan
  | S754_infinity _, S754_zero _ | S754_zero _, S754_infinity _ => S754_nan
  | S754_infinity s, S754_infinity s' | S754_infinity s, S754_finite s' _ _ | S754_finite s _ _, S754_infinity s' => S754_infinity (xorb s s')
  | S754_zero s, S754_zero s' | S754_zero s, S754_finite s' _ _ | S754_finite s _ _, S754_zero s' => S754_zero (xorb s s')
  | S754_finite s m e, S754_finite s' m' e' =>
      let '(n, d) := ratio m e in
      let '(n', d') := ratio m' e' in
      float_of (xorb s s') (n * n') (d * d')
  end.

(** Go's x / y on float64 *)
Definition fdiv (x y : spec_float) : spec_float :=
  match x, y with
  | S754_nan, _ | _, S754_nan => S754_nan
  | S754_infinity _, S754_infinity _ | S754_zero _, S754_zero _ => S754_nan
  | S754_infinity s, S754_zero s' | S754_infinity s, S754_finite s' _ _ | S754_finite s _ _, S754_zero s' => S754_infinity (xorb s s')
  | S754_zero s, S754_infinity s' | S754_zero s, S754_finite s' _ _ | S754_finite s _ _, S754_infinity s' => S754_zero (xorb s s')
  | S754_finite s m e, S754_finite s' m' e' =>
      let '(n, d) := ratio m e in
      let '(n', d') := ratio m' e' in
      float_of (xorb s s') (n * d') (d * n')
  end.

(** frac >= 0.5 for the fractional part of math.Modf, which is exact and has the sign of the
    argument; it is NaN for an infinite argument. *)
Definition frac_at_least_half (x : spec_float) : bool :=
  match x with
  | S754_finite false m e => let '(n, d) := ratio m e in d <=? 2 * (n mod d)
  | _ => false
  end.

(** math.Floor and math.Ceil *)
Definition Floor (x : spec_float) : spec_float :=
  match x with
  | S754_finite s m e => let '(n, d) := ratio m e in
                         if s then float_of true (- ((- n) / d)) 1 else float_of false (n / d) 1
  | _ => x
  end.
Definition Ceil (x : spec_float) : spec_float :=
  match x with
  | S754_finite s m e => let '(n, d) := ratio m e in
                         if s then float_of true (n / d) 1 else float_of false (- ((- n) / d)) 1
  | _ => x
  end.

(** UtilRound, util.go:546-560; [pow10] is math.Pow(10, _). *)
Definition UtilRound (pow10 : Z -> spec_float) (val : spec_float) (places : Z) : spec_float :=
  let pow := pow10 places in
  let digit := fmul pow val in
  let round := if frac_at_least_half digit then Ceil digit else Floor digit in
  fdiv round pow.
