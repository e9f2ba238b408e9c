(** Spec_Round.v -- exact values of floats, and rounding half up. *)
From Coq Require Import ZArith SpecFloat.
Local Open Scope Z_scope.

(** The exact value of f is n/d. *)
Definition has_value (f : spec_float) (n d : Z) : Prop :=
  match f with
  | S754_zero _ => n = 0
  | S754_finite s m e => n * 2 ^ Z.max 0 (- e) = (if s then Z.neg m else Z.pos m) * 2 ^ Z.max 0 e * d
  | _ => False
  end.

(** The float f has a value, and no float64 is closer to n/d. *)
Definition closest (f : spec_float) (n d : Z) : Prop :=
  exists a b, 0 < b /\ has_value f a b
    /\ forall g a' b', valid_binary 53 1024 g = true -> 0 < b' -> has_value g a' b' ->
         Z.abs (a * d - n * b) * b' <= Z.abs (a' * d - n * b') * b.

(** The greatest float64 *)
Definition max_float : Z := (2 ^ 53 - 1) * 2 ^ 971.

(** N is the integer nearest to n/d, the greater one if there are two. *)
Definition half_up (N n d : Z) : Prop := 2 * n - d < 2 * N * d <= 2 * n + d.
(** N is the greatest integer that is no more than n/d. *)
Definition floor_of (N n d : Z) : Prop := N * d <= n < (N + 1) * d.

(** math.Pow(10, k) is exact for 0 <= k <= 22: these powers are float64 numbers. *)
Definition pow10_ok (pow10 : Z -> spec_float) : Prop :=
  forall k, 0 <= k <= 22 -> exists m e, pow10 k = S754_finite false m e /\ bounded 53 1024 m e = true /\ has_value (pow10 k) (10 ^ k) 1.
