(** Spec_Decimal.v -- what a decimal text is worth, and the float that is next to it. *)
From Coq Require Import ZArith List String Ascii Bool SpecFloat.
From Verif Require Import Base Spec_Text Spec_Round.
Import ListNotations.
Local Open Scope string_scope.
Local Open Scope Z_scope.

(** The text of a number without sign and exponent: all its digits as an integer, and how many
    of them are behind the point *)
Inductive magnitude : string -> Z -> Z -> Prop :=
  | mag_int a x : numeral 10 a x -> magnitude a x 0
  | mag_point a b x : numeral 10 (a ++ b) x -> magnitude (a ++ "." ++ b) x (Z.of_nat (String.length b)).
(** A power of ten: nothing, or e or E, a sign or none, and digits *)
Inductive power : string -> Z -> Prop :=
  | pow_none : power "" 0
  | pow_plus e s a x : e = "e" \/ e = "E" -> s = "" \/ s = "+" -> numeral 10 a x -> power (e ++ s ++ a) x
  | pow_minus e a x : e = "e" \/ e = "E" -> numeral 10 a x -> power (e ++ "-" ++ a) (- x).
(** The text [tok] is the number x * 10^(y-k), negative if [neg]; y is its power of ten *)
Definition decimal_of (tok : string) (neg : bool) (x k y : Z) : Prop :=
  exists s m e, tok = (s ++ m ++ e)%string /\ (s = "-" /\ neg = true \/ (s = "" \/ s = "+") /\ neg = false) /\
    magnitude m x k /\ power e y.
(** n/d is x * 10^j *)
Definition ten_times (x j n d : Z) : Prop := 0 < d /\ n * 10 ^ Z.max 0 (- j) = x * 10 ^ Z.max 0 j * d.
(** A text of 9000 bytes or less, or with a power of ten of five digits *)
Definition of_usual_length (tok : string) (y : Z) : Prop := Z.abs y < 100000 \/ Z.of_nat (String.length tok) <= 9000.
(** The text is the number n/d, or -n/d *)
Definition number_text (tok : string) (neg : bool) (n d : Z) : Prop :=
  exists x k y, decimal_of tok neg x k y /\ ten_times x (y - k) n d /\ of_usual_length tok y.

(** ---------- rounding (IEEE 754: to the nearest, ties to even) ---------- *)

(** The floats with [prec] bits and exponents below [emax]: 24 and 128 for float32, 53 and
    1024 for float64.  The float f has a value, and no other float is closer to n/d. *)
Definition closest_float (prec emax : Z) (f : spec_float) (n d : Z) : Prop :=
  exists a b, 0 < b /\ has_value f a b
    /\ forall g a' b', valid_binary prec emax g = true -> 0 < b' -> has_value g a' b' ->
         Z.abs (a * d - n * b) * b' <= Z.abs (a' * d - n * b') * b.
(** Another float is as close. *)
Definition tied (prec emax : Z) (f : spec_float) (n d : Z) : Prop :=
  exists a b g a' b', 0 < b /\ has_value f a b /\ valid_binary prec emax g = true /\ 0 < b' /\ has_value g a' b' /\ a * b' <> a' * b /\
    Z.abs (a * d - n * b) * b' = Z.abs (a' * d - n * b') * b.
Definition even_float (f : spec_float) : Prop := match f with S754_finite _ m _ => Z.even (Zpos m) = true | _ => True end.
Definition negative (f : spec_float) : bool := match f with S754_zero s | S754_finite s _ _ | S754_infinity s => s | S754_nan => false end.
(** n/d is too big for the floats: no less than the middle between the greatest one and the
    next power of two *)
Definition too_big (prec emax n d : Z) : Prop := (2 ^ (prec + 1) - 1) * 2 ^ (emax - prec - 1) * d <= n.

Definition rounds (prec emax : Z) (neg : bool) (n d : Z) (f : spec_float) : Prop :=
  valid_binary prec emax f = true /\ negative f = neg /\ ~ too_big prec emax n d /\
  closest_float prec emax f (if neg then - n else n) d /\ (tied prec emax f (if neg then - n else n) d -> even_float f).

(** What is read from the text of a float cell: NaN, or a number, rounded.  Nothing is said of
    a text that is neither short nor has a usual power of ten. *)
Definition float_text (prec emax : Z) (tok : string) (f : spec_float) : Prop :=
  tok = "NaN" /\ f = S754_nan \/
  exists neg x k y n d, decimal_of tok neg x k y /\ ten_times x (y - k) n d /\ (of_usual_length tok y -> rounds prec emax neg n d f).
