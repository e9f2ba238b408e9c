(** Model_Float.v -- strconv.ParseFloat and strconv.FormatFloat(_, 'f', _, _).

    Both are given by what they compute: ParseFloat is the float nearest to the exact value
    of the decimal text (ties to even, an error on overflow); FormatFloat with precision P is
    the exact value of the float rounded to P decimals (ties to even); FormatFloat with
    precision -1 is the decimal with the fewest digits that ParseFloat reads as that float.
    Go reaches the same results by faster algorithms. *)
From Coq Require Import ZArith NArith List String Ascii Bool SpecFloat.
From Verif Require Import Base Model_Lex.
Import ListNotations.
Local Open Scope string_scope.
Local Open Scope Z_scope.

(** A binary format: bits of precision and largest exponent. *)
Record ffmt := mkF { f_prec : Z; f_emax : Z }.
Definition F32 : ffmt := mkF 24 128.
Definition F64 : ffmt := mkF 53 1024.
Definition f_emin (F : ffmt) : Z := 3 - f_emax F - f_prec F.

(** n/d divided by 2^e, as a fraction *)
Definition scale (e n d : Z) : Z * Z := if e <? 0 then (n * 2 ^ (- e), d) else (n, d * 2 ^ e).

Definition round_half_even (n d : Z) : Z :=
  let q := n / d in
  let r := n mod d in
  if (d <? 2 * r) || ((2 * r =? d) && Z.odd q) then q + 1 else q.

(** The exponent of the last bit of a float near n/d: the least e, but no less than the
    exponent of subnormal numbers, with n/d < 2^(e + precision). *)
Definition last_bit (F : ffmt) (n d : Z) : Z :=
  let e := Z.log2 n - Z.log2 d - f_prec F in
  let '(a, b) := scale e n d in
  Z.max (f_emin F) (if a <? b * 2 ^ f_prec F then e else e + 1).

(** The float nearest to n/d (n >= 0, d > 0); None on overflow. *)
Definition nearest (F : ffmt) (neg : bool) (n d : Z) : option spec_float :=
  if n =? 0 then Some (S754_zero neg)
  else
    let e := last_bit F n d in
    let '(a, b) := scale e n d in
    let q := round_half_even a b in
    if q =? 0 then Some (S754_zero neg)
    else
      let '(q, e) := if q =? 2 ^ f_prec F then (2 ^ (f_prec F - 1), e + 1) else (q, e) in
      if f_emax F - f_prec F <? e then None else Some (S754_finite neg (Z.to_pos q) e).

(** The float nearest to x * 10^j *)
Definition nearest_dec (F : ffmt) (neg : bool) (x j : Z) : option spec_float :=
  if 0 <=? j then nearest F neg (x * 10 ^ j) 1 else nearest F neg x (10 ^ (- j)).

(** ---------- ParseFloat ---------- *)

Definition lower_char (c : ascii) : ascii := if between 65 90 c then chr (code c + 32) else c.
Fixpoint lower (s : string) : string :=
  match s with EmptyString => "" | String c r => String (lower_char c) (lower r) end.

Definition dec_val (s : string) : Z := match digits_val 10 0 s with Some v => v | None => 0 end.

(** sign *)
Definition take_sign (s : string) : bool * string :=
  match s with
  | String c r => if Ascii.eqb c "-" then (true, r) else if Ascii.eqb c "+" then (false, r) else (false, s)
  | EmptyString => (false, s)
  end.

(** strconv readFloat: the digits of an exponent, of which no more are used once it is 10000 *)
Fixpoint exp_digits (acc : Z) (s : string) : Z :=
  match s with
  | EmptyString => acc
  | String c r => exp_digits (if acc <? 10000 then acc * 10 + (code c - 48) else acc) r
  end.

(** digits [. digits] [e exponent], all of the text: mantissa and power of ten *)
Definition decimal_text (s : string) : option (Z * Z) :=
  let '(a, r) := span is_dec s in
  let '(b, r) := match r with
                 | String c r' => if Ascii.eqb c "." then span is_dec r' else ("", r)
                 | EmptyString => ("", r)
                 end in
  if (a ++ b =? "")%string then None
  else
    let m := dec_val (a ++ b) in
    let k := Z.of_nat (String.length b) in
    match r with
    | EmptyString => Some (m, - k)
    | String c r =>
        if one_of "eE" c then
          let '(neg, r) := take_sign r in
          match span is_dec r with
          | (String d ds, EmptyString) =>
              let x := exp_digits 0 (String d ds) in Some (m, (if neg then - x else x) - k)
          | _ => None
          end
        else None
    end.

(** strconv.ParseFloat(s, bits) on decimal texts, NaN and infinities; None is an error.
    Simplification: hexadecimal floats, which no caller passes, are an error. *)
Definition ParseFloat (F : ffmt) (s : string) : option spec_float :=
  if (lower s =? "nan")%string then Some S754_nan
  else
    let '(neg, r) := take_sign s in
    if (lower r =? "inf")%string || (lower r =? "infinity")%string then Some (S754_infinity neg)
    else match decimal_text r with
         | Some (m, j) => nearest_dec F neg m j
         | None => None
         end.

(** ---------- FormatFloat ---------- *)

(** The value of m * 2^e as a fraction *)
Definition ratio (m : positive) (e : Z) : Z * Z :=
  if 0 <=? e then (Z.pos m * 2 ^ e, 1) else (Z.pos m, 2 ^ (- e)).

(** exactly n decimal digits of z *)
Fixpoint dec_n (n : nat) (z : Z) : string :=
  match n with
  | O => ""
  | S k => String (chr (48 + z / 10 ^ Z.of_nat k mod 10)) (dec_n k z)
  end.

(** x * 10^-p written with p decimals *)
Definition print_scaled (x p : Z) : string :=
  if p <=? 0 then dec_of_nonneg x
  else (dec_of_nonneg (x / 10 ^ p) ++ String "." (dec_n (Z.to_nat p) (x mod 10 ^ p)))%string.
(** x * 10^j *)
Definition print_dec (x j : Z) : string :=
  if 0 <=? j then dec_of_nonneg (x * 10 ^ j) else print_scaled x (- j).

Definition sign_text (neg : bool) (s : string) : string := if neg then String "-" s else s.

(** strconv.FormatFloat(f, 'f', p, bits) with p >= 0 *)
Definition format_fixed (p : Z) (f : spec_float) : string :=
  match f with
  | S754_nan => "NaN"
  | S754_infinity neg => if neg then "-Inf" else "+Inf"
  | S754_zero neg => sign_text neg (print_scaled 0 p)
  | S754_finite neg m e =>
      let '(n, d) := ratio m e in
      sign_text neg (print_scaled (round_half_even (n * 10 ^ p) d) p)
  end.

Definition reads_as (F : ffmt) (m : positive) (e : Z) (x j : Z) : bool :=
  (0 <? x) &&
  match nearest_dec F false x j with
  | Some (S754_finite _ m' e') => Pos.eqb m m' && (e =? e')
  | _ => false
  end.

(** The multiple of 10^j next to m * 2^e that is read as that float, if there is one: of two
    the nearer. *)
Definition candidate (F : ffmt) (m : positive) (e j : Z) : option Z :=
  let '(n, d) := ratio m e in
  let '(a, b) := if 0 <=? j then (n, d * 10 ^ j) else (n * 10 ^ (- j), d) in
  let q := a / b in
  let down := reads_as F m e q j in
  let up := reads_as F m e (q + 1) j in
  if down && up then Some (round_half_even a b)
  else if down then Some q
  else if up then Some (q + 1)
  else None.

Fixpoint shortest_from (fuel : nat) (F : ffmt) (m : positive) (e j : Z) : Z * Z :=
  match fuel with
  | O => let '(n, d) := ratio m e in
         let k := Z.max 0 (- e) in (n * 10 ^ k / d, - k)
  | S fuel' => match candidate F m e j with
               | Some x => (x, j)
               | None => shortest_from fuel' F m e (j - 1)
               end
  end.

(** The shortest decimal x * 10^j that is read as m * 2^e *)
Definition shortest (F : ffmt) (m : positive) (e : Z) : Z * Z :=
  let l := Z.log2 (Z.pos m) + e in
  let top := if 0 <=? l then l / 3 + 2 else l / 4 + 2 in
  shortest_from (Z.to_nat (top + Z.max 0 (- e))) F m e top.

(** strconv.FormatFloat(f, 'f', -1, bits) *)
Definition format_short (F : ffmt) (f : spec_float) : string :=
  match f with
  | S754_nan => "NaN"
  | S754_infinity neg => if neg then "-Inf" else "+Inf"
  | S754_zero neg => sign_text neg "0"
  | S754_finite neg m e => let '(x, j) := shortest F m e in sign_text neg (print_dec x j)
  end.
