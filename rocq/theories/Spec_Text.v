(** Spec_Text.v -- what the theorems on text mean. *)
From Coq Require Import ZArith NArith List String Ascii Bool SpecFloat.
From Verif Require Import Base Model_Names Model_Table Model_Time Spec.
Import ListNotations.
Local Open Scope string_scope.
Local Open Scope Z_scope.

(** ---------- integer literals ---------- *)

(** [c] is a digit of value [d] below [base] *)
Definition digit (base : Z) (c : ascii) (d : Z) : Prop :=
  exists n, d = Z.of_nat n /\ d < base /\
    (String.get n "0123456789abcdef" = Some c \/ String.get n "0123456789ABCDEF" = Some c).

(** [s] is a non-empty row of digits, and [v] its value *)
Inductive numeral (base : Z) : string -> Z -> Prop :=
  | num_one c d : digit base c d -> numeral base (String c "") d
  | num_more s v c d : numeral base s v -> digit base c d -> numeral base (s ++ String c "") (v * base + d).

(** A literal without a sign: decimal without a leading zero, octal with a leading zero, or
    0b, 0o, 0x. *)
Inductive unsigned_literal : string -> Z -> Prop :=
  | lit_zero : unsigned_literal "0" 0
  | lit_dec c s v : numeral 10 (String c s) v -> c <> "0"%char -> unsigned_literal (String c s) v
  | lit_octal s v : numeral 8 s v -> unsigned_literal (String "0" s) v
  | lit_0b p s v : p = "0b" \/ p = "0B" -> numeral 2 s v -> unsigned_literal (p ++ s) v
  | lit_0o p s v : p = "0o" \/ p = "0O" -> numeral 8 s v -> unsigned_literal (p ++ s) v
  | lit_0x p s v : p = "0x" \/ p = "0X" -> numeral 16 s v -> unsigned_literal (p ++ s) v.

(** With a sign, always decimal. *)
Inductive signed_literal : string -> Z -> Prop :=
  | lit_unsigned s v : unsigned_literal s v -> signed_literal s v
  | lit_plus s v : numeral 10 s v -> signed_literal (String "+" s) v
  | lit_minus s v : numeral 10 s v -> signed_literal (String "-" s) (- v).

Definition literal (k : ikind) (s : string) (v : Z) : Prop :=
  if isigned k then signed_literal s v else unsigned_literal s v.

(** What the type can hold *)
Definition fits (k : ikind) (v : Z) : Prop :=
  if isigned k then - 2 ^ (ibits k - 1) <= v < 2 ^ (ibits k - 1) else 0 <= v < 2 ^ ibits k.

(** Nothing, or something that is not a letter, a digit or an underscore *)
Definition separated (rest : string) : Prop :=
  match rest with
  | EmptyString => True
  | String c _ => ~ In c (list_ascii_of_string "0123456789abcdefghijklmnopqrstuvwxyzABCDEFGHIJKLMNOPQRSTUVWXYZ_")
  end.

(** ---------- tables as text ---------- *)

Definition all_ascii_chars (s : string) : Prop := Forall (fun c => (N_of_ascii c < 128)%N) (list_ascii_of_string s).

(** A Unicode code point that is not a surrogate *)
Definition unicode (z : Z) : Prop := 0 <= z < 55296 \/ 57344 <= z <= 1114111.

(** A cell that the unpadded text keeps: no infinite float, and a rune must be a Unicode code
    point. *)
Definition plain_cell (ct : string) (v : value) : Prop :=
  match v with
  | VFloat32 f | VFloat64 f => match f with S754_infinity _ => False | _ => True end
  | VInt KInt32 z => ct = "rune" -> unicode z
  | _ => True
  end.

(** A float (m * 2^e with 53 or 24 bits) that is a power of two below 2^-23 (float64) or below
    2^-11 (float32) *)
Definition tiny_power_of_two (v : value) : Prop :=
  match v with
  | VFloat64 (S754_finite _ m e) => Zpos m = 2 ^ 52 /\ e + 52 < - 23
  | VFloat32 (S754_finite _ m e) => Zpos m = 2 ^ 23 /\ e + 23 < - 11
  | _ => False
  end.

(** A time in the years 0 to 9999 of its zone, whose zone offset is in whole minutes, and whose
    nanoseconds are 0 or do not end in a zero digit *)
Definition plain_time (t : time) : Prop :=
  0 <= year_of ((tm_sec t + tm_off t) / 86400) <= 9999 /\ tm_off t mod 60 = 0 /\ - 86400 < tm_off t < 86400 /\
  (tm_nsec t = 0 \/ tm_nsec t mod 10 <> 0).

(** A cell that the padded text keeps *)
Definition padded_cell (ct : string) (v : value) : Prop :=
  plain_cell ct v /\ ~ tiny_power_of_two v /\
  match v with
  | VInt _ z => ct <> "rune" -> Z.abs z <= 2 ^ 53
  | VTime t => plain_time t
  | _ => True
  end.

(** What a cell is after it was written and read: a nil slice is empty. *)
Definition read_back (v : value) : value := match v with VBytes None => VBytes (Some []) | _ => v end.

(** A table in table shape (or with two rows) that is not a NilTable, whose name is ASCII, that
    has no rows without columns, and whose column types and cells are as told *)
Definition text_table (type_ok : string -> Prop) (cell : string -> value -> Prop) (t : table) : Prop :=
  wf_table t /\ is_nil t = false /\ all_ascii_chars (tname t) /\ (struct_shape t = false \/ (2 <= List.length (rows t))%nat) /\
  (cnames t = [] -> rows t = []) /\ Forall type_ok (ctypes t) /\ Forall (Forall2 cell (ctypes t)) (rows t).
(** The tables that StringUnpadded keeps *)
Definition unpadded_type (ct : string) : Prop := ~ In ct ["byte"; "[]byte"; "[]uint8"; "time.Time"; "*Table"].
Definition unpadded_table : table -> Prop := text_table unpadded_type plain_cell.
(** The tables that StringPadded keeps *)
Definition padded_table : table -> Prop := text_table (fun ct => ct <> "*Table") padded_cell.

(** [t'] has the name, the columns and the cells of [t], each cell as [f] says. *)
Definition same_content (f : value -> value) (t t' : table) : Prop :=
  tname t' = tname t /\ cnames t' = cnames t /\ ctypes t' = ctypes t /\ rows t' = map (map f) (rows t) /\ is_nil t' = false.
