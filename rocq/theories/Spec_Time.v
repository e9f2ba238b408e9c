(** Spec_Time.v -- the calendar, and what a text in RFC 3339 format says. *)
From Coq Require Import ZArith List String Ascii Bool.
From Verif Require Import Base Spec_Text.
Import ListNotations.
Local Open Scope string_scope.
Local Open Scope Z_scope.

(** ---------- the calendar ---------- *)

Definition leap_year (y : Z) : Prop := (4 | y) /\ (~ (100 | y) \/ (400 | y)).
Inductive month_length (y : Z) : Z -> Z -> Prop :=
  | ml_31 m : In m [1; 3; 5; 7; 8; 10; 12] -> month_length y m 31
  | ml_30 m : In m [4; 6; 9; 11] -> month_length y m 30
  | ml_29 : leap_year y -> month_length y 2 29
  | ml_28 : ~ leap_year y -> month_length y 2 28.
(** Year, month, day *)
Definition a_date (x : Z * Z * Z) : Prop := let '(y, m, d) := x in exists k, month_length y m k /\ 1 <= d <= k.
(** The day after *)
Inductive day_after : Z * Z * Z -> Z * Z * Z -> Prop :=
  | da_day y m d k : month_length y m k -> 1 <= d < k -> day_after (y, m, d) (y, m, d + 1)
  | da_month y m k : month_length y m k -> m < 12 -> day_after (y, m, k) (y, m + 1, 1)
  | da_year y : day_after (y, 12, 31) (y + 1, 1, 1).
(** The date n days after (or before) the first day of year 1 *)
Inductive day_number : Z -> Z * Z * Z -> Prop :=
  | dn_first : day_number 0 (1, 1, 1)
  | dn_after n x y : day_number n x -> day_after x y -> day_number (n + 1) y
  | dn_before n x y : day_number n y -> day_after x y -> day_number (n - 1) x.

(** ---------- RFC 3339 ---------- *)

(** k decimal digits *)
Definition figures (k : nat) (s : string) (v : Z) : Prop := String.length s = k /\ numeral 10 s v.
(** The zone: Z, or the hours and minutes that its clocks are ahead or behind *)
Inductive zone_says : string -> Z -> Prop :=
  | zs_utc : zone_says "Z" 0
  | zs_ahead hh h mm m : figures 2 hh h -> figures 2 mm m -> h <= 24 -> m <= 60 -> zone_says ("+" ++ hh ++ ":" ++ mm) ((h * 60 + m) * 60)
  | zs_behind hh h mm m : figures 2 hh h -> figures 2 mm m -> h <= 24 -> m <= 60 -> zone_says ("-" ++ hh ++ ":" ++ mm) (- ((h * 60 + m) * 60)).
(** Nanoseconds: none, or [k] decimals of a second *)
Inductive fraction_says : string -> nat -> Z -> Prop :=
  | fs_none : fraction_says "" 0 0
  | fs_some s k v : (k <= 9)%nat -> figures k s v -> fraction_says ("." ++ s) k (v * 10 ^ (9 - Z.of_nat k)).

(** The text is the instant t, with [k] decimals of a second.  The clock of the zone shows the
    date and the time of day of the text. *)
Definition time_says (tok : string) (k : nat) (t : time) : Prop :=
  exists Y y M m D d H h N n S s frac zone days,
    tok = (Y ++ "-" ++ M ++ "-" ++ D ++ "T" ++ H ++ ":" ++ N ++ ":" ++ S ++ frac ++ zone)%string /\
    figures 4 Y y /\ figures 2 M m /\ figures 2 D d /\ figures 2 H h /\ figures 2 N n /\ figures 2 S s /\
    h < 24 /\ n < 60 /\ s < 60 /\
    day_number days (y, m, d) /\ fraction_says frac k (tm_nsec t) /\ zone_says zone (tm_off t) /\
    tm_sec t + tm_off t = ((days * 24 + h) * 60 + n) * 60 + s.
(** What the parser takes for a time: nine decimals of a second or none *)
Definition time_written (tok : string) (t : time) : Prop := time_says tok 0 t \/ time_says tok 9 t.
(** Digits and signs are where they have to be. *)
Definition time_shaped (tok : string) : Prop :=
  exists Y y M m D d H h N n S s frac zone, 
    tok = (Y ++ "-" ++ M ++ "-" ++ D ++ "T" ++ H ++ ":" ++ N ++ ":" ++ S ++ frac ++ zone)%string /\
    figures 4 Y y /\ figures 2 M m /\ figures 2 D d /\ figures 2 H h /\ figures 2 N n /\ figures 2 S s /\
    (frac = "" \/ exists a v, frac = ("." ++ a)%string /\ figures 9 a v) /\
    (zone = "Z" \/ exists hh h' mm m', (zone = ("+" ++ hh ++ ":" ++ mm)%string \/ zone = ("-" ++ hh ++ ":" ++ mm)%string) /\ figures 2 hh h' /\ figures 2 mm m').
