(** Model_Time.v -- time.Time.Format and time.Parse with the layouts RFC3339 and RFC3339Nano.

    A time is seconds since 0001-01-01T00:00:00Z, nanoseconds and a zone offset (Base.v). *)
From Coq Require Import ZArith NArith List String Ascii Bool.
From Verif Require Import Base Model_Lex Model_Float.
Import ListNotations.
Local Open Scope string_scope.
Local Open Scope Z_scope.

(** ---------- the proleptic Gregorian calendar ---------- *)

Definition is_leap (y : Z) : bool := (y mod 4 =? 0) && (negb (y mod 100 =? 0) || (y mod 400 =? 0)).
(** Days from 0001-01-01 to the first day of year y *)
Definition year_start (y : Z) : Z := 365 * (y - 1) + (y - 1) / 4 - (y - 1) / 100 + (y - 1) / 400.
(** Days of the months *)
Definition month_days (y : Z) : list Z :=
  [31; if is_leap y then 29 else 28; 31; 30; 31; 30; 31; 31; 30; 31; 30; 31].
(** Days before month m (1..12) of year y *)
Definition month_start (y m : Z) : Z := fold_right Z.add 0 (firstn (Z.to_nat (m - 1)) (month_days y)).
Definition days_in (y m : Z) : Z := nth (Z.to_nat (m - 1)) (month_days y) 0.
(** Days from 0001-01-01 to a date *)
Definition days_of (y m d : Z) : Z := year_start y + month_start y m + (d - 1).

(** The year of a day: an estimate and its correction *)
Definition year_of (n : Z) : Z :=
  let y := n * 400 / 146097 + 1 in
  if n <? year_start y then y - 1
  else if year_start (y + 1) <=? n then y + 1 else y.
(** The month and the day of the month of a day of a year *)
Fixpoint month_of (ms : list Z) (m n : Z) : Z * Z :=
  match ms with
  | [] => (m, n + 1)
  | k :: r => if n <? k then (m, n + 1) else month_of r (m + 1) (n - k)
  end.
Definition date_of (n : Z) : Z * Z * Z :=
  let y := year_of n in
  let '(m, d) := month_of (month_days y) 1 (n - year_start y) in (y, m, d).

(** ---------- Format ---------- *)

(** Format pads years to four digits; a year after 9999 has more, a year before 0 a sign. *)
Definition year_text (y : Z) : string :=
  if y <? 0 then String "-" (if y <? - 9999 then dec_of_nonneg (- y) else dec_n 4 (- y))
  else if 9999 <? y then dec_of_nonneg y else dec_n 4 y.

Definition zone_text (off : Z) : string :=
  if off =? 0 then "Z"
  else let m := Z.quot off 60 in
       let a := Z.abs m in
       (String (if Z.ltb m 0 then "-" else "+")%char (dec_n 2 (a / 60) ++ ":" ++ dec_n 2 (a mod 60)))%string.

(** ".999999999": nanoseconds without trailing zeros *)
Fixpoint trim_zeros (s : string) : string :=
  match s with
  | EmptyString => ""
  | String c r => match trim_zeros r with
                  | EmptyString => if Ascii.eqb c "0" then "" else String c ""
                  | t => String c t
                  end
  end.

(** [nano]: the layout is RFC3339Nano.  Simplification: a zone offset of a day or more,
    which Go's zone database does not have, would print more digits of hours. *)
Definition format_time (nano : bool) (t : time) : string :=
  let loc := tm_sec t + tm_off t in
  let '(y, m, d) := date_of (loc / 86400) in
  let s := loc mod 86400 in
  (year_text y ++ "-" ++ dec_n 2 m ++ "-" ++ dec_n 2 d ++ "T"
   ++ dec_n 2 (s / 3600) ++ ":" ++ dec_n 2 (s / 60 mod 60) ++ ":" ++ dec_n 2 (s mod 60)
   ++ (if nano && negb (Z.eqb (tm_nsec t) 0) then "." ++ trim_zeros (dec_n 9 (tm_nsec t)) else "")
   ++ zone_text (tm_off t))%string.

(** The text of a time cell, gotables.go:1533-1538 and 3002-3007 *)
Definition time_text (t : time) : string := format_time (0 <? tm_nsec t) t.

(** ---------- scanning and Parse ---------- *)

(** The fields of a time text; the last one is the zone offset in minutes *)
Record time_fields := mkTF {
  tf_y : Z; tf_mo : Z; tf_d : Z; tf_h : Z; tf_mi : Z; tf_s : Z; tf_ns : Z; tf_zh : Z; tf_zm : Z; tf_zneg : bool }.

Definition field (n : nat) (sep : string) (s : string) : option (Z * string) :=
  match digits_n n s with
  | Some (d, r) => if String.prefix sep r then Some (dec_val d, drop (String.length sep) r) else None
  | None => None
  end.

(** rfc3339TimePattern at the start of the text, parser.go:154:
    "\d{4}-\d{2}-\d{2}T\d{2}:\d{2}:\d{2}(\.\d{9})?(Z|([+-]\d{2}:\d{2}))" *)
Definition time_zone (s : string) : option (Z * Z * bool * string) :=
  match s with
  | String c r =>
      if Ascii.eqb c "Z" then Some (0, 0, false, r)
      else if one_of "+-" c then
        match field 2 ":" r with
        | Some (h, r) => match field 2 "" r with
                         | Some (m, r) => Some (h, m, Ascii.eqb c "-", r)
                         | None => None
                         end
        | None => None
        end
      else None
  | EmptyString => None
  end.
Definition time_at (s : string) : option (time_fields * string) :=
  match field 4 "-" s with None => None | Some (y, s) =>
  match field 2 "-" s with None => None | Some (mo, s) =>
  match field 2 "T" s with None => None | Some (d, s) =>
  match field 2 ":" s with None => None | Some (h, s) =>
  match field 2 ":" s with None => None | Some (mi, s) =>
  match field 2 "" s with None => None | Some (sec, s) =>
  let '(ns, s) := match s with
                  | String c r =>
                      if Ascii.eqb c "." then
                        match digits_n 9 r with Some (x, r) => (dec_val x, r) | None => (0, s) end
                      else (0, s)
                  | EmptyString => (0, s)
                  end in
  match time_zone s with None => None | Some (zh, zm, zneg, s) =>
  Some (mkTF y mo d h mi sec ns zh zm zneg, s)
  end end end end end end end.

(** rfc3339TimeRegexp is not anchored: the first position where it matches. *)
Fixpoint scan_time (s : string) : option (time_fields * string) :=
  match time_at s with
  | Some x => Some x
  | None => match s with String _ r => scan_time r | EmptyString => None end
  end.

(** time.Parse(time.RFC3339, text) on the fields of the text; None is an error.
    The limits on the zone offset are those of Go 1.20 and later. *)
Definition parse_time (f : time_fields) : option time :=
  if ((1 <=? tf_mo f) && (tf_mo f <=? 12) && (1 <=? tf_d f) && (tf_d f <=? days_in (tf_y f) (tf_mo f))
      && (tf_h f <? 24) && (tf_mi f <? 60) && (tf_s f <? 60) && (tf_zh f <=? 24) && (tf_zm f <=? 60))%bool
  then
    let off := (tf_zh f * 3600 + tf_zm f * 60) * (if tf_zneg f then -1 else 1) in
    Some (mkTime (days_of (tf_y f) (tf_mo f) (tf_d f) * 86400 + tf_h f * 3600 + tf_mi f * 60 + tf_s f - off)
                 (tf_ns f) off)
  else None.
