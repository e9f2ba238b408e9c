(** Spec_Csv.v -- reading comma-separated values by the standard rules (RFC 4180, lines ending
    in a line feed): fields are separated by commas and records by line ends; a field in double
    quotes may hold anything, with each double quote written twice. *)
From Coq Require Import ZArith List String Ascii Bool.
From Verif Require Import Base Model_Names Model_Table Model_Heap Model_Print Spec Spec_Sort.
Import ListNotations.
Local Open Scope list_scope.
Local Open Scope string_scope.

Inductive place := AtStart | InPlain | InQuotes | AfterQuote.

Definition is (n : nat) (c : ascii) : bool := Nat.eqb (nat_of_ascii c) n.
Definition add (f : string) (c : ascii) : string := f ++ String c "".

(** [f] is the field so far, [rec] the fields of this record before it. *)
Fixpoint csv_read (at_ : place) (f : string) (rec : list string) (s : string) : option (list (list string)) :=
  match s with
  | EmptyString => match at_, rec with AtStart, [] => Some [] | _, _ => None end
  | String c r =>
      let end_field := csv_read AtStart "" (rec ++ [f])%list r in
      let end_record := option_map (cons (rec ++ [f])%list) (csv_read AtStart "" [] r) in
      match at_ with
      | AtStart => if is 34 c then csv_read InQuotes "" rec r
                   else if is 44 c then end_field
                   else if is 10 c then end_record
                   else csv_read InPlain (add f c) rec r
      | InPlain => if is 34 c then None
                   else if is 44 c then end_field
                   else if is 10 c then end_record
                   else csv_read InPlain (add f c) rec r
      | InQuotes => if is 34 c then csv_read AfterQuote f rec r
                    else csv_read InQuotes (add f c) rec r
      | AfterQuote => if is 34 c then csv_read InQuotes (add f c) rec r
                      else if is 44 c then end_field
                      else if is 10 c then end_record
                      else None
      end
  end.

(** The records of a text *)
Definition csv_records (s : string) : option (list (list string)) := csv_read AtStart "" [] s.

(** What the CSV shows of a cell: nothing for NaN, otherwise its string form *)
Definition csv_form (h : heap) (t : table) (r c : Z) (s : string) : Prop :=
  exists v x, GetValByColIndex t c r = Ok v /\ GetValAsStringByColIndex h t c r = Ok x
    /\ (is_nan v -> s = "") /\ (~ is_nan v -> s = x).

(** The heading of a column: the given one unless that is empty *)
Definition csv_heading (t : table) (subs : list string) (c : Z) (s : string) : Prop :=
  match znth subs c with
  | Some x => if x =? "" then ColName t c = Ok s else s = x
  | None => ColName t c = Ok s
  end.
