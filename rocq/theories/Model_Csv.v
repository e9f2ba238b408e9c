(** Model_Csv.v -- GetTableAsCSV (gotables.go) and the part of Go's encoding/csv that it uses. *)
From Coq Require Import ZArith NArith List String Ascii Bool.
From Verif Require Import Base Model_Names Model_Table Model_Heap Model_Lex Model_Print.
Import ListNotations.
Local Open Scope list_scope.
Local Open Scope string_scope.

Definition comma : ascii := ",".

(** csv.Writer.fieldNeedsQuotes (Go library) with Comma = ',' *)
Definition fieldNeedsQuotes (f : string) : bool :=
  if f =? "" then false
  else if f =? String bslash "." then true
  else existsb (fun c => Ascii.eqb c nl || Ascii.eqb c (chr 13) || Ascii.eqb c dquote || Ascii.eqb c comma) (list_ascii_of_string f)
       || existsb (fun e => String.prefix e f) space_encodings.

(** The quoted field of csv.Writer.Write: every double quote is doubled. *)
Fixpoint doubled (f : string) : string :=
  match f with
  | EmptyString => ""
  | String c r => if Ascii.eqb c dquote then String dquote (String dquote (doubled r)) else String c (doubled r)
  end.
Definition csv_field (f : string) : string :=
  if fieldNeedsQuotes f then String dquote (doubled f ++ String dquote "") else f.

(** csv.Writer.Write (Go library) with UseCRLF = false.  The buffer never fails. *)
Definition csv_record (fs : list string) : string := String.concat (String comma "") (map csv_field fs) ++ newline.

(** One cell, gotables.go:1751-1769 *)
Definition csv_cell (h : heap) (t : table) (ri ci : Z) : res string :=
  let! s := GetValAsStringByColIndex h t ci ri in
  match znth (ctypes t) ci with
  | None => Panic
  | Some ct => Ok (if is_float_type ct && (s =? "NaN") then "" else s)
  end.

(** The rows, gotables.go:1748-1776 *)
Fixpoint csv_rows (h : heap) (t : table) (ris : list Z) : res string :=
  match ris with
  | [] => Ok ""
  | ri :: r => let! fs := rmap (csv_cell h t ri) (zseq (List.length (cnames t))) in
               let! rest := csv_rows h t r in
               Ok (csv_record fs ++ rest)
  end.

(** The headings, gotables.go:1717-1742 *)
Definition csv_headings (t : table) (subs : list string) : res (list string) :=
  if Nat.ltb 0 (List.length subs) then
    if Z.eqb (Z.of_nat (List.length subs)) (ColCount t) then
      rmap (fun p => if Nat.ltb 0 (String.length (snd p)) then Ok (snd p) else ColName t (fst p))
           (combine (zseq (List.length subs)) subs)
    else Err
  else Ok (cnames t).

(** GetTableAsCSV, gotables.go:1701-1787.  An error in a cell is dropped: the result is then
    the empty string and no error (gotables.go:1753). *)
Definition GetTableAsCSV (h : heap) (t : table) (subs : list string) : res string :=
  if is_nil t then Err
  else
    let! hs := csv_headings t subs in
    match csv_rows h t (zseq (List.length (rows t))) with
    | Ok s => Ok (csv_record hs ++ s)
    | Err => Ok ""
    | Panic => Panic
    end.
