(** Model_Names.v -- supported types and name validation (parser.go). *)
From Coq Require Import ZArith NArith List String Ascii Bool.
From Verif Require Import Base.
Import ListNotations.
Local Open Scope string_scope.

(** globalColTypesMap, parser.go:194-216 *)
Definition all_types : list string :=
  [ "[]byte"; "[]uint8"; "bool"; "byte"; "float32"; "float64"; "int"; "int16"; "int32"; "rune";
    "int64"; "int8"; "string"; "uint"; "uint16"; "uint32"; "uint64"; "uint8"; "*Table"; "time.Time" ].

(** globalNumericColTypesMap, parser.go:218-233 *)
Definition numeric_types : list string :=
  [ "float32"; "float64"; "int"; "int16"; "int32"; "int64"; "int8"; "uint"; "uint16"; "uint32";
    "uint64"; "uint8"; "byte"; "complex" ].

Definition str_in (s : string) (l : list string) : bool := existsb (String.eqb s) l.

(** IsValidColType, parser.go:758-768 *)
Definition IsValidColType (ct : string) : bool := str_in ct all_types.
(** IsNumericColType, parser.go:775-782 *)
Definition IsNumericColType (ct : string) : bool := str_in ct numeric_types.
(** IsSliceColType, parser.go:784-790 *)
Definition IsSliceColType (ct : string) : bool := (ct =? "[]byte") || (ct =? "[]uint8").
(** IsTableColType, parser.go:792-799 *)
Definition IsTableColType (ct : string) : bool := ct =? "*Table".

(** typeAliasMap, parser.go:59-67 *)
Definition typeAliasMap : list (string * string) :=
  [ ("uint8", "byte"); ("byte", "uint8"); ("[]uint8", "[]byte"); ("[]byte", "[]uint8");
    ("int32", "rune"); ("rune", "int32") ].

Fixpoint assoc (l : list (string * string)) (k : string) : option string :=
  match l with
  | [] => None
  | (a, b) :: r => if k =? a then Some b else assoc r k
  end.

(** isAlias, gotables.go:3772-3779 *)
Definition isAlias (aliasTypeName typeName : string) : bool :=
  match assoc typeAliasMap typeName with
  | Some alias => alias =? aliasTypeName
  | None => false
  end.

(** unicode.IsLetter and unicode.IsNumber on [rune(name[i])]: the code passes
    single bytes, so only the Latin-1 range (0..255) of the Unicode tables matters. *)
Definition byte_in (lo hi : N) (c : ascii) : bool :=
  (N.leb lo (N_of_ascii c)) && (N.leb (N_of_ascii c) hi).

Definition isLetter (c : ascii) : bool :=
  byte_in 65 90 c || byte_in 97 122 c || byte_in 170 170 c || byte_in 181 181 c ||
  byte_in 186 186 c || byte_in 192 214 c || byte_in 216 246 c || byte_in 248 255 c.

Definition isNumber (c : ascii) : bool :=
  byte_in 48 57 c || byte_in 178 179 c || byte_in 185 185 c || byte_in 188 190 c.

Definition underscore : ascii := "_"%char.

(** The loop of isValidName, parser.go:813-817 *)
Fixpoint name_rest (s : string) : bool :=
  match s with
  | EmptyString => true
  | String c r =>
      if negb (isLetter c) && negb (Ascii.eqb c underscore) && negb (isNumber c) then false
      else name_rest r
  end.

(** isValidName, parser.go:806-820 *)
Definition isValidName (s : string) : bool :=
  match s with
  | EmptyString => false
  | String c r =>
      if negb (isLetter c) && negb (Ascii.eqb c underscore) then false
      else name_rest r
  end.

(** IsValidColName, parser.go:823-837 *)
Definition IsValidColName (s : string) : bool :=
  if negb (isValidName s) then false
  else if str_in s all_types then false else true.

(** IsValidTableName, parser.go:841-860 *)
Definition IsValidTableName (s : string) : bool :=
  if Nat.ltb (String.length s) 1 then false
  else if negb (isValidName s) then false
  else if str_in s all_types then false else true.
