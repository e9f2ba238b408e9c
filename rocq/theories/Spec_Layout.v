(** Spec_Layout.v -- what the theorems on the layout of the padded text mean. *)
From Coq Require Import ZArith NArith List String Ascii Bool SpecFloat.
From Verif Require Import Base Model_Names Model_Table Model_Heap Model_Lex Model_Float Model_Print.
Import ListNotations.
Local Open Scope list_scope.
Local Open Scope string_scope.

Fixpoint copies (c : ascii) (n : nat) : string := match n with O => "" | S k => String c (copies c k) end.
Notation blanks := (copies " ").

(** The lines of a grid of items, one space between two items of a line *)
Definition grid_text (grid : list (list string)) : string :=
  String.concat "" (map (fun l => String.concat " " l ++ String nl "") grid).
Definition item_at (grid : list (list string)) (r i : nat) : string := nth i (nth r grid nil) "".

(** The columns that are aligned to the right *)
Definition right_aligned (ct : string) : Prop :=
  In ct ["int"; "uint"; "byte"; "int8"; "int16"; "int32"; "int64"; "uint8"; "uint16"; "uint32"; "uint64"; "float32"; "float64"].

(** What the items of a column share: how many runes they are wide and, for floats, how many
    characters are before the point and how many digits are after it *)
Record lane := mkLane { l_width : nat; l_point : nat; l_places : Z }.

(** The text [s] is the item [y] of a column of type [ct]: to the left with spaces after it (none
    in the last column), or to the right with spaces before it. *)
Definition placed_text (last : bool) (ct : string) (ln : lane) (s y : string) : Prop :=
  (~ right_aligned ct -> exists k, y = s ++ blanks k /\ (if last then k = 0 else rune_count y = l_width ln)) /\
  (right_aligned ct -> exists k, y = blanks k ++ s /\ rune_count y = l_width ln).

(** The float [f] is the item [y]: the digits of the float with [l_places] decimals, to the right,
    with spaces for the zeros [z] at the end; its point is under the points of the other rows. *)
Definition placed_float (last : bool) (F : ffmt) (ln : lane) (f : spec_float) (y : string) : Prop :=
  exists k u z,
    format_fixed (l_places ln) f = u ++ copies "0" z /\
    y = blanks k ++ u ++ (if last then "" else blanks z) /\
    (forall a, u <> a ++ " ") /\
    rune_count (blanks k ++ u ++ blanks z) = l_width ln /\
    (forall a b, y = a ++ "." ++ b -> String.length a = l_point ln) /\
    (forall a b, format_short F f = a ++ "." ++ b -> (Z.of_nat (String.length b) <= l_places ln)%Z).

Definition placed_value (ip : Z -> bool) (h : heap) (last : bool) (ct : string) (ln : lane) (v : value) (y : string) : Prop :=
  match v with
  | VFloat32 f => placed_float last F32 ln f y
  | VFloat64 f => placed_float last F64 ln f y
  | _ => exists s, cell_text (Quote ip) (QuoteRune ip) h ct v = Some (Ok s) /\ placed_text last ct ln s y
  end.

(** No column is wider than needed: one of its texts has [n] bytes *)
Definition fills (ip : Z -> bool) (h : heap) (t : table) (i : nat) (ct cn : string) (n : nat) : Prop :=
  n = String.length cn \/ n = String.length ct \/
  exists row v s, In row (rows t) /\ nth_error row i = Some v /\
    cell_text (Quote ip) (QuoteRune ip) h ct v = Some (Ok s) /\ n = String.length s.

(** The layout of a table: [grid] has a line of names, a line of types and the rows *)
Definition laid_out (ip : Z -> bool) (h : heap) (t : table) (grid : list (list string)) : Prop :=
  List.length grid = 2 + List.length (rows t) /\
  Forall (fun l => List.length l = List.length (cnames t)) grid /\
  forall i cn ct, nth_error (cnames t) i = Some cn -> nth_error (ctypes t) i = Some ct ->
    let last := Nat.eqb (S i) (List.length (cnames t)) in
    exists ln : lane,
      placed_text last ct ln cn (item_at grid 0 i) /\
      placed_text last ct ln ct (item_at grid 1 i) /\
      (forall r row v, nth_error (rows t) r = Some row -> nth_error row i = Some v ->
         placed_value ip h last ct ln v (item_at grid (2 + r) i)) /\
      (~ In ct ["rune"; "float32"; "float64"] -> fills ip h t i ct cn (l_width ln)).

(** Integers that the padded text can hold, see C24 *)
Definition small_ints (t : table) : Prop :=
  Forall (Forall2 (fun ct v => match v with VInt _ z => ct <> "rune" -> (Z.abs z <= 2 ^ 53)%Z | _ => True end) (ctypes t)) (rows t).
