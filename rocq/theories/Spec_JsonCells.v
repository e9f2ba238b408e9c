(** Spec_JsonCells.v -- what the cells of a table hold that was read from a JSON document of
    unknown origin (C50). *)
From Coq Require Import ZArith List String Ascii Bool SpecFloat.
From Verif Require Import Base Model_Names Model_Table Model_Heap Model_Lex Model_Float Model_Json Spec Spec_Heap Spec_Round Spec_Decimal Spec_Foreign.
Import ListNotations.
Local Open Scope string_scope.
Local Open Scope list_scope.

(** The integer z is the number f without its fraction.  Nothing is said if that number is not one
    of the integers of the type. *)
Definition integer_part (k : ikind) (f : spec_float) (z : Z) : Prop :=
  in_range k z = true /\
  forall n d, (0 < d)%Z -> has_value f n d -> in_range k (Z.quot n d) = true -> z = Z.quot n d.

(** The float32 g is the one closest to f, or infinite. *)
Definition float32_says (f g : spec_float) : Prop :=
  match f with
  | S754_finite neg _ _ =>
      exists n d, (0 < d)%Z /\ has_value f (if neg then - n else n) d
        /\ (rounds 24 128 neg n d g \/ too_big 24 128 n d /\ g = S754_infinity neg)
  | _ => g = f
  end.

(** The value in column number c of row number r *)
Definition cell_value (t : table) (c r : nat) : option value :=
  match nth_error (rows t) r with Some row => nth_error row c | None => None end.

(** A nil table, made after the table at p *)
Definition blank (h : heap) (p q : ptr) : Prop :=
  p < q < List.length h /\ is_nil (tab h q) = true /\ cnames (tab h q) = [] /\ rows (tab h q) = [].

(** The object m describes the table at p: name, columns and number of rows, and each cell.  Cell
    number kc of row number kr is described by element kc of element kr of the data. *)
Inductive table_says (h : heap) : list (string * json) -> ptr -> Prop :=
| table_is m p :
    json_table h m p ->
    (forall data kr rj, jget m "data" = Some (JArr data) -> nth_error data kr = Some rj ->
       exists cells, rj = JArr cells
         /\ forall kc k j more, nth_error cells kc = Some (JObj ((k, j) :: more)) -> kc < List.length (ctypes (tab h p))) ->
    (forall data kr cells kc ct v, jget m "data" = Some (JArr data) -> nth_error data kr = Some (JArr cells) ->
       nth_error (ctypes (tab h p)) kc = Some ct -> cell_value (tab h p) kc kr = Some v -> cell_says h p ct (nth_error cells kc) v) ->
    table_says h m p
(** The value of a cell is what a member of the object says; a cell that the row does not
    have, or an empty object, leaves the zero value. *)
with cell_says (h : heap) : ptr -> string -> option json -> value -> Prop :=
| cell_absent p ct v : zero_of (blank h p) ct v -> cell_says h p ct None v
| cell_empty p ct v : zero_of (blank h p) ct v -> cell_says h p ct (Some (JObj [])) v
| cell_is p ct m k j v : In (k, j) m -> value_says h p ct j v -> cell_says h p ct (Some (JObj m)) v
with value_says (h : heap) : ptr -> string -> json -> value -> Prop :=
| says_string p s : value_says h p "string" (JStr s) (VString s)
| says_rune p s r w : decode s = Some (r, w) -> value_says h p "rune" (JStr s) (VInt KInt32 r)
| says_time p s t : time_of_text s = Some t -> value_says h p "time.Time" (JStr s) (VTime t)
| says_bool p b : value_says h p "bool" (JBool b) (VBool b)
| says_int p ct t f k z : ParseFloat F64 t = Some f -> has_type ct (VInt k z) -> integer_part k f z -> value_says h p ct (JNum t) (VInt k z)
| says_float64 p t f : ParseFloat F64 t = Some f -> value_says h p "float64" (JNum t) (VFloat64 f)
| says_float32 p t f g : ParseFloat F64 t = Some f -> float32_says f g -> value_says h p "float32" (JNum t) (VFloat32 g)
| says_bytes p ct l bs : ct = "[]byte" \/ ct = "[]uint8" ->
    Forall2 (fun j c => exists t f, j = JNum t /\ ParseFloat F64 t = Some f /\ integer_part KUint8 f (Z.of_nat (nat_of_ascii c))) l bs ->
    value_says h p ct (JArr l) (VBytes (Some bs))
| says_table p m q : p < q < List.length h -> table_says h m q -> value_says h p "*Table" (JObj m) (VTable (Some q))
| says_null p q : blank h p q -> value_says h p "*Table" JNull (VTable (Some q)).
