(** Spec_Yaml.v -- what is assumed of the YAML library, and when a table set comes back from
    YAML (C30). *)
From Coq Require Import ZArith NArith List String Ascii Bool SpecFloat Relations.
From Verif Require Import Base Model_Names Model_Table Model_Heap Model_TableSet Model_Lex Model_Float Model_Time Model_Print Model_Json Model_Yaml
  Spec Spec_Walk Spec_Text Spec_Json.
Import ListNotations.
Local Open Scope Z_scope.
Local Open Scope string_scope.
Local Open Scope list_scope.

(** ---------- the library ---------- *)

(** The float is an integer z with fewer than 7 digits: its shortest text (strconv.FormatFloat with
    format g) is then that of the integer. *)
Definition short_integer (f : spec_float) (z : Z) : Prop :=
  Z.abs z < 1000000 /\
  match f with
  | S754_zero _ => z = 0
  | S754_finite neg m e => let '(n, d) := ratio m e in z * d = if neg then - n else n
  | _ => False
  end.

(** [y] is how the value [v] comes back from a YAML document.  The document holds only the text
    of a number: whatever looks like an integer is read as an int, or as a uint64 if it is too
    large for that; a slice of bytes is a list of integers; the shortest decimal of a float32
    is read as a float64. *)
Inductive scalar_back : value -> ydoc -> Prop :=
| back_bool b : scalar_back (VBool b) (YBool b)
| back_string s : scalar_back (VString s) (YStr s)
| back_int k z : z < 2 ^ 63 -> scalar_back (VInt k z) (YInt z)
| back_uint k z : 2 ^ 63 <= z -> scalar_back (VInt k z) (YUint z)
| back_short32 f z : short_integer f z -> scalar_back (VFloat32 f) (YInt z)
| back_short64 f z : short_integer f z -> scalar_back (VFloat64 f) (YInt z)
| back_float64 f : (forall z, ~ short_integer f z) -> scalar_back (VFloat64 f) (YFloat f)
| back_float32 f g : (forall z, ~ short_integer f z) -> finite f -> ParseFloat F64 (format_short F32 f) = Some g ->
    scalar_back (VFloat32 f) (YFloat g)
| back_special32 f : ~ finite f -> scalar_back (VFloat32 f) (YFloat f)
| back_bytes o : scalar_back (VBytes o) (YList (map (fun c => YInt (code c)) (match o with Some l => l | None => [] end)))
| back_time t : scalar_back (VTime t) (YTime t).
Inductive comes_back : any -> ydoc -> Prop :=
| back_val v y : scalar_back v y -> comes_back (AVal v) y
| back_list l l' : Forall2 comes_back l l' -> comes_back (AList l) (YList l')
| back_map m m' : Forall2 (fun a b => fst a = fst b /\ comes_back (snd a) (snd b)) m m' -> comes_back (AMap m) (YMap m').

(** A document that the library writes and reads back, given the strings that it reads back and
    how deep it can nest: times must have years of four digits and zones of whole minutes. *)
Fixpoint in_domain (text : string -> Prop) (limit : nat) (a : any) : Prop :=
  match a with
  | AVal (VString s) => text s
  | AVal (VTime t) => json_time t
  | AVal (VBytes _) => (1 <= limit)%nat
  | AVal (VFloat32 f) => finite f -> (exists z, short_integer f z) \/ exists g, ParseFloat F64 (format_short F32 f) = Some g
  | AVal (VTable _) | AVal VNil | AVal (VOther _) => False
  | AVal _ => True
  | AList l => match limit with O => False | S n => fold_right (fun x P => in_domain text n x /\ P) True l end
  | AMap m => match limit with O => False | S n =>
                fold_right (fun x P => (text (fst x) /\ in_domain text n (snd x)) /\ P) True m end
  end.

(** The contract: printable ASCII strings are among the strings that are read back, and a
    document in the domain is written to a text, not empty, that is read back as told. *)
Definition printable (s : string) : Prop := Forall (fun c => 32 <= code c < 127) (list_ascii_of_string s).
Record yaml_ok (Y : yaml) (text : string -> Prop) (limit : nat) : Prop := {
  yaml_printable : forall s, printable s -> text s;
  yaml_empty : is_no_text Y (no_text Y) = true;
  yaml_back : forall m, in_domain text limit (AMap m) -> exists x m', marshal Y m = Ok x /\ is_no_text Y x = false
      /\ unmarshal Y x = Ok m' /\ comes_back (AMap m) (YMap m') }.

(** ---------- tables ---------- *)

(** The value comes back into a column of its type: a float64 must not be a short integer, a
    float32 zero not negative, and another float32 must survive the rounding to float64. *)
Definition yaml_value_ok (text : string -> Prop) (v : value) : Prop :=
  match v with
  | VString s => text s
  | VFloat64 f => forall z, ~ short_integer f z
  | VFloat32 f => f <> S754_zero true /\ (finite f -> (forall z, ~ short_integer f z) -> rounds_back f)
  | VTime t => json_time t
  | _ => True
  end.
Definition yaml_table (text : string -> Prop) (h : heap) (p : ptr) : Prop :=
  forall q, clos_refl_trans _ (nests h) p q -> is_nil (tab h q) = false ->
    text (tname (tab h q)) /\ Forall text (cnames (tab h q)) /\ Forall (Forall (yaml_value_ok text)) (rows (tab h q)).
(** The table can be written and read: it is named, its names and cells are as told, and its
    tables are nested at most k deep. *)
Definition yaml_ready (text : string -> Prop) (k : nat) (h : heap) (p : ptr) : Prop :=
  (p < List.length h)%nat /\ is_nil (tab h p) = false /\ yaml_table text h p /\ depth_at_most k h p.
