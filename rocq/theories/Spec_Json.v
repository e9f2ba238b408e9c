(** Spec_Json.v -- which tables JSON keeps, and what a table read from JSON is. *)
From Coq Require Import ZArith NArith List String Ascii Bool SpecFloat Relations.
From Verif Require Import Base Model_Names Model_Table Model_Sort Model_Heap Model_TableSet Model_Lex Model_Float Model_Time Model_Json
  Spec Spec_Walk Spec_Text.
Import ListNotations.
Local Open Scope string_scope.
Local Open Scope Z_scope.

(** ---------- what can be written ---------- *)

(** Go's %q writes the rune in a way that JSON knows: not as \a, \v, \x.. or \U........ .
    [ip] says which runes beyond ASCII are printable. *)
Definition json_rune (ip : Z -> bool) (r : Z) : Prop :=
  unicode r /\ (32 <= r < 127 \/ In r [8; 9; 10; 12; 13] \/ 128 <= r < 65536 \/ (65536 <= r /\ ip r = true)).
(** UTF-8 text of such runes *)
Definition json_text (ip : Z -> bool) (s : string) : Prop :=
  exists rs, Forall (json_rune ip) rs /\ s = String.concat "" (map encode rs).

(** The integer is a float64. *)
Definition float_integer (z : Z) : Prop := exists m e, Z.abs z = m * 2 ^ e /\ 0 <= m < 2 ^ 53 /\ 0 <= e.

(** The shortest decimal of the float32, rounded first to float64 and then to float32, is the
    float32 again. *)
Definition rounds_back (f : spec_float) : Prop :=
  exists g, ParseFloat F64 (format_short F32 f) = Some g /\ float32_of g = f.

Definition finite (f : spec_float) : Prop := match f with S754_nan | S754_infinity _ => False | _ => True end.

(** A time in the years 0 to 9999 of its zone, whose zone offset is in whole minutes and less than
    a day *)
Definition json_time (t : time) : Prop :=
  0 <= year_of ((tm_sec t + tm_off t) / 86400) <= 9999 /\ tm_off t mod 60 = 0 /\ - 86400 < tm_off t < 86400.

Definition json_value_ok (ip : Z -> bool) (ct : string) (v : value) : Prop :=
  match v with
  | VString s => json_text ip s
  | VInt _ z => if String.eqb ct "rune" then json_rune ip z else float_integer z
  | VFloat32 f => finite f /\ rounds_back f
  | VFloat64 f => finite f
  | VTime t => json_time t
  | _ => True
  end.

(** The table, and every table nested in it at any depth (NilTables aside), has a name, column
    names and cells as told above. *)
Definition json_table (ip : Z -> bool) (h : heap) (p : ptr) : Prop :=
  forall q, clos_refl_trans _ (nests h) p q -> is_nil (tab h q) = false ->
    json_text ip (tname (tab h q)) /\ Forall (json_text ip) (cnames (tab h q))
    /\ Forall (Forall2 (json_value_ok ip) (ctypes (tab h q))) (rows (tab h q)).

(** At most k tables are nested in each other, the outermost one counted and NilTables not. *)
Fixpoint depth_at_most (k : nat) (h : heap) (p : ptr) : Prop :=
  match k with
  | O => False
  | S k' => forall q, nests h p q -> is_nil (tab h q) = false -> depth_at_most k' h q
  end.

(** ---------- what is read ---------- *)

(** The cell w is the cell v: a nested NilTable is a NilTable, another nested table is as R
    says, a nil slice is an empty slice, and any other value is the same. *)
Inductive same_cell (h h' : heap) (R : ptr -> ptr -> Prop) : value -> value -> Prop :=
| same_plain v : (forall o, v <> VTable o) -> same_cell h h' R v (read_back v)
| same_nil q q' : is_nil (tab h q) = true -> is_nil (tab h' q') = true -> same_cell h h' R (VTable (Some q)) (VTable (Some q'))
| same_nested q q' : is_nil (tab h q) = false -> R q q' -> same_cell h h' R (VTable (Some q)) (VTable (Some q')).

(** The table at p' of heap h' is a deep copy of the table at p of heap h, without its sort keys. *)
Inductive deep_copy (h h' : heap) : ptr -> ptr -> Prop :=
| a_deep_copy (p p' : ptr) :
    is_nil (tab h' p') = false ->
    tname (tab h' p') = tname (tab h p) ->
    cnames (tab h' p') = cnames (tab h p) ->
    ctypes (tab h' p') = ctypes (tab h p) ->
    struct_shape (tab h' p') = struct_shape (tab h p) ->
    skeys (tab h' p') = [] ->
    Forall2 (Forall2 (same_cell h h' (deep_copy h h'))) (rows (tab h p)) (rows (tab h' p')) ->
    deep_copy h h' p p'.

(** The set s' holds deep copies of the tables of s, in the same order. *)
Definition set_copy (h h' : heap) (s s' : tset) : Prop :=
  ts_name s' = ts_name s /\
  Forall2 (fun o o' => exists p p', o = Some p /\ o' = Some p' /\ deep_copy h h' p p') (ts_tables s) (ts_tables s').

(** ---------- what is an error ---------- *)

(** The tables met when the nesting of the table at p is unfolded, NilTables left out: p itself,
    then those met in the first nested table, in the second, and so on. *)
Inductive unfolds (h : heap) : ptr -> list ptr -> Prop :=
| an_unfolding p ls : Forall2 (unfolds h) (filter (fun q => negb (is_nil (tab h q))) (nested_in (rows (tab h p)))) ls ->
    unfolds h p (p :: List.concat ls).

(** No table is met twice: the nesting is a tree. *)
Definition is_tree (h : heap) (p : ptr) : Prop := exists l, unfolds h p l /\ NoDup l.
