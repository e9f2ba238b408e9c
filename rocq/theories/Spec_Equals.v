(** Spec_Equals.v -- when two tables are the same. *)
From Coq Require Import ZArith NArith List String Ascii Bool SpecFloat.
From Verif Require Import Base Model_Names Model_Table Spec.
Import ListNotations.
Local Open Scope string_scope.
Local Open Scope list_scope.

(** Two cells hold the same value: Go == on floats (so -0 equals 0 and NaN equals nothing),
    the same bytes (a nil []byte is an empty one), the same instant, otherwise identity. *)
Definition same_value (v w : value) : Prop :=
  match v, w with
  | VFloat32 a, VFloat32 b | VFloat64 a, VFloat64 b => SFcompare a b = Some Eq
  | VBytes a, VBytes b => match a with Some l => l | None => [] end = match b with Some l => l | None => [] end
  | VTime a, VTime b => tm_sec a = tm_sec b /\ tm_nsec a = tm_nsec b
  | _, _ => v = w
  end.

(** The same name, number of rows and set of (column name, type) pairs, and the same cells
    by column name and row. *)
Definition same_table (t1 t2 : table) : Prop :=
  tname t1 = tname t2 /\ RowCount t1 = RowCount t2
  /\ (forall cn ct, ColType t1 cn = Ok ct <-> ColType t2 cn = Ok ct)
  /\ (forall cn r v w, GetVal t1 cn r = Ok v -> GetVal t2 cn r = Ok w -> same_value v w).

(** No cell is a nested table; no cell is NaN. *)
Definition no_nested (t : table) : Prop := nested_in (rows t) = [].
Definition no_nan (t : table) : Prop :=
  forall c r v, GetValByColIndex t c r = Ok v -> v <> VFloat32 S754_nan /\ v <> VFloat64 S754_nan.
