(** Base.v -- Go values, results and the small library used by the model.

    Model of urban-wombat/gotables.  Everything here is a data type or a
    total function; there are no proofs in this file. *)
From Coq Require Import ZArith NArith List String Ascii Bool SpecFloat.
Import ListNotations.
Local Open Scope string_scope.

(** Outcome of a Go call: a result, a non-nil [error], or a run-time panic.
    Simplification: the text of an error is not modelled. *)
Inductive res (A : Type) : Type :=
| Ok (a : A)
| Err
| Panic.
Arguments Ok {A} a.
Arguments Err {A}.
Arguments Panic {A}.

Definition rbind {A B} (r : res A) (f : A -> res B) : res B :=
  match r with Ok a => f a | Err => Err | Panic => Panic end.

Declare Scope res_scope.
Notation "'let!' x ':=' r 'in' k" := (rbind r (fun x => k))
  (at level 200, x pattern, r at level 100, k at level 200, right associativity) : res_scope.
Open Scope res_scope.

(** Address of a [Table] in the Go heap.  [None : option ptr] is a nil pointer. *)
Definition ptr := nat.

(** Go integer types.  [int]/[uint] are 64 bits (strconv.IntSize = 64).
    byte = uint8 and rune = int32 are the same dynamic types in Go. *)
Inductive ikind :=
| KInt | KInt8 | KInt16 | KInt32 | KInt64
| KUint | KUint8 | KUint16 | KUint32 | KUint64.

Definition ikind_eqb (a b : ikind) : bool :=
  match a, b with
  | KInt, KInt | KInt8, KInt8 | KInt16, KInt16 | KInt32, KInt32 | KInt64, KInt64
  | KUint, KUint | KUint8, KUint8 | KUint16, KUint16 | KUint32, KUint32
  | KUint64, KUint64 => true
  | _, _ => false
  end.

Definition ibits (k : ikind) : Z :=
  match k with
  | KInt | KInt64 | KUint | KUint64 => 64
  | KInt32 | KUint32 => 32
  | KInt16 | KUint16 => 16
  | KInt8 | KUint8 => 8
  end%Z.

Definition isigned (k : ikind) : bool :=
  match k with KInt | KInt8 | KInt16 | KInt32 | KInt64 => true | _ => false end.

Definition imin (k : ikind) : Z := if isigned k then (- 2 ^ (ibits k - 1))%Z else 0%Z.
Definition imax (k : ikind) : Z :=
  if isigned k then (2 ^ (ibits k - 1) - 1)%Z else (2 ^ (ibits k) - 1)%Z.
Definition in_range (k : ikind) (z : Z) : bool := ((imin k <=? z) && (z <=? imax k))%Z.

(** time.Time: seconds since 0001-01-01T00:00:00Z, nanoseconds, and the zone
    offset in seconds.  Simplification: a location is only its UTC offset. *)
Record time := mkTime { tm_sec : Z; tm_nsec : Z; tm_off : Z }.

(** A Go [interface{}] value, tagged by its dynamic type. *)
Inductive value :=
| VNil                              (* nil interface *)
| VBool (b : bool)
| VString (s : string)              (* Go strings are byte strings *)
| VInt (k : ikind) (z : Z)
| VFloat32 (f : spec_float)
| VFloat64 (f : spec_float)
| VBytes (o : option (list ascii))  (* []byte; None is a nil slice *)
| VTable (o : option ptr)           (* *Table; None is a nil pointer *)
| VTime (t : time)
| VOther (s : string).              (* any Go value of an unsupported type "main.s" *)

Definition ikind_name (k : ikind) : string :=
  match k with
  | KInt => "int" | KInt8 => "int8" | KInt16 => "int16" | KInt32 => "int32" | KInt64 => "int64"
  | KUint => "uint" | KUint8 => "uint8" | KUint16 => "uint16" | KUint32 => "uint32"
  | KUint64 => "uint64"
  end.

(** Which payloads a Go value of the given dynamic type can have. *)
Definition go_value (v : value) : bool :=
  match v with
  | VInt k z => in_range k z
  | VFloat32 f => valid_binary 24 128 f
  | VFloat64 f => valid_binary 53 1024 f
  | VTime t => ((0 <=? tm_nsec t) && (tm_nsec t <? 1000000000))%Z
  | _ => true
  end.

(** [fmt.Sprintf("%T", val)] with "*gotables.Table" replaced by "*Table"
    (gotables.go:1979-1983). *)
Definition type_string (v : value) : string :=
  match v with
  | VNil => "<nil>"
  | VBool _ => "bool"
  | VString _ => "string"
  | VInt k _ => ikind_name k
  | VFloat32 _ => "float32"
  | VFloat64 _ => "float64"
  | VBytes _ => "[]uint8"
  | VTable _ => "*Table"
  | VTime _ => "time.Time"
  | VOther s => "main." ++ s
  end.

(** [reflect.TypeOf(value).Name()] (gotables.go:3143-3144): unnamed types
    (slices, pointers) have the empty name, time.Time is "Time". *)
Definition reflect_name (v : value) : string :=
  match v with
  | VNil => ""
  | VBool _ => "bool"
  | VString _ => "string"
  | VInt k _ => ikind_name k
  | VFloat32 _ => "float32"
  | VFloat64 _ => "float64"
  | VBytes _ => ""
  | VTable _ => ""
  | VTime _ => "Time"
  | VOther s => s
  end.

(** Slice indexing with a Go [int]: [None] when out of range (a panic in Go). *)
Definition zidx (i : Z) (n : nat) : option nat :=
  if ((0 <=? i) && (i <? Z.of_nat n))%Z then Some (Z.to_nat i) else None.

Definition znth {A} (l : list A) (i : Z) : option A :=
  match zidx i (List.length l) with Some k => nth_error l k | None => None end.

(** Slice element assignment, no effect out of range (callers check). *)
Fixpoint upd {A} (l : list A) (i : nat) (x : A) : list A :=
  match l, i with
  | [], _ => []
  | _ :: r, O => x :: r
  | y :: r, S i' => y :: upd r i' x
  end.

(** [append(l[:i], l[i+1:]...)] *)
Definition remove_at {A} (i : nat) (l : list A) : list A := firstn i l ++ skipn (S i) l.

(** Go [map[string]int] as an association list without duplicate keys. *)
Definition smap := list (string * nat).
Fixpoint mget (m : smap) (k : string) : option nat :=
  match m with
  | [] => None
  | (k', v) :: r => if String.eqb k k' then Some v else mget r k
  end.
Fixpoint mdel (m : smap) (k : string) : smap :=
  match m with
  | [] => []
  | (k', v) :: r => if String.eqb k k' then mdel r k else (k', v) :: mdel r k
  end.
Definition mset (m : smap) (k : string) (v : nat) : smap := (k, v) :: mdel m k.
