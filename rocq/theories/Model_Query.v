(** Model_Query.v -- questions about cells and columns, and the accessors that panic instead of
    returning an error. *)
From Coq Require Import ZArith List String Bool.
From Verif Require Import Base Model_Names Model_Table.
Import ListNotations.
Local Open Scope string_scope.
Local Open Scope list_scope.

(** The pair (false, err) of these functions is [Err], (false, nil) is [Ok false]. *)

(** HasCell, gotables.go:2387-2407.  HasCol (gotables.go:2025-2037) answers false with an error. *)
Definition HasCell (t : table) (cn : string) (ri : Z) : res bool :=
  let! hasCol := HasCol t cn in
  if negb hasCol then Err
  else if negb (HasRow t ri) then Err
  else Ok true.

(** HasCellByColIndex, gotables.go:2410-2467 *)
Definition HasCellByColIndex (t : table) (ci ri : Z) : res bool :=
  if negb (HasColByColIndex t ci) then Err
  else if negb (HasRow t ri) then Err
  else if negb (RowCount t >=? ri + 1)%Z then Err
  else match znth (rows t) ri with
       | None => Panic
       | Some row =>
           let n := Z.of_nat (List.length row) in
           if negb (n =? ColCount t)%Z then Err
           else if negb (n >=? ci + 1)%Z then Err
           else Ok true
       end.

(** IsColType, gotables.go:2488-2503 *)
Definition IsColType (t : table) (cn typ : string) : res bool :=
  let! ct := ColType t cn in Ok (ct =? typ).

(** IsColTypeByColIndex, gotables.go:2505-2523 *)
Definition IsColTypeByColIndex (t : table) (ci : Z) (typ : string) : res bool :=
  if negb (HasColByColIndex t ci) then Err
  else match znth (cnames t) ci with
       | None => Panic
       | Some cn => IsColType t cn typ
       end.

(** IsTableColByColIndex, gotables.go:4452-4465 *)
Definition IsTableColByColIndex (t : table) (ci : Z) : res bool :=
  let! ct := ColTypeByColIndex t ci in Ok (IsTableColType ct).

(** IsTableCol, gotables.go:4467-4483 *)
Definition IsTableCol (t : table) (cn : string) : res bool :=
  let! ci := ColIndex t cn in IsTableColByColIndex t ci.

(** [panic(err)] when the call returned an error *)
Definition must_do {A} (m : M A) : M A :=
  fun s => match m s with (s', Err) => (s', Panic) | r => r end.

(** Get<type>MustGet, helpers.go:2505-2880, and Get<type>ByColIndexMustGet, helpers.go:4311-4690 *)
Definition GetTMustGet (vt : string) (t : table) (cn : string) (ri : Z) : res value := must (GetT vt t cn ri).
Definition GetTByColIndexMustGet (vt : string) (t : table) (ci ri : Z) : res value := must (GetTByColIndex vt t ci ri).
(** GetValMustGet, gotables.go:2274-2286, and GetValByColIndexMustGet, gotables.go:2335-2352 *)
Definition GetValMustGet (t : table) (cn : string) (ri : Z) : res value :=
  if is_nil t then Panic else must (GetVal t cn ri).
Definition GetValByColIndexMustGet (t : table) (ci ri : Z) : res value :=
  if is_nil t then Panic else must (GetValByColIndex t ci ri).
(** Set<type>MustSet, helpers.go:2885-3220, and Set<type>ByColIndexMustSet, helpers.go:3225-3560 *)
Definition SetTMustSet (vt cn : string) (ri : Z) (v : value) : M unit := must_do (SetT vt cn ri v).
Definition SetTByColIndexMustSet (vt : string) (ci ri : Z) (v : value) : M unit := must_do (SetTByColIndex vt ci ri v).
