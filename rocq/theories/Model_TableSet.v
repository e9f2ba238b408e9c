(** Model_TableSet.v -- table sets: gotables.go, the TableSet methods that are not about
    text.  A set holds references to tables of the heap; nil references are possible. *)
From Coq Require Import ZArith NArith List String Ascii Bool.
From Verif Require Import Base Model_Names Model_Table Model_Sort Model_Copy Model_Ops Model_Heap.
Import ListNotations.
Local Open Scope string_scope.
Local Open Scope list_scope.

(** TableSet, gotables.go:91-95 *)
Record tset := mkTS { ts_name : string; ts_file : string; ts_tables : list ref }.

(** Table.Name, gotables.go:2235-2243: "" for a nil table *)
Definition ref_name (h : heap) (o : ref) : string :=
  match o with Some p => tname (tab h p) | None => "" end.

(** NewTableSet, gotables.go:106-111: any name is accepted *)
Definition NewTableSet (n : string) : tset := mkTS n "" [].
(** TableSet.SetName, gotables.go:369-383 *)
Definition TS_SetName (n : string) (s : tset) : tset := mkTS n (ts_file s) (ts_tables s).
(** SetFileName, gotables.go:395-403 *)
Definition SetFileName (n : string) (s : tset) : tset := mkTS (ts_name s) n (ts_tables s).
(** TableCount, gotables.go:405-413 *)
Definition TableCount (s : tset) : Z := Z.of_nat (List.length (ts_tables s)).

(** The loop shared by AppendTable (425-429), HasTable (443-447) and GetTable (455-459):
    the first table with that name. *)
Fixpoint find_table (h : heap) (n : string) (ts : list ref) : option ref :=
  match ts with
  | [] => None
  | o :: r => if ref_name h o =? n then Some o else find_table h n r
  end.

(** AppendTable (and Append), gotables.go:415-436.  The error message of a duplicate name
    reads newTable.tableName, so a nil table then panics. *)
Definition AppendTable (h : heap) (s : tset) (o : ref) : tset * res unit :=
  match find_table h (ref_name h o) (ts_tables s) with
  | Some _ => (s, match o with Some _ => Err | None => Panic end)
  | None => (mkTS (ts_name s) (ts_file s) (ts_tables s ++ [o]), Ok tt)
  end.

(** HasTable, gotables.go:439-450: (true, nil) or (false, err) *)
Definition HasTable (h : heap) (s : tset) (n : string) : res bool :=
  match find_table h n (ts_tables s) with Some _ => Ok true | None => Err end.

(** GetTable, gotables.go:452-464 *)
Definition GetTable (h : heap) (s : tset) (n : string) : res ref :=
  match find_table h n (ts_tables s) with Some o => Ok o | None => Err end.

(** GetTableByTableIndex, gotables.go:466-480 *)
Definition GetTableByTableIndex (s : tset) (i : Z) : res ref :=
  if (i <? 0)%Z || (i >? TableCount s - 1)%Z then Err
  else match znth (ts_tables s) i with Some o => Ok o | None => Panic end.

(** TableIndex, gotables.go:3817-3832 *)
Definition TableIndex (h : heap) (s : tset) (n : string) : res Z :=
  fold_right (fun i rest =>
    let! o := GetTableByTableIndex s i in
    if ref_name h o =? n then Ok i else rest)
  Err (zseq (List.length (ts_tables s))).

(** DeleteTableByTableIndex, gotables.go:3781-3797 *)
Definition DeleteTableByTableIndex (s : tset) (i : Z) : tset * res unit :=
  if (i <? 0)%Z || (i >? TableCount s - 1)%Z then (s, Err)
  else (mkTS (ts_name s) (ts_file s) (remove_at (Z.to_nat i) (ts_tables s)), Ok tt).

(** DeleteTable, gotables.go:3799-3815 *)
Definition DeleteTable (h : heap) (s : tset) (n : string) : tset * res unit :=
  match TableIndex h s n with
  | Ok i => DeleteTableByTableIndex s i
  | Err => (s, Err)
  | Panic => (s, Panic)
  end.

(** TableSet.RenameTable, gotables.go:2597-2621, with Table.RenameTable, gotables.go:2590-2595 *)
Definition RenameTable (h : heap) (s : tset) (from to : string) : heap * res unit :=
  match HasTable h s from with
  | Ok true =>
      match HasTable h s to with
      | Ok true => (h, Err)
      | _ =>
          match GetTable h s from with
          | Ok (Some p) => on_heap p (SetName to) h
          | Ok None => (h, Err)
          | Err => (h, Err)
          | Panic => (h, Panic)
          end
      end
  | _ => (h, Err)
  end.

(** TableSet.Copy, gotables.go:3717-3750 *)
Fixpoint copy_tables (ts : list ref) (c : tset) (h : heap) : heap * res tset :=
  match ts with
  | [] => (h, Ok c)
  | None :: _ => (h, Err)
  | Some p :: r =>
      match Copy p h with
      | (h1, Ok q) =>
          match AppendTable h1 c (Some q) with
          | (c', Ok _) => copy_tables r c' h1
          | (_, Err) => (h1, Err)
          | (_, Panic) => (h1, Panic)
          end
      | (h1, Err) => (h1, Err)
      | (h1, Panic) => (h1, Panic)
      end
  end.
Definition TS_Copy (s : tset) (h : heap) : heap * res tset :=
  copy_tables (ts_tables s) (SetFileName (ts_file s) (NewTableSet (ts_name s))) h.

(** IsValidTableSet, gotables.go:2869-2883.  A nil table gives (false, err)
    (IsValidTable, gotables.go:2739-2743). *)
Fixpoint valid_tables (h : heap) (ts : list ref) : verdict :=
  match ts with
  | [] => Valid
  | None :: _ => Invalid
  | Some p :: r => match IsValidTable h p with Valid => valid_tables h r | v => v end
  end.
Definition IsValidTableSet (h : heap) (s : tset) : verdict := valid_tables h (ts_tables s).

(** TableSet.Equals, gotables.go:3998-4032: Ok tt is (true, nil) *)
Definition TS_Equals (fuel : nat) (h : heap) (s1 s2 : tset) : res unit :=
  let! _ := rcheck (TableCount s2 =? TableCount s1)%Z in
  rfor (zseq (List.length (ts_tables s1))) (fun i =>
    let! o1 := GetTableByTableIndex s1 i in
    let! o2 := GetTableByTableIndex s2 i in
    Equals fuel h o1 o2).

(** ---------- programs that work with tables and table sets ---------- *)

Record pstate := mkP { p_heap : heap; p_sets : list tset }.

(** The calls; a set is given by its position, None is a nil *TableSet. *)
Inductive sop :=
| PTab (c : hop)
| PNewTableSet (n : string)
| PSetName (k : option nat) (n : string)
| PSetFileName (k : option nat) (n : string)
| PAppendTable (k : option nat) (o : ref)
| PDeleteTable (k : option nat) (n : string)
| PDeleteTableByTableIndex (k : option nat) (i : Z)
| PRenameTable (k : option nat) (from to : string)
| PCopy (k : option nat).

Definition discard {A} (r : res A) : res unit := match r with Ok _ => Ok tt | Err => Err | Panic => Panic end.

(** A method that changes only the set. *)
Definition on_set (k : option nat) (f : tset -> tset * res unit) (g : pstate) : pstate * res unit :=
  match k with
  | None => (g, Err)
  | Some i => match nth_error (p_sets g) i with
              | Some s => let '(s', r) := f s in (mkP (p_heap g) (upd (p_sets g) i s'), r)
              | None => (g, Err)
              end
  end.

Definition sexec (E : env) (c : sop) (g : pstate) : pstate * res unit :=
  match c with
  | PTab c => let '(h, r) := hexec E c (p_heap g) in (mkP h (p_sets g), discard r)
  | PNewTableSet n => (mkP (p_heap g) (p_sets g ++ [NewTableSet n]), Ok tt)
  | PSetName k n => on_set k (fun s => (TS_SetName n s, Ok tt)) g
  | PSetFileName None n => (g, Ok tt)
  | PSetFileName k n => on_set k (fun s => (SetFileName n s, Ok tt)) g
  | PAppendTable k o => on_set k (fun s => AppendTable (p_heap g) s o) g
  | PDeleteTable k n => on_set k (fun s => DeleteTable (p_heap g) s n) g
  | PDeleteTableByTableIndex k i => on_set k (fun s => DeleteTableByTableIndex s i) g
  | PRenameTable (Some i) from to =>
      match nth_error (p_sets g) i with
      | Some s => let '(h, r) := RenameTable (p_heap g) s from to in (mkP h (p_sets g), r)
      | None => (g, Err)
      end
  | PRenameTable None _ _ => (g, Err)
  | PCopy (Some i) =>
      match nth_error (p_sets g) i with
      | Some s => match TS_Copy s (p_heap g) with
                  | (h, Ok s') => (mkP h (p_sets g ++ [s']), Ok tt)
                  | (h, Err) => (mkP h (p_sets g), Err)
                  | (h, Panic) => (mkP h (p_sets g), Panic)
                  end
      | None => (g, Err)
      end
  | PCopy None => (g, Err)
  end.

(** Arguments that exist. *)
Definition sop_typed (g : pstate) (c : sop) : bool :=
  match c with
  | PTab c => hop_typed (p_heap g) c
  | PAppendTable _ o => ref_in (p_heap g) o
  | _ => true
  end.
