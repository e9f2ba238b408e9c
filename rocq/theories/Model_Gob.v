(** Model_Gob.v -- gob.go: tables and table sets to and from gob.  Go's encoding/gob itself is
    not modelled: it is a parameter, and what is assumed of it is stated in Spec_Gob.v. *)
From Coq Require Import ZArith NArith List String Ascii Bool.
From Verif Require Import Base Model_Names Model_Table Model_Sort Model_Ops Model_Heap Model_TableSet Model_Print.
Import ListNotations.
Local Open Scope string_scope.
Local Open Scope list_scope.

(** TableExported, gotables.go:504-514.  IsNilTable and ParentTable are never set and left out. *)
Record exported := mkE {
  e_name : string;
  e_names : list string;
  e_types : list string;
  e_map : smap;
  e_rows : list (list value);
  e_keys : list skey;
  e_shape : bool }.

(** encoding/gob, as used here: the encoder and the decoder for TableExported and for
    TableSetExported (gotables.go:100-103: the name and the file name of a set). *)
Record gob := mkGob {
  bytes_t : Type;
  gob_encode : exported -> res bytes_t;
  gob_decode : bytes_t -> res exported;
  gob_encode_header : string * string -> res bytes_t;
  gob_decode_header : bytes_t -> res (string * string) }.

(** exportTable, gob.go:10-81, with newTableExported, gotables.go:603-615, and
    setTableNameExported, gotables.go:2565-2578.  The loop over the sort keys (gob.go:69-76)
    stores into a slice of length 0. *)
Definition exportTable (t : table) : res exported :=
  if negb (Nat.ltb 0 (String.length (tname t)) && IsValidTableName (tname t)) then Err
  else if Nat.ltb (List.length (ctypes t)) (List.length (cnames t)) then Err
  else match skeys t with
       | _ :: _ => Panic
       | [] => Ok (mkE (tname t) (cnames t) (firstn (List.length (cnames t)) (ctypes t)) (cmap t) (rows t) [] (struct_shape t))
       end.

(** importTable, gob.go:84-147.  The sort keys are not restored (the loop at gob.go:131-137 is
    over an empty slice).  When IsValidTable returns (false, nil) the result is (nil, nil):
    here Ok None. *)
Definition importTable (e : exported) (h : heap) : heap * res ref :=
  match NewTable (e_name e) with
  | Err => (h, Err)
  | Panic => (h, Panic)
  | Ok t0 =>
      if Nat.ltb (List.length (e_types e)) (List.length (e_names e)) then (h, Err)
      else
        let t := mkT (tname t0) (e_names e) (firstn (List.length (e_names e)) (e_types e)) (e_map e) (e_rows e)
                     [] (e_shape e) (is_nil t0) (parent t0) in
        let p := List.length h in
        match IsValidTable (h ++ [t]) p with
        | Valid => (h ++ [t], Ok (Some p))
        | Invalid => (h, Err)
        | InvalidNoError => (h, Ok None)
        | VPanic => (h, Panic)
        end
  end.

(** Table.GobEncode, gob.go:156-178 *)
Definition GobEncode (C : gob) (h : heap) (o : ref) : res (bytes_t C) :=
  match o with
  | None => Err
  | Some p => let! e := exportTable (tab h p) in gob_encode C e
  end.

(** GobDecodeTable and NewTableFromGob, gob.go:296-325 *)
Definition GobDecodeTable (C : gob) (b : bytes_t C) (h : heap) : heap * res ref :=
  match gob_decode C b with
  | Ok e => importTable e h
  | Err => (h, Err)
  | Panic => (h, Panic)
  end.

(** TableSet.GobEncode, gob.go:183-230, for a set that is not nil: the tables, then the header *)
Definition TS_GobEncode (C : gob) (h : heap) (s : tset) : res (list (bytes_t C)) :=
  let! bs := rmap (GobEncode C h) (ts_tables s) in
  let! b := gob_encode_header C (ts_name s, ts_file s) in
  Ok (bs ++ [b]).

(** The loop of GobDecodeTableSet, gob.go:263-272.  AppendTable of a nil table adds it. *)
Fixpoint decode_tables (C : gob) (bs : list (bytes_t C)) (s : tset) (h : heap) : heap * res tset :=
  match bs with
  | [] => (h, Ok s)
  | b :: r =>
      match GobDecodeTable C b h with
      | (h1, Ok o) =>
          match AppendTable h1 s o with
          | (s', Ok _) => decode_tables C r s' h1
          | (_, Err) => (h1, Err)
          | (_, Panic) => (h1, Panic)
          end
      | (h1, Err) => (h1, Err)
      | (h1, Panic) => (h1, Panic)
      end
  end.

(** GobDecodeTableSet and NewTableSetFromGob, gob.go:241-287.  An empty slice of buffers has no
    last element. *)
Definition GobDecodeTableSet (C : gob) (bs : list (bytes_t C)) (h : heap) : heap * res tset :=
  match decode_tables C (removelast bs) (NewTableSet "") h with
  | (h1, Ok s) =>
      match nth_error bs (List.length bs - 1) with
      | None => (h1, Panic)
      | Some b =>
          match gob_decode_header C b with
          | Ok (n, f) => (h1, Ok (SetFileName f (TS_SetName n s)))
          | Err => (h1, Err)
          | Panic => (h1, Panic)
          end
      end
  | (h1, Err) => (h1, Err)
  | (h1, Panic) => (h1, Panic)
  end.
