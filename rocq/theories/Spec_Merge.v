(** Spec_Merge.v -- what Merge and SortUnique promise about keys and cells. *)
From Coq Require Import ZArith List String Bool SpecFloat.
From Verif Require Import Base Model_Names Model_Table Model_Sort Spec Spec_Sort Spec_Copy.
Import ListNotations.
Local Open Scope string_scope.
Local Open Scope list_scope.

(** The column types whose cells Merge can combine. *)
Definition mergeable_types : list string :=
  ["string"; "bool"; "int8"; "int16"; "int32"; "int64"; "int";
   "uint8"; "uint16"; "uint32"; "uint64"; "uint"; "float32"; "float64"].

(** The zero of a mergeable type; both float zeros count. *)
Definition is_zero (v : value) : Prop :=
  match v with
  | VString s => s = ""
  | VBool b => b = false
  | VInt _ z => z = 0%Z
  | VFloat32 (S754_zero _) | VFloat64 (S754_zero _) => True
  | _ => False
  end.

(** A value that carries information: neither zero nor NaN. *)
Definition is_data (v : value) : Prop := ~ is_zero v /\ ~ is_nan v.

(** Row i of t and row r of u hold equal values in the columns of the keys. *)
Definition same_key (ks : list skey) (t : table) (i : Z) (u : table) (r : Z) : Prop :=
  Forall (fun k => exists v w, GetVal t (k_col k) i = Ok v /\ GetVal u (k_col k) r = Ok w /\ val_eq v w) ks.

(** Some row of t with the key of row r of u holds v in column cn. *)
Definition offers (ks : list skey) (t : table) (u : table) (r : Z) (cn : string) (v : value) : Prop :=
  exists i, (0 <= i < RowCount t)%Z /\ same_key ks t i u r /\ GetVal t cn i = Ok v.

(** Two different rows, of the same table or of the two tables, have the same key. *)
Definition shared_key (ks : list skey) (t1 t2 : table) : Prop :=
  (exists i j, (0 <= i < RowCount t1)%Z /\ (0 <= j < RowCount t2)%Z /\ same_key ks t1 i t2 j)
  \/ (exists i j, (0 <= i < j)%Z /\ (j < RowCount t1)%Z /\ same_key ks t1 i t1 j)
  \/ (exists i j, (0 <= i < j)%Z /\ (j < RowCount t2)%Z /\ same_key ks t2 i t2 j).

(** t' is the merge of t1 and t2 by the keys ks. *)
Record merged (E : env) (ks : list skey) (t1 t2 t' : table) : Prop := {
  mg_wf : wf_table t';
  mg_name : tname t' = "Merged";
  mg_nil : is_nil t' = false;
  mg_shape : struct_shape t' = false;
  mg_parent : parent t' = None;
  (** the keys are the sort keys of the result and its first columns *)
  mg_keys : skeys t' = ks;
  mg_first : firstn (List.length ks) (cnames t') = map k_col ks;
  (** the columns are those of both tables *)
  mg_cols : forall cn ct, ColType t' cn = Ok ct <-> ColType t1 cn = Ok ct \/ ColType t2 cn = Ok ct;
  (** sorted, no key twice, exactly the keys of the two tables *)
  mg_sorted : sorted_table E t';
  mg_once : forall r r', (0 <= r < RowCount t')%Z -> (0 <= r' < RowCount t')%Z -> same_key ks t' r t' r' -> r = r';
  mg_all1 : forall i, (0 <= i < RowCount t1)%Z -> exists r, (0 <= r < RowCount t')%Z /\ same_key ks t1 i t' r;
  mg_all2 : forall i, (0 <= i < RowCount t2)%Z -> exists r, (0 <= r < RowCount t')%Z /\ same_key ks t2 i t' r;
  mg_only : forall r, (0 <= r < RowCount t')%Z ->
    (exists i, (0 <= i < RowCount t1)%Z /\ same_key ks t1 i t' r)
    \/ (exists i, (0 <= i < RowCount t2)%Z /\ same_key ks t2 i t' r);
  (** a cell of the result: data of a row of table 1 with that key if there is any, else
      data of a row of table 2, else a zero if one of the cells is a zero, else (all of them
      NaN, or missing in a float column) NaN *)
  mg_data1 : forall r cn v w, GetVal t' cn r = Ok v -> offers ks t1 t' r cn w -> is_data w ->
    offers ks t1 t' r cn v /\ is_data v;
  mg_data2 : forall r cn v w, GetVal t' cn r = Ok v -> offers ks t2 t' r cn w -> is_data w ->
    (forall x, offers ks t1 t' r cn x -> ~ is_data x) ->
    offers ks t2 t' r cn v /\ is_data v;
  mg_rest : forall r cn v, GetVal t' cn r = Ok v ->
    (forall x, offers ks t1 t' r cn x \/ offers ks t2 t' r cn x -> ~ is_data x) ->
    (is_zero v /\ (offers ks t1 t' r cn v \/ offers ks t2 t' r cn v
                   \/ ColType t' cn <> Ok "float32" /\ ColType t' cn <> Ok "float64"))
    \/ (is_nan v /\ forall x, offers ks t1 t' r cn x \/ offers ks t2 t' r cn x -> is_nan x) }.

(** Tables that Merge can merge by the keys ks: both have rows, the key columns are
    different columns that exist with the same sortable type in both and hold no NaN,
    columns of the same name have the same type, every type is mergeable, and the two
    names that Merge uses for itself are free. *)
Record mergeable (ks : list skey) (t1 t2 : table) : Prop := {
  mb_wf1 : wf_table t1;
  mb_wf2 : wf_table t2;
  mb_rows1 : (0 < RowCount t1)%Z;
  mb_rows2 : (0 < RowCount t2)%Z;
  mb_some : ks <> [];
  mb_once : NoDup (map k_col ks);
  mb_keys1 : Forall (fun k => ColType t1 (k_col k) = Ok (k_type k) /\ In (k_type k) sortable_types) ks;
  mb_keys2 : Forall (fun k => ColType t2 (k_col k) = Ok (k_type k) /\ In (k_type k) sortable_types) ks;
  mb_nan1 : forall k r v, In k ks -> GetVal t1 (k_col k) r = Ok v -> ~ is_nan v;
  mb_nan2 : forall k r v, In k ks -> GetVal t2 (k_col k) r = Ok v -> ~ is_nan v;
  mb_agree : shared_cols_agree t1 t2;
  mb_types1 : Forall (fun ct => In ct mergeable_types) (ctypes t1);
  mb_types2 : Forall (fun ct => In ct mergeable_types) (ctypes t2);
  mb_names1 : ~ In "_TABLE_" (cnames t1) /\ ~ In "_DELETE_" (cnames t1);
  mb_names2 : ~ In "_TABLE_" (cnames t2) /\ ~ In "_DELETE_" (cnames t2) }.

(** h1 is h with ks as the sort keys of the tables at p1 and p2, and nothing else changed. *)
Definition keyed (ks : list skey) (p1 p2 : nat) (h h1 : list table) : Prop :=
  List.length h1 = List.length h
  /\ forall p t, nth_error h p = Some t ->
       nth_error h1 p = Some (if Nat.eqb p p1 || Nat.eqb p p2 then with_skeys ks t else t).

(** t' lists the rows of t once per key. *)
Record unique_rows (E : env) (ks : list skey) (t t' : table) : Prop := {
  un_wf : wf_table t';
  un_name : tname t' = tname t;
  un_keys : skeys t' = ks;
  un_cols : forall cn ct, ColType t' cn = Ok ct <-> ColType t cn = Ok ct;
  un_sorted : sorted_table E t';
  un_once : forall r r', (0 <= r < RowCount t')%Z -> (0 <= r' < RowCount t')%Z -> same_key ks t' r t' r' -> r = r';
  un_all : forall i, (0 <= i < RowCount t)%Z -> exists r, (0 <= r < RowCount t')%Z /\ same_key ks t i t' r;
  un_only : forall r, (0 <= r < RowCount t')%Z -> exists i, (0 <= i < RowCount t)%Z /\ same_key ks t i t' r;
  (** a cell holds data of a row with that key if there is any *)
  un_data : forall r cn v w, GetVal t' cn r = Ok v -> offers ks t t' r cn w -> is_data w -> offers ks t t' r cn v /\ is_data v;
  un_rest : forall r cn v, GetVal t' cn r = Ok v -> (forall x, offers ks t t' r cn x -> ~ is_data x) ->
    is_zero v \/ (is_nan v /\ forall x, offers ks t t' r cn x -> is_nan x) }.
