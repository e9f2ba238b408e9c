(** Spec_Sort.v -- what is assumed of Go's sort.Sort, and the order the keys define. *)
From Coq Require Import ZArith NArith List String Ascii Bool Permutation SpecFloat.
From Verif Require Import Base Model_Names Model_Table Model_Sort Spec.
Import ListNotations.
Local Open Scope list_scope.

(** A Less function that is total (never panics) on the rows and a strict weak order there. *)
Record less_ok (less : list value -> list value -> option bool) (l : list (list value)) : Prop := {
  lo_total : forall x y, In x l -> In y l -> exists b, less x y = Some b;
  lo_irrefl : forall x, In x l -> less x x = Some false;
  lo_trans : forall x y z, In x l -> In y l -> In z l ->
    less x y = Some true -> less y z = Some true -> less x z = Some true;
  lo_incomp : forall x y z, In x l -> In y l -> In z l ->
    less x y = Some false -> less y z = Some false -> less x z = Some false }.

(** No later row is less than an earlier one. *)
Definition sorted_by (less : list value -> list value -> option bool) (l : list (list value)) : Prop :=
  forall i j x y, i < j -> nth_error l i = Some x -> nth_error l j = Some y -> less y x = Some false.

(** The contract of sort.Sort (Go library).  It only swaps elements; a panic can only
    come from Less; with two or more rows Less is called at least once; with a strict
    weak order the result is sorted. *)
Record env_ok (E : env) : Prop := {
  eo_perm : forall less l l', go_sort E less l = Some l' -> Permutation l' l;
  eo_total : forall less l,
    (forall x y, In x l -> In y l -> less x y <> None) -> exists l', go_sort E less l = Some l';
  eo_panic : forall less l, 2 <= List.length l ->
    (forall x y, In x l -> In y l -> less x y = None) -> go_sort E less l = None;
  eo_sorted : forall less l l', less_ok less l -> go_sort E less l = Some l' -> sorted_by less l' }.

(** ---------- the order of values ---------- *)

(** Go < on strings: bytewise, a proper prefix being smaller. *)
Definition str_lt (a b : string) : Prop :=
  exists p, (exists x r, a = p /\ b = (p ++ String x r)%string)
         \/ (exists x y ra rb, a = (p ++ String x ra)%string /\ b = (p ++ String y rb)%string
               /\ (N_of_ascii x < N_of_ascii y)%N).

(** The value of a float in units of the smallest positive one, 2^(3 - emax - prec);
    the infinities are beyond every finite value (NaN is excluded where this is used). *)
Definition scaled (prec emax : Z) (f : SpecFloat.spec_float) : Z :=
  match f with
  | SpecFloat.S754_zero _ | SpecFloat.S754_nan => 0
  | SpecFloat.S754_infinity s => (if s then -1 else 1) * 2 ^ (2 * emax + prec)
  | SpecFloat.S754_finite s m e => (if s then -1 else 1) * Zpos m * 2 ^ (e - (3 - emax - prec))
  end%Z.

Definition is_nan (v : value) : Prop := v = VFloat32 SpecFloat.S754_nan \/ v = VFloat64 SpecFloat.S754_nan.

(** v comes before w: false before true, numbers by value, strings by their lower-case
    forms and then bytewise. *)
Definition val_lt (E : env) (v w : value) : Prop :=
  match v, w with
  | VBool a, VBool b => a = false /\ b = true
  | VString a, VString b => str_lt (to_lower E a) (to_lower E b) \/ (to_lower E a = to_lower E b /\ str_lt a b)
  | VInt k a, VInt k' b => k = k' /\ (a < b)%Z
  | VFloat32 a, VFloat32 b => (scaled 24 128 a < scaled 24 128 b)%Z
  | VFloat64 a, VFloat64 b => (scaled 53 1024 a < scaled 53 1024 b)%Z
  | _, _ => False
  end.

(** v == w in Go: the same value, or both a zero of the same float type. *)
Definition val_eq (v w : value) : Prop :=
  v = w \/ match v, w with
           | VFloat32 (SpecFloat.S754_zero _), VFloat32 (SpecFloat.S754_zero _)
           | VFloat64 (SpecFloat.S754_zero _), VFloat64 (SpecFloat.S754_zero _) => True
           | _, _ => False
           end.

(** ---------- the order of rows ---------- *)

(** Row i comes before row j by the keys: at the first key where they differ, in the
    direction of that key. *)
Fixpoint keys_lt (E : env) (t : table) (ks : list skey) (i j : Z) : Prop :=
  match ks with
  | [] => False
  | k :: r => exists v w, GetVal t (k_col k) i = Ok v /\ GetVal t (k_col k) j = Ok w /\
      ((if k_rev k then val_lt E w v else val_lt E v w) \/ (val_eq v w /\ keys_lt E t r i j))
  end.

Definition sorted_table (E : env) (t : table) : Prop :=
  forall i j, (0 <= i < j)%Z -> (j < RowCount t)%Z -> ~ keys_lt E t (skeys t) j i.

(** Every sort key names a column of the table whose type is the key's type and is one
    of the sortable types. *)
Definition keys_ok (t : table) : Prop :=
  Forall (fun k => exists i, nth_error (cnames t) i = Some (k_col k) /\ nth_error (ctypes t) i = Some (k_type k)
                             /\ In (k_type k) sortable_types) (skeys t).

Definition no_nan_keys (t : table) : Prop :=
  forall k r v, In k (skeys t) -> GetVal t (k_col k) r = Ok v -> ~ is_nan v.

(** Row r holds the values vs in the key columns. *)
Definition row_matches (t : table) (vs : list value) (r : Z) : Prop :=
  Forall2 (fun k v => exists c, GetVal t (k_col k) r = Ok c /\ val_eq c v) (skeys t) vs.

(** The search values vs come before row r by the keys. *)
Fixpoint vals_before (E : env) (t : table) (ks : list skey) (vs : list value) (r : Z) : Prop :=
  match ks, vs with
  | k :: ks', v :: vs' => exists c, GetVal t (k_col k) r = Ok c /\
      ((if k_rev k then val_lt E c v else val_lt E v c) \/ (val_eq c v /\ vals_before E t ks' vs' r))
  | _, _ => False
  end.

(** Values a caller may search for: one per sort key, of that key's type, not NaN. *)
Definition search_values (t : table) (vs : list value) : Prop :=
  Forall2 (fun k v => cell_ok (k_type k) v /\ ~ is_nan v) (skeys t) vs.

(** t' differs from t in its sort keys only. *)
Definition same_but_keys (t t' : table) : Prop := t' = with_skeys (skeys t') t.

(** The keys that SetSortKeys(cns) asks for: each column once per mention, with the type
    it has in t, ascending. *)
Definition fresh_keys (t : table) (cns : list string) (ks : list skey) : Prop :=
  Forall2 (fun cn k => k_col k = cn /\ k_rev k = false /\ ColType t cn = Ok (k_type k) /\ In (k_type k) sortable_types) cns ks.

(** The columns that are not sort keys, in column order. *)
Definition non_key_cols (t : table) : list string :=
  filter (fun n => if in_dec string_dec n (map k_col (skeys t)) then false else true) (cnames t).

(** Comparison of two rows by the keys with every reverse mark ignored. *)
Definition unreversed (ks : list skey) : list skey := map (fun k => mkKey (k_col k) (k_type k) false) ks.
