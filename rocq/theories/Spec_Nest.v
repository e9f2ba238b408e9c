(** Spec_Nest.v -- what Nest promises: every row gets the text of the rows with the same keys. *)
From Coq Require Import ZArith List String Bool Permutation.
From Verif Require Import Base Model_Names Model_Table Model_Sort Model_Heap Model_Parser Spec Spec_Sort Spec_Copy Spec_Text.
Import ListNotations.
Local Open Scope list_scope.

(** Row [i] of [t] and row [j] of [u] have equal values in all key columns. *)
Definition partner (ks : list skey) (t : table) (i : Z) (u : table) (j : Z) : Prop :=
  Forall (fun k => exists v w, GetVal t (k_col k) i = Ok v /\ GetVal u (k_col k) j = Ok w /\ val_eq w v) ks.
Definition has_partner (ks : list skey) (t : table) (i : Z) (u : table) : Prop :=
  exists j, (0 <= j < RowCount u)%Z /\ partner ks t i u j.

(** What Nest asks for: [t] has sort keys, [u] has these columns, no key is NaN, the new column
    can be appended to [t], and the cells of [u] can be written as text. *)
Record nest_ok (t u : table) (cn : string) : Prop := {
  no_keys : skeys t <> [];
  no_once : NoDup (map k_col (skeys t));
  no_keys_ok : keys_ok t;
  no_shared : Forall (fun k => exists i, nth_error (cnames u) i = Some (k_col k) /\ nth_error (ctypes u) i = Some (k_type k)) (skeys t);
  no_nan_t : forall k r v, In k (skeys t) -> GetVal t (k_col k) r = Ok v -> ~ is_nan v;
  no_nan_u : forall k r v, In k (skeys t) -> GetVal u (k_col k) r = Ok v -> ~ is_nan v;
  no_name : valid_name cn /\ all_ascii_chars cn;
  no_new : ~ In cn (cnames t);
  no_types : Forall unpadded_type (ctypes u);
  no_cells : Forall (Forall2 plain_cell (ctypes u)) (rows u) }.

(** [s] is a text that reads as a table with this name and these columns and rows. *)
Definition reads_as (s name : string) (cns cts : list string) (rs : list (list value)) : Prop :=
  forall h, exists h' n t, NewTableFromString s h = (h', Ok (Some n)) /\ nth_error h' n = Some t
    /\ tname t = name /\ cnames t = cns /\ ctypes t = cts /\ rows t = rs.

(** Row [i] has in column [cn] the text of its partners, in their order. *)
Definition nested_row (ks : list skey) (t u : table) (cn : string) (i : Z) : Prop :=
  exists s first last, GetVal t cn i = Ok (VString s)
    /\ (0 <= first <= last)%Z /\ (last < RowCount u)%Z
    /\ (forall j, (0 <= j < RowCount u)%Z -> partner ks t i u j <-> (first <= j <= last)%Z)
    /\ reads_as s cn (cnames u) (ctypes u) (row_range u first last).

(** The tables after Nest, when the first [n] rows have been nested. *)
Record nested_upto (E : env) (t u : table) (cn : string) (t' u' : table) (n : Z) : Prop := {
  nu_u : tname u' = tname u /\ cnames u' = cnames u /\ ctypes u' = ctypes u /\ Permutation (rows u') (rows u);
  nu_u_keys : skeys u' = skeys t;
  nu_u_sorted : sorted_table E u';
  nu_t : tname t' = tname t /\ skeys t' = skeys t;
  nu_t_cols : cnames t' = cnames t ++ [cn] /\ ctypes t' = ctypes t ++ ["string"%string];
  nu_t_rows : Permutation (map (firstn (List.length (cnames t))) (rows t')) (rows t);
  nu_t_sorted : sorted_table E t';
  nu_done : forall i, (0 <= i < n)%Z -> nested_row (skeys t) t' u' cn i;
  nu_rest : forall i, (n <= i < RowCount t)%Z -> GetVal t' cn i = Ok (VString "") }.
