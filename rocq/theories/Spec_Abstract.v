(** Spec_Abstract.v -- the abstract table of C11: a list of columns, each with a name, a
    type and its values, and what every call may do to it.  Nothing here mentions rows as
    slices, the map from names to indices, or any function of the model of the code other
    than the names of the calls. *)
From Coq Require Import ZArith NArith List String Ascii Bool SpecFloat Permutation.
From Verif Require Import Base Model_Names Model_Table Model_Sort Model_Ops Model_Heap Spec Spec_Sort.
Import ListNotations.
Local Open Scope string_scope.
Local Open Scope list_scope.

Record acol := mkCol { c_name : string; c_type : string; c_vals : list value }.

(** a_name is None for a NilTable. *)
Record atable := mkA {
  a_name : option string;
  a_shape : bool;
  a_len : nat;
  a_cols : list acol;
  a_keys : list skey }.

Definition names (a : atable) : list string := map c_name (a_cols a).
Definition types (a : atable) : list string := map c_type (a_cols a).
Definition col_of (a : atable) (cn : string) : option acol := find (fun c => c_name c =? cn) (a_cols a).
(** Column number c, counted from 0. *)
Definition col_no (a : atable) (c : Z) : option acol :=
  if (c <? 0)%Z then None else nth_error (a_cols a) (Z.to_nat c).
Definition at_row (col : acol) (r : Z) : option value :=
  if (r <? 0)%Z then None else nth_error (c_vals col) (Z.to_nat r).
Definition row_in (a : atable) (r : Z) : Prop := (0 <= r < Z.of_nat (a_len a))%Z.
Definition col_in (a : atable) (c : Z) : Prop := (0 <= c < Z.of_nat (List.length (a_cols a)))%Z.

(** ---------- the changes ---------- *)

Definition a_with_cols (n : nat) (cs : list acol) (a : atable) : atable := mkA (a_name a) (a_shape a) n cs (a_keys a).
Definition a_with_keys (ks : list skey) (a : atable) : atable := mkA (a_name a) (a_shape a) (a_len a) (a_cols a) ks.
(** The same columns with other values. *)
Definition revalue (f : list value -> list value) (c : acol) : acol := mkCol (c_name c) (c_type c) (f (c_vals c)).

(** The values at the positions p, in that order. *)
Definition pick_rows (p : list nat) (l : list value) : list value := map (fun i => nth i l VNil) p.

(** Only the cells of the region have changed, in the way Q says. *)
Record changed (region : Z -> Z -> Prop) (Q : string -> value -> Prop) (a a' : atable) : Prop := {
  ch_name : a_name a' = a_name a;
  ch_shape : a_shape a' = a_shape a;
  ch_keys : a_keys a' = a_keys a;
  ch_len : a_len a' = a_len a;
  ch_cols : Forall2 (fun c c' => c_name c' = c_name c /\ c_type c' = c_type c /\ List.length (c_vals c') = List.length (c_vals c))
                    (a_cols a) (a_cols a');
  ch_cells : forall c r col col' v v',
    col_no a c = Some col -> col_no a' c = Some col' -> at_row col r = Some v -> at_row col' r = Some v' ->
    (region c r -> Q (c_type col) v') /\ (~ region c r -> v' = v) }.

(** ---------- outcomes ---------- *)

Definition done (r : res unit) : Prop := r = Ok tt.
Definition rejected (a : atable) (r : res unit) (a' : atable) : Prop := r = Err /\ a' = a.
Definition panics (a : atable) (r : res unit) (a' : atable) : Prop := r = Panic /\ a' = a.

(** If P then the call succeeds with effect Q, else it is rejected without effect. *)
Definition if_ok (P Q : Prop) (a : atable) (r : res unit) (a' : atable) : Prop :=
  (P -> done r /\ Q) /\ (~ P -> rejected a r a').

(** The longest prefix of cns that are columns with a sortable type, as ascending keys. *)
Definition key_for_col (a : atable) (cn : string) : option skey :=
  match col_of a cn with
  | Some c => if in_dec string_dec (c_type c) sortable_types then Some (mkKey cn (c_type c) false) else None
  | None => None
  end.
Fixpoint asked_keys (a : atable) (cns : list string) : list skey * bool :=
  match cns with
  | [] => ([], true)
  | cn :: r => match key_for_col a cn with
               | Some k => let '(ks, b) := asked_keys a r in (k :: ks, b)
               | None => ([], false)
               end
  end.

(** The keys with the reverse mark on the columns cns, up to the first one that is no key. *)
Definition mark (cn : string) (ks : list skey) : list skey :=
  map (fun k => if string_dec (k_col k) cn then mkKey (k_col k) (k_type k) true else k) ks.
Fixpoint marked_keys (cns : list string) (ks : list skey) : list skey * bool :=
  match cns with
  | [] => (ks, true)
  | cn :: r => if in_dec string_dec cn (map k_col ks) then marked_keys r (mark cn ks) else (ks, false)
  end.

(** Rows in the order of the keys. *)
Definition a_get (a : atable) (cn : string) (r : Z) : option value :=
  match col_of a cn with Some c => at_row c r | None => None end.
Fixpoint a_before (E : env) (a : atable) (ks : list skey) (i j : Z) : Prop :=
  match ks with
  | [] => False
  | k :: r => exists v w, a_get a (k_col k) i = Some v /\ a_get a (k_col k) j = Some w /\
      ((if k_rev k then val_lt E w v else val_lt E v w) \/ (val_eq v w /\ a_before E a r i j))
  end.
Definition a_sorted (E : env) (a : atable) : Prop :=
  forall i j, (0 <= i < j)%Z -> (j < Z.of_nat (a_len a))%Z -> ~ a_before E a (a_keys a) j i.
Definition a_no_nan (a : atable) : Prop :=
  forall k r v, In k (a_keys a) -> a_get a (k_col k) r = Some v -> ~ is_nan v.
Definition a_keys_ok (a : atable) : Prop :=
  Forall (fun k => exists c, col_of a (k_col k) = Some c /\ c_type c = k_type k /\ In (k_type k) sortable_types) (a_keys a).

(** The same rows in another order. *)
Definition rearranged (a a' : atable) : Prop :=
  exists p, Permutation p (seq 0 (a_len a)) /\ a' = a_with_cols (a_len a) (map (revalue (pick_rows p)) (a_cols a)) a.

(** Sorting by the keys of a; if a key is stale the call may panic, with the rows in any
    order. *)
Definition sorts (E : env) (a : atable) (r : res unit) (a' : atable) : Prop :=
  (a_keys_ok a -> done r /\ rearranged a a' /\ (a_no_nan a -> a_sorted E a'))
  /\ (~ a_keys_ok a -> (done r \/ r = Panic) /\ rearranged a a').

(** ---------- the calls ---------- *)

(** The call o on the abstract table a may return r and leave the abstract table a'.
    fresh are the addresses of nested tables that the call may create. *)
Definition astep (E : env) (fresh : ptr -> Prop) (o : op) (a : atable) (r : res unit) (a' : atable) : Prop :=
  match o with
  | OSetName n =>
      if_ok (valid_name n) (a' = mkA (Some n) (a_shape a) (a_len a) (a_cols a) (a_keys a)) a r a'
  | OSetStructShape b => done r /\ a' = mkA (a_name a) b (a_len a) (a_cols a) (a_keys a)
  | OAppendRow =>
      if_ok (a_name a <> None)
        (exists zs, Forall2 (fun c z => zero_of fresh (c_type c) z) (a_cols a) zs
           /\ a' = a_with_cols (S (a_len a)) (map (fun p => revalue (fun l => l ++ [snd p]) (fst p)) (combine (a_cols a) zs)) a) a r a'
  | OAppendRows n =>
      if_ok (a_name a <> None /\ (0 <= n)%Z)
        (exists zss, Forall2 (fun c zs => List.length zs = Z.to_nat n /\ Forall (zero_of fresh (c_type c)) zs) (a_cols a) zss
           /\ a' = a_with_cols (a_len a + Z.to_nat n) (map (fun p => revalue (fun l => l ++ snd p) (fst p)) (combine (a_cols a) zss)) a) a r a'
  | ODeleteRow i =>
      if_ok (row_in a i)
        (a' = a_with_cols (a_len a - 1) (map (revalue (fun l => firstn (Z.to_nat i) l ++ skipn (S (Z.to_nat i)) l)) (a_cols a)) a) a r a'
  | ODeleteRows f l =>
      if_ok (row_in a f /\ row_in a l /\ (f <= l)%Z)
        (a' = a_with_cols (a_len a - Z.to_nat (l - f + 1))
                (map (revalue (fun vs => firstn (Z.to_nat f) vs ++ skipn (S (Z.to_nat l)) vs)) (a_cols a)) a) a r a'
  | ODeleteRowsAll => done r /\ a' = a_with_cols 0 (map (revalue (fun _ => [])) (a_cols a)) a
  | OAppendCol cn ct =>
      if_ok (a_name a <> None /\ valid_name cn /\ ~ In cn (names a) /\ In ct all_types)
        (exists zs, List.length zs = a_len a /\ Forall (zero_of fresh ct) zs
           /\ a' = a_with_cols (a_len a) (a_cols a ++ [mkCol cn ct zs]) a) a r a'
  | ODeleteCol cn =>
      if_ok (In cn (names a))
        (a' = a_with_cols (a_len a) (filter (fun c => negb (c_name c =? cn)) (a_cols a)) a) a r a'
  | ODeleteColByColIndex ci =>
      if_ok (col_in a ci)
        (a' = a_with_cols (a_len a) (firstn (Z.to_nat ci) (a_cols a) ++ skipn (S (Z.to_nat ci)) (a_cols a)) a) a r a'
  | ORenameCol old new =>
      if_ok (In old (names a) /\ ~ In new (names a) /\ valid_name new)
        (a' = a_with_cols (a_len a)
                (map (fun c => if c_name c =? old then mkCol new (c_type c) (c_vals c) else c) (a_cols a)) a) a r a'
  | ORenameColByColIndex ci new =>
      if_ok (col_in a ci /\ ~ In new (names a) /\ valid_name new)
        (forall col, col_no a ci = Some col ->
           a' = a_with_cols (a_len a)
                  (firstn (Z.to_nat ci) (a_cols a) ++ mkCol new (c_type col) (c_vals col) :: skipn (S (Z.to_nat ci)) (a_cols a)) a) a r a'
  | OSetVal cn ri v =>
      if_ok (row_in a ri /\ exists col, col_of a cn = Some col /\ has_type (c_type col) v)
        (forall ci, option_map c_name (col_no a ci) = Some cn ->
           changed (fun c r => c = ci /\ r = ri) (fun _ w => w = v) a a') a r a'
  | OSetValByColIndex ci ri v =>
      if_ok (row_in a ri /\ exists col, col_no a ci = Some col /\ has_type (c_type col) v)
        (changed (fun c r => c = ci /\ r = ri) (fun _ w => w = v) a a') a r a'
  | OSet vt cn ri v =>
      if_ok (v <> VBytes None /\ row_in a ri /\ exists col, col_of a cn = Some col /\ has_type (c_type col) v)
        (forall ci, option_map c_name (col_no a ci) = Some cn ->
           changed (fun c r => c = ci /\ r = ri) (fun _ w => w = v) a a') a r a'
  | OSetByColIndex vt ci ri v =>
      (v = VBytes None \/ v = VTable None -> rejected a r a')
      /\ (~ (v = VBytes None \/ v = VTable None) ->
           (~ col_in a ci -> panics a r a')
           /\ (col_in a ci -> if_ok (row_in a ri /\ exists col, col_no a ci = Some col /\ has_type (c_type col) v)
                                (changed (fun c r => c = ci /\ r = ri) (fun _ w => w = v) a a') a r a'))
  | OSetCellToZeroValue cn ri =>
      (~ In cn (names a) -> rejected a r a')
      /\ (In cn (names a) -> ~ row_in a ri -> panics a r a')
      /\ (In cn (names a) -> row_in a ri -> done r /\ forall ci, option_map c_name (col_no a ci) = Some cn ->
            changed (fun c r => c = ci /\ r = ri) (zero_of fresh) a a')
  | OSetCellToZeroValueByColIndex ci ri =>
      (~ (col_in a ci /\ row_in a ri) -> panics a r a')
      /\ (col_in a ci -> row_in a ri -> done r /\ changed (fun c r => c = ci /\ r = ri) (zero_of fresh) a a')
  | OSetRowCellsToZeroValue ri =>
      (a_name a = None -> rejected a r a')
      /\ (a_name a <> None -> ~ row_in a ri -> a_cols a <> [] -> panics a r a')
      /\ (a_name a <> None -> row_in a ri \/ a_cols a = [] -> done r /\ changed (fun _ r => r = ri) (zero_of fresh) a a')
  | OSetColCellsToZeroValue cn =>
      (~ In cn (names a) -> rejected a r a')
      /\ (In cn (names a) -> done r /\ forall ci, option_map c_name (col_no a ci) = Some cn ->
            changed (fun c _ => c = ci) (zero_of fresh) a a')
  | OSetColCellsToZeroValueByColIndex ci =>
      (~ col_in a ci -> a_len a <> 0 -> panics a r a')
      /\ (col_in a ci \/ a_len a = 0 -> done r /\ changed (fun c _ => c = ci) (zero_of fresh) a a')
  | OSetRowFloatCellsToNaN ri =>
      if_ok (row_in a ri \/ Forall (fun ct => nan_of ct = None) (types a))
        (changed (fun c r => r = ri /\ exists col, col_no a c = Some col /\ nan_of (c_type col) <> None) (fun ct v => nan_of ct = Some v) a a') a r a'
  | OSetAllFloatCellsToNaN =>
      done r /\ changed (fun c _ => exists col, col_no a c = Some col /\ nan_of (c_type col) <> None) (fun ct v => nan_of ct = Some v) a a'
  | OSetColFloatCellsToNaN cn =>
      if_ok (exists col, col_of a cn = Some col /\ (a_len a = 0 \/ nan_of (c_type col) <> None))
        (forall ci, option_map c_name (col_no a ci) = Some cn -> changed (fun c _ => c = ci) (fun ct v => nan_of ct = Some v) a a') a r a'
  | OSetColFloatCellsToNaNByColIndex ci =>
      if_ok (a_len a = 0 \/ exists col, col_no a ci = Some col /\ nan_of (c_type col) <> None)
        (changed (fun c _ => c = ci) (fun ct v => nan_of ct = Some v) a a') a r a'
  | OSetFloatCellToNaN cn ri =>
      if_ok (row_in a ri /\ exists col, col_of a cn = Some col /\ nan_of (c_type col) <> None)
        (forall ci, option_map c_name (col_no a ci) = Some cn -> changed (fun c r => c = ci /\ r = ri) (fun ct v => nan_of ct = Some v) a a') a r a'
  | OSetFloatCellToNaNByColIndex ci ri =>
      if_ok (row_in a ri /\ exists col, col_no a ci = Some col /\ nan_of (c_type col) <> None)
        (changed (fun c r => c = ci /\ r = ri) (fun ct v => nan_of ct = Some v) a a') a r a'
  | OReorderCols ns =>
      if_ok (Permutation ns (names a))
        (exists cs, a' = a_with_cols (a_len a) cs a /\ Permutation cs (a_cols a) /\ map c_name cs = ns) a r a'
  | OReorderColsByColIndex order =>
      if_ok (Permutation order (map Z.of_nat (seq 0 (List.length (a_cols a)))))
        (exists cs, a' = a_with_cols (a_len a) cs a /\ map Some cs = map (col_no a) order) a r a'
  | OReverse => done r /\ a' = a_with_cols (a_len a) (map (revalue (@rev value)) (a_cols a)) a
  | OShuffle _ => done r /\ rearranged a a'
  | OSetSortKeys cns =>
      r = (if snd (asked_keys a cns) then Ok tt else Err) /\ a' = a_with_keys (fst (asked_keys a cns)) a
  | OSetSortKeysReverse cns =>
      r = (if snd (marked_keys cns (a_keys a)) then Ok tt else Err) /\ a' = a_with_keys (fst (marked_keys cns (a_keys a))) a
  | OAppendSortKey cn =>
      match key_for_col a cn with
      | Some k => done r /\ a' = a_with_keys (a_keys a ++ [k]) a
      | None => rejected a r a'
      end
  | ODeleteSortKey cn =>
      if_ok (In cn (names a) /\ In cn (map k_col (a_keys a)))
        (exists k1 k k2, a_keys a = k1 ++ k :: k2 /\ k_col k = cn /\ ~ In cn (map k_col k1) /\ a' = a_with_keys (k1 ++ k2) a) a r a'
  | OSort cns =>
      match cns with
      | [] => match a_keys a with [] => rejected a r a' | _ => sorts E a r a' end
      | _ => if snd (asked_keys a cns) then sorts E (a_with_keys (fst (asked_keys a cns)) a) r a'
             else r = Err /\ a' = a_with_keys (fst (asked_keys a cns)) a
      end
  | OSortSimple cns =>
      match cns with
      | [] => rejected a r a'
      | _ => if snd (asked_keys a cns) then sorts E (a_with_keys (fst (asked_keys a cns)) a) r a'
             else r = Err /\ a' = a_with_keys (fst (asked_keys a cns)) a
      end
  | OOrderColsBySortKeys =>
      let order := map k_col (a_keys a)
                   ++ filter (fun n => if in_dec string_dec n (map k_col (a_keys a)) then false else true) (names a) in
      (List.length (a_cols a) < List.length order -> panics a r a')
      /\ (List.length order <= List.length (a_cols a) ->
            if_ok (Permutation order (names a))
              (exists cs, a' = a_with_cols (a_len a) cs a /\ Permutation cs (a_cols a) /\ map c_name cs = order) a r a')
  end.

(** ---------- the abstraction ---------- *)

(** The abstract table that a table implements: column i holds cell i of every row. *)
Definition abs (t : table) : atable :=
  mkA (if is_nil t then None else Some (tname t)) (struct_shape t) (List.length (rows t))
      (map (fun p => mkCol (fst (snd p)) (snd (snd p)) (map (fun row => nth (fst p) row VNil) (rows t)))
           (combine (seq 0 (List.length (cnames t))) (combine (cnames t) (ctypes t))))
      (skeys t).

(** ---------- what a caller reads ---------- *)

(** The answers of the reading methods on the abstract table. *)
Definition answer {A} (o : option A) : res A := match o with Some x => Ok x | None => Err end.
Record same_answers (t : table) (a : atable) : Prop := {
  sa_name : Name t = match a_name a with Some n => n | None => "" end;
  sa_nil : is_nil t = match a_name a with Some _ => false | None => true end;
  sa_shape : struct_shape t = a_shape a;
  sa_colcount : ColCount t = Z.of_nat (List.length (a_cols a));
  sa_rowcount : RowCount t = Z.of_nat (a_len a);
  sa_keys : skeys t = a_keys a;
  sa_hasrow : forall r, HasRow t r = true <-> row_in a r;
  sa_colname : forall c, ColName t c = answer (option_map c_name (col_no a c));
  sa_coltype_no : forall c, ColTypeByColIndex t c = answer (option_map c_type (col_no a c));
  sa_coltype : forall cn, ColType t cn = answer (option_map c_type (col_of a cn));
  sa_hascol : forall cn, HasCol t cn = Ok (match col_of a cn with Some _ => true | None => false end);
  sa_colindex : forall cn c, ColIndex t cn = Ok c <-> option_map c_name (col_no a c) = Some cn;
  sa_getval_no : forall c r, GetValByColIndex t c r = answer (match col_no a c with Some col => at_row col r | None => None end);
  sa_getval : forall cn r, GetVal t cn r = answer (a_get a cn r);
  sa_get_no : forall vt c r v, In vt all_types -> GetTByColIndex vt t c r = Ok v <->
    exists col, col_no a c = Some col /\ same_go_type vt (c_type col) /\ at_row col r = Some v;
  sa_get : forall vt cn r v, In vt all_types -> GetT vt t cn r = Ok v <->
    exists col, col_of a cn = Some col /\ same_go_type vt (c_type col) /\ at_row col r = Some v;
  sa_no_panic : forall vt c cn r, In vt all_types -> GetTByColIndex vt t c r <> Panic /\ GetT vt t cn r <> Panic }.

(** ---------- histories ---------- *)

(** A program has a number of tables.  One call of a method of the table p changes that
    table as astep says; the other tables stay as they are; nested NilTables may be made. *)
Definition a_nil : atable := mkA None false 0 [] [].
Record only_table (p : ptr) (a' : atable) (A A' : list atable) : Prop := {
  ot_it : nth_error A' p = Some a';
  ot_others : forall q, q <> p -> q < List.length A -> nth_error A' q = nth_error A q;
  ot_more : List.length A <= List.length A';
  ot_new : forall q, List.length A <= q < List.length A' -> nth_error A' q = Some a_nil }.
Inductive acall (E : env) (A : list atable) : hop -> res ref -> list atable -> Prop :=
| ac_method p o a r a' A' : nth_error A p = Some a -> astep E (fun q => List.length A <= q) o a r a' ->
    only_table p a' A A' -> acall E A (HTab (Some p) o) (match r with Ok _ => Ok None | Err => Err | Panic => Panic end) A'
| ac_nil_receiver o : acall E A (HTab None o) Err A
| ac_new n : valid_name n -> acall E A (HNewTable n) (Ok (Some (List.length A))) (A ++ [mkA (Some n) false 0 [] []])
| ac_new_bad n : ~ valid_name n -> acall E A (HNewTable n) Err A
| ac_new_nil : acall E A HNewNilTable (Ok (Some (List.length A))) (A ++ [a_nil]).
Inductive ahistory (E : env) (A : list atable) : list hop -> list (res ref) -> list atable -> Prop :=
| ah_start : ahistory E A [] [] A
| ah_call cs rs A1 c r A2 : ahistory E A cs rs A1 -> acall E A1 c r A2 -> ahistory E A (cs ++ [c]) (rs ++ [r]) A2.

(** The calls in question: the methods of one table, and the making of tables. *)
Definition one_table (c : hop) : Prop :=
  match c with HTab _ _ | HNewTable _ | HNewNilTable => True | _ => False end.
(** The same history on the code: calls cs with results rs lead from h to h'. *)
Inductive calls_from (E : env) (h : heap) : list hop -> list (res ref) -> heap -> Prop :=
| hi_start : calls_from E h [] [] h
| hi_call cs rs h1 c : calls_from E h cs rs h1 -> hop_typed h1 c = true -> one_table c ->
    calls_from E h (cs ++ [c]) (rs ++ [snd (hexec E c h1)]) (fst (hexec E c h1)).
