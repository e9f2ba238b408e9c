(** Props_Sort.v -- sort keys, Sort, Search: C18, C19, C20, C39, C40 (refuted), C43, C44, C45. *)
From Coq Require Import ZArith NArith List String Ascii Bool SpecFloat Permutation Lia.
From Verif Require Import Base Model_Names Model_Table Model_Sort Model_Copy Spec Spec_Sort.
From Verif Require Import Proofs_Lib Proofs_Table Proofs_Cells Proofs_Struct Proofs_Api Proofs_Api2 Proofs_Pres Samples.
From Verif Require Import Proofs_Copy Proofs_Order Proofs_Sort Proofs_Search Proofs_Keys Proofs_Env Props_Struct.
Import ListNotations.
Local Open Scope string_scope.
Local Open Scope list_scope.

(** A table of five rows with keys of three kinds, one of them reversed. *)
Definition stock_build : M unit :=
  SetName "Stock" ;;;
  AppendCol "kind" "string" ;;; AppendCol "n" "int" ;;; AppendCol "w" "float64" ;;; AppendCol "note" "[]byte" ;;;
  AppendRows 5 ;;;
  SetVal "kind" 0 (VString "b") ;;; SetVal "kind" 1 (VString "A") ;;; SetVal "kind" 2 (VString "a") ;;;
  SetVal "kind" 3 (VString "b") ;;; SetVal "kind" 4 (VString "b") ;;;
  SetVal "n" 0 (VInt KInt 1) ;;; SetVal "n" 1 (VInt KInt (-5)) ;;; SetVal "n" 3 (VInt KInt 9) ;;; SetVal "n" 4 (VInt KInt 1) ;;;
  SetVal "w" 2 (VFloat64 (S754_zero true)) ;;;
  SetSortKeys ["kind"; "n"] ;;; SetSortKeysReverse ["n"].
Definition stock : table := Eval vm_compute in fst (run stock_build 0 NewNilTable).
Lemma stock_ok : run stock_build 0 NewNilTable = (stock, Ok tt).
Proof. vm_compute. reflexivity. Qed.
Lemma wf_stock : wf_table stock.
Proof.
  change stock with (fst (stock, @Ok unit tt)). rewrite <- stock_ok.
  apply run_pres; [|apply wf_NewNilTable|constructor].
  unfold stock_build. pr; try (apply pres_SetVal; try reflexivity; exact I); auto using pres_SetSortKeys, pres_SetSortKeysReverse.
Qed.
Lemma keys_stock : keys_ok stock.
Proof.
  repeat constructor; [exists 0|exists 1]; repeat split; simpl; auto 20.
Qed.
Lemma no_nan_ints t : wf_table t -> Forall (fun k => exists i, nth_error (cnames t) i = Some (k_col k) /\
    nth_error (ctypes t) i <> Some "float32" /\ nth_error (ctypes t) i <> Some "float64") (skeys t) -> no_nan_keys t.
Proof.
  intros W F k r v I G. rewrite Forall_forall in F. destruct (F k I) as (i & N & T1 & T2).
  rewrite (GetVal_col_at t (Z.of_nat i)) in G by (auto; now apply col_at_nat). rewrite get_at in G by auto.
  destruct (_ && _)%bool; [|discriminate]. rewrite Nat2Z.id in G. destruct (at_cell t i (Z.to_nat r)) as [v'|] eqn:A; [|discriminate].
  injection G as ->. destruct (at_cell_range _ _ _ _ W A) as [C R].
  destruct (wf_at_cell t i (Z.to_nat r) W C R) as (ct & v' & CT & _ & A' & [H _]). rewrite A' in A. injection A as ->.
  intros [-> | ->]; simpl in H; subst; auto.
Qed.
Lemma no_nan_stock : no_nan_keys stock.
Proof.
  apply no_nan_ints; [apply wf_stock|]. repeat constructor; [exists 0|exists 1]; repeat split; discriminate.
Qed.

(** ---------- C20: the comparison of values ---------- *)

(** compareFuncs[ct](v, w) is -1, 0 or 1 according to the order of the values. *)
Theorem C20_compare_meaning : forall E ct v w, In ct sortable_types -> cell_ok ct v -> cell_ok ct w -> ~ is_nan v -> ~ is_nan w ->
  exists c, compare_val E ct v w = Some c /\ (c = -1 \/ c = 0 \/ c = 1)%Z
    /\ (c = -1 <-> val_lt E v w)%Z /\ (c = 0 <-> val_eq v w)%Z /\ (c = 1 <-> val_lt E w v)%Z.
Proof.
  intros E ct v w S Hv Hw Nv Nw. destruct (compare_val_ok E ct v w S (conj Hv Nv) (conj Hw Nw)) as (c & C & H).
  exists c. split; auto.
Qed.

(** The order is total and consistent: antisymmetric, transitive, and 0 is an equivalence
    that respects it. *)
Theorem C20_total_order : forall E ct, In ct sortable_types ->
  let ok v := cell_ok ct v /\ ~ is_nan v in
  let cmp v w c := compare_val E ct v w = Some c in
  (forall v w, ok v -> ok w -> exists c, cmp v w c /\ cmp w v (- c)%Z)
  /\ (forall u v w, ok u -> ok v -> ok w -> cmp u v (-1)%Z -> cmp v w (-1)%Z -> cmp u w (-1)%Z)
  /\ (forall u v w, ok u -> ok v -> ok w -> cmp u v 0%Z -> cmp v w 0%Z -> cmp u w 0%Z)
  /\ (forall u v w c, ok u -> ok v -> ok w -> cmp u v 0%Z -> cmp v w c -> cmp u w c)
  /\ (forall v, ok v -> cmp v v 0%Z).
Proof.
  intros E ct S ok cmp.
  assert (M : forall v w, ok v -> ok w -> exists c, cmp v w c /\ cmp_ok E v w c).
  { intros v w Hv Hw. apply (compare_val_ok E ct v w S Hv Hw). }
  assert (U : forall v w c, ok v -> ok w -> cmp_ok E v w c -> cmp v w c).
  { intros v w c Hv Hw (R & H1 & H2 & H3). destruct (M v w Hv Hw) as (c' & C' & R' & H1' & H2' & H3').
    replace c with c'; auto. destruct R as [->|[->| ->]].
    - apply H1', H1. reflexivity. - apply H2', H2. reflexivity. - apply H3', H3. reflexivity. }
  assert (I : forall v w c, ok v -> ok w -> cmp v w c -> cmp_ok E v w c).
  { intros v w c Hv Hw C. destruct (M v w Hv Hw) as (c' & C' & H'). unfold cmp in *. congruence. }
  assert (L : forall v w, ok v -> ok w -> val_lt E v w -> cmp v w (-1)%Z).
  { intros v w Hv Hw H. destruct (M v w Hv Hw) as (c' & C' & R' & H1' & _). apply H1' in H. now subst. }
  assert (Q : forall v w, ok v -> ok w -> val_eq v w -> cmp v w 0%Z).
  { intros v w Hv Hw H. destruct (M v w Hv Hw) as (c' & C' & R' & _ & H2' & _). apply H2' in H. now subst. }
  split; [|split; [|split; [|split]]].
  - intros v w Hv Hw. destruct (M v w Hv Hw) as (c & C & R & H1 & H2 & H3). exists c. split; auto.
    apply U; auto. split; [lia|]. split; [rewrite <- H3; lia|]. split; [|rewrite <- H1; lia].
    split; intros H; [apply val_eq_sym, H2; lia|]. apply val_eq_sym, H2 in H. lia.
  - intros u v w Hu Hv Hw C1 C2. apply I in C1; auto. apply I in C2; auto. apply L; auto.
    eapply (val_lt_trans E ct u v w); auto; [apply C1|apply C2]; auto.
  - intros u v w Hu Hv Hw C1 C2. apply I in C1; auto. apply I in C2; auto. apply Q; auto.
    eapply val_eq_trans; [apply C1|apply C2]; auto.
  - intros u v w c Hu Hv Hw C1 C2. apply I in C1; auto. apply I in C2; auto. apply U; auto.
    assert (EQ : val_eq u v) by (apply C1; auto). destruct C2 as (R & H1 & H2 & H3). split; auto.
    assert (A1 : val_lt E u w <-> val_lt E v w).
    { split; intros H; [eapply (val_lt_eq_l E ct v u w); auto; now apply val_eq_sym|eapply (val_lt_eq_l E ct u v w); auto]. }
    assert (A2 : val_lt E w u <-> val_lt E w v).
    { split; intros H; [eapply (val_lt_eq_r E ct w u v); auto|eapply (val_lt_eq_r E ct w v u); auto; now apply val_eq_sym]. }
    assert (A3 : val_eq u w <-> val_eq v w).
    { split; intros H; eapply val_eq_trans; eauto. now apply val_eq_sym. }
    rewrite A1, A2, A3. auto.
  - intros v Hv. apply Q; auto. apply val_eq_refl.
Qed.

(** A zero comparison of anything but floats means the very same value; of floats, that
    they are the same or both zero. *)
Theorem C20_zero_means_equal : forall E ct v w, In ct sortable_types -> cell_ok ct v -> cell_ok ct w -> ~ is_nan v -> ~ is_nan w ->
  compare_val E ct v w = Some 0%Z ->
  v = w \/ exists s s', (v = VFloat32 (S754_zero s) /\ w = VFloat32 (S754_zero s'))
                     \/ (v = VFloat64 (S754_zero s) /\ w = VFloat64 (S754_zero s')).
Proof.
  intros E ct v w S Hv Hw Nv Nw C. destruct (C20_compare_meaning E ct v w S Hv Hw Nv Nw) as (c & C' & _ & _ & H & _).
  rewrite C in C'. injection C' as <-. destruct (proj1 H eq_refl) as [->|X]; auto. right.
  destruct v as [| | | |[]|[]| | | |], w as [| | | |[]|[]| | | |]; simpl in X; try contradiction; eauto 6.
Qed.

(** The hypothesis on NaN is needed: NaN compares 0 with every float. *)
Theorem C20_NaN_refuted : forall E f, compare_val E "float64" (VFloat64 S754_nan) (VFloat64 f) = Some 0%Z.
Proof. intros E f. destruct f as [[]|[]| |[]]; reflexivity. Qed.

Example C20_nonvacuous :
  compare_val env0 "string" (VString "Zoo") (VString "apple") = Some 1%Z
  /\ compare_val env0 "string" (VString "Apple") (VString "apple") = Some (-1)%Z
  /\ compare_val env0 "bool" (VBool false) (VBool true) = Some (-1)%Z
  /\ compare_val env0 "int8" (VInt KInt8 (-128)) (VInt KInt8 127) = Some (-1)%Z
  /\ compare_val env0 "float64" (VFloat64 (S754_zero true)) (VFloat64 (S754_zero false)) = Some 0%Z
  /\ cell_ok "float64" (VFloat64 (S754_zero true)) /\ ~ is_nan (VFloat64 (S754_zero true)).
Proof. repeat (split; [vm_compute; reflexivity|]). split; [split; reflexivity|]. intros [H|H]; discriminate. Qed.

(** ---------- C18: Sort ---------- *)

(** With keys on existing sortable columns Sort never panics, permutes the rows and
    changes nothing else; without NaN in the key columns the result is in key order. *)
Theorem C18_Sort : forall E t b, env_ok E -> wf_table t -> skeys t <> [] -> keys_ok t ->
  exists t', run (Sort E []) b t = (t', Ok tt)
    /\ same_header t t' /\ Permutation (rows t') (rows t) /\ wf_table t'
    /\ (no_nan_keys t -> sorted_table E t').
Proof.
  intros E t b EO W NE K.
  destruct (eo_total E EO (less_rows E (cmap t) (skeys t)) (rows t)) as [rs R].
  { intros x y X Y. destruct (less_rows_total E t (skeys t) x y W K X Y) as [c ->]. discriminate. }
  exists (with_rows rs t). split.
  { unfold run. rewrite Sort_keys_eq. simpl s_tab. rewrite R.
    destruct (Nat.eqb_spec (List.length (skeys t)) 0) as [Z0|_]; [apply length_zero_iff_nil in Z0; congruence|]. reflexivity. }
  pose proof (eo_perm E EO _ _ _ R) as P.
  split; [constructor; reflexivity|]. split; [exact P|]. split; [now apply wf_perm|].
  intros NN. now apply sorted_rows.
Qed.

Theorem C18_no_keys : forall E t b, skeys t = [] -> run (Sort E []) b t = (t, Err).
Proof. intros E t b H. unfold run. rewrite Sort_keys_eq. simpl s_tab. now rewrite H. Qed.

(** Sort(cols...) first makes cols the sort keys, then sorts; if a column is missing or not
    sortable it fails and the rows stay as they were. *)
Theorem C18_Sort_cols : forall E t b cols, wf_table t -> cols <> [] ->
  (forall ks, fresh_keys t cols ks -> run (Sort E cols) b t = run (Sort E []) b (with_skeys ks t))
  /\ ((exists cn, In cn cols /\ ~ exists ct, ColType t cn = Ok ct /\ In ct sortable_types) ->
        exists t', run (Sort E cols) b t = (t', Err) /\ same_but_keys t t').
Proof.
  intros E t b cols W NE.
  assert (LT : Nat.ltb 0 (List.length cols) = true) by (destruct cols; [congruence|reflexivity]). split.
  - intros ks F. assert (KF : keys_for t cols = (ks, true)).
    { apply keys_for_true. eapply Forall2_impl; [|exact F]. intros cn k (H1 & H2 & H3 & H4). apply key_for_ok. auto. }
    unfold run, Sort. rewrite LT. erewrite bind_eq_ok by (rewrite SetSortKeys_eq by auto; simpl s_tab; rewrite KF; reflexivity).
    reflexivity.
  - intros (cn & I & N). assert (KF : snd (keys_for t cols) = false).
    { apply keys_for_false. exists cn. split; auto. destruct (key_for t cn) as [k|] eqn:K; auto. exfalso. apply N.
      apply key_for_ok in K. exists (k_type k). tauto. }
    unfold run, Sort. rewrite LT. erewrite bind_eq_err by (rewrite SetSortKeys_eq by auto; simpl s_tab; rewrite KF; reflexivity).
    eexists. split; [reflexivity|]. reflexivity.
Qed.

(** SortSimple(cols...) is the same for a non-empty list and an error for an empty one. *)
Theorem C18_SortSimple : forall E t b cols, run (SortSimple E cols) b t =
  match cols with [] => (t, Err) | _ => run (SetSortKeys cols ;;; sortByKeys E) b t end.
Proof.
  intros E t b cols. unfold SortSimple, run. rewrite bind_check. destruct cols; reflexivity.
Qed.

(** SetSortKeys(cols...) makes exactly those columns the ascending keys, in that order. *)
Theorem C18_SetSortKeys : forall t b cols, wf_table t ->
  (forall ks, fresh_keys t cols ks -> run (SetSortKeys cols) b t = (with_skeys ks t, Ok tt) /\ keys_ok (with_skeys ks t))
  /\ ((exists cn, In cn cols /\ ~ exists ct, ColType t cn = Ok ct /\ In ct sortable_types) ->
        exists t', run (SetSortKeys cols) b t = (t', Err) /\ same_but_keys t t').
Proof.
  intros t b cols W. split.
  - intros ks F. assert (KF : keys_for t cols = (ks, true)).
    { apply keys_for_true. eapply Forall2_impl; [|exact F]. intros cn k (H1 & H2 & H3 & H4). apply key_for_ok. auto. }
    split. { unfold run. rewrite SetSortKeys_eq by auto. simpl s_tab. rewrite KF. reflexivity. }
    unfold keys_ok. simpl. clear KF. induction F as [|cn k cns ks (H1 & H2 & H3 & H4) F IH]; constructor; auto.
    apply wf_ColType_iff in H3 as (i & A & B); auto. exists i. rewrite H1. auto.
  - intros (cn & I & N). assert (KF : snd (keys_for t cols) = false).
    { apply keys_for_false. exists cn. split; auto. destruct (key_for t cn) as [k|] eqn:K; auto. exfalso. apply N.
      apply key_for_ok in K. exists (k_type k). tauto. }
    unfold run. rewrite SetSortKeys_eq by auto. simpl s_tab. rewrite KF. eexists. split; reflexivity.
Qed.

(** SetSortKeysReverse(cols...) marks exactly the keys of those columns, when they all are keys. *)
Theorem C18_SetSortKeysReverse : forall t b cols, (forall cn, In cn cols -> In cn (map k_col (skeys t))) ->
  exists t', run (SetSortKeysReverse cols) b t = (t', Ok tt) /\ same_but_keys t t'
    /\ Forall2 (fun k k' => k_col k' = k_col k /\ k_type k' = k_type k /\ (k_rev k' = true <-> k_rev k = true \/ In (k_col k) cols))
               (skeys t) (skeys t').
Proof.
  intros t b cols H. eexists. split.
  { unfold run. rewrite SetSortKeysReverse_eq by (rewrite Forall_forall; exact H). reflexivity. }
  split; [reflexivity|]. simpl. clear H. induction (skeys t) as [|k ks IH]; constructor; auto.
  destruct (str_in (k_col k) cols) eqn:S; simpl.
  - apply str_in_In in S. repeat split; auto.
  - apply str_in_false in S. tauto.
Qed.

Example C18_nonvacuous :
  env_ok env0 /\ wf_table stock /\ skeys stock = [mkKey "kind" "string" false; mkKey "n" "int" true]
  /\ keys_ok stock /\ no_nan_keys stock
  /\ map (fun row => nth 1 row VNil) (rows (fst (run (Sort env0 []) 0 stock)))
     = [VInt KInt (-5); VInt KInt 0; VInt KInt 9; VInt KInt 1; VInt KInt 1]
  /\ snd (run (Sort env0 ["kind"; "note"]) 0 stock) = Err.
Proof.
  split; [apply env0_ok|]. split; [apply wf_stock|]. split; [reflexivity|]. split; [apply keys_stock|]. split; [apply no_nan_stock|].
  split; vm_compute; reflexivity.
Qed.

(** ---------- C19: Search ---------- *)

Theorem C19_SearchFirst : forall E t vs, wf_table t -> keys_ok t -> no_nan_keys t -> skeys t <> [] ->
  search_values t vs -> sorted_table E t ->
  match SearchFirst E t vs with
  | Ok i => (0 <= i < RowCount t)%Z /\ row_matches t vs i /\ forall j, (0 <= j < i)%Z -> ~ row_matches t vs j
  | Err => forall r, (0 <= r < RowCount t)%Z -> ~ row_matches t vs r
  | Panic => False
  end.
Proof. intros. now apply SearchFirst_spec. Qed.

(** SearchLast meets its contract when some row is not greater than the search values;
    otherwise it panics. *)
Theorem C19_SearchLast : forall E t vs, wf_table t -> keys_ok t -> no_nan_keys t -> skeys t <> [] ->
  search_values t vs -> sorted_table E t ->
  (exists r, (0 <= r < RowCount t)%Z /\ ~ vals_before E t (skeys t) vs r) ->
  match SearchLast E t vs with
  | Ok i => (0 <= i < RowCount t)%Z /\ row_matches t vs i /\ forall j, (i < j < RowCount t)%Z -> ~ row_matches t vs j
  | Err => forall r, (0 <= r < RowCount t)%Z -> ~ row_matches t vs r
  | Panic => False
  end.
Proof.
  intros E t vs W K NN KS VS ST (r & R & NB). destruct (SearchLast_spec E t vs W K NN KS VS ST) as [H _].
  destruct (SearchLast E t vs); auto.
Qed.

Theorem C19_SearchLast_panics_refuted : forall E t vs, wf_table t -> keys_ok t -> no_nan_keys t -> skeys t <> [] ->
  search_values t vs -> sorted_table E t ->
  (SearchLast E t vs = Panic <-> forall r, (0 <= r < RowCount t)%Z -> vals_before E t (skeys t) vs r).
Proof.
  intros E t vs W K NN KS VS ST. destruct (SearchLast_spec E t vs W K NN KS VS ST) as [H1 H2]. split; auto.
  intros P. now rewrite P in H1.
Qed.

(** SearchRange needs no such condition: it fails before SearchLast is reached. *)
Theorem C19_SearchRange : forall E t vs, wf_table t -> keys_ok t -> no_nan_keys t -> skeys t <> [] ->
  search_values t vs -> sorted_table E t ->
  match SearchRange E t vs with
  | Ok (f, l) => (0 <= f <= l)%Z /\ (l < RowCount t)%Z /\ forall r, (0 <= r < RowCount t)%Z -> (row_matches t vs r <-> (f <= r <= l)%Z)
  | Err => forall r, (0 <= r < RowCount t)%Z -> ~ row_matches t vs r
  | Panic => False
  end.
Proof. intros. now apply SearchRange_spec. Qed.

(** A wrong number of values, or no keys, is an error. *)
Theorem C19_bad_arguments : forall E t vs, List.length vs <> List.length (skeys t) \/ skeys t = [] \/ vs = [] ->
  SearchFirst E t vs = Err /\ SearchLast E t vs = Err /\ SearchRange E t vs = Err.
Proof.
  intros E t vs H. assert (C : checkSearchArguments t vs = Err).
  { unfold checkSearchArguments. destruct (Nat.eqb_spec (List.length vs) 0) as [|N1]; auto.
    destruct (Nat.eqb_spec (List.length (skeys t)) 0) as [|N2]; auto.
    destruct (Nat.eqb_spec (List.length vs) (List.length (skeys t))) as [EQ|]; auto. exfalso.
    destruct H as [H|[H|H]]; [congruence|rewrite H in N2; auto|rewrite H in N1; auto]. }
  unfold SearchFirst, SearchLast, SearchRange. now rewrite C.
Qed.

(** The hypotheses are met by what Sort returns: sort stock, then search it. *)
Definition stock_sorted : table := Eval vm_compute in fst (run (Sort env0 []) 0 stock).
Lemma stock_sorted_hyps : wf_table stock_sorted /\ keys_ok stock_sorted /\ sorted_table env0 stock_sorted.
Proof.
  destruct (C18_Sort env0 stock 0 env0_ok wf_stock ltac:(discriminate) keys_stock) as (t' & R & SH & P & W & S).
  assert (t' = stock_sorted). { change t' with (fst (t', @Ok unit tt)). rewrite <- R. vm_compute. reflexivity. } subst.
  split; auto. split; [|apply S, no_nan_stock]. repeat constructor; [exists 0|exists 1]; repeat split; simpl; auto 20.
Qed.
Example C19_nonvacuous :
  wf_table stock_sorted /\ keys_ok stock_sorted /\ no_nan_keys stock_sorted /\ sorted_table env0 stock_sorted
  /\ search_values stock_sorted [VString "b"; VInt KInt 1]
  /\ SearchFirst env0 stock_sorted [VString "b"; VInt KInt 1] = Ok 3%Z
  /\ SearchLast env0 stock_sorted [VString "b"; VInt KInt 1] = Ok 4%Z
  /\ SearchRange env0 stock_sorted [VString "b"; VInt KInt 1] = Ok (3, 4)%Z
  /\ SearchRange env0 stock_sorted [VString "b"; VInt KInt 2] = Err
  /\ SearchLast env0 stock_sorted [VString "A"; VInt KInt 7] = Panic.
Proof.
  destruct stock_sorted_hyps as (W & K & S). split; auto. split; auto. split.
  { apply no_nan_ints; auto. repeat constructor; [exists 0|exists 1]; repeat split; discriminate. }
  split; auto. split. { repeat constructor; intros [H|H]; discriminate. }
  repeat split; vm_compute; reflexivity.
Qed.

(** ---------- C43: the binary searches ---------- *)

Theorem C43_SearchFirst : forall n f g, (0 <= n)%Z -> (forall i, (0 <= i < n)%Z -> f i = Ok (g i)) ->
  (forall i j, (0 <= i <= j)%Z -> (j < n)%Z -> g i = true -> g j = true) ->
  exists r, SearchFirst_f n f = Ok r /\ (0 <= r <= n)%Z
    /\ (forall i, (0 <= i < r)%Z -> g i = false) /\ (forall i, (r <= i < n)%Z -> g i = true).
Proof.
  intros n f g N F M. destruct (SearchFirst_f_spec n f g F N) as (r & E & R & LO & HI). exists r. split; auto. split; auto. split.
  - intros i I. destruct LO as [|LO]; [lia|]. destruct (g i) eqn:G; auto.
    rewrite (M i (r - 1)%Z) in LO; auto; lia.
  - intros i I. destruct HI as [|HI]; [lia|]. apply (M r i); auto; lia.
Qed.

Theorem C43_SearchLast : forall n f g, (0 <= n)%Z -> (forall i, (0 <= i < n)%Z -> f i = Ok (g i)) ->
  (forall i j, (0 <= i <= j)%Z -> (j < n)%Z -> g j = true -> g i = true) ->
  exists r, SearchLast_f n f = Ok r /\ (-1 <= r < n)%Z
    /\ (forall i, (0 <= i <= r)%Z -> g i = true) /\ (forall i, (r < i < n)%Z -> g i = false).
Proof.
  intros n f g N F M. destruct (SearchLast_f_spec n f g F N) as (r & E & R & LO & HI). exists r. split; auto. split; auto. split.
  - intros i I. destruct LO as [|LO]; [lia|]. apply (M i r); auto; lia.
  - intros i I. destruct HI as [|HI]; [lia|]. destruct (g i) eqn:G; auto. rewrite (M (r + 1)%Z i) in HI; auto; lia.
Qed.

(** Without monotonicity: a boundary is found. *)
Theorem C43_SearchFirst_boundary : forall n f g, (0 <= n)%Z -> (forall i, (0 <= i < n)%Z -> f i = Ok (g i)) ->
  exists r, SearchFirst_f n f = Ok r /\ (0 <= r <= n)%Z /\ (r = 0 \/ g (r - 1) = false)%Z /\ (r = n \/ g r = true).
Proof. intros n f g N F. now apply SearchFirst_f_spec. Qed.

(** The result depends on f only at a list of at most log2 n + 1 indices in [0, n):
    whatever f does elsewhere (panic, say) goes unnoticed. *)
Theorem C43_SearchFirst_calls : forall n f, (0 < n)%Z ->
  exists qs, (Z.of_nat (List.length qs) <= Z.log2 n + 1)%Z /\ Forall (fun q => 0 <= q < n)%Z qs
    /\ forall f', (forall q, In q qs -> f' q = f q) -> SearchFirst_f n f' = SearchFirst_f n f.
Proof.
  intros n f N. destruct (search_loop_asks f (S (Z.to_nat n)) 0%Z n ltac:(lia)) as (qs & L & B & A).
  exists qs. split; auto. rewrite Z.sub_0_r in L. unfold probes in L. destruct (Z.eqb_spec n 0); lia.
Qed.
Theorem C43_SearchLast_calls : forall n f, (0 < n)%Z ->
  exists qs, (Z.of_nat (List.length qs) <= Z.log2 n + 1)%Z /\ Forall (fun q => 0 <= q < n)%Z qs
    /\ forall f', (forall q, In q qs -> f' q = f q) -> SearchLast_f n f' = SearchLast_f n f.
Proof.
  intros n f N. destruct (search_last_loop_asks f (S (S (Z.to_nat n))) (-1)%Z n ltac:(lia)) as (qs & L & B & A).
  exists qs. split.
  - replace (n - -1)%Z with (Z.succ n) in L by lia. rewrite Z.log2_up_eqn in L by lia. rewrite Z.pred_succ in L. lia.
  - split; auto. eapply Forall_impl; [|exact B]. simpl. intros; lia.
Qed.

Example C43_nonvacuous :
  SearchFirst_f 10 (fun i => if (i <? 0)%Z || (9 <? i)%Z then Panic else Ok (6 <=? i)%Z) = Ok 6%Z
  /\ SearchLast_f 10 (fun i => if (i <? 0)%Z || (9 <? i)%Z then Panic else Ok (i <=? 6)%Z) = Ok 6%Z
  /\ SearchLast_f 10 (fun i => Ok false) = Ok (-1)%Z /\ SearchFirst_f 10 (fun i => Ok false) = Ok 10%Z.
Proof. vm_compute. auto. Qed.

(** ---------- C39: sort keys as a table ---------- *)

Theorem C39_GetSortKeysAsTable : forall t, exists kt, GetSortKeysAsTable t = Ok kt
  /\ tname kt = "SortKeys" /\ is_nil kt = false
  /\ cnames kt = ["index"; "colName"; "colType"; "reverse"] /\ ctypes kt = ["int"; "string"; "string"; "bool"]
  /\ rows kt = map (fun p => [VInt KInt (fst p); VString (k_col (snd p)); VString (k_type (snd p)); VBool (k_rev (snd p))])
                   (combine (zseq (List.length (skeys t))) (skeys t)).
Proof.
  intros t. exists (keytab (skeys t)). split; [apply GetSortKeysAsTable_eq|]. repeat (split; [reflexivity|]).
  apply nth_error_ext. intros i. rewrite keytab_rows, nth_error_map, nth_error_combine, nth_error_zseq.
  destruct (Nat.ltb_spec i (List.length (skeys t))) as [H|H].
  - destruct (nth_error (skeys t) i) as [k|]; reflexivity.
  - rewrite (proj2 (nth_error_None _ _) H). reflexivity.
Qed.

(** If every key column of [from] is a sortable column of t, SetSortKeysFromTable gives t
    the key list of [from], each key with the column type it has in t.  Keys that repeat a
    column must agree on the direction. *)
Theorem C39_SetSortKeysFromTable : forall t b from, wf_table t -> skeys from <> [] ->
  Forall (fun k => exists ct, ColType t (k_col k) = Ok ct /\ In ct sortable_types) (skeys from) ->
  (forall k k', In k (skeys from) -> In k' (skeys from) -> k_col k = k_col k' -> k_rev k = k_rev k') ->
  exists t', run (SetSortKeysFromTable from) b t = (t', Ok tt) /\ same_but_keys t t' /\ keys_ok t'
    /\ Forall2 (fun k k' => k_col k' = k_col k /\ k_rev k' = k_rev k /\ ColType t (k_col k) = Ok (k_type k')) (skeys from) (skeys t').
Proof.
  intros t b from W NE F AG.
  assert (KF : exists ks, fresh_keys t (map k_col (skeys from)) ks).
  { clear NE AG. induction F as [|k ks (ct & CT & S) F (ks' & IH)]; [exists []; constructor|].
    exists (mkKey (k_col k) ct false :: ks'). constructor; auto. }
  destruct KF as (ks & KF). destruct (C18_SetSortKeys t b (map k_col (skeys from)) W) as [SS _].
  destruct (SS ks KF) as [RS KO]. clear SS.
  set (ks' := map (fun k => if str_in (k_col k) (map k_col (filter k_rev (skeys from))) then mkKey (k_col k) (k_type k) true else k) ks).
  exists (with_skeys ks' t).
  assert (CN : map k_col ks = map k_col (skeys from)).
  { unfold fresh_keys in KF. clear -KF. remember (map k_col (skeys from)) as l. clear Heql.
    induction KF as [|cn k cns ks (H & _) _ IH]; auto. simpl. congruence. }
  split; [|split; [reflexivity|split]].
  - unfold SetSortKeysFromTable, run. rewrite bind_check.
    replace (SortKeyCount from =? 0)%Z with false.
    2:{ symmetry. apply Z.eqb_neq. unfold SortKeyCount. destruct (skeys from); [congruence|simpl; lia]. }
    cbn [negb]. rewrite bind_lift. rewrite GetSortKeysAsTable_eq. cbn [rbind]. rewrite read_keys_keytab. cbn [fst snd].
    unfold run in RS. destruct (SetSortKeys (map k_col (skeys from)) (mkS t b [])) as [s1 r1] eqn:SE. injection RS as E1 E2. subst r1.
    erewrite bind_eq_ok by exact SE.
    rewrite SetSortKeysReverse_eq.
    + simpl. rewrite E1. reflexivity.
    + rewrite E1. simpl. rewrite CN. rewrite Forall_forall. intros cn I. apply in_map_iff in I as (k & <- & I).
      apply filter_In in I as [I _]. now apply in_map.
  - unfold keys_ok in *. simpl in *. rewrite Forall_forall in *. intros k I. unfold ks' in I. apply in_map_iff in I as (k0 & <- & I).
    specialize (KO k0 I). destruct (str_in _ _); auto.
  - simpl. unfold ks'. unfold fresh_keys in KF.
    assert (FL : forall k, In k (skeys from) -> str_in (k_col k) (map k_col (filter k_rev (skeys from))) = k_rev k).
    { intros k I. destruct (k_rev k) eqn:R.
      - apply str_in_In. apply in_map. now apply filter_In.
      - apply str_in_false. intros J. apply in_map_iff in J as (k2 & C2 & J). apply filter_In in J as [J R2].
        rewrite (AG k2 k) in R2; auto. congruence. }
    remember (map k_col (filter k_rev (skeys from))) as rv. clear Heqrv ks' KO RS NE F AG CN.
    remember (map k_col (skeys from)) as l eqn:EL. revert FL EL. generalize (skeys from). induction KF as [|cn k cns ks (H1 & H2 & H3 & H4) KF IH].
    + intros [|? ?]; [constructor|discriminate].
    + intros [|k0 kf] FL EL; [discriminate|]. simpl in EL. injection EL as -> EL. simpl. constructor.
      * rewrite H1. rewrite (FL k0) by (now left). destruct (k_rev k0); simpl; auto.
      * apply IH; auto. intros k' I. apply FL. now right.
Qed.

(** Corollary: keys whose columns have the same types in both tables transfer exactly. *)
Theorem C39_same_keys : forall t b from, wf_table t -> skeys from <> [] ->
  Forall (fun k => ColType t (k_col k) = Ok (k_type k) /\ In (k_type k) sortable_types) (skeys from) ->
  NoDup (map k_col (skeys from)) ->
  exists t', run (SetSortKeysFromTable from) b t = (t', Ok tt) /\ same_but_keys t t' /\ skeys t' = skeys from.
Proof.
  intros t b from W NE F ND.
  destruct (C39_SetSortKeysFromTable t b from W NE) as (t' & R & S & _ & F2).
  { eapply Forall_impl; [|exact F]. simpl. intros k [A B]. eauto. }
  { intros k k' I I' C. apply In_nth_error in I as [i I]. apply In_nth_error in I' as [j J].
    assert (i = j). { eapply (NoDup_nth _ i j (k_col k)); eauto; rewrite nth_error_map; [now rewrite I|rewrite J; simpl; congruence]. }
    subst. congruence. }
  exists t'. split; auto. split; auto. clear -F F2. revert F.
  induction F2 as [|k k' ks ks' (A & B & C) F2 IH]; intros F; auto. inversion F as [|? ? [D _] F']; subst. f_equal; auto.
  rewrite D in C. injection C as C. destruct k, k'; simpl in *. congruence.
Qed.

Theorem C39_rejected : forall t b from, wf_table t ->
  (skeys from = [] -> run (SetSortKeysFromTable from) b t = (t, Err))
  /\ ((exists k, In k (skeys from) /\ ~ exists ct, ColType t (k_col k) = Ok ct /\ In ct sortable_types) ->
       exists t', run (SetSortKeysFromTable from) b t = (t', Err) /\ same_but_keys t t').
Proof.
  intros t b from W. split.
  - intros H. unfold run, SetSortKeysFromTable, SortKeyCount. rewrite H. reflexivity.
  - intros (k & I & N). destruct (C18_SetSortKeys t b (map k_col (skeys from)) W) as [_ SE].
    destruct SE as (t' & RS & S). { exists (k_col k). split; auto. now apply in_map. }
    exists t'. split; auto. unfold SetSortKeysFromTable, run. rewrite bind_check.
    replace (SortKeyCount from =? 0)%Z with false.
    2:{ symmetry. apply Z.eqb_neq. unfold SortKeyCount. destruct (skeys from); [destruct I|simpl; lia]. }
    cbn [negb]. rewrite bind_lift. rewrite GetSortKeysAsTable_eq. cbn [rbind]. rewrite read_keys_keytab. cbn [fst snd].
    unfold run in RS. destruct (SetSortKeys (map k_col (skeys from)) (mkS t b [])) as [s1 r1] eqn:SE. injection RS as E1 E2. subst r1.
    erewrite bind_eq_err by exact SE. now rewrite E1.
Qed.

Lemma find_key_spec cn : forall ks n, match find_key cn ks n with
  | Some i => exists k1 k k2, ks = k1 ++ k :: k2 /\ k_col k = cn /\ ~ In cn (map k_col k1) /\ i = n + List.length k1
  | None => ~ In cn (map k_col ks) end.
Proof.
  induction ks as [|k ks IH]; intros n; simpl; auto.
  destruct (String.eqb_spec (k_col k) cn) as [E|N].
  - exists [], k, ks. simpl. repeat split; auto.
  - specialize (IH (S n)). destruct (find_key cn ks (S n)) as [i|].
    + destruct IH as (k1 & k' & k2 & -> & E & NI & ->). exists (k :: k1), k', k2. simpl. split; [auto|]. split; [auto|]. split; [tauto|lia].
    + tauto.
Qed.

(** DeleteSortKey removes the first key on that column and no other. *)
Theorem C39_DeleteSortKey : forall t b cn, wf_table t ->
  (forall k1 k k2, skeys t = k1 ++ k :: k2 -> k_col k = cn -> ~ In cn (map k_col k1) -> In cn (cnames t) ->
     exists t', run (DeleteSortKey cn) b t = (t', Ok tt) /\ same_but_keys t t' /\ skeys t' = k1 ++ k2)
  /\ (~ In cn (cnames t) \/ ~ In cn (map k_col (skeys t)) -> run (DeleteSortKey cn) b t = (t, Err)).
Proof.
  intros t b cn W. unfold run, DeleteSortKey, reads, bind, get, lift, modify, fail. simpl.
  destruct (ColType t cn) as [ct| |] eqn:E; simpl.
  - assert (I : In cn (cnames t)). { destruct (in_dec string_dec cn (cnames t)) as [I|I]; auto. apply (wf_ColType_err t W) in I. congruence. }
    pose proof (find_key_spec cn (skeys t) 0) as F. destruct (find_key cn (skeys t) 0) as [i|] eqn:EF.
    + destruct F as (l1 & l & l2 & E1 & E2 & E3 & ->). split.
      * intros k1 k k2 D C N _. eexists. split; [reflexivity|]. split; [reflexivity|]. simpl. rewrite D.
        assert (LE : List.length l1 = List.length k1).
        { clear -D E1 E2 E3 C N. rewrite D in E1. clear D. revert l1 E1 E3. induction k1 as [|x k1 IH]; intros [|y l1] E1 E3; auto.
          - simpl in E1. injection E1 as <- _. simpl in E3. tauto.
          - simpl in E1. injection E1 as -> _. simpl in N. tauto.
          - simpl in *. f_equal. injection E1 as _ E1. apply IH; tauto. }
        rewrite LE. unfold remove_at. rewrite firstn_app, firstn_all, Nat.sub_diag. cbn [firstn]. rewrite app_nil_r.
        f_equal. cbn [Nat.add]. rewrite skipn_app, skipn_all2 by lia. replace (S (List.length k1) - List.length k1) with 1 by lia. reflexivity.
      * intros [C|C]; [contradiction|]. exfalso. apply C. rewrite E1, map_app. apply in_or_app. right. now left.
    + split; auto. intros k1 k k2 D C N _. exfalso. apply F. rewrite D, map_app, <- C. apply in_or_app. right. now left.
  - split; auto. intros k1 k k2 _ _ _ I. exfalso. apply (wf_ColType_err t W) in E. contradiction.
  - exfalso. eapply (wf_ColType_no_panic t W); eauto.
Qed.

(** Keys that repeat a column in both directions do not transfer: both come out reversed. *)
Theorem C39_mixed_directions_refuted : exists from t t', wf_table t
  /\ run (AppendCol "a" "int" ;;; AppendSortKey "a" ;;; SetSortKeysReverse ["a"] ;;; AppendSortKey "a") 0 t = (from, Ok tt)
  /\ run (SetSortKeysFromTable from) 0 from = (t', Ok tt)
  /\ map k_rev (skeys from) = [true; false] /\ map k_rev (skeys t') = [true; true].
Proof.
  eexists _, (fst (run (SetName "T") 0 NewNilTable)), _. split.
  { apply run_pres; [apply pres_SetName|apply wf_NewNilTable|constructor]. }
  split; [vm_compute; reflexivity|]. split; [vm_compute; reflexivity|]. split; reflexivity.
Qed.

Example C39_nonvacuous :
  wf_table sample /\ skeys stock <> []
  /\ exists t', run (SetSortKeysFromTable (fst (run (SetSortKeys ["item"; "id"] ;;; SetSortKeysReverse ["id"]) 9 sample))) 9 sample = (t', Ok tt)
       /\ skeys t' = [mkKey "item" "string" false; mkKey "id" "int" true].
Proof. split; [apply wf_sample|]. split; [discriminate|]. eexists. split; vm_compute; reflexivity. Qed.

(** ---------- C40: keys that outlive their column ---------- *)

(** A history of successful calls after which a key names a deleted column; Sort then
    panics, whatever sorting routine the library uses. *)
Theorem C40_refuted : exists t, wf_table t
  /\ run (SetName "T" ;;; AppendCol "a" "int" ;;; AppendCol "b" "int" ;;; AppendRows 2 ;;;
          SetSortKeys ["a"] ;;; DeleteCol "a") 0 NewNilTable = (t, Ok tt)
  /\ ~ keys_ok t
  /\ forall E b, env_ok E -> snd (run (Sort E []) b t) = Panic.
Proof.
  eexists. split; [|split; [vm_compute; reflexivity|split]].
  - match goal with |- wf_table ?t => assert (H : t = fst (run (SetName "T" ;;; AppendCol "a" "int" ;;; AppendCol "b" "int" ;;; AppendRows 2 ;;;
          SetSortKeys ["a"] ;;; DeleteCol "a") 0 NewNilTable)) by (vm_compute; reflexivity) end.
    rewrite H. apply run_pres; [|apply wf_NewNilTable|constructor]. pr; auto using pres_SetSortKeys, pres_DeleteCol.
  - intros K. inversion K as [|? ? (i & N & _) _]; subst. simpl in N. destruct i as [|[|i]]; discriminate.
  - intros E b EO. unfold run. rewrite Sort_keys_eq. cbn [s_tab skeys List.length Nat.eqb].
    rewrite (eo_panic E EO); [reflexivity|simpl; lia|]. intros x y _ _. reflexivity.
Qed.

Theorem C40_rename_refuted : exists t, wf_table t
  /\ run (SetName "T" ;;; AppendCol "a" "int" ;;; AppendRows 2 ;;; SetSortKeys ["a"] ;;; RenameCol "a" "b") 0 NewNilTable = (t, Ok tt)
  /\ ~ keys_ok t
  /\ forall E b, env_ok E -> snd (run (Sort E []) b t) = Panic.
Proof.
  eexists. split; [|split; [vm_compute; reflexivity|split]].
  - match goal with |- wf_table ?t => assert (H : t = fst (run (SetName "T" ;;; AppendCol "a" "int" ;;; AppendRows 2 ;;;
          SetSortKeys ["a"] ;;; RenameCol "a" "b") 0 NewNilTable)) by (vm_compute; reflexivity) end.
    rewrite H. apply run_pres; [|apply wf_NewNilTable|constructor]. pr; auto using pres_SetSortKeys, pres_RenameCol.
  - intros K. inversion K as [|? ? (i & N & _) _]; subst. simpl in N. destruct i as [|[|i]]; discriminate.
  - intros E b EO. unfold run. rewrite Sort_keys_eq. cbn [s_tab skeys List.length Nat.eqb].
    rewrite (eo_panic E EO); [reflexivity|simpl; lia|]. intros x y _ _. reflexivity.
Qed.

(** ---------- C44: OrderColsBySortKeys ---------- *)

Theorem C44_OrderColsBySortKeys : forall t b, wf_table t -> keys_ok t -> NoDup (map k_col (skeys t)) ->
  exists t', run OrderColsBySortKeys b t = (t', Ok tt) /\ same_but_cols t t' /\ ColCount t' = ColCount t
    /\ (forall i n, nth_error (map k_col (skeys t) ++ non_key_cols t) i = Some n -> ColName t' (Z.of_nat i) = Ok n)
    /\ (forall cn r, GetVal t' cn r = GetVal t cn r /\ ColType t' cn = ColType t cn).
Proof.
  intros t b W K ND. set (names := map k_col (skeys t) ++ non_key_cols t).
  assert (FE : non_key_cols t = filter (fun n => negb (existsb (fun k => k_col k =? n) (skeys t))) (cnames t)).
  { unfold non_key_cols. apply filter_ext. intros n. destruct (in_dec string_dec n (map k_col (skeys t))) as [I|I].
    - symmetry. apply negb_false_iff, existsb_exists. apply in_map_iff in I as (k & <- & I). exists k. split; auto. apply String.eqb_refl.
    - symmetry. apply negb_true_iff. destruct (existsb _ _) eqn:X; auto. exfalso. apply I.
      apply existsb_exists in X as (k & J & Q). apply String.eqb_eq in Q. subst. now apply in_map. }
  assert (P : Permutation names (cnames t)).
  { apply NoDup_Permutation; [|apply (wf_nodup _ W)|].
    - unfold names. apply NoDup_app2; auto.
      + apply NoDup_filter, (wf_nodup _ W).
      + intros n I J. unfold non_key_cols in J. apply filter_In in J as [_ J]. destruct (in_dec _ _ _); [discriminate|contradiction].
    - intros n. unfold names. rewrite in_app_iff. unfold non_key_cols. rewrite filter_In. split.
      + intros [I|[I _]]; auto. apply in_map_iff in I as (k & <- & I). unfold keys_ok in K. rewrite Forall_forall in K.
        destruct (K k I) as (i & N & _). eapply nth_error_In; eauto.
      + intros I. destruct (in_dec string_dec n (map k_col (skeys t))) as [J|J]; auto. }
  pose proof (Permutation_length P) as PL.
  assert (RUN : run OrderColsBySortKeys b t = run (ReorderCols names) b t).
  { unfold run, OrderColsBySortKeys. rewrite bind_get. cbn [s_tab]. rewrite <- FE. fold names.
    destruct (Nat.ltb_spec (List.length (cnames t)) (List.length names)) as [L|_]; [lia|].
    rewrite bind_ret, bind_reads. cbn [s_tab].
    assert (IS : forall l, (forall n, In n l -> In n (cnames t)) -> exists bs, mapM (IsSortKey t) l = Ok bs).
    { induction l as [|n l IH]; intros H; [exists []; reflexivity|]. destruct IH as [bs IH]; [intros; apply H; now right|].
      simpl. unfold IsSortKey at 1. rewrite wf_HasCol by auto. cbn [rbind].
      destruct (in_dec string_dec n (cnames t)) as [_|X]; [|exfalso; apply X, H; now left]. cbn [rbind]. rewrite IH. cbn [rbind]. eauto. }
    destruct (IS (cnames t) (fun n H => H)) as [bs ->].
    rewrite PL, Nat.sub_diag. simpl repeat. rewrite app_nil_r. reflexivity. }
  destruct (C12_ReorderCols t b names W) as [RC _]. destruct (RC P) as (order & FO & PO & RO).
  destruct (C12_ReorderColsByColIndex t b order W PO) as (t' & R & SB & CC & AT & BN).
  exists t'. rewrite RUN, RO. split; auto. split; auto. split; auto. split; [|exact BN].
  intros i n H. destruct (Forall2_nth _ _ _ _ _ FO H) as (o & HO & CA).
  destruct (AT i o HO) as [-> _]. destruct CA as [C1 C2]. rewrite ColName_eq.
  replace (HasColByColIndex t o) with true. { now rewrite (nth_error_nth _ _ "" C2). }
  symmetry. apply HasCol_iff. apply nth_error_some_lt in C2. unfold ColCount. lia.
Qed.

(** With a repeated key the call panics (a slice index out of range). *)
Theorem C44_repeated_key_refuted : exists t, wf_table t /\ keys_ok t
  /\ run (SetName "T" ;;; AppendCol "a" "int" ;;; SetSortKeys ["a"; "a"]) 0 NewNilTable = (t, Ok tt)
  /\ snd (run OrderColsBySortKeys 0 t) = Panic.
Proof.
  eexists. split; [|split; [|split; [vm_compute; reflexivity|vm_compute; reflexivity]]].
  - match goal with |- wf_table ?t => assert (H : t = fst (run (SetName "T" ;;; AppendCol "a" "int" ;;; SetSortKeys ["a"; "a"]) 0 NewNilTable))
      by (vm_compute; reflexivity) end.
    rewrite H. apply run_pres; [|apply wf_NewNilTable|constructor]. pr; auto using pres_SetSortKeys.
  - repeat constructor; exists 0; repeat split; simpl; auto 20.
Qed.

Example C44_nonvacuous :
  let t := fst (run (SetSortKeys ["price"; "id"]) 9 sample) in
  wf_table t /\ NoDup (map k_col (skeys t))
  /\ cnames (fst (run OrderColsBySortKeys 9 t)) = ["price"; "id"; "item"; "code"; "data"; "child"; "when"].
Proof.
  split. { apply run_pres; [apply pres_SetSortKeys|apply wf_sample|]. vm_compute. repeat constructor. }
  split; [|vm_compute; reflexivity]. vm_compute. repeat constructor; simpl; intuition discriminate.
Qed.

(** ---------- C45: CompareRows ---------- *)

Lemma compare_keys_tlt E t ks r1 r2 w1 w2 : wf_table t -> kgood t ks -> nonan t ks ->
  nth_error (rows t) (Z.to_nat r1) = Some w1 -> nth_error (rows t) (Z.to_nat r2) = Some w2 -> (0 <= r1)%Z -> (0 <= r2)%Z ->
  exists c, compare_keys E t ks r1 r2 = Ok c
    /\ ((c < 0)%Z <-> tlt E (unreversed ks) (kvt t ks r1) (kvt t ks r2)) /\ ((c > 0)%Z <-> tlt E (unreversed ks) (kvt t ks r2) (kvt t ks r1)).
Proof.
  intros W G N H1 H2 R1 R2. induction G as [|k ks H G IH]; simpl.
  - exists 0%Z. split; auto. split; (split; [lia|tauto]).
  - destruct (keys_cell t k r1 w1 W H1 R1 H) as (c1 & v1 & _ & _ & G1 & C1 & S).
    destruct (keys_cell t k r2 w2 W H2 R2 H) as (c2 & v2 & _ & _ & G2 & C2 & _).
    rewrite G1, G2. cbn [rbind].
    assert (CC1 : comparable (k_type k) v1) by (split; auto; eapply N; eauto; now left).
    assert (CC2 : comparable (k_type k) v2) by (split; auto; eapply N; eauto; now left).
    destruct (compare_val_ok E _ _ _ S CC1 CC2) as (c & -> & R & L1 & L2 & L3).
    unfold klt. cbn [k_rev]. pose proof (val_eq_sym v1 v2). pose proof (val_eq_sym v2 v1).
    pose proof (val_trichotomy E (k_type k) S v1 v2 CC1 CC2) as TRI.
    destruct (Z.eqb_spec c 0) as [->|C0]; cbn [negb].
    + destruct IH as (c & -> & I1 & I2). { intros k' r' v' I. apply N. now right. }
      exists c. split; auto. unfold kvt in *. rewrite I1, I2. assert (val_eq v1 v2) by (apply L2; auto). tauto.
    + exists c. split; auto. assert (~ val_eq v1 v2) by (rewrite <- L2; auto).
      assert (C1' : (c < 0)%Z <-> val_lt E v1 v2) by (rewrite <- L1; lia).
      assert (C2' : (c > 0)%Z <-> val_lt E v2 v1) by (rewrite <- L3; lia).
      rewrite C1', C2'. tauto.
Qed.

Lemma unreversed_kvt t ks r : kvt t (unreversed ks) r = kvt t ks r.
Proof. unfold kvt, unreversed. rewrite map_map. reflexivity. Qed.
Lemma unreversed_good t ks : kgood t ks -> kgood t (unreversed ks).
Proof. unfold kgood, unreversed. intros G. rewrite Forall_map. exact G. Qed.

(** CompareRows returns a negative, zero or positive number according to the keys taken
    without their reverse marks. *)
Theorem C45_CompareRows_ascending : forall E t i j, wf_table t -> keys_ok t -> skeys t <> [] -> no_nan_keys t ->
  (0 <= i < RowCount t)%Z -> (0 <= j < RowCount t)%Z ->
  exists c, CompareRows E t i j = Ok c
    /\ ((c < 0)%Z <-> keys_lt E t (unreversed (skeys t)) i j) /\ ((c > 0)%Z <-> keys_lt E t (unreversed (skeys t)) j i).
Proof.
  intros E t i j W K NE NN I J. unfold CompareRows.
  rewrite (proj2 (HasRow_iff t i) I), (proj2 (HasRow_iff t j) J). cbn [negb].
  destruct (Nat.eqb_spec (List.length (skeys t)) 0) as [Z0|_]; [apply length_zero_iff_nil in Z0; congruence|].
  destruct (row_at t i I) as [wi Hi]. destruct (row_at t j J) as [wj Hj].
  destruct (compare_keys_tlt E t (skeys t) i j wi wj W K NN Hi Hj ltac:(lia) ltac:(lia)) as (c & C & C1 & C2).
  exists c. split; auto.
  rewrite (keys_lt_tlt t W E _ i j wi wj (unreversed_good _ _ K) Hi Hj) by lia.
  rewrite (keys_lt_tlt t W E _ j i wj wi (unreversed_good _ _ K) Hj Hi) by lia.
  now rewrite !unreversed_kvt.
Qed.

(** So it agrees with Sort when no key is reversed.  (Full claim: for every key list.) *)
Theorem C45_CompareRows_no_reverse : forall E t i j, wf_table t -> keys_ok t -> skeys t <> [] -> no_nan_keys t ->
  Forall (fun k => k_rev k = false) (skeys t) -> (0 <= i < RowCount t)%Z -> (0 <= j < RowCount t)%Z ->
  exists c, CompareRows E t i j = Ok c
    /\ ((c < 0)%Z <-> keys_lt E t (skeys t) i j) /\ ((c > 0)%Z <-> keys_lt E t (skeys t) j i).
Proof.
  intros E t i j W K NE NN NR I J. destruct (C45_CompareRows_ascending E t i j W K NE NN I J) as (c & C & H).
  assert (U : unreversed (skeys t) = skeys t).
  { clear -NR. induction NR as [|k ks R _ IH]; auto. simpl. rewrite IH. destruct k; simpl in *; now subst. }
  rewrite U in H. eauto.
Qed.

(** With a reversed key it does not: row 1 sorts before row 0 and CompareRows(0,1) is -1. *)
Theorem C45_refuted : exists t, wf_table t /\ keys_ok t /\ no_nan_keys t
  /\ run (SetName "T" ;;; AppendCol "a" "int" ;;; AppendRows 2 ;;; SetVal "a" 1 (VInt KInt 1) ;;;
          SetSortKeys ["a"] ;;; SetSortKeysReverse ["a"]) 0 NewNilTable = (t, Ok tt)
  /\ forall E, keys_lt E t (skeys t) 1 0 /\ CompareRows E t 0 1 = Ok (-1)%Z.
Proof.
  eexists.
  assert (W : wf_table (fst (run (SetName "T" ;;; AppendCol "a" "int" ;;; AppendRows 2 ;;; SetVal "a" 1 (VInt KInt 1) ;;;
          SetSortKeys ["a"] ;;; SetSortKeysReverse ["a"]) 0 NewNilTable))).
  { apply run_pres; [|apply wf_NewNilTable|constructor].
    pr; try (apply pres_SetVal; try reflexivity; exact I); auto using pres_SetSortKeys, pres_SetSortKeysReverse. }
  match type of W with wf_table (fst ?x) => let y := eval vm_compute in x in assert (R : x = y) by (vm_compute; reflexivity) end.
  rewrite R in W. cbn [fst] in W.
  split; [exact W|]. split; [|split; [|split; [exact R|]]].
  - repeat constructor; exists 0; repeat split; simpl; auto 20.
  - apply no_nan_ints; auto. repeat constructor; exists 0; repeat split; discriminate.
  - intros E. split; [|reflexivity]. simpl. exists (VInt KInt 1), (VInt KInt 0). split; [reflexivity|]. split; [reflexivity|].
    left. simpl. split; auto. lia.
Qed.

Theorem C45_rejected : forall E t i j, ~ (0 <= i < RowCount t)%Z \/ ~ (0 <= j < RowCount t)%Z \/ skeys t = [] ->
  CompareRows E t i j = Err.
Proof.
  intros E t i j H. unfold CompareRows. destruct (HasRow t i) eqn:A; auto. destruct (HasRow t j) eqn:B; auto. cbn [negb].
  apply HasRow_iff in A. apply HasRow_iff in B. destruct H as [H|[H|H]]; [contradiction|contradiction|]. now rewrite H.
Qed.

Example C45_nonvacuous :
  keys_ok stock /\ no_nan_keys stock /\ CompareRows env0 stock 1 2 = Ok (-1)%Z /\ CompareRows env0 stock 0 3 = Ok (-1)%Z
  /\ CompareRows env0 stock 0 4 = Ok 0%Z /\ CompareRows env0 stock 0 1 = Ok 1%Z.
Proof. split; [apply keys_stock|]. split; [apply no_nan_stock|]. vm_compute. auto. Qed.

(** Axioms used by any theorem of this file. *)
Definition all_Props_Sort :=
  (@C20_compare_meaning,
   @C20_total_order,
   @C20_zero_means_equal,
   @C20_NaN_refuted,
   @C18_Sort,
   @C18_no_keys,
   @C18_Sort_cols,
   @C18_SortSimple,
   @C18_SetSortKeys,
   @C18_SetSortKeysReverse,
   @C19_SearchFirst,
   @C19_SearchLast,
   @C19_SearchLast_panics_refuted,
   @C19_SearchRange,
   @C19_bad_arguments,
   @C43_SearchFirst,
   @C43_SearchLast,
   @C43_SearchFirst_boundary,
   @C43_SearchFirst_calls,
   @C43_SearchLast_calls,
   @C39_GetSortKeysAsTable,
   @C39_SetSortKeysFromTable,
   @C39_same_keys,
   @C39_rejected,
   @C39_DeleteSortKey,
   @C39_mixed_directions_refuted,
   @C40_refuted,
   @C40_rename_refuted,
   @C44_OrderColsBySortKeys,
   @C44_repeated_key_refuted,
   @C45_CompareRows_ascending,
   @C45_CompareRows_no_reverse,
   @C45_refuted,
   @C45_rejected).
Print Assumptions all_Props_Sort.
