(** Props_Merge.v -- Merge and SortUnique: C21, C22. *)
From Coq Require Import ZArith NArith List String Ascii Bool SpecFloat Permutation Lia.
From Verif Require Import Base Model_Names Model_Table Model_Sort Model_Copy Model_Merge Model_Ops Model_Heap.
From Verif Require Import Spec Spec_Copy Spec_Sort Spec_Heap Spec_Merge.
From Verif Require Import Proofs_Lib Proofs_Table Proofs_Cells Proofs_Struct Proofs_Pres Proofs_Api Proofs_Api2 Samples Proofs_Copy Proofs_Keys Proofs_Env Proofs_Heap Props_Sort Proofs_Walk Props_Heap Proofs_MergeFill.
From Verif Require Import Proofs_MergeRun Proofs_MergeLoop Proofs_MergeDelete Proofs_Merge Proofs_MergeSpec.
Import ListNotations.
Local Open Scope string_scope.
Local Open Scope list_scope.

(** ---------- calls on a heap ---------- *)

Lemma on_heap_runs {A} (p : ptr) (m : M A) h t t' a : nth_error h p = Some t -> runs m t t' a -> on_heap p m h = (upd h p t', Ok a).
Proof. intros H R. unfold on_heap. rewrite H, R. cbn [s_tab s_news new_nils map]. now rewrite app_nil_r. Qed.
Lemma new_tab_runs m h t' : runs m NewNilTable t' tt -> new_tab m h = (h ++ [t'], Ok (List.length h)).
Proof. intros R. unfold new_tab. rewrite R. reflexivity. Qed.
Lemma new_tab_fails m h : fails m NewNilTable -> new_tab m h = (h, Err).
Proof. intros R. unfold new_tab. destruct (R (S (List.length h)) []) as (s' & ->). reflexivity. Qed.

Lemma runs_own_keys t from : wf_table t -> skeys from <> [] -> NoDup (map k_col (skeys from)) ->
  Forall (fun k => ColType t (k_col k) = Ok (k_type k) /\ In (k_type k) sortable_types) (skeys from) ->
  runs (SetSortKeysFromTable from) t (with_skeys (skeys from) t) tt.
Proof.
  intros W NE ND F. destruct (C39_same_keys t 0 from W NE F ND) as (t' & R & SB & KS).
  eapply quiet_runs; [auto with quiet|]. rewrite R, SB, KS. reflexivity.
Qed.

Lemma with_skeys_id t : with_skeys (skeys t) t = t. Proof. now destruct t. Qed.
Lemma with_skeys_twice a b t : with_skeys a (with_skeys b t) = with_skeys a t. Proof. reflexivity. Qed.

Lemma mergeable_skeys a b K t1 t2 : mergeable K t1 t2 -> mergeable K (with_skeys a t1) (with_skeys b t2).
Proof. intros []. constructor; auto; now apply wf_with_skeys. Qed.
Lemma merged_skeys E a b K t1 t2 t' : merged E K (with_skeys a t1) (with_skeys b t2) t' -> merged E K t1 t2 t'.
Proof. intros []. constructor; auto. Qed.
Lemma shared_skeys a b K t1 t2 : shared_key K (with_skeys a t1) (with_skeys b t2) <-> shared_key K t1 t2.
Proof. split; intros H; exact H. Qed.

(** The keys that a merge of t1 and t2 goes by. *)
Definition merge_keys (t1 t2 : table) : list skey := if (0 <? SortKeyCount t1)%Z then skeys t1 else skeys t2.

Lemma set_keys_between h (p1 p2 : ptr) t1 t2 : nth_error h p1 = Some t1 -> nth_error h p2 = Some t2 ->
  mergeable (merge_keys t1 t2) t1 t2 ->
  exists h1, setSortKeysBetweenTables p1 p2 h = (h1, Ok tt) /\ keyed (merge_keys t1 t2) p1 p2 h h1.
Proof.
  intros H1 H2 MB. unfold setSortKeysBetweenTables, merge_keys in *. rewrite (tab_nth _ _ _ H1), (tab_nth _ _ _ H2).
  rewrite Z.gtb_ltb. destruct (0 <? SortKeyCount t1)%Z eqn:Q.
  - eexists. split; [eapply on_heap_runs; [exact H2|]; apply runs_own_keys; apply MB|]. split; [apply upd_length|].
    intros p t H. destruct (Nat.eqb_spec p p2) as [->|D2].
    + rewrite orb_true_r, nth_error_upd_eq by (eapply nth_error_some_lt; eauto). congruence.
    + rewrite nth_error_upd_ne by (unfold ptr in *; congruence). rewrite orb_false_r. destruct (Nat.eqb_spec p p1) as [->|]; auto.
      rewrite H. assert (t = t1) by congruence. subst. now rewrite with_skeys_id.
  - assert (Q2 : (0 <? SortKeyCount t2)%Z = true).
    { pose proof (mb_some _ _ _ MB). unfold SortKeyCount. destruct (skeys t2); [congruence|reflexivity]. }
    rewrite Z.gtb_ltb, Q2. eexists. split; [eapply on_heap_runs; [exact H1|]; apply runs_own_keys; apply MB|]. split; [apply upd_length|].
    intros p t H. destruct (Nat.eqb_spec p p1) as [->|D1].
    + rewrite nth_error_upd_eq by (eapply nth_error_some_lt; eauto). cbn. congruence.
    + rewrite nth_error_upd_ne by (unfold ptr in *; congruence). cbn [orb]. destruct (Nat.eqb_spec p p2) as [->|]; auto.
      rewrite H. assert (t = t2) by congruence. subst. now rewrite with_skeys_id.
Qed.

(** ---------- C21 ---------- *)

(** Merge of two tables that have rows, share the key columns and hold scalars only.  The
    sort keys of the first table, or of the second if the first has none, become the sort
    keys of both; no cell, column or other table is changed.  If a key occurs twice, in one
    of the tables or across them, the result is a new table that is the merge of the two;
    otherwise the call returns an error. *)
Theorem C21_Merge : forall E h (p1 p2 : ptr) t1 t2, env_ok E ->
  nth_error h p1 = Some t1 -> nth_error h p2 = Some t2 ->
  let ks := merge_keys t1 t2 in
  mergeable ks t1 t2 ->
  exists h1, keyed ks p1 p2 h h1
    /\ (shared_key ks t1 t2 -> exists t', Merge E p1 p2 h = (h1 ++ [t'], Ok (List.length h)) /\ merged E ks t1 t2 t')
    /\ (~ shared_key ks t1 t2 -> Merge E p1 p2 h = (h1, Err)).
Proof.
  intros E h p1 p2 t1 t2 EO H1 H2 ks MB. destruct (set_keys_between h p1 p2 t1 t2 H1 H2 MB) as (h1 & B & KY).
  exists h1. split; auto. pose proof KY as [KL KN].
  pose proof (KN _ _ H1) as N1. pose proof (KN _ _ H2) as N2. rewrite Nat.eqb_refl in N1, N2. rewrite orb_true_r in N2. cbn [orb] in N1.
  assert (ME : Merge E p1 p2 h = new_tab (merge_body E (with_skeys ks t1) (with_skeys ks t2)) h1).
  { unfold Merge. rewrite (tab_nth _ _ _ H1), (tab_nth _ _ _ H2). pose proof (mb_rows1 _ _ _ MB). pose proof (mb_rows2 _ _ _ MB).
    destruct (Z.eqb_spec (RowCount t1) 0); [lia|]. destruct (Z.eqb_spec (RowCount t2) 0); [lia|].
    rewrite B, (tab_nth _ _ _ N1), (tab_nth _ _ _ N2). reflexivity. }
  rewrite ME. destruct (merge_body_spec E (with_skeys ks t1) (with_skeys ks t2) ks EO) as [R1 R2].
  - now apply mergeable_skeys.
  - reflexivity.
  - split.
    + intros SH. destruct (R1 SH) as (t' & R & MG). exists t'. rewrite (new_tab_runs _ _ _ R), KL. split; auto. eapply merged_skeys; eauto.
    + intros SH. now apply new_tab_fails, R2.
Qed.

(** If one of the tables has no rows, Merge returns the other one itself, after sorting it. *)
Theorem C21_Merge_empty : forall E h (p1 p2 p : ptr) t1 t2 t, env_ok E ->
  nth_error h p1 = Some t1 -> nth_error h p2 = Some t2 ->
  (RowCount t1 = 0%Z /\ p = p2 /\ t = t2) \/ (RowCount t1 <> 0%Z /\ RowCount t2 = 0%Z /\ p = p1 /\ t = t1) ->
  let ks := if (0 <? SortKeyCount t)%Z then skeys t else merge_keys t1 t2 in
  wf_table t -> ks <> [] -> NoDup (map k_col ks) ->
  Forall (fun k => ColType t (k_col k) = Ok (k_type k) /\ In (k_type k) sortable_types) ks ->
  exists t', Merge E p1 p2 h = (upd h p t', Ok p)
    /\ wf_table t' /\ same_header (with_skeys ks t) t' /\ Permutation (rows t') (rows t)
    /\ (no_nan_keys (with_skeys ks t) -> sorted_table E t').
Proof.
  intros E h p1 p2 p t1 t2 t EO H1 H2 CASE ks W NE ND F.
  assert (HP : nth_error h p = Some t) by (destruct CASE as [(_ & -> & ->)|(_ & _ & -> & ->)]; auto).
  assert (WK : wf_table (with_skeys ks t)) by now apply wf_with_skeys.
  destruct (C18_Sort E (with_skeys ks t) 0 EO WK) as (t' & R & SHD & PE & WT & SO).
  { exact NE. }
  { unfold keys_ok. cbn [with_skeys skeys]. eapply Forall_impl; [|exact F]. cbn beta. intros k [C I]. apply (wf_ColType_iff t W) in C as (i & I1 & I2).
    exists i. auto. }
  assert (RS : runs (Sort E []) (with_skeys ks t) t' tt) by (eapply quiet_runs; [apply quiet_Sort|exact R]).
  exists t'. split; [|auto].
  assert (SM : sortMerged E p1 p2 p h = (upd h p t', Ok tt)).
  { unfold sortMerged. rewrite (tab_nth _ _ _ HP). subst ks. unfold SortKeyCount in *. destruct (skeys t) as [|k0 ks0] eqn:QK.
    - cbn [List.length Z.of_nat Z.eqb Z.ltb Z.compare] in *.
      assert (SB : setSortKeysBetweenTables p1 p2 h = (upd h p (with_skeys (merge_keys t1 t2) t), Ok tt)).
      { unfold setSortKeysBetweenTables, merge_keys in *. rewrite (tab_nth _ _ _ H1), (tab_nth _ _ _ H2). rewrite !Z.gtb_ltb.
        destruct CASE as [(_ & -> & ->)|(_ & _ & -> & ->)].
        - destruct (0 <? SortKeyCount t1)%Z eqn:Q; [eapply on_heap_runs; [exact H2|]; now apply runs_own_keys|]. congruence.
        - destruct (0 <? SortKeyCount t1)%Z eqn:Q; [congruence|].
          assert (Q2 : (0 <? SortKeyCount t2)%Z = true) by (unfold SortKeyCount; destruct (skeys t2); [congruence|reflexivity]).
          rewrite Q2. eapply on_heap_runs; [exact H1|]. now apply runs_own_keys. }
      rewrite SB. erewrite on_heap_runs; [|apply nth_error_upd_eq; eapply nth_error_some_lt; eauto|exact RS].
      now rewrite upd_upd.
    - cbn [List.length] in *. destruct (Z.eqb_spec (Z.of_nat (S (List.length ks0))) 0); [lia|].
      destruct (Z.ltb_spec 0 (Z.of_nat (S (List.length ks0)))); [|lia]. eapply on_heap_runs; [exact HP|].
      rewrite <- QK, with_skeys_id in RS. exact RS. }
  unfold Merge. rewrite (tab_nth _ _ _ H1), (tab_nth _ _ _ H2).
  destruct CASE as [(-> & -> & ->)|(Z1 & -> & -> & ->)].
  - rewrite Z.eqb_refl, SM. reflexivity.
  - destruct (Z.eqb_spec (RowCount t1) 0); [contradiction|]. rewrite Z.eqb_refl, SM. reflexivity.
Qed.

(** Without sort keys in either table Merge is rejected and changes nothing. *)
Theorem C21_Merge_no_keys : forall E h (p1 p2 : ptr) t1 t2,
  nth_error h p1 = Some t1 -> nth_error h p2 = Some t2 -> skeys t1 = [] -> skeys t2 = [] ->
  Merge E p1 p2 h = (h, Err).
Proof.
  intros E h p1 p2 t1 t2 H1 H2 K1 K2.
  assert (SB : setSortKeysBetweenTables p1 p2 h = (h, Err)).
  { unfold setSortKeysBetweenTables, SortKeyCount. rewrite (tab_nth _ _ _ H1), (tab_nth _ _ _ H2), K1, K2. reflexivity. }
  unfold Merge, sortMerged, SortKeyCount. rewrite (tab_nth _ _ _ H1), (tab_nth _ _ _ H2), K1, K2. cbn [List.length Z.of_nat Z.eqb]. rewrite SB.
  destruct (_ =? 0)%Z; [reflexivity|]. destruct (_ =? 0)%Z; reflexivity.
Qed.

(** ---------- C22 ---------- *)

Lemma same_key_refl ks t i : wf_table t -> (0 <= i < RowCount t)%Z ->
  Forall (fun k => ColType t (k_col k) = Ok (k_type k) /\ In (k_type k) sortable_types) ks -> same_key ks t i t i.
Proof.
  intros W Hi F. eapply Forall_impl; [|exact F]. cbn beta. intros k [C _]. apply (wf_ColType_iff t W) in C as (j & J1 & J2).
  unfold RowCount in Hi. destruct (nth_error (rows t) (Z.to_nat i)) as [row|] eqn:HR; [|apply nth_error_None in HR; lia].
  pose proof (wf_cells _ W) as FC. rewrite Forall_forall in FC. specialize (FC row (nth_error_In _ _ HR)).
  destruct (Forall2_nth _ _ _ _ _ FC J2) as (v & HV & _).
  assert (G : GetVal t (k_col k) i = Ok v) by (apply (GetVal_cell t _ _ _ W); exists j, row; split; [lia|auto]).
  exists v, v. split; auto. split; auto. now left.
Qed.

Lemma keys_lt_name E n t ks : forall i j, keys_lt E (with_name n t) ks i j -> keys_lt E t ks i j.
Proof.
  induction ks as [|k ks IH]; intros i j H; [exact H|]. destruct H as (v & w & G1 & G2 & H). exists v, w. split; [exact G1|]. split; [exact G2|].
  destruct H as [H|[H1 H2]]; auto.
Qed.

Lemma merged_unique E ks t t' n : tname t = n -> valid_name n -> merged E ks t t t' -> unique_rows E ks t (with_nil false (with_name n t')).
Proof.
  intros Hn VN []. assert (Q : with_nil false (with_name n t') = with_name n t') by (rewrite <- mg_nil; now destruct t'). rewrite Q.
  constructor; try assumption; try exact mg_once; try exact mg_all1; try exact mg_data1.
  - destruct mg_wf. constructor; auto.
  - now symmetry.
  - intros cn ct. specialize (mg_cols cn ct). cbn. rewrite mg_cols. tauto.
  - intros i j H1 H2 H. apply (mg_sorted i j H1 H2). now apply keys_lt_name in H.
  - intros r H. destruct (mg_only r H) as [X|X]; exact X.
  - intros r cn v G ND. destruct (mg_rest r cn v G) as [[X _]|[X Y]]; auto.
    intros x [O|O]; apply ND; exact O.
Qed.

(** SortUnique by the table's own keys or by the given columns: the result is a new table
    with the receiver's name and one row per key.  The receiver gets the keys and is
    otherwise unchanged, and so is every other table. *)
Theorem C22_SortUnique : forall E (h : heap) (p : ptr) t cols ks, env_ok E -> nth_error h p = Some t ->
  (cols = [] /\ skeys t = ks) \/ (cols <> [] /\ fresh_keys t cols ks) ->
  mergeable ks t t ->
  exists h1 t', keyed ks p p h h1
    /\ SortUnique E p cols h = (h1 ++ [t'], Ok (List.length h))
    /\ unique_rows E ks t t'.
Proof.
  intros E h p t cols ks EO HP CASE MB. pose proof (mb_wf1 _ _ _ MB) as W.
  assert (NE : ks <> []) by apply (mb_some _ _ _ MB).
  set (t0 := with_skeys ks t).
  assert (S1 : exists h0 : heap, (if Nat.ltb 0 (List.length cols) then on_heap p (SetSortKeys cols) h else (h, Ok tt)) = (h0, Ok tt : res unit)
            /\ h0 = upd h p t0).
  { destruct CASE as [[-> K]|[NC FK]].
    - exists h. split; [reflexivity|]. unfold t0. rewrite <- K, with_skeys_id. symmetry. now apply upd_same.
    - destruct cols as [|c0 cs]; [congruence|]. cbn [List.length Nat.ltb Nat.leb]. eexists. split; [|reflexivity].
      eapply on_heap_runs; [exact HP|]. eapply quiet_runs; [apply quiet_SetSortKeys|]. apply (proj1 (C18_SetSortKeys t 0 (c0 :: cs) W) ks FK). }
  destruct S1 as (h0 & S1 & ->).
  assert (H0 : nth_error (upd h p t0) p = Some t0) by (apply nth_error_upd_eq; eapply nth_error_some_lt; eauto).
  assert (MK : merge_keys t0 t0 = ks) by (unfold merge_keys, t0, SortKeyCount; cbn [skeys with_skeys]; destruct ks; [congruence|reflexivity]).
  destruct (C21_Merge E (upd h p t0) p p t0 t0 EO H0 H0) as (h1 & KY & SHA & _). { rewrite MK. now apply mergeable_skeys. }
  rewrite MK in *. destruct SHA as (t1 & ME & MG).
  { left. exists 0%Z, 0%Z. pose proof (mb_rows1 _ _ _ MB) as R. unfold t0, RowCount in *. cbn [rows with_skeys] in *.
    split; [lia|]. split; [lia|]. apply (same_key_refl ks t 0 W); [unfold RowCount; lia|apply (mb_keys1 _ _ _ MB)]. }
  apply merged_skeys in MG. pose proof KY as [KL KN]. rewrite upd_length in KL.
  assert (VN : valid_name (tname t)).
  { destruct (wf_name _ W) as [[_ V]|(_ & _ & _ & RW)]; auto. pose proof (mb_rows1 _ _ _ MB) as R. unfold RowCount in R. rewrite RW in R. cbn in R. lia. }
  exists h1, (with_nil false (with_name (tname t) t1)). split; [|split; [|now apply merged_unique]].
  - split; auto. intros q u Hq. destruct (Nat.eqb_spec q p) as [->|D].
    + rewrite (KN p t0 H0), Nat.eqb_refl. cbn [orb]. assert (u = t) by congruence. subst u. reflexivity.
    + rewrite (KN q u); [destruct (Nat.eqb_spec q p); [contradiction|reflexivity]|].
      rewrite nth_error_upd_ne by congruence. exact Hq.
  - unfold SortUnique. rewrite S1. rewrite (tab_nth _ _ _ H0). cbn [skeys with_skeys]. unfold t0 at 1. cbn [skeys with_skeys].
    destruct (Nat.eqb_spec (List.length ks) 0) as [Z0|_]; [destruct ks; [congruence|discriminate]|].
    rewrite ME.
    assert (TP : tab (h1 ++ [t1]) p = t0).
    { apply tab_nth. rewrite nth_error_app1; [rewrite (KN p t0 H0), Nat.eqb_refl; reflexivity|]. rewrite KL. eapply nth_error_some_lt; eauto. }
    rewrite TP. change (tname t0) with (tname t). rewrite !upd_length.
    assert (HL : nth_error (h1 ++ [t1]) (List.length h) = Some t1) by (rewrite <- KL, nth_error_app2, Nat.sub_diag by lia; reflexivity).
    assert (RN : runs (SetName (tname t)) t1 (with_nil false (with_name (tname t) t1)) tt).
    { intros b nw. unfold SetName. rewrite (proj2 (IsValidTableName_spec _) VN). reflexivity. }
    rewrite (on_heap_runs (List.length h) _ (h1 ++ [t1]) t1 _ tt HL RN). cbn [rbind].
    replace (upd (h1 ++ [t1]) (List.length h)) with (upd (h1 ++ [t1]) (List.length h1)) by now rewrite KL.
    rewrite upd_app_mid. reflexivity.
Qed.

(** Without keys and without columns SortUnique is rejected. *)
Theorem C22_SortUnique_no_keys : forall E h (p : ptr) t, nth_error h p = Some t -> skeys t = [] -> SortUnique E p [] h = (h, Err).
Proof. intros E h p t H K. unfold SortUnique. cbn [List.length Nat.ltb Nat.leb]. rewrite (tab_nth _ _ _ H), K. reflexivity. Qed.

(** ---------- cases that meet the hypotheses, and cases that do not ---------- *)

Definition half (m : positive) (e : Z) : value := VFloat64 (S754_finite false m e).
Definition merge_tables : list hop :=
  [ HNewTable "A"; HTab (Some 0) (OAppendCol "id" "int"); HTab (Some 0) (OAppendCol "x" "string"); HTab (Some 0) (OAppendCol "y" "float64");
    HTab (Some 0) (OAppendRows 3);
    HTab (Some 0) (OSet "int" "id" 0 (VInt KInt 3)); HTab (Some 0) (OSet "int" "id" 1 (VInt KInt 1)); HTab (Some 0) (OSet "int" "id" 2 (VInt KInt 1));
    HTab (Some 0) (OSet "string" "x" 0 (VString "a")); HTab (Some 0) (OSet "string" "x" 2 (VString "c"));
    HTab (Some 0) (OSetFloatCellToNaN "y" 1);
    HNewTable "B"; HTab (Some 1) (OAppendCol "id" "int"); HTab (Some 1) (OAppendCol "y" "float64"); HTab (Some 1) (OAppendCol "z" "bool");
    HTab (Some 1) (OAppendRows 2);
    HTab (Some 1) (OSet "int" "id" 0 (VInt KInt 1)); HTab (Some 1) (OSet "int" "id" 1 (VInt KInt 2));
    HTab (Some 1) (OSet "float64" "y" 0 (half 4503599627370496 (-51))); HTab (Some 1) (OSet "bool" "z" 1 (VBool true));
    HTab (Some 1) (OSetSortKeys ["id"]) ].
Definition merge_heap : heap := Eval vm_compute in match play env0 merge_tables [] with Some h => h | None => [] end.
Lemma merge_heap_reachable : reachable env0 merge_heap.
Proof. eapply play_reachable; [apply reach_empty|]. instantiate (1 := merge_tables). vm_compute. reflexivity. Qed.

(** the cells of a key column that is not of a float type are not NaN *)
Lemma int_cell_no_nan t cn r v : wf_table t -> ColType t cn = Ok "int" -> GetVal t cn r = Ok v -> ~ is_nan v.
Proof.
  intros W C G. apply (wf_ColType_iff t W) in C as (i & I1 & I2). apply (GetVal_cell t _ _ _ W) in G as (j & row & _ & J1 & J2 & J3).
  assert (j = i) by (apply (proj1 (NoDup_nth_error _) (wf_nodup _ W)); [eapply nth_error_some_lt; eauto|congruence]). subst j.
  pose proof (wf_cells _ W) as F. rewrite Forall_forall in F. specialize (F row (nth_error_In _ _ J2)).
  pose proof (Forall2_nth_both _ _ _ i _ _ F I2 J3) as [HT _]. intros X. destruct v; cbn in X, HT; try contradiction; try discriminate; destruct X; discriminate.
Qed.

Definition id_key : list skey := [mkKey "id" "int" false].
Lemma merge_heap_mergeable : mergeable id_key (tab merge_heap 0) (tab merge_heap 1).
Proof.
  pose proof (reachable_wf env0 merge_heap env0_ok merge_heap_reachable) as WH.
  assert (W0 : wf_table (tab merge_heap 0)) by apply (tab_wf merge_heap 0 WH).
  assert (W1 : wf_table (tab merge_heap 1)) by apply (tab_wf merge_heap 1 WH).
  constructor; auto; try (cbn; lia); try discriminate.
  - constructor; [intros []|constructor].
  - constructor; [|constructor]. split; [reflexivity|now apply str_in_In].
  - constructor; [|constructor]. split; [reflexivity|now apply str_in_In].
  - intros k r v [<-|[]]. now apply int_cell_no_nan.
  - intros k r v [<-|[]]. now apply int_cell_no_nan.
  - intros i j cn ct ct'. cbn [merge_heap tab nth cnames ctypes].
    destruct i as [|[|[|[|i]]]]; cbn [nth_error]; try discriminate; intros A B; injection A as <-; injection B as <-;
      destruct j as [|[|[|[|j]]]]; cbn [nth_error]; try discriminate; intros A B; injection B as <-; try discriminate; reflexivity.
  - cbn [merge_heap tab nth ctypes]. repeat (apply Forall_cons; [now apply str_in_In|]). apply Forall_nil.
  - cbn [merge_heap tab nth ctypes]. repeat (apply Forall_cons; [now apply str_in_In|]). apply Forall_nil.
  - split; cbn; intuition discriminate.
  - split; cbn; intuition discriminate.
Qed.
Lemma merge_heap_shared : shared_key id_key (tab merge_heap 0) (tab merge_heap 1).
Proof.
  left. exists 1%Z, 0%Z. split; [cbn; lia|]. split; [cbn; lia|]. constructor; [|constructor].
  exists (VInt KInt 1), (VInt KInt 1). split; [reflexivity|]. split; [reflexivity|]. now left.
Qed.

(** C21_Merge applies to these tables; key 1 occurs three times.  x = c comes from the
    second row of A with key 1 and y = 2 from B, although A has that column. *)
Example C21_nonvacuous : env_ok env0 /\ reachable env0 merge_heap
  /\ merge_keys (tab merge_heap 0) (tab merge_heap 1) = id_key
  /\ mergeable id_key (tab merge_heap 0) (tab merge_heap 1) /\ shared_key id_key (tab merge_heap 0) (tab merge_heap 1)
  /\ exists h1 t', Merge env0 0 1 merge_heap = (h1 ++ [t'], Ok 2)
       /\ cnames t' = ["id"; "x"; "y"; "z"]
       /\ rows t' = [ [VInt KInt 1; VString "c"; half 4503599627370496 (-51); VBool false];
                      [VInt KInt 2; VString ""; VFloat64 (S754_zero false); VBool true];
                      [VInt KInt 3; VString "a"; VFloat64 (S754_zero false); VBool false] ].
Proof.
  split; [apply env0_ok|]. split; [apply merge_heap_reachable|]. split; [reflexivity|]. split; [apply merge_heap_mergeable|].
  split; [apply merge_heap_shared|].
  destruct (C21_Merge env0 merge_heap 0 1 (tab merge_heap 0) (tab merge_heap 1) env0_ok eq_refl eq_refl merge_heap_mergeable) as (h1 & [HL _] & HS & _).
  destruct (HS merge_heap_shared) as (t' & R & _). exists h1, t'. split; [exact R|].
  assert (L : last (fst (Merge env0 0 1 merge_heap)) NewNilTable = t') by (rewrite R; apply last_last).
  rewrite <- L. vm_compute. auto.
Qed.
Example C22_nonvacuous : mergeable id_key (tab merge_heap 0) (tab merge_heap 0) /\ fresh_keys (tab merge_heap 0) ["id"] id_key
  /\ rows (last (fst (SortUnique env0 0 ["id"] merge_heap)) NewNilTable)
     = [ [VInt KInt 1; VString "c"; VFloat64 (S754_zero false)]; [VInt KInt 3; VString "a"; VFloat64 (S754_zero false)] ].
Proof.
  split; [|split].
  - pose proof merge_heap_mergeable as []. constructor; auto. intros i j cn ct ct' H1 H2 H3 H4.
    assert (j = i) by (apply (proj1 (NoDup_nth_error _) (wf_nodup _ mb_wf1)); [eapply nth_error_some_lt; eauto|congruence]). congruence.
  - constructor; [|constructor]. split; [reflexivity|]. split; [reflexivity|]. split; [reflexivity|now apply str_in_In].
  - vm_compute. reflexivity.
Qed.

(** Two tables with the same columns and keys whose keys are all different cannot be merged. *)
Definition disjoint_tables : list hop :=
  [ HNewTable "A"; HTab (Some 0) (OAppendCol "id" "int"); HTab (Some 0) OAppendRow; HTab (Some 0) (OSet "int" "id" 0 (VInt KInt 1));
    HTab (Some 0) (OSetSortKeys ["id"]);
    HNewTable "B"; HTab (Some 1) (OAppendCol "id" "int"); HTab (Some 1) OAppendRow; HTab (Some 1) (OSet "int" "id" 0 (VInt KInt 2)) ].
Theorem C21_disjoint_keys_refuted : exists h, reachable env0 h /\ RowCount (tab h 0) = 1%Z /\ RowCount (tab h 1) = 1%Z
  /\ ColType (tab h 0) "id" = Ok "int" /\ ColType (tab h 1) "id" = Ok "int" /\ skeys (tab h 0) = id_key
  /\ snd (Merge env0 0 1 h) = Err.
Proof.
  eexists. split; [apply (play_reachable env0 disjoint_tables [] _ (reach_empty env0)); vm_compute; reflexivity|].
  vm_compute. auto 10.
Qed.

(** A column of another type than string, bool, the integers or the floats, and a column
    with one of the names that Merge uses for itself, make Merge fail, for every such type. *)
Definition with_column (cn ct : string) : list hop :=
  [ HNewTable "A"; HTab (Some 0) (OAppendCol "id" "int"); HTab (Some 0) OAppendRow;
    HNewTable "B"; HTab (Some 1) (OAppendCol "id" "int"); HTab (Some 1) (OAppendCol cn ct); HTab (Some 1) OAppendRow;
    HTab (Some 1) (OSetSortKeys ["id"]) ].
Theorem C21_other_columns_refuted : forall cn ct,
  (cn = "x" /\ In ct ["byte"; "rune"; "[]byte"; "[]uint8"; "time.Time"; "*Table"]) \/ (In cn ["_TABLE_"; "_DELETE_"] /\ ct = "int") ->
  exists h, reachable env0 h /\ ColType (tab h 1) cn = Ok ct /\ skeys (tab h 1) = id_key
    /\ shared_key id_key (tab h 0) (tab h 1) /\ snd (Merge env0 0 1 h) = Err.
Proof.
  intros cn ct H.
  assert (G : exists h, play env0 (with_column cn ct) [] = Some h /\ ColType (tab h 1) cn = Ok ct /\ skeys (tab h 1) = id_key
            /\ RowCount (tab h 0) = 1%Z /\ RowCount (tab h 1) = 1%Z /\ GetVal (tab h 0) "id" 0 = Ok (VInt KInt 0) /\ GetVal (tab h 1) "id" 0 = Ok (VInt KInt 0)
            /\ snd (Merge env0 0 1 h) = Err).
  { destruct H as [[-> H]|[H ->]]; cbn [In] in H; repeat (destruct H as [<-|H]; [eexists; split; [vm_compute; reflexivity|repeat split; vm_compute; reflexivity]|]); contradiction. }
  destruct G as (h & P & C & K & R0 & R1 & V0 & V1 & M). exists h. split; [eapply play_reachable; [apply reach_empty|exact P]|].
  split; auto. split; auto. split; auto. left. exists 0%Z, 0%Z. split; [lia|]. split; [lia|]. constructor; [|constructor]. eexists _, _. split; [exact V0|]. split; [exact V1|]. now left.
Qed.

(** Merge with an empty table returns the other table itself, not a new one, and changes the
    order of its rows. *)
Definition empty_merge : list hop :=
  [ HNewTable "A"; HTab (Some 0) (OAppendCol "id" "int"); HTab (Some 0) (OAppendRows 2); HTab (Some 0) (OSet "int" "id" 0 (VInt KInt 1));
    HTab (Some 0) (OSetSortKeys ["id"]); HNewTable "B"; HTab (Some 1) (OAppendCol "id" "int") ].
Theorem C21_empty_table_aliases_refuted : exists h h1, reachable env0 h /\ Merge env0 0 1 h = (h1, Ok 0)
  /\ GetVal (tab h 0) "id" 0 = Ok (VInt KInt 1) /\ GetVal (tab h1 0) "id" 0 = Ok (VInt KInt 0).
Proof.
  eexists _, _. split; [apply (play_reachable env0 empty_merge [] _ (reach_empty env0)); vm_compute; reflexivity|].
  split; [vm_compute; reflexivity|]. split; vm_compute; reflexivity.
Qed.

(** Axioms used by any theorem of this file. *)
Definition all_Props_Merge :=
  (@C21_Merge,
   @C21_Merge_empty,
   @C21_Merge_no_keys,
   @C22_SortUnique,
   @C22_SortUnique_no_keys,
   @C21_disjoint_keys_refuted,
   @C21_other_columns_refuted,
   @C21_empty_table_aliases_refuted).
Print Assumptions all_Props_Merge.
