(** Props_TableSet.v -- table sets: C16. *)
From Coq Require Import ZArith NArith List String Ascii Bool SpecFloat Permutation Lia.
From Verif Require Import Base Model_Names Model_Table Model_Sort Model_Copy Model_Ops Model_Heap Model_TableSet.
From Verif Require Import Spec Spec_Sort Spec_Heap Spec_Frame Spec_TableSet.
From Verif Require Import Proofs_Lib Proofs_Table Proofs_Cells Proofs_Pres Samples Proofs_Env Proofs_Heap Proofs_Frame Proofs_TableSet.
Import ListNotations.
Local Open Scope string_scope.
Local Open Scope list_scope.

Lemma upd_In {A} (l : list A) i x y : In y (upd l i x) -> y = x \/ In y l.
Proof.
  revert i. induction l as [|z l IH]; intros [|i] H; simpl in *; auto.
  - destruct H as [H|H]; auto.
  - destruct H as [H|H]; auto. apply IH in H as [H|H]; auto.
Qed.

Lemma set_history_ok E g : set_history E g -> Forall (set_ok (p_heap g)) (p_sets g).
Proof.
  induction 1 as [|g c SH IH HT RS]; [constructor|].
  assert (ON : forall k f, (forall s, set_ok (p_heap g) s -> set_ok (p_heap g) (fst (f s))) ->
    Forall (set_ok (p_heap (fst (on_set k f g)))) (p_sets (fst (on_set k f g)))).
  { intros [i|] f Hf; simpl; auto. destruct (nth_error (p_sets g) i) as [s|] eqn:E'; auto.
    pose proof (Hf s) as HS. destruct (f s) as [s' r]. simpl in *. rewrite Forall_forall in *.
    intros y Hy. apply upd_In in Hy as [->|Hy]; auto. apply HS, IH. eapply nth_error_In; eauto. }
  destruct c as [c|n|k n|k n|k o|k n|k i|[k|] a b|[k|]]; cbn [sexec].
  - pose proof (hexec_names E c (p_heap g)) as [L N]. destruct (hexec E c (p_heap g)) as [h r]. simpl in *.
    rewrite Forall_forall in *. intros s Hs. eapply set_ok_names; eauto. intros p I Hp. apply N; auto.
    intros IR. destruct c as [o c| | | | | | | | | | | | | | | | |]; try contradiction. destruct o as [q|]; try contradiction.
    destruct c; try contradiction. destruct IR as [<-|[]]. simpl in RS. now apply (RS s).
  - simpl. apply Forall_app. split; auto. repeat constructor.
  - apply ON. auto.
  - destruct k; [apply ON|]; auto.
  - apply ON. intros s S. now apply AppendTable_ok.
  - apply ON. intros s S. now apply DeleteTable_ok.
  - apply ON. intros s S. now apply DeleteAt_ok.
  - destruct (nth_error (p_sets g) k) as [s|] eqn:ES; auto. rewrite RenameTable_eq.
    pose proof (find_table_spec (p_heap g) a (ts_tables s)) as FS.
    destruct (find_table (p_heap g) a (ts_tables s)) as [[p|]|]; auto.
    destruct (in_dec string_dec b (set_names (p_heap g) s)) as [I|NI]; auto.
    destruct FS as (i & FI & FN & _). assert (SO : set_ok (p_heap g) s) by (rewrite Forall_forall in IH; apply IH; eapply nth_error_In; eauto).
    assert (IS : In (Some p) (ts_tables s)) by (eapply nth_error_In; eauto).
    assert (LP : p < List.length (p_heap g)) by (destruct SO as [_ F]; rewrite Forall_forall in F; now apply ref_in_lt, F).
    rewrite on_heap_SetName by auto. destruct (IsValidTableName b); auto. simpl.
    rewrite Forall_forall in *. intros s' Hs'. apply In_nth_error in Hs' as [j Hj].
    destruct (Nat.eq_dec j k) as [->|NE].
    + rewrite ES in Hj. injection Hj as <-. split.
      * unfold set_names in *. destruct SO as [ND F]. rewrite Forall_forall in F.
        assert (NM : map (ref_name (upd (p_heap g) p (with_nil false (with_name b (tab (p_heap g) p))))) (ts_tables s)
                     = map (fun x => if x =? a then b else x) (map (ref_name (p_heap g)) (ts_tables s))).
        { rewrite map_map. apply map_ext_in. intros o Io. destruct o as [q|].
          - destruct (Nat.eq_dec q p) as [->|NQ].
            + simpl in FN |- *. unfold tab at 1. erewrite nth_error_nth by (now apply nth_error_upd_eq). simpl. rewrite FN, String.eqb_refl. reflexivity.
            + simpl. rewrite (tab_eq (p_heap g) (upd (p_heap g) p (with_nil false (with_name b (tab (p_heap g) p)))) q) by (apply nth_error_upd_ne; congruence).
              destruct (String.eqb_spec (tname (tab (p_heap g) q)) a) as [EQ|]; auto. exfalso. apply NQ.
              pose proof (find_table_in (p_heap g) a _ _ ND Io EQ). pose proof (find_table_in (p_heap g) a _ _ ND IS FN). congruence.
          - cbn [ref_name]. destruct (String.eqb_spec "" a) as [EQ|]; auto. exfalso.
            pose proof (find_table_in (p_heap g) a _ _ ND Io EQ). pose proof (find_table_in (p_heap g) a _ _ ND IS FN). congruence. }
        unfold set_names in ND. rewrite NM. clear -ND NI. induction (map (ref_name (p_heap g)) (ts_tables s)) as [|x l IHl]; simpl; [constructor|].
        inversion ND as [|? ? NX ND']; subst. simpl in NI. constructor; [|apply IHl; tauto].
        intros I. apply in_map_iff in I as (y & Ey & Iy).
        destruct (String.eqb_spec y a), (String.eqb_spec x a); subst; try contradiction; tauto.
      * destruct SO as [_ F]. eapply Forall_impl; [|exact F]. intros [q|]; auto. rewrite !ref_in_lt, upd_length. auto.
    + eapply set_ok_names; [apply IH; eapply nth_error_In; eauto|now rewrite upd_length|].
      intros q Iq Lq. f_equal. apply tab_eq. apply nth_error_upd_ne. intros ->. apply NE. simpl in RS.
      apply (RS j s' q); auto. exists s. auto.
  - auto.
  - destruct (nth_error (p_sets g) k) as [s|] eqn:ES; auto. unfold TS_Copy.
    set (c0 := SetFileName (ts_file s) (NewTableSet (ts_name s))).
    pose proof (chg_copy_tables (ts_tables s) c0 (p_heap g) true) as (L & _ & N).
    pose proof (copy_tables_ok (ts_tables s) c0 (p_heap g)) as CO.
    destruct (copy_tables (ts_tables s) c0 (p_heap g)) as [h [s'| |]]; simpl in *.
    1: apply Forall_app; split.
    2: { constructor; [|constructor]. apply (CO h s'); auto. repeat constructor. }
    all: eapply Forall_impl; [|exact IH]; intros s1 S1; eapply set_ok_names; eauto.
  - auto.
Qed.

(** In every history the names in a set are pairwise distinct. *)
Theorem C16_names_are_distinct : forall E g s, set_history E g -> In s (p_sets g) -> NoDup (set_names (p_heap g) s).
Proof. intros E g s H I. apply set_history_ok in H. rewrite Forall_forall in H. now apply H. Qed.

(** The four lookups tell the same story. *)
Theorem C16_lookups_agree : forall E g s n, set_history E g -> In s (p_sets g) ->
  let h := p_heap g in
  (forall i, (0 <= i < TableCount s)%Z -> nth_error (set_names h s) (Z.to_nat i) = Some n ->
     exists o, TableIndex h s n = Ok i /\ GetTableByTableIndex s i = Ok o /\ GetTable h s n = Ok o /\ HasTable h s n = Ok true
               /\ ref_name h o = n)
  /\ (~ In n (set_names h s) -> TableIndex h s n = Err /\ GetTable h s n = Err /\ HasTable h s n = Err).
Proof.
  intros E g s n H I h. pose proof (C16_names_are_distinct E g s H I) as ND. fold h in ND. unfold set_names in *.
  pose proof (TableIndex_spec h s n) as TS. unfold HasTable, GetTable. split.
  - intros i Hi Hn. rewrite nth_error_map in Hn. destruct (nth_error (ts_tables s) (Z.to_nat i)) as [o|] eqn:EO; [|discriminate].
    simpl in Hn. injection Hn as Hn. assert (Io : In o (ts_tables s)) by (eapply nth_error_In; eauto).
    pose proof (find_table_in h n _ _ ND Io Hn) as FT. rewrite FT in *.
    destruct (TableIndex h s n) as [j| |]; [|discriminate|contradiction].
    destruct TS as (Hj & (o' & Hj' & E') & _). injection E' as <-.
    assert (j = i). { enough (Z.to_nat j = Z.to_nat i) by lia. apply (proj1 (NoDup_nth_error _) ND).
      - rewrite map_length. unfold TableCount in Hj. lia.
      - rewrite !nth_error_map, EO, Hj'. reflexivity. }
    subst j. exists o. split; auto. split; auto.
    unfold GetTableByTableIndex. replace ((i <? 0)%Z || (i >? TableCount s - 1)%Z) with false by lia.
    replace (znth (ts_tables s) i) with (Some o); auto. symmetry. apply znth_some. split; [lia|auto].
  - intros NI. pose proof (find_table_spec h n (ts_tables s)) as FS.
    destruct (find_table h n (ts_tables s)) as [o|].
    + destruct FS as (i & FI & FN & _). exfalso. apply NI. rewrite <- FN. apply in_map. eapply nth_error_In; eauto.
    + destruct (TableIndex h s n) as [j| |]; [|auto|contradiction]. destruct TS as (_ & (o & _ & ?) & _). discriminate.
Qed.

(** GetTableByTableIndex answers for the positions below TableCount and errs elsewhere. *)
Theorem C16_GetTableByTableIndex : forall s i, 
  (forall o, (0 <= i)%Z /\ nth_error (ts_tables s) (Z.to_nat i) = Some o <-> GetTableByTableIndex s i = Ok o)
  /\ (~ (0 <= i < TableCount s)%Z <-> GetTableByTableIndex s i = Err).
Proof.
  intros s i. unfold GetTableByTableIndex, TableCount.
  destruct ((i <? 0)%Z || (i >? Z.of_nat (List.length (ts_tables s)) - 1)%Z) eqn:B.
  - split; [|split; auto; lia]. intros o. split; [|discriminate]. intros [P H]. apply nth_error_some_lt in H. lia.
  - destruct (nth_error_lt (ts_tables s) (Z.to_nat i)) as [o Ho]; [lia|].
    replace (znth (ts_tables s) i) with (Some o) by (symmetry; apply znth_some; split; [lia|auto]).
    split; [|split; [lia|discriminate]]. intros o'. rewrite Ho. split; [intros [_ H]; congruence|]. intros H. split; [lia|congruence].
Qed.

(** AppendTable, DeleteTable, DeleteTableByTableIndex and RenameTable: what they accept and
    what they do. *)
Theorem C16_AppendTable : forall h s p,
  (~ In (tname (tab h p)) (set_names h s) ->
     exists s', AppendTable h s (Some p) = (s', Ok tt) /\ ts_tables s' = ts_tables s ++ [Some p]
       /\ TableCount s' = (TableCount s + 1)%Z /\ ts_name s' = ts_name s /\ ts_file s' = ts_file s)
  /\ (In (tname (tab h p)) (set_names h s) -> AppendTable h s (Some p) = (s, Err)).
Proof.
  intros h s p. unfold AppendTable. cbn [ref_name]. pose proof (find_table_spec h (tname (tab h p)) (ts_tables s)) as FS.
  fold (set_names h s) in FS. destruct (find_table h (tname (tab h p)) (ts_tables s)) as [o|].
  - split; auto. intros NI. exfalso. apply NI. destruct FS as (i & FI & <- & _). apply in_map. eapply nth_error_In; eauto.
  - split; [|contradiction]. intros _. eexists. split; [reflexivity|]. split; auto. split; [|auto].
    unfold TableCount. simpl. rewrite app_length. simpl. lia.
Qed.

(** The exception: a nil table is appended without a complaint, and a second one is a panic. *)
Theorem C16_AppendTable_nil_refuted : exists h s, 
  AppendTable h (NewTableSet "S") None = (s, Ok tt) /\ ts_tables s = [None] /\ AppendTable h s None = (s, Panic).
Proof. exists [], (mkTS "S" "" [None]). repeat split. Qed.

Theorem C16_DeleteTableByTableIndex : forall s i,
  ((0 <= i < TableCount s)%Z -> exists s', DeleteTableByTableIndex s i = (s', Ok tt)
     /\ ts_tables s' = firstn (Z.to_nat i) (ts_tables s) ++ skipn (S (Z.to_nat i)) (ts_tables s)
     /\ TableCount s' = (TableCount s - 1)%Z /\ ts_name s' = ts_name s /\ ts_file s' = ts_file s)
  /\ (~ (0 <= i < TableCount s)%Z -> DeleteTableByTableIndex s i = (s, Err)).
Proof.
  intros s i. unfold DeleteTableByTableIndex, TableCount. split; intros H.
  - replace ((i <? 0)%Z || (i >? Z.of_nat (List.length (ts_tables s)) - 1)%Z) with false by lia.
    eexists. split; [reflexivity|]. split; [reflexivity|]. split; auto. simpl. unfold remove_at.
    rewrite app_length, firstn_length, skipn_length. lia.
  - replace ((i <? 0)%Z || (i >? Z.of_nat (List.length (ts_tables s)) - 1)%Z) with true by lia. reflexivity.
Qed.

Theorem C16_DeleteTable : forall h s n,
  (forall i, NoDup (set_names h s) -> (0 <= i < TableCount s)%Z -> nth_error (set_names h s) (Z.to_nat i) = Some n ->
     DeleteTable h s n = DeleteTableByTableIndex s i)
  /\ (~ In n (set_names h s) -> DeleteTable h s n = (s, Err)).
Proof.
  intros h s n. unfold DeleteTable, set_names. pose proof (TableIndex_spec h s n) as TS. split.
  - intros i ND Hi Hn. rewrite nth_error_map in Hn. destruct (nth_error (ts_tables s) (Z.to_nat i)) as [o|] eqn:EO; [|discriminate].
    simpl in Hn. injection Hn as Hn. assert (Io : In o (ts_tables s)) by (eapply nth_error_In; eauto).
    pose proof (find_table_in h n _ _ ND Io Hn) as FT. rewrite FT in *.
    destruct (TableIndex h s n) as [j| |]; [|discriminate|contradiction].
    destruct TS as (Hj & (o' & Hj' & E') & _). injection E' as <-.
    enough (j = i) by congruence. enough (Z.to_nat j = Z.to_nat i) by lia. apply (proj1 (NoDup_nth_error _) ND).
    + rewrite map_length. unfold TableCount in Hj. lia.
    + rewrite !nth_error_map, EO, Hj'. reflexivity.
  - intros NI. pose proof (find_table_spec h n (ts_tables s)) as FS. destruct (TableIndex h s n) as [j| |]; auto; [|contradiction].
    destruct TS as (_ & (o & Ho & E') & _). rewrite E' in FS. destruct FS as (i & FI & FN & _). exfalso. apply NI. rewrite <- FN. apply in_map. eapply nth_error_In; eauto.
Qed.

Theorem C16_RenameTable : forall h s from to p,
  NoDup (set_names h s) -> In (Some p) (ts_tables s) -> p < List.length h -> tname (tab h p) = from ->
  (~ In to (set_names h s) -> valid_name to ->
     RenameTable h s from to = (upd h p (with_nil false (with_name to (tab h p))), Ok tt))
  /\ (In to (set_names h s) \/ ~ valid_name to -> RenameTable h s from to = (h, Err)).
Proof.
  intros h s from to p ND I L E. rewrite RenameTable_eq. rewrite (find_table_in h from _ _ ND I E).
  destruct (in_dec string_dec to (set_names h s)) as [Y|N]; [split; [contradiction|auto]|].
  rewrite on_heap_SetName by auto. split.
  - intros _ V. apply IsValidTableName_spec in V. now rewrite V.
  - intros [C|C]; [contradiction|]. destruct (IsValidTableName to) eqn:V; auto. apply IsValidTableName_spec in V. contradiction.
Qed.
Theorem C16_RenameTable_unknown : forall h s from to, ~ In from (set_names h s) -> RenameTable h s from to = (h, Err).
Proof.
  intros h s from to N. rewrite RenameTable_eq. pose proof (find_table_spec h from (ts_tables s)) as FS.
  destruct (find_table h from (ts_tables s)) as [o|]; auto. destruct FS as (i & FI & FN & _).
  exfalso. apply N. rewrite <- FN. apply in_map. eapply nth_error_In; eauto.
Qed.

(** Whatever the call on a set is, if it does not succeed the sets and the tables that
    existed are the same as before. *)
Theorem C16_rejected_call_changes_nothing : forall E g c, (forall x, c <> PTab x) ->
  snd (sexec E c g) <> Ok tt ->
  p_sets (fst (sexec E c g)) = p_sets g
  /\ forall p, p < List.length (p_heap g) -> nth_error (p_heap (fst (sexec E c g))) p = nth_error (p_heap g) p.
Proof.
  intros E g c NT.
  assert (ON : forall k f, (forall s s' r, f s = (s', r) -> r <> Ok tt -> s' = s) ->
    snd (on_set k f g) <> Ok tt -> p_sets (fst (on_set k f g)) = p_sets g
     /\ forall p, p < List.length (p_heap g) -> nth_error (p_heap (fst (on_set k f g))) p = nth_error (p_heap g) p).
  { intros [i|] f Hf; simpl; auto. destruct (nth_error (p_sets g) i) as [s|] eqn:E'; auto.
    destruct (f s) as [s' r] eqn:EF. simpl. intros R. rewrite (Hf s s' r EF R). split; auto.
    clear -E'. revert i E'. induction (p_sets g) as [|x l IH]; intros [|i] H; simpl in *; try discriminate; [congruence|]. now rewrite IH. }
  destruct c as [c|n|k n|k n|k o|k n|k i|[k|] a b|[k|]]; cbn [sexec]; try (intros R; split; auto; fail).
  - exfalso. now apply (NT c).
  - simpl. congruence.
  - apply ON. intros s s' r H R. congruence.
  - destruct k; [|auto]. apply ON. intros s s' r H R. congruence.
  - apply ON. intros s s' r. unfold AppendTable. destruct (find_table _ _ _); intros H R; congruence.
  - apply ON. intros s s' r. unfold DeleteTable, DeleteTableByTableIndex. destruct (TableIndex _ _ _); [destruct (_ || _)|..]; intros H R; congruence.
  - apply ON. intros s s' r. unfold DeleteTableByTableIndex. destruct (_ || _); intros H R; congruence.
  - destruct (nth_error (p_sets g) k) as [s|]; auto. rewrite RenameTable_eq.
    destruct (find_table (p_heap g) a (ts_tables s)) as [[p|]|]; auto.
    destruct (in_dec string_dec b (set_names (p_heap g) s)); auto.
    destruct (Nat.lt_ge_cases p (List.length (p_heap g))) as [L|L].
    + rewrite on_heap_SetName by auto. destruct (IsValidTableName b); simpl; auto. congruence.
    + unfold on_heap. apply nth_error_None in L. unfold ptr in *. rewrite L. simpl. auto.
  - destruct (nth_error (p_sets g) k) as [s|]; auto.
    unfold TS_Copy. set (c0 := SetFileName (ts_file s) (NewTableSet (ts_name s))).
    pose proof (chg_copy_tables (ts_tables s) c0 (p_heap g) true) as (L & F & N).
    destruct (copy_tables (ts_tables s) c0 (p_heap g)) as [h [s'| |]]; simpl in *; intros R; [congruence|..]; split; auto.
Qed.

(** Renaming a table behind the back of a set breaks the property: the library does not
    prevent it. *)
Definition rename_calls : list sop :=
  [PTab (HNewTable "A"); PTab (HNewTable "B"); PNewTableSet "S"; PNewTableSet "T";
   PAppendTable (Some 0) (Some 0); PAppendTable (Some 0) (Some 1); PAppendTable (Some 1) (Some 1)].
Definition splay (E : env) (l : list sop) (g : pstate) : pstate := fold_left (fun g c => fst (sexec E c g)) l g.

Theorem C16_direct_rename_refuted : exists g s,
  g = splay env0 (rename_calls ++ [PTab (HTab (Some 1) (OSetName "A"))]) (mkP [] [])
  /\ nth_error (p_sets g) 0 = Some s /\ set_names (p_heap g) s = ["A"; "A"].
Proof. eexists _, _. split; [reflexivity|]. vm_compute. auto. Qed.
Theorem C16_rename_through_another_set_refuted : exists g s,
  g = splay env0 (rename_calls ++ [PRenameTable (Some 1) "B" "A"]) (mkP [] [])
  /\ nth_error (p_sets g) 0 = Some s /\ set_names (p_heap g) s = ["A"; "A"].
Proof. eexists _, _. split; [reflexivity|]. vm_compute. auto. Qed.

(** A history that meets the hypotheses. *)
Example C16_nonvacuous : exists g s, set_history env0 g /\ In s (p_sets g)
  /\ set_names (p_heap g) s = ["A"; "C"] /\ TableCount s = 2%Z
  /\ TableIndex (p_heap g) s "C" = Ok 1%Z /\ HasTable (p_heap g) s "B" = Err.
Proof.
  exists (splay env0 [PTab (HNewTable "A"); PTab (HNewTable "B"); PNewTableSet "S"; PAppendTable (Some 0) (Some 0);
                 PAppendTable (Some 0) (Some 1); PRenameTable (Some 0) "B" "C"; PAppendTable (Some 0) (Some 1)] (mkP [] [])).
  eexists. split.
  { unfold splay. cbn [fold_left].
    apply sh_call; [|reflexivity|exact I]. apply sh_call; [|reflexivity|].
    2:{ intros j s p Hj. vm_compute in Hj. destruct j as [|[|j]]; try discriminate. auto. }
    do 5 (apply sh_call; [|reflexivity|exact I]). constructor. }
  vm_compute. auto 10.
Qed.

(** Axioms used by any theorem of this file. *)
Definition all_Props_TableSet :=
  (@C16_names_are_distinct,
   @C16_lookups_agree,
   @C16_GetTableByTableIndex,
   @C16_AppendTable,
   @C16_AppendTable_nil_refuted,
   @C16_DeleteTableByTableIndex,
   @C16_DeleteTable,
   @C16_RenameTable,
   @C16_RenameTable_unknown,
   @C16_rejected_call_changes_nothing,
   @C16_direct_rename_refuted,
   @C16_rename_through_another_set_refuted).
Print Assumptions all_Props_TableSet.
