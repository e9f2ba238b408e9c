(** Props_Gob.v -- C32: gob round trips of tables and table sets. *)
From Coq Require Import ZArith NArith List String Ascii Bool SpecFloat Lia.
From Verif Require Import Base Model_Names Model_Table Model_Sort Model_Ops Model_Heap Model_TableSet Model_Print Model_Gob
  Spec Spec_Sort Spec_Heap Spec_Walk Spec_Equals Spec_Keys Spec_TableSet Spec_Gob
  Proofs_Lib Proofs_Table Proofs_Cells Proofs_Struct Proofs_Api Proofs_Api2 Proofs_Copy Proofs_Env Proofs_Heap Proofs_Nesting Proofs_Equals Proofs_TableSet Proofs_Valid
  Props_Heap Props_Equals Props_Valid.
Import ListNotations.
Local Open Scope string_scope.
Local Open Scope list_scope.

Definition plain_cells (t : table) : Prop := forall c r v, GetValByColIndex t c r = Ok v -> gob_plain v = true.

Lemma plain_rows t : wf_table t -> plain_cells t <-> Forall (Forall (fun v => gob_plain v = true)) (rows t).
Proof.
  intros W. split.
  - intros P. apply Forall_forall. intros row I. apply In_nth_error in I as [r RO]. apply Forall_forall. intros v I.
    apply In_nth_error in I as [c V]. apply (P (Z.of_nat c) (Z.of_nat r)). rewrite get_at_nat by exact W. unfold at_cell. now rewrite RO, V.
  - intros F c r v G. rewrite get_at in G by exact W. destruct (_ && _)%bool in G; [|discriminate].
    unfold at_cell in G. destruct (nth_error (rows t) (Z.to_nat r)) as [row|] eqn:RO; [|discriminate].
    destruct (nth_error row (Z.to_nat c)) as [w|] eqn:V; [|discriminate]. injection G as ->.
    pose proof (Forall_nth_error _ _ _ _ F RO) as Fr. exact (Forall_nth_error _ _ _ _ Fr V).
Qed.

Lemma gob_cell_ok ct v w : gob_cell v w -> cell_ok ct v -> cell_ok ct w.
Proof.
  intros [->|G] [A B]; [split; assumption|]. destruct v as [|b|x|k z|f|f|o|q|tm|y]; try contradiction.
  destruct o as [[|]|], w as [|b|x|k z|f|f|[[|]|]|q|tm|y]; try contradiction; split; exact A || reflexivity.
Qed.
Lemma gob_cell_plain v w : gob_cell v w -> gob_plain v = true -> gob_plain w = true.
Proof.
  intros [->|G]; [auto|]. destruct v as [|b|x|k z|f|f|o|q|tm|y]; try contradiction. destruct w; cbn; auto;
  destruct o as [[|]|]; contradiction.
Qed.

(** The table that importTable builds *)
Definition imported (e : exported) : table :=
  mkT (e_name e) (e_names e) (e_types e) (e_map e) (e_rows e) [] (e_shape e) false None.
Definition export_of (t : table) : exported := mkE (tname t) (cnames t) (ctypes t) (cmap t) (rows t) [] (struct_shape t).

Lemma wf_named t : wf_table t -> is_nil t = false -> valid_name (tname t).
Proof. intros W N. destruct (wf_name _ W) as [[_ V]|[X _]]; [exact V|congruence]. Qed.

Lemma exportTable_eq t : wf_table t -> is_nil t = false -> skeys t = [] -> exportTable t = Ok (export_of t).
Proof.
  intros W N K. unfold exportTable, export_of. pose proof (wf_named t W N) as V.
  rewrite (proj2 (IsValidTableName_spec _) V). replace (Nat.ltb 0 (String.length (tname t))) with true.
  2:{ destruct V as [(c & r & EN & _) _]. destruct (tname t); [discriminate|reflexivity]. }
  cbn [andb negb].
  rewrite (wf_types_len _ W), Nat.ltb_irrefl, K, <- (wf_types_len _ W), firstn_all. reflexivity.
Qed.

Lemma imported_wf t e' : wf_table t -> is_nil t = false -> gob_like (export_of t) e' -> wf_table (imported e').
Proof.
  intros W N G. destruct G as [G1 G2 G3 G4 G5 G6 G7]. cbn in *. split; cbn.
  - left. split; [reflexivity|]. rewrite G1. now apply wf_named.
  - rewrite G2. apply (wf_nodup _ W).
  - rewrite G2. apply (wf_colnames _ W).
  - rewrite G3, G2. apply (wf_types_len _ W).
  - rewrite G3. apply (wf_types _ W).
  - intros n i. rewrite G4, G2. apply (wf_map _ W).
  - rewrite G3. pose proof (wf_cells _ W) as F. clear -F G5. revert F. induction G5 as [|row row' rs rs' GR _ IH]; intros F; [constructor|].
    inversion F as [|? ? F1 F2]; subst. constructor; [|apply IH; exact F2]. clear -F1 GR. revert F1. generalize (ctypes t).
    induction GR as [|v w vs ws VW _ IH]; intros cts F1; inversion F1; subst; constructor; [|now apply IH]. eapply gob_cell_ok; eauto.
Qed.

Lemma imported_at t e' : gob_like (export_of t) e' -> forall c r v, at_cell t c r = Some v ->
  exists w, at_cell (imported e') c r = Some w /\ gob_cell v w.
Proof.
  intros G c r v A. unfold at_cell in *. cbn. pose proof (gl_rows _ _ G) as F. cbn in F.
  destruct (nth_error (rows t) r) as [row|] eqn:RO; [|discriminate]. destruct (Forall2_nth _ _ _ _ _ F RO) as (row' & R' & FR).
  rewrite R'. destruct (Forall2_nth _ _ _ _ _ FR A) as (w & V & X). eauto.
Qed.

Lemma imported_same t e' : wf_table t -> is_nil t = false -> gob_like (export_of t) e' -> gob_same t (imported e').
Proof.
  intros W N G. pose proof (imported_wf t e' W N G) as W'.
  assert (CELL : forall c r v, GetValByColIndex t c r = Ok v -> exists w, GetValByColIndex (imported e') c r = Ok w /\ gob_cell v w).
  { intros c r v. rewrite (get_at t) by exact W. rewrite (get_at (imported e')) by exact W'. destruct (_ && _)%bool; [|discriminate].
    destruct (at_cell t _ _) as [x|] eqn:A; [|discriminate]. intros X. injection X as <-.
    destruct (imported_at t e' G _ _ _ A) as (w & -> & Q). eauto. }
  destruct G as [G1 G2 G3 G4 G5 G6 G7]. cbn in *. split; cbn; auto.
  - intros c. split; unfold ColName, ColTypeByColIndex, HasColByColIndex, ColCount; cbn; rewrite ?G2, ?G3; rewrite ?N; reflexivity.
  - intros n. unfold ColType, ColIndex. cbn. rewrite G4, G3, ?N. split; reflexivity.
  - split; [unfold ColCount; cbn; now rewrite G2|]. unfold RowCount; cbn. now rewrite (Forall2_len _ _ _ G5).
  - intros n r v. unfold GetVal. cbn [is_nil imported]. rewrite N. replace (ColIndex (imported e') n) with (ColIndex t n).
    + destruct (ColIndex t n); cbn [rbind]; try discriminate. apply CELL.
    + unfold ColIndex. cbn. now rewrite G4, ?N.
Qed.

Lemma gob_cell_same v w : gob_cell v w -> v <> VFloat32 S754_nan -> v <> VFloat64 S754_nan -> same_value v w.
Proof.
  intros [->|G] A B; [now apply same_value_refl|].
  destruct v as [|b|x|k z|f|f|o|q|tm|y]; try contradiction.
  destruct o as [[|]|], w as [|b|x|k z|f|f|[[|]|]|q|tm|y]; try contradiction; reflexivity.
Qed.

Lemma nested_plain rs : Forall (Forall (fun v => gob_plain v = true)) rs -> nested_in rs = [].
Proof.
  unfold nested_in. induction 1 as [|row rs F _ IH]; [reflexivity|]. cbn. rewrite IH, app_nil_r.
  induction F as [|v vs P _ IH2]; [reflexivity|]. cbn. rewrite IH2, app_nil_r. destruct v; try reflexivity; discriminate.
Qed.

Lemma gob_rows_plain rs rs' : Forall2 (Forall2 gob_cell) rs rs' -> Forall (Forall (fun v => gob_plain v = true)) rs ->
  Forall (Forall (fun v => gob_plain v = true)) rs'.
Proof.
  induction 1 as [|row row' rs rs' G _ IH]; intros F; inversion F as [|? ? F1 F2]; subst; constructor; [|now apply IH]. clear -G F1.
  induction G as [|v w vs ws VW _ IH]; inversion F1; subst; constructor; [eapply gob_cell_plain; eauto|now apply IH].
Qed.

Lemma wf_heap_snoc h t : wf_heap h -> wf_table t -> nested_in (rows t) = [] -> parent t = None -> wf_heap (h ++ [t]).
Proof.
  intros WH W NI PA. split.
  - apply Forall_app. split; [apply (wh_tables _ WH)|constructor; [exact W|constructor]].
  - intros p u q X I. rewrite app_length. cbn. destruct (Nat.lt_ge_cases p (List.length h)) as [L|L].
    + rewrite nth_error_app1 in X by exact L. pose proof (wh_nested _ WH _ _ _ X I). unfold ptr in *. lia.
    + rewrite nth_error_app2 in X by exact L. destruct (p - List.length h) as [|[|k]]; cbn in X; try discriminate. injection X as <-. rewrite NI in I. contradiction.
  - intros p u q X I. rewrite app_length. cbn. destruct (Nat.lt_ge_cases p (List.length h)) as [L|L].
    + rewrite nth_error_app1 in X by exact L. pose proof (wh_parent _ WH _ _ _ X I). unfold ptr in *. lia.
    + rewrite nth_error_app2 in X by exact L. destruct (p - List.length h) as [|[|k]]; cbn in X; try discriminate. injection X as <-. congruence.
Qed.

Lemma tab_snoc h t : tab (h ++ [t]) (List.length h) = t.
Proof. unfold tab. rewrite app_nth2 by lia. now rewrite Nat.sub_diag. Qed.
Lemma tab_snoc_old h t (p : ptr) : p < List.length h -> tab (h ++ [t]) p = tab h p.
Proof. intros L. unfold tab. now rewrite app_nth1. Qed.

Lemma importTable_eq t e' h : wf_table t -> is_nil t = false -> gob_like (export_of t) e' -> wf_heap h ->
  Forall (Forall (fun v => gob_plain v = true)) (rows t) ->
  importTable e' h = (h ++ [imported e'], Ok (Some (List.length h))) /\ wf_heap (h ++ [imported e']).
Proof.
  intros W N G WH P. pose proof (imported_wf t e' W N G) as W'.
  assert (NI : nested_in (rows (imported e')) = []). { apply nested_plain. apply (gob_rows_plain _ _ (gl_rows _ _ G) P). }
  assert (WH' : wf_heap (h ++ [imported e'])) by (apply wf_heap_snoc; auto).
  split; [|exact WH']. unfold importTable.
  assert (NT : NewTable (e_name e') = Ok (with_nil false (with_name (e_name e') NewNilTable))).
  { unfold NewTable. rewrite (gl_name _ _ G). cbn [e_name export_of]. unfold run. rewrite SetName_eq.
    rewrite (proj2 (IsValidTableName_spec _)); [reflexivity|now apply wf_named]. }
  rewrite NT. pose proof (wf_types_len _ W') as TL. cbn in TL. rewrite TL, Nat.ltb_irrefl.
  cbn [tname with_nil with_name is_nil parent NewNilTable]. rewrite <- TL, firstn_all. fold (imported e').
  rewrite IsValidTable_wf; [|exact WH'|now rewrite tab_snoc|rewrite tab_snoc; constructor].
  rewrite (proj2 (IsValidTableNesting_iff (h ++ [imported e']) (List.length h) WH' ltac:(rewrite app_length; cbn; lia))); [reflexivity|].
  unfold flat_nesting. rewrite tab_snoc, NI. split; [constructor; [intros []|constructor]|intros q []].
Qed.

(** ---------- one table ---------- *)

(** A named table of any history that has no sort keys and whose cells are neither times nor
    tables is encoded, and decoding it, in any program state, makes one new table with the same
    name, columns, cells and shape.  No other table changes. *)
Theorem C32_round_trip : forall E C h (p : ptr) t, env_ok E -> gob_ok C -> reachable E h -> nth_error h p = Some t ->
  is_nil t = false -> skeys t = [] -> plain_cells t ->
  exists b, GobEncode C h (Some p) = Ok b
    /\ forall h2, wf_heap h2 -> exists t', GobDecodeTable C b h2 = (h2 ++ [t'], Ok (Some (List.length h2)))
         /\ gob_same t t' /\ wf_heap (h2 ++ [t']).
Proof.
  intros E C h p t EO CO R N NN K P. pose proof (reachable_wf E h EO R) as WH.
  assert (W : wf_table t) by apply (Forall_nth_error _ _ _ _ (wh_tables _ WH) N).
  assert (T : tab h p = t) by (unfold tab; now apply nth_error_nth).
  pose proof (proj1 (plain_rows t W) P) as F.
  destruct (gob_trip C CO (export_of t)) as (b & e' & EN & DE & G); [exact F|].
  exists b. split; [cbn; rewrite T, exportTable_eq by assumption; exact EN|].
  intros h2 WH2. exists (imported e'). unfold GobDecodeTable. rewrite DE.
  destruct (importTable_eq t e' h2 W NN G WH2 F) as [I WH']. split; [exact I|]. split; [now apply imported_same|exact WH'].
Qed.

(** The decoded table is equal to the first one when no cell is NaN. *)
Theorem C32_decoded_is_equal : forall E C h (p : ptr) t b h' p' fuel, env_ok E -> gob_ok C -> reachable E h -> nth_error h p = Some t ->
  is_nil t = false -> skeys t = [] -> plain_cells t -> no_nan t ->
  GobEncode C h (Some p) = Ok b -> GobDecodeTable C b h = (h', Ok (Some p')) ->
  Equals (S fuel) h' (Some p) (Some p') = Ok tt /\ Equals (S fuel) h' (Some p') (Some p) = Ok tt.
Proof.
  intros E C h p t b h' p' fuel EO CO R N NN K P NA EN DE. pose proof (reachable_wf E h EO R) as WH.
  assert (W : wf_table t) by apply (Forall_nth_error _ _ _ _ (wh_tables _ WH) N).
  assert (T : tab h p = t) by (unfold tab; now apply nth_error_nth).
  pose proof (nth_error_some_lt _ _ _ N) as L.
  destruct (C32_round_trip E C h p t EO CO R N NN K P) as (b' & EN' & D). rewrite EN in EN'. injection EN' as <-.
  destruct (D h WH) as (t' & D1 & GS & WH'). rewrite DE in D1. injection D1 as -> ->.
  assert (L' : List.length h < List.length (h ++ [t'])) by (rewrite app_length; cbn; lia).
  assert (Lp : p < List.length (h ++ [t'])) by (rewrite app_length; unfold ptr in *; lia).
  assert (NI : no_nested t). { apply nested_plain. now apply plain_rows. }
  assert (W' : wf_table t'). { destruct (tab_wf _ (List.length h) WH') as [X _]. now rewrite tab_snoc in X. }
  assert (PL' : plain_cells t').
  { intros c r w G'. destruct (GetValByColIndex t c r) as [v| |] eqn:GV.
    - destruct (gs_cells _ _ GS _ _ _ GV) as (w' & G'' & GC). rewrite G' in G''. injection G'' as <-. eapply gob_cell_plain; eauto.
    - exfalso. rewrite get_at in G', GV by assumption. destruct (_ && _)%bool eqn:B in G'; [|discriminate]. rewrite B in GV.
      destruct (at_cell t' (Z.to_nat c) (Z.to_nat r)) as [w'|] eqn:A'; [|discriminate].
      destruct (at_cell_range _ _ _ _ W' A') as [LC LR]. destruct (gs_count _ _ GS) as [C1 C2]. unfold ColCount, RowCount in *.
      destruct (wf_at_cell t (Z.to_nat c) (Z.to_nat r) W) as (ct & x & _ & _ & X & _); [lia|lia|]. rewrite X in GV. discriminate.
    - exfalso. rewrite get_at in GV by assumption. destruct (_ && _)%bool; [|discriminate]. destruct (at_cell _ _ _); discriminate. }
  assert (NI' : no_nested t') by (apply nested_plain; now apply plain_rows).
  assert (ST : same_table t t').
  { split; [symmetry; apply (gs_name _ _ GS)|]. split; [symmetry; apply (gs_count _ _ GS)|]. split.
    - intros cn ct. destruct (gs_types _ _ GS cn) as [-> _]. reflexivity.
    - intros cn r v w G1 G2. destruct (gs_named _ _ GS _ _ _ G1) as (w' & G3 & GC). rewrite G2 in G3. injection G3 as <-.
      destruct (GetVal_ok _ _ _ _ W G1) as (c & _ & _ & GV). destruct (NA _ _ _ GV). now apply gob_cell_same. }
  destruct (C15_Equals_exactly_the_same_tables fuel (h ++ [t']) p (List.length h) WH' Lp L') as [Q _].
  { rewrite tab_snoc_old, T by exact L. exact NI. } { rewrite tab_snoc. exact NI'. }
  destruct (C15_Equals_exactly_the_same_tables fuel (h ++ [t']) (List.length h) p WH' L' Lp) as [Q2 _].
  { rewrite tab_snoc. exact NI'. } { rewrite tab_snoc_old, T by exact L. exact NI. }
  rewrite tab_snoc, tab_snoc_old, T in * by exact L. split; [apply Q|apply Q2; apply same_table_sym]; exact ST.
Qed.

(** A nil table, a NilTable and a table with a time or a table in a cell are errors. *)
Theorem C32_errors : forall E C h (p : ptr) t, env_ok E -> gob_ok C -> reachable E h -> nth_error h p = Some t ->
  GobEncode C h None = Err
  /\ (is_nil t = true -> GobEncode C h (Some p) = Err)
  /\ (is_nil t = false -> skeys t = [] -> ~ plain_cells t -> GobEncode C h (Some p) = Err).
Proof.
  intros E C h p t EO CO R N. pose proof (reachable_wf E h EO R) as WH.
  assert (W : wf_table t) by apply (Forall_nth_error _ _ _ _ (wh_tables _ WH) N).
  assert (T : tab h p = t) by (unfold tab; now apply nth_error_nth).
  split; [reflexivity|]. split.
  - intros X. cbn. rewrite T. unfold exportTable. destruct (wf_name _ W) as [[? _]|(_ & -> & _)]; [congruence|]. reflexivity.
  - intros NN K P. cbn. rewrite T, exportTable_eq by assumption. cbn [rbind]. apply (gob_unregistered C CO).
    intros F. apply P. now apply plain_rows.
Qed.

(** Every table with sort keys makes GobEncode panic: exportTable stores the keys into a slice
    of length 0. *)
Theorem C32_sort_keys_panic : forall C h (p : ptr), wf_heap h -> is_nil (tab h p) = false -> skeys (tab h p) <> [] ->
  GobEncode C h (Some p) = Panic.
Proof.
  intros C h p WH N K. destruct (tab_wf h p WH) as [W _]. cbn. unfold exportTable. pose proof (wf_named _ W N) as V.
  rewrite (proj2 (IsValidTableName_spec _) V). replace (Nat.ltb 0 (String.length (tname (tab h p)))) with true.
  2:{ destruct V as [(c & r & EN & _) _]. destruct (tname (tab h p)); [discriminate|reflexivity]. }
  cbn [andb negb]. rewrite (wf_types_len _ W), Nat.ltb_irrefl. destruct (skeys (tab h p)); [congruence|reflexivity].
Qed.

(** Whatever bytes are decoded: a table that comes out is new and passes IsValidTable, and the
    tables that were there stay as they were. *)
Theorem C32_decoded_is_valid : forall C b h h' o, GobDecodeTable C b h = (h', Ok o) ->
  match o with
  | Some p => p = List.length h /\ (exists t, h' = h ++ [t]) /\ IsValidTable h' p = Valid
  | None => h' = h
  end.
Proof.
  intros C b h h' o. unfold GobDecodeTable, importTable. destruct (gob_decode C b) as [e| |]; try discriminate.
  destruct (NewTable (e_name e)) as [t0| |]; try discriminate. destruct (Nat.ltb _ _); [discriminate|]. cbv zeta.
  destruct (IsValidTable _ _) eqn:V; intros X; try discriminate; injection X as <- <-; [|reflexivity].
  split; [reflexivity|]. split; [eauto|exact V].
Qed.

(** ---------- table sets ---------- *)

Lemma decode_tables_ok C : gob_ok C -> forall ts bs s h,
  Forall2 (fun t b => exists e', gob_decode C b = Ok e' /\ gob_like (export_of t) e') ts bs ->
  Forall (fun t => wf_table t /\ is_nil t = false /\ Forall (Forall (fun v => gob_plain v = true)) (rows t)) ts ->
  NoDup (set_names h s ++ map tname ts) -> Forall (fun o => ref_in h o = true) (ts_tables s) -> wf_heap h ->
  exists ts', decode_tables C bs s h
      = (h ++ ts', Ok (mkTS (ts_name s) (ts_file s) (ts_tables s ++ map Some (seq (List.length h) (List.length ts')))))
    /\ Forall2 gob_same ts ts' /\ wf_heap (h ++ ts').
Proof.
  intros CO ts bs s h F. revert s h. induction F as [|t b ts bs (e' & DE & G) _ IH]; intros s h FW ND RI WH.
  - exists []. cbn. rewrite !app_nil_r. destruct s. repeat split; auto; constructor || apply WH.
  - inversion FW as [|? ? (W & N & P) FW']; subst. cbn [decode_tables]. unfold GobDecodeTable. rewrite DE.
    destruct (importTable_eq t e' h W N G WH P) as [-> WH'].
    assert (GS : gob_same t (imported e')) by (now apply imported_same).
    assert (SN : set_names (h ++ [imported e']) s = set_names h s).
    { unfold set_names. apply map_ext_in. intros o I. rewrite Forall_forall in RI. specialize (RI o I). destruct o as [q|]; [|reflexivity].
      cbn. rewrite tab_snoc_old; [reflexivity|]. now apply ref_in_lt. }
    cbn [map] in ND. pose proof (NoDup_remove_2 _ _ _ ND) as NI.
    unfold AppendTable. cbn [ref_name]. rewrite tab_snoc.
    pose proof (find_table_spec (h ++ [imported e']) (tname (imported e')) (ts_tables s)) as FT.
    destruct (find_table _ _ _) as [o|] eqn:FE.
    { exfalso. apply NI. apply in_or_app. left. destruct FT as (i & A & B & _). rewrite (gs_name _ _ GS) in B. rewrite <- B, <- SN.
      unfold set_names. apply in_map. eapply nth_error_In; eauto. }
    edestruct (IH (mkTS (ts_name s) (ts_file s) (ts_tables s ++ [Some (List.length h)])) (h ++ [imported e'])) as (ts' & D & F2 & WH2).
    + exact FW'.
    + unfold set_names in *. cbn [ts_tables]. rewrite map_app, SN. cbn [map ref_name]. rewrite tab_snoc, (gs_name _ _ GS), <- app_assoc. exact ND.
    + cbn [ts_tables]. apply Forall_app. split.
      * eapply Forall_impl; [|exact RI]. intros [q|] X; [|reflexivity]. apply ref_in_lt. apply ref_in_lt in X. rewrite app_length. unfold ptr in *. lia.
      * constructor; [|constructor]. apply ref_in_lt. rewrite app_length. cbn. lia.
    + exact WH'.
    + exists (imported e' :: ts'). split; [|split; [now constructor|rewrite <- app_assoc in WH2; exact WH2]].
      etransitivity; [exact D|]. cbn [ts_name ts_file ts_tables]. rewrite app_length. cbn [List.length]. rewrite Nat.add_1_r.
      rewrite <- !app_assoc. reflexivity.
Qed.

(** A table set whose tables have different names, and each of which can be encoded, comes back
    with its name, its file name and its tables in order.  The decoding program may be another
    one. *)
Theorem C32_table_set : forall E C h s, env_ok E -> gob_ok C -> reachable E h -> NoDup (set_names h s) ->
  (forall o, In o (ts_tables s) -> exists (p : ptr) t, o = Some p /\ nth_error h p = Some t /\ is_nil t = false /\ skeys t = [] /\ plain_cells t) ->
  exists bs, TS_GobEncode C h s = Ok bs
    /\ forall h2, wf_heap h2 -> exists ts' s', GobDecodeTableSet C bs h2 = (h2 ++ ts', Ok s')
         /\ ts_name s' = ts_name s /\ ts_file s' = ts_file s
         /\ Forall2 (fun o o' => exists p p', o = Some p /\ o' = Some p' /\ gob_same (tab h p) (tab (h2 ++ ts') p')) (ts_tables s) (ts_tables s')
         /\ wf_heap (h2 ++ ts').
Proof.
  intros E C h s EO CO R ND A. pose proof (reachable_wf E h EO R) as WH.
  assert (ENC : exists ts bs, ts_tables s = map Some ts /\ rmap (GobEncode C h) (ts_tables s) = Ok bs
    /\ Forall2 (fun t b => exists e', gob_decode C b = Ok e' /\ gob_like (export_of t) e') (map (tab h) ts) bs
    /\ Forall (fun t => wf_table t /\ is_nil t = false /\ Forall (Forall (fun v => gob_plain v = true)) (rows t)) (map (tab h) ts)).
  { clear ND. induction (ts_tables s) as [|o os IH]; [exists [], []; repeat split; constructor|].
    destruct IH as (ts & bs & -> & B & F & G); [intros; apply A; now right|].
    destruct (A o (or_introl eq_refl)) as (p & t & -> & N & NN & K & P).
    assert (W : wf_table t) by apply (Forall_nth_error _ _ _ _ (wh_tables _ WH) N).
    assert (T : tab h p = t) by (unfold tab; now apply nth_error_nth).
    pose proof (proj1 (plain_rows t W) P) as FP.
    destruct (gob_trip C CO (export_of t)) as (b & e' & EN & DE & GL); [exact FP|].
    exists (p :: ts), (b :: bs). split; [reflexivity|]. split.
    { cbn [rmap]. replace (GobEncode C h (Some p)) with (Ok b); [cbn [rbind]; now rewrite B|]. cbn. rewrite T, exportTable_eq by assumption. now rewrite <- EN. }
    cbn [map]. rewrite T. split; constructor; eauto. }
  destruct ENC as (ts & bs & TS & B & F & G). destruct (gob_header C CO (ts_name s, ts_file s)) as (b & HE & HD).
  exists (bs ++ [b]). split; [unfold TS_GobEncode; rewrite B; cbn [rbind]; now rewrite HE|].
  intros h2 WH2. destruct (decode_tables_ok C CO _ _ (NewTableSet "") h2 F G) as (ts' & D & GS & WH').
  - cbn. unfold set_names in ND. rewrite TS, map_map in ND. rewrite map_map. exact ND.
  - constructor.
  - exact WH2.
  - eexists ts', _. unfold GobDecodeTableSet. rewrite removelast_last, D.
    rewrite app_length, nth_error_app2 by (cbn; lia). replace (_ - 1 - _) with 0 by (cbn; lia). cbn [nth_error]. rewrite HD.
    split; [reflexivity|]. split; [reflexivity|]. split; [reflexivity|]. split; [|exact WH'].
    cbn. rewrite TS. apply Forall2_nth_iff.
    { rewrite !map_length, seq_length. apply Forall2_len in GS. rewrite map_length in GS. exact GS. }
    intros i o o' X X'. rewrite nth_error_map in X, X'. destruct (nth_error ts i) as [p|] eqn:Q; [|discriminate]. injection X as <-.
    destruct (nth_error (seq _ _) i) as [p'|] eqn:Q'; [|discriminate]. injection X' as <-. exists p, p'. split; [reflexivity|]. split; [reflexivity|].
    assert (Q2 : nth_error (map (tab h) ts) i = Some (tab h p)) by (now rewrite nth_error_map, Q).
    destruct (Forall2_nth _ _ _ _ _ GS Q2) as (t' & T' & S). replace (tab (h2 ++ ts') p') with t'; [exact S|].
    assert (p' = List.length h2 + i). { pose proof (nth_error_some_lt _ _ _ Q') as L. rewrite seq_length in L.
      pose proof (nth_error_nth _ _ 0 Q') as Y. rewrite seq_nth in Y by exact L. now symmetry. }
    subst p'. unfold tab. rewrite app_nth2_plus. symmetry. now apply nth_error_nth.
Qed.

(** Whatever the bytes, a decoded table set holds one table for each buffer before the last, under
    different names, and no existing table changes. *)
Theorem C32_table_set_bytes : forall C bs h h' s, GobDecodeTableSet C bs h = (h', Ok s) ->
  S (List.length (ts_tables s)) = List.length bs /\ NoDup (set_names h' s) /\ exists new, h' = h ++ new.
Proof.
  intros C bs h h' s. unfold GobDecodeTableSet.
  assert (G : forall bs s0 h h' s, set_ok h s0 -> decode_tables C bs s0 h = (h', Ok s) ->
     set_ok h' s /\ List.length (ts_tables s) = List.length (ts_tables s0) + List.length bs /\ exists new, h' = h ++ new).
  { clear. induction bs as [|b bs IH]; intros s0 h h' s K; cbn [decode_tables].
    - intros [= <- <-]. split; [exact K|]. split; [cbn; lia|]. exists []. now rewrite app_nil_r.
    - destruct (GobDecodeTable C b h) as [h1 [o| |]] eqn:D; try discriminate. apply C32_decoded_is_valid in D.
      assert (X : (exists new, h1 = h ++ new) /\ ref_in h1 o = true).
      { destruct o as [p|]; [destruct D as (-> & (t & ->) & _)|subst h1]; (split; [eauto|]).
        - apply ref_in_lt. rewrite app_length. cbn. lia.
        - exists []. now rewrite app_nil_r.
        - reflexivity. }
      destruct X as [(new & ->) R].
      assert (K1 : set_ok (h ++ new) s0).
      { apply (set_ok_names h); [exact K|rewrite app_length; lia|]. intros p _ L. unfold tab. now rewrite app_nth1 by exact L. }
      pose proof (AppendTable_ok _ _ o K1 R) as K2. unfold AppendTable in *. destruct (find_table _ _ _) as [x|]; [destruct o; discriminate|]. cbn [fst] in K2.
      intros E. destruct (IH _ _ _ _ K2 E) as (K3 & L3 & new' & ->). split; [exact K3|]. split.
      + rewrite L3. cbn [ts_tables]. rewrite app_length. cbn. lia.
      + exists (new ++ new'). now rewrite app_assoc. }
  destruct (decode_tables C (removelast bs) (NewTableSet "") h) as [h1 [s1| |]] eqn:D; try discriminate.
  destruct (nth_error bs (List.length bs - 1)) as [b|] eqn:N; [|discriminate].
  destruct (gob_decode_header C b) as [[n f]| |]; try discriminate. intros E. injection E as <- <-.
  apply G in D; [|split; [constructor|constructor]]. destruct D as ([ND _] & L & X). split; [|split; [exact ND|exact X]].
  cbn [ts_tables SetFileName TS_SetName]. rewrite L. cbn. apply nth_error_some_lt in N.
  destruct (exists_last (l := bs)) as (l & x & ->); [intros ->; cbn in N; lia|]. rewrite removelast_last, app_length. cbn. lia.
Qed.

(** ---------- an instance of the contract, and examples ---------- *)

Definition gob0 : gob := mkGob (exported + (string * string))
  (fun e => if forallb (forallb gob_plain) (e_rows e) then Ok (inl e) else Err)
  (fun b => match b with inl e => Ok e | inr _ => Err end)
  (fun x => Ok (inr x))
  (fun b => match b with inr x => Ok x | inl _ => Err end).
Lemma gob0_ok : gob_ok gob0.
Proof.
  assert (P : forall e, forallb (forallb gob_plain) (e_rows e) = true <-> Forall (Forall (fun v => gob_plain v = true)) (e_rows e)).
  { intros e. rewrite forallb_forall, Forall_forall. setoid_rewrite forallb_forall. setoid_rewrite Forall_forall. reflexivity. }
  split.
  - intros e F. exists (inl e), e. cbn. rewrite (proj2 (P e) F). split; [reflexivity|]. split; [reflexivity|]. split; auto.
    induction (e_rows e) as [|row rs IH]; constructor.
    + induction row as [|v vs IHv]; constructor; [now left|].
      apply IHv. inversion F as [|? ? F1 F2]. inversion F1. constructor; auto.
    + apply IH. now inversion F.
  - intros e F. cbn. destruct (forallb _ _) eqn:X; [|reflexivity]. exfalso. now apply F, P.
  - intros x. exists (inr x). split; reflexivity.
Qed.

Definition gob_history : list hop :=
  [ HNewTable "A"; HNewTable "B"; HNewTable "C";
    HTab (Some 0) (OAppendCol "s" "string"); HTab (Some 0) (OAppendCol "f" "float64"); HTab (Some 0) (OAppendCol "bs" "[]byte");
    HTab (Some 0) (OAppendRows 2);
    HTab (Some 0) (OSet "string" "s" 0 (VString "hello")); HTab (Some 0) (OSet "[]byte" "bs" 1 (VBytes None));
    HTab (Some 0) (OSetStructShape true);
    HTab (Some 1) (OAppendCol "t" "*Table");
    HTab (Some 2) (OAppendCol "k" "int"); HTab (Some 2) (OSetSortKeys ["k"]) ].
Definition gob_heap : heap := Eval vm_compute in
  match play env0 gob_history [] with Some h => h | None => [] end.
Lemma gob_heap_reachable : reachable env0 gob_heap.
Proof. apply (play_reachable env0 gob_history [] _ (reach_empty env0)). vm_compute. reflexivity. Qed.

Lemma gob_heap_plain (p : ptr) t : nth_error gob_heap p = Some t -> p < 2 -> is_nil t = false /\ skeys t = [] /\ plain_cells t.
Proof.
  intros N L. pose proof (reachable_wf env0 gob_heap env0_ok gob_heap_reachable) as WH.
  assert (W : wf_table t) by apply (Forall_nth_error _ _ _ _ (wh_tables _ WH) N).
  destruct p as [|[|p]]; [| |lia]; injection N as <-; (split; [reflexivity|]); (split; [reflexivity|]); apply plain_rows; auto;
  cbn; repeat constructor.
Qed.

Example C32_nonvacuous :
  gob_ok gob0 /\ reachable env0 gob_heap
  /\ (forall (p : ptr) t, nth_error gob_heap p = Some t -> p < 2 -> is_nil t = false /\ skeys t = [] /\ plain_cells t)
  /\ RowCount (tab gob_heap 0) = 2%Z /\ ColCount (tab gob_heap 1) = 1%Z /\ struct_shape (tab gob_heap 0) = true
  /\ set_names gob_heap (mkTS "S" "f.got" [Some 1; Some 0]) = ["B"; "A"]
  /\ GobEncode gob0 gob_heap (Some 2) = Panic.
Proof.
  split; [apply gob0_ok|]. split; [apply gob_heap_reachable|]. split; [apply gob_heap_plain|]. vm_compute. auto 10.
Qed.

(** A program can reach a table whose encoding panics. *)
Theorem C32_sort_keys_refuted : exists h (p : ptr) t, reachable env0 h /\ nth_error h p = Some t /\ is_nil t = false /\ plain_cells t
  /\ forall C, GobEncode C h (Some p) = Panic.
Proof.
  exists gob_heap, 2, (tab gob_heap 2). split; [apply gob_heap_reachable|]. split; [reflexivity|]. split; [reflexivity|].
  pose proof (reachable_wf env0 gob_heap env0_ok gob_heap_reachable) as WH. split.
  - apply plain_rows; [apply (tab_wf gob_heap 2 WH)|]. constructor.
  - intros C. apply C32_sort_keys_panic; [exact WH|reflexivity|discriminate].
Qed.

(** Decoding trusts the cells: bytes from elsewhere can hold a string in an int column, and the
    getter of the accepted table then panics.  And with a column map that does not fit the names
    the result is (nil, nil): neither a table nor an error. *)
Theorem C32_foreign_bytes_refuted :
  (exists b h' p, GobDecodeTable gob0 b [] = (h', Ok (Some p)) /\ IsValidTable h' p = Valid
     /\ GetT "int" (tab h' p) "k" 0 = Panic)
  /\ exists b, GobDecodeTable gob0 b [] = ([], Ok None).
Proof.
  split.
  - exists (inl (mkE "T" ["k"] ["int"] [("k", 0)] [[VString "x"]] [] false)). do 2 eexists. split; [vm_compute; reflexivity|].
    split; vm_compute; reflexivity.
  - exists (inl (mkE "T" ["k"; "l"] ["int"; "int"] [("k", 1); ("l", 0)] [] [] false)). vm_compute. reflexivity.
Qed.

(** Axioms used by any theorem of this file. *)
Definition all_Props_Gob :=
  (@C32_round_trip,
   @C32_decoded_is_equal,
   @C32_errors,
   @C32_sort_keys_panic,
   @C32_decoded_is_valid,
   @C32_table_set,
   @C32_table_set_bytes,
   @C32_sort_keys_refuted,
   @C32_foreign_bytes_refuted).
Print Assumptions all_Props_Gob.
