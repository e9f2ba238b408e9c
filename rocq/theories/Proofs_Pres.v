(** Proofs_Pres.v -- every mutator preserves well-formedness. *)
From Coq Require Import ZArith NArith List String Ascii Bool SpecFloat Permutation Lia.
From Verif Require Import Base Model_Names Model_Table Model_Sort Spec Spec_Sort.
From Verif Require Import Proofs_Lib Proofs_Table Proofs_Cells Proofs_Struct Proofs_Api.
Import ListNotations.
Local Open Scope string_scope.
Local Open Scope list_scope.

(** Pointers in cells are below [n]. *)
Definition ptr_lt (n : nat) (v : value) : Prop :=
  match v with VTable (Some p) => p < n | _ => True end.
Definition ptrs_lt (n : nat) (t : table) : Prop := Forall (Forall (ptr_lt n)) (rows t).
Definition good (s : st) : Prop := wf_table (s_tab s) /\ ptrs_lt (next s) (s_tab s).
Definition grows (s s' : st) : Prop :=
  s_base s' = s_base s /\ parent (s_tab s') = parent (s_tab s) /\ exists l, s_news s' = s_news s ++ l.
Definition pres (b : nat) {A} (m : M A) : Prop :=
  forall s, s_base s = b -> good s -> good (fst (m s)) /\ grows s (fst (m s)).

Lemma ptr_lt_le n m v : n <= m -> ptr_lt n v -> ptr_lt m v.
Proof. destruct v; simpl; auto. destruct o; simpl; auto. lia. Qed.
Lemma ptrs_lt_le n m t : n <= m -> ptrs_lt n t -> ptrs_lt m t.
Proof.
  intros H. unfold ptrs_lt. apply Forall_impl. intros r. apply Forall_impl.
  intros v. now apply ptr_lt_le.
Qed.
Lemma grows_refl s : grows s s.
Proof. split; [|split]; auto. exists []. now rewrite app_nil_r. Qed.
Lemma grows_trans a b c : grows a b -> grows b c -> grows a c.
Proof.
  intros [H1 [P1 [l1 L1]]] [H2 [P2 [l2 L2]]]. split; [congruence|]. split; [congruence|].
  exists (l1 ++ l2). rewrite L2, L1. now rewrite app_assoc.
Qed.
Lemma grows_next a b : grows a b -> next a <= next b.
Proof. intros [H1 [_ [l H2]]]. unfold next. rewrite H1, H2, app_length. lia. Qed.

Lemma pres_ret b {A} (a : A) : pres b (ret a).
Proof. intros s _ G. split; auto. apply grows_refl. Qed.
Lemma pres_fail b {A} : pres b (@fail A).
Proof. intros s _ G. split; auto. apply grows_refl. Qed.
Lemma pres_crash b {A} : pres b (@crash A).
Proof. intros s _ G. split; auto. apply grows_refl. Qed.
Lemma pres_get b : pres b get.
Proof. intros s _ G. split; auto. apply grows_refl. Qed.
Lemma pres_reads b {A} (f : table -> res A) : pres b (reads f).
Proof. intros s _ G. split; auto. apply grows_refl. Qed.
Lemma pres_lift b {A} (f : res A) : pres b (lift f).
Proof. intros s _ G. split; auto. apply grows_refl. Qed.
Lemma pres_check b c : pres b (check c).
Proof. destruct c; [apply pres_ret|apply pres_fail]. Qed.
Lemma pres_bind b {A B} (m : M A) (f : A -> M B) : pres b m -> (forall a, pres b (f a)) -> pres b (bind m f).
Proof.
  intros H1 H2 s Hs G. unfold bind. destruct (H1 s Hs G) as [G1 R1].
  destruct (m s) as [s' [a| |]]; simpl in *; auto.
  assert (Hs' : s_base s' = b) by (destruct R1; congruence).
  destruct (H2 a s' Hs' G1) as [G2 R2]. split; auto. eapply grows_trans; eauto.
Qed.
Lemma pres_mfor b {A} (l : list A) body : (forall x, In x l -> pres b (body x)) -> pres b (mfor l body).
Proof.
  induction l as [|x l IH]; simpl; intros H; [apply pres_ret|].
  apply pres_bind; [apply H; auto|intros _; apply IH; auto].
Qed.
Lemma pres_same b {A} (m : M A) :
  (forall s, s_base s = b -> good s -> fst (m s) = s \/ (good (fst (m s)) /\ grows s (fst (m s)))) -> pres b m.
Proof. intros H s Hs G. destruct (H s Hs G) as [->|?]; auto. split; auto. apply grows_refl. Qed.

Create HintDb pres.
#[export] Hint Resolve pres_ret pres_fail pres_crash pres_get pres_reads pres_lift pres_check : pres.
Ltac pr := repeat first
  [ solve [auto with pres]
  | match goal with
    | |- pres _ (bind _ _) => apply pres_bind; [|intros ?]
    | |- pres _ (mfor _ _) => apply pres_mfor; intros ? ?
    | |- pres _ (if ?c then _ else _) => destruct c
    | |- pres _ (match ?c with _ => _ end) => destruct c
    end ].

(** Updating the receiver's rows in place. *)
Lemma good_rows s rs : good s -> Forall (Forall2 cell_ok (ctypes (s_tab s))) rs ->
  (is_nil (s_tab s) = true -> rs = []) -> Forall (Forall (ptr_lt (next s))) rs ->
  good (on_tab (with_rows rs) s).
Proof. intros [W P] H1 H2 H3. split; simpl; auto. apply wf_with_rows; auto. Qed.

Lemma grows_on_tab s f : parent (f (s_tab s)) = parent (s_tab s) -> grows s (on_tab f s).
Proof. intros H. split; [|split]; auto. exists []. simpl. now rewrite app_nil_r. Qed.

Lemma good_written s ci ri v ct : good s -> nth_error (ctypes (s_tab s)) ci = Some ct -> has_type ct v ->
  go_value v = true -> ptr_lt (next s) v -> good (written ci ri v s) /\ grows s (written ci ri v s).
Proof.
  intros [W P] H1 H2 H3 H4. split; [|now apply grows_on_tab].
  split; [eapply written_wf; eauto|].
  change (ptrs_lt (next s) (with_rows (put ci ri v (rows (s_tab s))) (s_tab s))).
  unfold ptrs_lt. simpl. unfold put. destruct (nth_error (rows (s_tab s)) ri) as [row|] eqn:E; auto.
  apply Forall_upd; auto. apply Forall_upd; auto. eapply (Forall_nth_error _ _ _ _ P); eauto.
Qed.

(** ---------- headers ---------- *)

Lemma pres_SetName b n : pres b (SetName n).
Proof.
  intros s Hs [W P]. unfold SetName. mstep. destruct (IsValidTableName n) eqn:E; simpl.
  - split; [|split; [|split]; auto; exists []; simpl; now rewrite app_nil_r].
    split; [|exact P]. destruct W. constructor; simpl; auto. left. split; auto. now apply IsValidTableName_spec.
  - split; [split; auto|apply grows_refl].
Qed.

Lemma wf_shape t x : wf_table t -> wf_table (with_shape x t).
Proof. intros []; constructor; auto. Qed.
Lemma wf_skeys t x : wf_table t -> wf_table (with_skeys x t).
Proof. intros []; constructor; auto. Qed.
Lemma wf_parent t x : wf_table t -> wf_table (with_parent x t).
Proof. intros []; constructor; auto. Qed.

Lemma pres_SetStructShape b x : pres b (SetStructShape x).
Proof. intros s Hs [W P]. split; [split; [now apply wf_shape|exact P]|now apply grows_on_tab]. Qed.

Lemma pres_skeys b (f : table -> list skey) : pres b (modify (fun t => with_skeys (f t) t)).
Proof. intros s Hs [W P]. split; [split; [now apply wf_skeys|exact P]|now apply grows_on_tab]. Qed.
Lemma pres_skeys_const b ks : pres b (modify (with_skeys ks)).
Proof. apply (pres_skeys b (fun _ => ks)). Qed.
#[export] Hint Resolve pres_SetName pres_SetStructShape pres_skeys pres_skeys_const : pres.

(** ---------- cells ---------- *)

Lemma next_ge s : s_base s <= next s.
Proof. unfold next. lia. Qed.

Lemma pres_SetValByColIndex b ci ri v : go_value v = true -> ptr_lt b v -> pres b (SetValByColIndex ci ri v).
Proof.
  intros G L. apply pres_same. intros s Hs GS.
  destruct (SetValByColIndex_eq ci ri v s (proj1 GS)) as [[(_ & _ & ct & _ & H1 & H2) ->]|[_ ->]]; simpl; auto.
  right. eapply good_written; eauto. eapply ptr_lt_le; [|exact L]. subst b. apply next_ge.
Qed.
Lemma pres_SetVal b cn ri v : go_value v = true -> ptr_lt b v -> pres b (SetVal cn ri v).
Proof. intros G L. unfold SetVal. pr. now apply pres_SetValByColIndex. Qed.

Lemma pres_SetT b vt cn ri v : In vt all_types -> arg_of_type vt v = true -> go_value v = true -> ptr_lt b v ->
  pres b (SetT vt cn ri v).
Proof.
  intros Hvt Ha G L. apply pres_same. intros s Hs GS.
  destruct (SetT_eq vt cn ri v s (proj1 GS) Hvt Ha) as [(i & ct & _ & _ & _ & H1 & H2 & ->)|[_ ->]]; simpl; auto.
  right. eapply good_written; eauto. eapply ptr_lt_le; [|exact L]. subst b. apply next_ge.
Qed.
Lemma pres_SetTByColIndex b vt ci ri v : In vt all_types -> arg_of_type vt v = true -> go_value v = true -> ptr_lt b v ->
  pres b (SetTByColIndex vt ci ri v).
Proof.
  intros Hvt Ha G L. apply pres_same. intros s Hs GS.
  destruct (not_nil_arg v) eqn:NN.
  2:{ unfold SetTByColIndex. mstep. rewrite NN. auto. }
  destruct (HasColByColIndex (s_tab s) ci) eqn:HC.
  - apply HasCol_iff in HC.
    destruct (SetTByColIndex_eq vt ci ri v s (proj1 GS) Hvt Ha HC) as [(ct & _ & _ & H1 & H2 & ->)|[_ ->]]; simpl; auto.
    right. eapply good_written; eauto. eapply ptr_lt_le; [|exact L]. subst b. apply next_ge.
  - rewrite SetTByColIndex_panic; auto; [apply GS|]. intros H. apply HasCol_iff in H. congruence.
Qed.
#[export] Hint Resolve pres_SetValByColIndex pres_SetVal pres_SetT pres_SetTByColIndex : pres.

(** ---------- zero values and NaN ---------- *)

Lemma set_cell_cases ci ri v s : (exists c r, ci = Z.of_nat c /\ ri = Z.of_nat r /\ set_cell ci ri v s = (written c r v s, Ok tt)) \/ set_cell ci ri v s = (s, Panic).
Proof.
  unfold set_cell. destruct (zidx ri (List.length (rows (s_tab s)))) as [r|] eqn:E1; auto.
  apply zidx_some in E1. destruct E1 as [E1 ->].
  destruct (nth_error (rows (s_tab s)) (Z.to_nat ri)) as [row|] eqn:E2; auto.
  destruct (zidx ci (List.length row)) as [c|] eqn:E3; auto.
  apply zidx_some in E3. destruct E3 as [E3 ->]. left.
  exists (Z.to_nat ci), (Z.to_nat ri). repeat split; try lia.
  unfold written, put. rewrite E2. reflexivity.
Qed.

Lemma pres_zero_set b sp ci ri : pres b (
    let* ct := reads (fun t => match znth (ctypes t) ci with Some ct => Ok ct | None => Panic end) in
    let* v := zero_val sp ct in
    set_cell ci ri v).
Proof.
  apply pres_same. intros s Hs [W P]. mstep.
  destruct (znth (ctypes (s_tab s)) ci) as [ct|] eqn:E; [|auto].
  apply znth_some in E. destruct E as [E0 E].
  assert (Hct : In ct all_types) by (eapply (Forall_nth_error _ _ _ _ (wf_types _ W)); eauto).
  destruct (is_tab ct) eqn:IT.
  - apply is_tab_eq in IT. subst ct. right.
    rewrite (bind_eq_ok _ _ _ _ _ (zero_val_tab sp s)).
    set (s1 := mkS (s_tab s) (s_base s) (s_news s ++ [sp])).
    assert (N : next s1 = S (next s)) by (unfold next, s1; simpl; rewrite app_length; simpl; lia).
    assert (G1 : good s1) by (split; auto; eapply ptrs_lt_le; [|exact P]; lia).
    assert (R1 : grows s s1) by (split; [|split]; auto; exists [sp]; auto).
    destruct (set_cell_cases ci ri (VTable (Some (next s))) s1) as [(c & r & E1 & E2 & ->)| ->]; simpl; [|auto].
    subst ci. rewrite Nat2Z.id in E.
    destruct (good_written s1 c r (VTable (Some (next s))) "*Table") as [A B]; auto; try reflexivity; simpl; lia.
  - rewrite (bind_eq_ok _ _ _ _ _ (zero_val_plain sp ct s Hct IT)).
    destruct (set_cell_cases ci ri (zplain ct) s) as [(c & r & E1 & E2 & ->)| ->]; simpl; [|auto].
    right. subst ci. rewrite Nat2Z.id in E. pose proof (zplain_cell_ok ct Hct IT) as [K1 K2].
    apply (good_written s c r (zplain ct) ct (conj W P)); auto. clear -IT Hct. types Hct; try discriminate; exact I.
Qed.
Lemma pres_SetCellToZeroValueByColIndex b ci ri : pres b (SetCellToZeroValueByColIndex ci ri).
Proof. apply pres_zero_set. Qed.
Lemma pres_SetCellToZeroValue b cn ri : pres b (SetCellToZeroValue cn ri).
Proof. unfold SetCellToZeroValue. pr. apply pres_zero_set. Qed.
Lemma pres_SetRowCellsToZeroValue b ri : pres b (SetRowCellsToZeroValue ri).
Proof. unfold SetRowCellsToZeroValue. apply pres_bind; [auto with pres|intros t]. apply pres_bind; [auto with pres|intros _]. apply pres_mfor. intros ci _. apply pres_zero_set. Qed.
Lemma pres_SetColCellsToZeroValueByColIndex b ci : pres b (SetColCellsToZeroValueByColIndex ci).
Proof. unfold SetColCellsToZeroValueByColIndex. pr. apply pres_zero_set. Qed.
Lemma pres_SetColCellsToZeroValue b cn : pres b (SetColCellsToZeroValue cn).
Proof. unfold SetColCellsToZeroValue. pr. apply pres_SetColCellsToZeroValueByColIndex. Qed.

Lemma pres_NaN32 b ci ri : pres b (SetTByColIndex "float32" ci ri NaN32).
Proof. apply pres_SetTByColIndex; try reflexivity; [now apply str_in_In]. Qed.
Lemma pres_NaN64 b ci ri : pres b (SetTByColIndex "float64" ci ri NaN64).
Proof. apply pres_SetTByColIndex; try reflexivity; [now apply str_in_In]. Qed.
#[export] Hint Resolve pres_SetCellToZeroValueByColIndex pres_SetCellToZeroValue pres_SetRowCellsToZeroValue
  pres_SetColCellsToZeroValueByColIndex pres_SetColCellsToZeroValue pres_NaN32 pres_NaN64 : pres.

Lemma pres_SetRowFloatCellsToNaN b ri : pres b (SetRowFloatCellsToNaN ri).
Proof. unfold SetRowFloatCellsToNaN. pr. Qed.
Lemma pres_SetFloatCellToNaNByColIndex b ci ri : pres b (SetFloatCellToNaNByColIndex ci ri).
Proof. unfold SetFloatCellToNaNByColIndex. pr. Qed.
#[export] Hint Resolve pres_SetRowFloatCellsToNaN pres_SetFloatCellToNaNByColIndex : pres.
Lemma pres_SetFloatCellToNaN b cn ri : pres b (SetFloatCellToNaN cn ri).
Proof. unfold SetFloatCellToNaN. pr. Qed.
Lemma pres_SetColFloatCellsToNaNByColIndex b ci : pres b (SetColFloatCellsToNaNByColIndex ci).
Proof. unfold SetColFloatCellsToNaNByColIndex. pr. Qed.
#[export] Hint Resolve pres_SetFloatCellToNaN pres_SetColFloatCellsToNaNByColIndex : pres.
Lemma pres_SetColFloatCellsToNaN b cn : pres b (SetColFloatCellsToNaN cn).
Proof. unfold SetColFloatCellsToNaN. pr. Qed.
Lemma pres_SetAllFloatCellsToNaN b : pres b SetAllFloatCellsToNaN.
Proof. unfold SetAllFloatCellsToNaN. pr. Qed.
#[export] Hint Resolve pres_SetColFloatCellsToNaN pres_SetAllFloatCellsToNaN : pres.

(** ---------- rows ---------- *)

Lemma zeros_ptr cts : Forall (fun ct => In ct all_types) cts -> forall p n, p + ntab cts <= n -> Forall (ptr_lt n) (zeros p cts).
Proof.
  induction 1 as [|ct r H _ IH]; simpl; intros p n L; [constructor|].
  unfold ntab in L. simpl in L. destruct (is_tab ct) eqn:IT.
  - simpl in L. constructor; [simpl; lia|]. apply IH. unfold ntab. lia.
  - constructor; [|apply IH; unfold ntab; lia]. types H; try discriminate; exact I.
Qed.

Lemma pres_AppendRow b : pres b AppendRow.
Proof.
  apply pres_same. intros s Hs [W P]. rewrite AppendRow_eq by auto.
  destruct (is_nil (s_tab s)) eqn:N; simpl; auto. right.
  assert (R : grows s (row_added s)) by (split; [|split]; auto; eexists; reflexivity).
  split; auto. split; [now apply row_added_wf|].
  pose proof (grows_next _ _ R) as L.
  unfold ptrs_lt. unfold row_added at 2. simpl. apply Forall_app. split.
  - apply (ptrs_lt_le _ _ _ L P).
  - constructor; auto. apply zeros_ptr; [apply (wf_types _ W)|].
    unfold next, row_added. simpl. rewrite app_length, repeat_length. lia.
Qed.
Lemma pres_AppendRows b n : pres b (AppendRows n).
Proof. unfold AppendRows. pr. apply pres_AppendRow. Qed.

Lemma pres_DeleteRows b f l : pres b (DeleteRows f l).
Proof.
  apply pres_same. intros s Hs [W P]. rewrite DeleteRows_eq.
  destruct (((0 <=? f) && (f <=? l) && (l <? RowCount (s_tab s)))%Z); simpl; auto. right.
  split; [|now apply grows_on_tab]. split; [now apply rows_deleted_wf|].
  unfold ptrs_lt. simpl. apply Forall_app. split; [apply Forall_firstn|apply (Forall_skipn _ (S (Z.to_nat l)))]; exact P.
Qed.
Lemma pres_DeleteRow b i : pres b (DeleteRow i).
Proof.
  apply pres_same. intros s Hs [W P]. rewrite DeleteRow_eq.
  destruct (((0 <=? i) && (i <? RowCount (s_tab s)))%Z); simpl; auto. right.
  split; [|now apply grows_on_tab]. split; [now apply rows_deleted_wf|].
  unfold ptrs_lt. simpl. apply Forall_app. split; [apply Forall_firstn|apply (Forall_skipn _ (S (Z.to_nat i)))]; exact P.
Qed.
Lemma pres_DeleteRowsAll b : pres b DeleteRowsAll.
Proof. unfold DeleteRowsAll. pr. apply pres_DeleteRows. Qed.
#[export] Hint Resolve pres_AppendRow pres_AppendRows pres_DeleteRows pres_DeleteRow pres_DeleteRowsAll : pres.

(** ---------- columns ---------- *)

Lemma pres_AppendCol b cn ct : pres b (AppendCol cn ct).
Proof.
  apply pres_same. intros s Hs [W P]. rewrite AppendCol_eq by auto.
  destruct (can_append_col (s_tab s) cn ct) eqn:C; simpl; auto. right.
  assert (R : grows s (col_added cn ct s)) by (split; [|split]; auto; eexists; reflexivity).
  split; auto. split; [now apply col_added_wf|].
  pose proof (grows_next _ _ R) as L.
  assert (Hct : In ct all_types).
  { unfold can_append_col in C. rewrite !andb_true_iff in C. now apply IsValidColType_spec. }
  unfold ptrs_lt. unfold col_added at 2. simpl.
  assert (HF : forall j row, nth_error (rows (s_tab s)) j = Some row ->
     Forall (ptr_lt (next (col_added cn ct s))) (row ++ [zcol ct (next s) j])).
  { intros j row E. apply Forall_app. split.
    - apply (Forall_nth_error _ _ _ _ (ptrs_lt_le _ _ _ L P) E).
    - constructor; auto. unfold zcol. destruct (is_tab ct) eqn:IT.
      + simpl. apply nth_error_some_lt in E. unfold next, col_added. simpl.
        rewrite app_length, repeat_length, IT. lia.
      + types Hct; try discriminate; exact I. }
  apply Forall_forall. intros x Hx. apply In_nth_error in Hx. destruct Hx as [j Hx].
  rewrite nth_error_mapi in Hx. destruct (nth_error (rows (s_tab s)) j) eqn:E; simpl in Hx; [|discriminate].
  injection Hx as <-. auto.
Qed.
#[export] Hint Resolve pres_AppendCol : pres.
Lemma pres_appendCols b cns cts : pres b (appendCols cns cts).
Proof. unfold appendCols. pr. Qed.

Lemma pres_DeleteColByColIndex b ci : pres b (DeleteColByColIndex ci).
Proof.
  apply pres_same. intros s Hs [W P]. rewrite DeleteColByColIndex_eq.
  destruct (HasColByColIndex (s_tab s) ci) eqn:C; simpl; auto. right. apply HasCol_iff in C.
  split; [|split; [|split]; auto; exists []; simpl; now rewrite app_nil_r].
  split; [apply col_deleted_wf; auto; unfold ColCount in C; lia|].
  unfold ptrs_lt. simpl. apply Forall_map. revert P. apply Forall_impl. intros r. apply Forall_remove_at.
Qed.
#[export] Hint Resolve pres_appendCols pres_DeleteColByColIndex : pres.
Lemma pres_DeleteCol b cn : pres b (DeleteCol cn).
Proof. unfold DeleteCol. pr. Qed.

Lemma pres_RenameCol b old new : pres b (RenameCol old new).
Proof.
  apply pres_same. intros s Hs [W P].
  destruct (RenameCol_eq old new s W) as [(i & H1 & H2 & H3 & ->)|[_ ->]]; simpl; auto.
  right. split; [|now apply grows_on_tab]. split; [now apply col_renamed_wf|exact P].
Qed.
#[export] Hint Resolve pres_DeleteCol pres_RenameCol : pres.
Lemma pres_RenameColByColIndex b ci new : pres b (RenameColByColIndex ci new).
Proof. unfold RenameColByColIndex. pr. Qed.

Lemma Forall_permute {A} (P : A -> Prop) order d l : Forall P l -> P d -> Forall P (permute order d l).
Proof.
  intros H D. unfold permute. apply Forall_map. apply Forall_forall. intros z _.
  destruct (nth_in_or_default (Z.to_nat z) l d) as [I|E]; [|now rewrite E].
  eapply Forall_forall in H; eauto.
Qed.
Lemma pres_ReorderColsByColIndex b order : pres b (ReorderColsByColIndex order).
Proof.
  apply pres_same. intros s Hs [W P].
  destruct (ReorderColsByColIndex_eq order s) as [[H ->]|[_ ->]]; simpl; auto.
  right. split; [|now apply grows_on_tab]. split; [now apply reordered_wf|].
  unfold ptrs_lt. simpl. apply Forall_map. revert P. apply Forall_impl. intros r Hr.
  apply Forall_permute; auto. exact I.
Qed.
#[export] Hint Resolve pres_RenameColByColIndex pres_ReorderColsByColIndex : pres.
Lemma pres_ReorderCols b names : pres b (ReorderCols names).
Proof. unfold ReorderCols. pr. Qed.
#[export] Hint Resolve pres_ReorderCols : pres.

(** ---------- row permutations ---------- *)

Lemma pres_perm b (f : table -> list (list value)) : (forall t, Permutation (f t) (rows t)) ->
  pres b (modify (fun t => with_rows (f t) t)).
Proof.
  intros H s Hs [W P]. split; [|now apply grows_on_tab]. split; [apply wf_perm_rows; auto; apply H|].
  unfold ptrs_lt. simpl. apply Forall_forall. intros r Hr.
  eapply Permutation_in in Hr; [|apply H]. unfold ptrs_lt in P. rewrite Forall_forall in P.
  apply (P r Hr).
Qed.
Lemma pres_Reverse b : pres b Reverse.
Proof. apply pres_perm. intros t. rewrite reverse_loop_rev. symmetry. apply Permutation_rev. Qed.
Lemma pres_Shuffle b sw : pres b (Shuffle sw).
Proof. apply pres_perm. intros t. apply Shuffle_rows_perm. Qed.
#[export] Hint Resolve pres_Reverse pres_Shuffle : pres.

(** ---------- sort keys and sorting ---------- *)

Lemma pres_AppendSortKey b cn : pres b (AppendSortKey cn).
Proof. unfold AppendSortKey. pr. Qed.
#[export] Hint Resolve pres_AppendSortKey : pres.
Lemma pres_SetSortKeys b cns : pres b (SetSortKeys cns).
Proof. unfold SetSortKeys. pr. Qed.
Lemma pres_setSortKeyReverse b cn : pres b (setSortKeyReverse cn).
Proof. unfold setSortKeyReverse. pr. Qed.
#[export] Hint Resolve pres_SetSortKeys pres_setSortKeyReverse : pres.
Lemma pres_SetSortKeysReverse b cns : pres b (SetSortKeysReverse cns).
Proof. unfold SetSortKeysReverse. pr. Qed.
Lemma pres_DeleteSortKey b cn : pres b (DeleteSortKey cn).
Proof. unfold DeleteSortKey. pr. Qed.
#[export] Hint Resolve pres_SetSortKeysReverse pres_DeleteSortKey : pres.
Lemma pres_SetSortKeysFromTable b from : pres b (SetSortKeysFromTable from).
Proof. unfold SetSortKeysFromTable. pr. Qed.
Lemma pres_sortByKeys b E : env_ok E -> pres b (sortByKeys E).
Proof.
  intros EO s Hs G. unfold sortByKeys. mstep.
  destruct (go_sort E _ _) as [rs|] eqn:GS; [|split; [auto|apply grows_refl]].
  apply (eo_perm E EO) in GS.
  destruct G as [W P]. split; [|now apply grows_on_tab]. split; [apply wf_perm_rows; auto|].
  unfold ptrs_lt. simpl. apply Forall_forall. intros r Hr.
  eapply Permutation_in in Hr; [|apply GS]. unfold ptrs_lt in P. rewrite Forall_forall in P. apply (P r Hr).
Qed.
Lemma pres_Sort b E cols : env_ok E -> pres b (Sort E cols).
Proof. intros EO. unfold Sort. pr. now apply pres_sortByKeys. Qed.
Lemma pres_SortSimple b E cols : env_ok E -> pres b (SortSimple E cols).
Proof. intros EO. unfold SortSimple. pr. now apply pres_sortByKeys. Qed.
Lemma pres_OrderColsBySortKeys b : pres b OrderColsBySortKeys.
Proof. unfold OrderColsBySortKeys. pr. Qed.
#[export] Hint Resolve pres_SetSortKeysFromTable pres_sortByKeys pres_Sort pres_SortSimple pres_OrderColsBySortKeys : pres.
