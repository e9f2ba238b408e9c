(** Proofs_Api.v -- API-level consequences of the closed forms. *)
From Coq Require Import ZArith NArith List String Ascii Bool SpecFloat Permutation Lia.
From Verif Require Import Base Model_Names Model_Table Spec Proofs_Lib Proofs_Table Proofs_Cells Proofs_Struct.
Import ListNotations.
Local Open Scope string_scope.
Local Open Scope list_scope.

Lemma same_header_refl t : same_header t t.
Proof. constructor; reflexivity. Qed.

Lemma same_header_rows t rs : same_header t (with_rows rs t).
Proof. constructor; reflexivity. Qed.

Lemma wf_nil_cols t : wf_table t -> is_nil t = true -> cnames t = [].
Proof. intros W H. destruct (wf_name _ W) as [[H1 _]|[_ [_ [H1 _]]]]; congruence. Qed.

Lemma wf_row_not_nil t r : wf_table t -> (0 <= r < RowCount t)%Z -> is_nil t = false.
Proof.
  intros W H. destruct (is_nil t) eqn:E; auto. pose proof (wf_nil_rows _ W E) as R.
  unfold RowCount in H. rewrite R in H. simpl in H. lia.
Qed.

Lemma wf_col_not_nil t c : wf_table t -> (0 <= c < ColCount t)%Z -> is_nil t = false.
Proof.
  intros W H. destruct (is_nil t) eqn:E; auto. pose proof (wf_nil_cols _ W E) as R.
  unfold ColCount in H. rewrite R in H. simpl in H. lia.
Qed.

Lemma GetValByColIndex_put t ci ri v c r : wf_table t -> wf_table (with_rows (put ci ri v (rows t)) t) ->
  ci < List.length (cnames t) -> ri < List.length (rows t) ->
  GetValByColIndex (with_rows (put ci ri v (rows t)) t) c r =
  if ((c =? Z.of_nat ci) && (r =? Z.of_nat ri))%Z then Ok v else GetValByColIndex t c r.
Proof.
  intros W W' Hc Hr. rewrite !GetValByColIndex_eq by auto.
  replace (HasRow (with_rows (put ci ri v (rows t)) t) r) with (HasRow t r)
    by (unfold HasRow, RowCount; simpl; rewrite put_rows_length; reflexivity).
  change (HasColByColIndex (with_rows (put ci ri v (rows t)) t) c) with (HasColByColIndex t c).
  change (is_nil (with_rows (put ci ri v (rows t)) t)) with (is_nil t).
  rewrite at_cell_put.
  assert (NN : is_nil t = false) by (apply (wf_row_not_nil t (Z.of_nat ri)); auto; unfold RowCount; lia).
  rewrite NN.
  destruct (HasRow t r) eqn:HR; [|].
  - apply HasRow_iff in HR. destruct (HasColByColIndex t c) eqn:HC.
    + apply HasCol_iff in HC. simpl.
      destruct (wf_at_cell t (Z.to_nat c) (Z.to_nat r) W) as (ct & w & _ & _ & A & _).
      { unfold ColCount in HC. lia. } { unfold RowCount in HR. lia. }
      rewrite A.
      destruct (Nat.eqb_spec ri (Z.to_nat r)), (Nat.eqb_spec ci (Z.to_nat c)); simpl;
      destruct (Z.eqb_spec c (Z.of_nat ci)), (Z.eqb_spec r (Z.of_nat ri)); simpl; auto; lia.
    + simpl. destruct (Z.eqb_spec c (Z.of_nat ci)); auto.
      subst. exfalso. assert (HasColByColIndex t (Z.of_nat ci) = true) by (apply HasCol_iff; unfold ColCount; lia). congruence.
  - simpl. destruct (Z.eqb_spec r (Z.of_nat ri)); [|now rewrite andb_false_r].
    subst. exfalso. assert (HasRow t (Z.of_nat ri) = true) by (apply HasRow_iff; unfold RowCount; lia). congruence.
Qed.

Lemma col_at_range t c cn : col_at t c cn -> (0 <= c < ColCount t)%Z.
Proof. intros [H1 H2]. apply nth_error_some_lt in H2. unfold ColCount. lia. Qed.

Lemma col_at_nat t i cn : nth_error (cnames t) i = Some cn <-> col_at t (Z.of_nat i) cn.
Proof. unfold col_at. rewrite Nat2Z.id. split; [split; auto; lia|tauto]. Qed.

Lemma col_at_ex t c : (0 <= c < ColCount t)%Z -> exists cn, col_at t c cn.
Proof.
  intros H. destruct (nth_error_lt (cnames t) (Z.to_nat c)) as [cn E]; [unfold ColCount in H; lia|].
  exists cn. split; auto; lia.
Qed.

Lemma col_at_inj t c c' cn : wf_table t -> col_at t c cn -> col_at t c' cn -> c = c'.
Proof.
  intros W [H1 H2] [H3 H4]. pose proof (NoDup_nth _ _ _ _ (wf_nodup _ W) H2 H4). lia.
Qed.

Lemma col_at_In t cn : In cn (cnames t) <-> exists c, col_at t c cn.
Proof.
  split.
  - intros H. apply In_nth_error in H. destruct H as [i H]. exists (Z.of_nat i). now apply col_at_nat.
  - intros [c [_ H]]. eapply nth_error_In; eauto.
Qed.

Lemma ColIndex_col_at t c cn : wf_table t -> col_at t c cn <-> ColIndex t cn = Ok c.
Proof.
  intros W. split.
  - intros [H1 H2]. replace c with (Z.of_nat (Z.to_nat c)) by lia. apply ColIndex_iff; auto.
  - intros H. destruct (ColIndex_cases t cn W) as [(i & H1 & H2)|[_ H2]]; rewrite H2 in H; [|discriminate].
    injection H as <-. now apply col_at_nat.
Qed.

Lemma GetVal_col_at t c cn r : wf_table t -> col_at t c cn -> GetVal t cn r = GetValByColIndex t c r.
Proof.
  intros W H. unfold GetVal. pose proof (proj1 (ColIndex_col_at t c cn W) H) as E. rewrite E. simpl.
  rewrite (wf_col_not_nil t c W) by now apply col_at_range in H. reflexivity.
Qed.

Lemma GetVal_no_col t cn r : wf_table t -> ~ In cn (cnames t) -> GetVal t cn r = Err.
Proof.
  intros W H. unfold GetVal. destruct (is_nil t); auto.
  destruct (ColIndex_cases t cn W) as [(i & H1 & _)|[_ H2]].
  - apply nth_error_In in H1. contradiction.
  - rewrite H2. reflexivity.
Qed.

Lemma written_only ci ri v t ct : wf_table t -> nth_error (ctypes t) ci = Some ct -> has_type ct v ->
  go_value v = true -> ri < List.length (rows t) ->
  wf_table (with_rows (put ci ri v (rows t)) t) /\
  only_cell_changed t (with_rows (put ci ri v (rows t)) t) (Z.of_nat ci) (Z.of_nat ri) v.
Proof.
  intros W H1 H2 H3 H4.
  assert (W' : wf_table (with_rows (put ci ri v (rows t)) t)) by (eapply wf_put; eauto; split; auto).
  assert (Hc : ci < List.length (cnames t)) by (rewrite <- (wf_types_len _ W); eapply nth_error_some_lt; eauto).
  split; auto. constructor.
  - apply same_header_rows.
  - unfold RowCount. simpl. now rewrite put_rows_length.
  - rewrite GetValByColIndex_put by auto. now rewrite !Z.eqb_refl.
  - intros c' r' Hne. rewrite GetValByColIndex_put by auto.
    destruct (Z.eqb_spec c' (Z.of_nat ci)), (Z.eqb_spec r' (Z.of_nat ri)); simpl; auto. subst. congruence.
Qed.

Lemma same_header_col_at t t' c cn : same_header t t' -> col_at t' c cn <-> col_at t c cn.
Proof. intros H. unfold col_at. rewrite (sh_cols _ _ H). tauto. Qed.

(** By-name view of [only_cell_changed]. *)
Lemma only_by_name t t' c r v cn : wf_table t -> wf_table t' -> only_cell_changed t t' c r v -> col_at t c cn ->
  GetVal t' cn r = Ok v /\ (forall cn' r', (cn', r') <> (cn, r) -> GetVal t' cn' r' = GetVal t cn' r').
Proof.
  intros W W' O C. split.
  - rewrite (GetVal_col_at t' c) by (auto; now apply (same_header_col_at t t' c cn (occ_header _ _ _ _ _ O))).
    apply (occ_here _ _ _ _ _ O).
  - intros cn' r' Hne. destruct (in_dec string_dec cn' (cnames t)) as [I|I].
    + apply col_at_In in I. destruct I as [c' C'].
      rewrite (GetVal_col_at t' c'), (GetVal_col_at t c'); auto;
        [|now apply (same_header_col_at t t' c' cn' (occ_header _ _ _ _ _ O))].
      apply (occ_else _ _ _ _ _ O). intros E. injection E as -> ->. apply Hne.
      f_equal. destruct C as [_ C], C' as [_ C']. congruence.
    + rewrite !GetVal_no_col; auto. now rewrite (sh_cols _ _ (occ_header _ _ _ _ _ O)).
Qed.

(** Typed getters on well-formed tables. *)
Lemma GetT_eq vt t cn r : wf_table t -> In vt all_types ->
  (exists c ct, col_at t c cn /\ nth_error (ctypes t) (Z.to_nat c) = Some ct /\ same_go_type vt ct /\ (0 <= r < RowCount t)%Z
     /\ GetT vt t cn r = GetValByColIndex t c r /\ exists v, GetValByColIndex t c r = Ok v /\ has_type vt v)
  \/ (~ (exists c ct, col_at t c cn /\ nth_error (ctypes t) (Z.to_nat c) = Some ct /\ same_go_type vt ct /\ (0 <= r < RowCount t)%Z)
     /\ GetT vt t cn r = Err).
Proof.
  intros W Hvt. unfold GetT.
  destruct (ColType t cn) as [ct| |] eqn:E; [| |now apply wf_ColType_no_panic in E].
  - apply wf_ColType_iff in E; auto. destruct E as (i & E1 & E2).
    pose proof (proj2 (ColIndex_iff t cn i W) E1) as EI. cbn [rbind]. rewrite EI. cbn [rbind].
    assert (Hct : In ct all_types) by (eapply (Forall_nth_error _ _ _ _ (wf_types _ W)); eauto).
    assert (Hi : i < List.length (cnames t)) by (eapply nth_error_some_lt; eauto).
    destruct (type_ok vt ct) eqn:TO.
    + pose proof (proj1 (type_ok_same vt ct Hvt Hct) TO) as SG. simpl negb. cbv iota.
      destruct (HasRow t r) eqn:HR; simpl negb; cbv iota.
      * apply HasRow_iff in HR. left. exists (Z.of_nat i), ct.
        destruct (wf_cell t W (Z.of_nat i) r) as (ct' & v & A & _ & C & OK); [unfold ColCount; lia|auto|].
        rewrite Nat2Z.id in A. assert (ct' = ct) by congruence. subst ct'.
        assert (GV : GetValByColIndex t (Z.of_nat i) r = Ok v).
        { unfold GetValByColIndex. rewrite (wf_row_not_nil t r W HR).
          rewrite (proj2 (HasRow_iff t r) HR). simpl.
          replace (HasColByColIndex t (Z.of_nat i)) with true by (symmetry; apply HasCol_iff; unfold ColCount; lia). exact C. }
        rewrite C. cbn [rbind]. rewrite (type_assert_ok vt ct v) by (auto; apply OK).
        repeat split; auto; try lia.
        -- now rewrite Nat2Z.id. -- now rewrite Nat2Z.id.
        -- exists v. split; auto. apply (has_type_same ct vt); [now apply same_go_type_sym|apply OK].
      * right. split; [|reflexivity]. intros (c & ct' & _ & _ & _ & HR'). apply HasRow_iff in HR'. congruence.
    + right. split; [|reflexivity]. intros (c & ct' & C & T & SG & _).
      assert (c = Z.of_nat i) by (eapply col_at_inj; eauto; now apply col_at_nat). subst c.
      rewrite Nat2Z.id in T. assert (ct' = ct) by congruence. subst.
      apply (type_ok_same vt ct Hvt Hct) in SG. congruence.
  - right. split; [|reflexivity]. apply wf_ColType_err in E; auto.
    intros (c & ct' & C & _). apply E. apply col_at_In. eauto.
Qed.

Lemma GetTByColIndex_eq vt t c r : wf_table t -> In vt all_types ->
  (exists ct, (0 <= c < ColCount t)%Z /\ nth_error (ctypes t) (Z.to_nat c) = Some ct /\ same_go_type vt ct /\ (0 <= r < RowCount t)%Z
     /\ GetTByColIndex vt t c r = GetValByColIndex t c r /\ exists v, GetValByColIndex t c r = Ok v /\ has_type vt v)
  \/ (~ (exists ct, (0 <= c < ColCount t)%Z /\ nth_error (ctypes t) (Z.to_nat c) = Some ct /\ same_go_type vt ct /\ (0 <= r < RowCount t)%Z)
     /\ GetTByColIndex vt t c r = Err).
Proof.
  intros W Hvt. unfold GetTByColIndex. rewrite ColTypeByColIndex_eq by auto.
  destruct (HasColByColIndex t c) eqn:HC.
  - apply HasCol_iff in HC.
    destruct (wf_type_at t W (Z.to_nat c)) as (ct & T & Hct); [unfold ColCount in HC; lia|].
    rewrite T. cbn [rbind]. destruct (type_ok vt ct) eqn:TO.
    + pose proof (proj1 (type_ok_same vt ct Hvt Hct) TO) as SG. simpl negb. cbv iota.
      destruct (HasRow t r) eqn:HR; simpl negb; cbv iota.
      * apply HasRow_iff in HR. left. exists ct.
        destruct (wf_cell t W c r) as (ct' & v & A & _ & C & OK); auto.
        assert (ct' = ct) by congruence. subst ct'.
        assert (GV : GetValByColIndex t c r = Ok v).
        { unfold GetValByColIndex. rewrite (wf_row_not_nil t r W HR).
          rewrite (proj2 (HasRow_iff t r) HR), (proj2 (HasCol_iff t c) HC). exact C. }
        rewrite C. cbn [rbind]. rewrite (type_assert_ok vt ct v) by (auto; apply OK).
        repeat split; auto; try lia.
        exists v. split; auto. apply (has_type_same ct vt); [now apply same_go_type_sym|apply OK].
      * right. split; [|reflexivity]. intros (ct' & _ & _ & _ & HR'). apply HasRow_iff in HR'. congruence.
    + right. split; [|reflexivity]. intros (ct' & C & T' & SG & _).
      assert (ct' = ct) by congruence. subst. apply (type_ok_same vt ct Hvt Hct) in SG. congruence.
  - right. split; [|reflexivity]. intros (ct' & C & _). apply HasCol_iff in C. congruence.
Qed.

Lemma writable_lt t c r v : wf_table t -> writable t c r v -> (0 <= c < ColCount t)%Z.
Proof. intros W (H1 & _ & ct & H2 & _). apply nth_error_some_lt in H2. rewrite (wf_types_len _ W) in H2. unfold ColCount. lia. Qed.

Lemma written_spec t b c r v : wf_table t -> go_value v = true -> writable t c r v ->
  let t' := s_tab (written (Z.to_nat c) (Z.to_nat r) v (mkS t b [])) in
  wf_table t' /\ only_cell_changed t t' c r v.
Proof.
  intros W G (H1 & H2 & ct & H3 & H4). simpl.
  destruct (written_only (Z.to_nat c) (Z.to_nat r) v t ct W H3 H4 G) as [A B]; [unfold RowCount in H2; lia|].
  rewrite !Z2Nat.id in B by lia. auto.
Qed.

Lemma has_type_not_nil_arg ct v : has_type ct v -> not_nil_arg v = true \/ v = VBytes None.
Proof. destruct v as [| | | | | |[|]|[|]| |]; simpl; auto; tauto. Qed.
