(** Proofs_AbsStep2.v -- the same for the calls that write zeros or NaN, and for the sort
    keys. *)
From Coq Require Import ZArith NArith List String Ascii Bool SpecFloat Permutation Lia.
From Verif Require Import Base Model_Names Model_Table Model_Sort Model_Copy Model_Ops Spec Spec_Sort Spec_Abstract
  Proofs_Lib Proofs_Table Proofs_Cells Proofs_Struct Proofs_Api Proofs_Pres Proofs_Zero Proofs_Api2 Props_Cells Props_Struct
  Proofs_Copy Proofs_Sort Proofs_Keys Props_Sort Proofs_Abstract Proofs_AbsStep.
Import ListNotations.
Local Open Scope string_scope.
Local Open Scope list_scope.

Section Step2.
Variables (E : env) (t : table) (b : nat).
Hypothesis (EOK : env_ok E) (W : wf_table t).
Let s0 := mkS t b [].

Lemma set_cell_no_row ci ri v s : ~ (0 <= ri < RowCount (s_tab s))%Z -> set_cell ci ri v s = (s, Panic).
Proof.
  intros N. destruct (set_cell_cases ci ri v s) as [(c & r & -> & -> & X)|X]; [|exact X].
  unfold set_cell in X |- *. destruct (zidx (Z.of_nat r) (List.length (rows (s_tab s)))) eqn:Z; [|reflexivity].
  apply zidx_some in Z as [Z _]. exfalso. apply N. unfold RowCount. lia.
Qed.

Lemma zero_no_row sp ci ri s : wf_table (s_tab s) -> (0 <= ci < ColCount (s_tab s))%Z -> ~ (0 <= ri < RowCount (s_tab s))%Z ->
  exists s', (let* ct := reads (fun t => match znth (ctypes t) ci with Some ct => Ok ct | None => Panic end) in
    let* v := zero_val sp ct in set_cell ci ri v) s = (s', Panic) /\ s_tab s' = s_tab s.
Proof.
  intros W0 C N. destruct (wf_type_at _ W0 (Z.to_nat ci)) as (ct & T & Hct); [unfold ColCount in C; lia|].
  rewrite bind_reads. replace (znth (ctypes (s_tab s)) ci) with (Some ct)
    by (symmetry; apply znth_some; split; auto; lia).
  destruct (is_tab ct) eqn:IT.
  - apply is_tab_eq in IT. subst ct. rewrite (bind_eq_ok _ _ _ _ _ (zero_val_tab sp s)).
    rewrite set_cell_no_row by exact N. eexists. split; reflexivity.
  - rewrite (bind_eq_ok _ _ _ _ _ (zero_val_plain sp ct s Hct IT)). rewrite set_cell_no_row by exact N. eexists. split; reflexivity.
Qed.

Definition zchanged (at_ : Z -> Z -> Prop) (t' : table) := changed at_ (zero_of (fun p => b <= p)) (abs t) (abs t').

Lemma zero_mono t' s' at_ : wf_table t' -> zero_region t t' (fun p => next s0 <= p < next s') at_ -> zchanged at_ t'.
Proof.
  intros W' Z. apply (changed_zero t t' _ at_ W W'). destruct Z as [A B C D]. split; auto.
  intros c r ct LC LR R T. destruct (C c r ct LC LR R T) as (v & V & Z). exists v. split; [exact V|].
  eapply zero_of_mono; [|exact Z]. unfold s0. rewrite next_0. cbv beta. lia.
Qed.

Lemma sim_zero_cell_no ci ri : sim E b (OSetCellToZeroValueByColIndex ci ri) t.
Proof.
  destruct (HasColByColIndex t ci) eqn:C.
  - apply HasCol_iff in C. destruct (HasRow t ri) eqn:R.
    + apply HasRow_iff in R. destruct (zero_cell_eq false ci ri s0 W C R) as (s' & v & ct & X & T & Z & NX & W' & O).
      eapply sim_by; [exact X|]. split.
      * intros N. exfalso. apply N. split; [apply (col_in_abs _ _ W), C|exact R].
      * intros _ _. split; [reflexivity|]. apply (zero_mono (s_tab s') s' _ W').
        eapply only_zero_region; eauto. lia.
    + assert (NR : ~ (0 <= ri < RowCount t)%Z) by (intros P; apply HasRow_iff in P; congruence).
      destruct (zero_no_row false ci ri s0 W C NR) as (s' & X & S). eapply sim_by; [exact X|]. rewrite S. split.
      * intros _. split; reflexivity.
      * intros _ P. contradiction.
  - assert (N : ~ (0 <= ci < ColCount t)%Z) by (intros P; apply HasCol_iff in P; congruence).
    unfold sim. cbn [exec]. rewrite (C42_zero_setters_panic t b ci ri W N). split.
    + intros _. split; reflexivity.
    + intros P. apply (col_in_abs _ _ W) in P. contradiction.
Qed.

Lemma sim_zero_cell cn ri : sim E b (OSetCellToZeroValue cn ri) t.
Proof.
  destruct (in_dec string_dec cn (cnames t)) as [I|I].
  - pose proof I as I0. apply col_at_In in I as [c I]. pose proof (sim_zero_cell_no c ri) as [S1 S2]. unfold sim. cbn [exec] in *.
    rewrite (C41_cell_zero_by_name t b c cn ri W I). split; [|split].
    + rewrite (abs_names _ W). contradiction.
    + intros _ N. apply S1. tauto.
    + intros _ R. destruct S2 as [D C]; [apply (col_in_abs _ _ W), (col_at_range _ _ _ I)|exact R|]. split; [exact D|].
      intros ci C'. apply (col_no_at _ _ _ W) in C'. rewrite (col_at_inj _ _ _ _ W C' I). exact C.
  - eapply sim_by. { cbn [exec]. unfold SetCellToZeroValue. rewrite bind_reads. cbn [s_tab].
      rewrite (proj1 (C05_no_such_column t cn 0 W I)). reflexivity. }
    split; [split; reflexivity|]. rewrite (abs_names _ W). split; contradiction.
Qed.

Lemma sim_zero_row ri : sim E b (OSetRowCellsToZeroValue ri) t.
Proof.
  destruct (is_nil t) eqn:NIL.
  - eapply sim_by. { cbn [exec]. unfold SetRowCellsToZeroValue. rewrite bind_get, bind_check. cbn [s_tab]. rewrite NIL. reflexivity. }
    assert (AN : a_name (abs t) = None) by (apply a_name_none, NIL).
    split; [split; reflexivity|]. split; contradiction.
  - assert (AN : a_name (abs t) <> None) by (rewrite a_name_none; congruence).
    destruct (HasRow t ri) eqn:R.
    + apply HasRow_iff in R. destruct (SetRowCellsToZeroValue_region ri s0 W R) as (s' & X & W' & Z).
      eapply sim_by; [exact X|]. split; [contradiction|]. split; [intros _ N; contradiction|].
      intros _ _. split; [reflexivity|]. apply (zero_mono (s_tab s') s' _ W'). exact Z.
    + assert (NR : ~ (0 <= ri < RowCount t)%Z) by (intros P; apply HasRow_iff in P; congruence).
      destruct (cnames t) as [|n ns] eqn:CN.
      * eapply sim_by. { cbn [exec]. unfold SetRowCellsToZeroValue. rewrite bind_get, bind_check. cbn [s_tab]. rewrite NIL, CN. reflexivity. }
        assert (AC : a_cols (abs t) = []). { apply length_zero_iff_nil. rewrite (abs_width _ W), CN. reflexivity. }
        split; [contradiction|]. split; [intros _ _ N; contradiction|].
        intros _ _. split; [reflexivity|]. apply (changed_refl _ _ t W). intros c r C. unfold ColCount in C. rewrite CN in C. cbn in C. lia.
      * destruct (zero_no_row true 0 ri s0 W) as (s' & X & S); [unfold ColCount, s0; cbn [s_tab]; rewrite CN; cbn [List.length]; lia|exact NR|].
        assert (Y : exec E (OSetRowCellsToZeroValue ri) s0 = (s', Panic)).
        { cbn [exec]. unfold SetRowCellsToZeroValue. rewrite bind_get, bind_check. cbn [s_tab s0]. rewrite NIL, CN. cbn [negb].
          unfold zseq. cbn [List.length seq map mfor Z.of_nat]. apply bind_eq_panic. exact X. }
        eapply sim_by; [exact Y|]. rewrite S. split; [contradiction|]. split; [intros; split; reflexivity|].
        intros _ [P|P]; [contradiction|]. exfalso. apply (f_equal (@List.length _)) in P. rewrite (abs_width _ W), CN in P. discriminate.
Qed.

Lemma sim_zero_col_no ci : sim E b (OSetColCellsToZeroValueByColIndex ci) t.
Proof.
  destruct (HasColByColIndex t ci) eqn:C.
  - apply HasCol_iff in C. destruct (SetColCellsToZeroValueByColIndex_region ci s0 W C) as (s' & X & W' & Z).
    eapply sim_by; [exact X|]. split.
    + intros N. exfalso. apply N, (col_in_abs _ _ W), C.
    + intros _. split; [reflexivity|]. apply (zero_mono (s_tab s') s' _ W'). exact Z.
  - assert (N : ~ (0 <= ci < ColCount t)%Z) by (intros P; apply HasCol_iff in P; congruence).
    destruct (rows t) as [|row rs] eqn:R.
    + eapply sim_by. { cbn [exec]. unfold SetColCellsToZeroValueByColIndex. rewrite bind_get. cbn [s_tab]. rewrite R. reflexivity. }
      split; [intros _ P; exfalso; apply P; cbn; rewrite R; reflexivity|].
      intros _. split; [reflexivity|]. apply (changed_refl _ _ t W). intros c r _ L. unfold RowCount in L. rewrite R in L. cbn in L. lia.
    + pose proof (C42_zero_setters_panic t b ci 0 W N) as X. unfold run in X.
      destruct (SetCellToZeroValueByColIndex ci 0 (mkS t b [])) as [s' r'] eqn:Q. injection X as X1 X2. subst r'.
      assert (Y : exec E (OSetColCellsToZeroValueByColIndex ci) s0 = (s', Panic)).
      { cbn [exec]. unfold SetColCellsToZeroValueByColIndex. rewrite bind_get. cbn [s_tab s0]. rewrite R.
        unfold zseq. cbn [List.length seq map mfor Z.of_nat]. apply bind_eq_panic. exact Q. }
      eapply sim_by; [exact Y|]. rewrite X1. split; [intros; split; reflexivity|].
      intros [P|P]; [apply (col_in_abs _ _ W) in P; contradiction|]. cbn in P. rewrite R in P. discriminate.
Qed.

Lemma sim_zero_col cn : sim E b (OSetColCellsToZeroValue cn) t.
Proof.
  destruct (in_dec string_dec cn (cnames t)) as [I|I].
  - pose proof I as I0. apply col_at_In in I as [c I]. pose proof (sim_zero_col_no c) as [S1 S2]. unfold sim. cbn [exec] in *.
    rewrite (C41_col_zero_by_name t b c cn W I). split.
    + rewrite (abs_names _ W). contradiction.
    + intros _. destruct S2 as [D C]; [left; apply (col_in_abs _ _ W), (col_at_range _ _ _ I)|]. split; [exact D|].
      intros ci C'. apply (col_no_at _ _ _ W) in C'. rewrite (col_at_inj _ _ _ _ W C' I). exact C.
  - eapply sim_by. { cbn [exec]. unfold SetColCellsToZeroValue. rewrite bind_reads. cbn [s_tab].
      rewrite (proj1 (C05_no_such_column t cn 0 W I)). reflexivity. }
    split; [split; reflexivity|]. rewrite (abs_names _ W). contradiction.
Qed.

(** ---------- NaN ---------- *)

Lemma col_type_abs c ct : (0 <= c)%Z -> nth_error (ctypes t) (Z.to_nat c) = Some ct ->
  exists col, col_no (abs t) c = Some col /\ c_type col = ct.
Proof.
  intros L T. destruct (nth_error (cnames t) (Z.to_nat c)) as [n|] eqn:N.
  - exists (mkCol n ct (colv (Z.to_nat c) (rows t))). split; [|reflexivity]. apply col_no_inv. split; [exact L|]. apply abs_col_some; assumption.
  - apply nth_error_None in N. assert (Z.to_nat c < List.length (ctypes t)) by (apply nth_error_Some; congruence).
    rewrite (wf_types_len _ W) in *. lia.
Qed.
Lemma col_no_type c col : col_no (abs t) c = Some col -> (0 <= c < ColCount t)%Z /\ nth_error (ctypes t) (Z.to_nat c) = Some (c_type col).
Proof.
  intros C. apply col_no_inv in C as [L C]. apply abs_col_inv in C as (N & T & _). split; [|exact T].
  apply (col_at_range t c (c_name col)). split; assumption.
Qed.

Lemma float_col c ct : (0 <= c)%Z -> nth_error (ctypes t) (Z.to_nat c) = Some ct ->
  (exists col, col_no (abs t) c = Some col /\ nan_of (c_type col) <> None) <-> nan_of ct <> None.
Proof.
  intros L T. destruct (col_type_abs c ct L T) as (col & C & <-). split; [|eauto]. intros (col' & C' & N). congruence.
Qed.

Lemma NaN_no_row c r ct : HasRow t r = false -> (0 <= c < ColCount t)%Z -> nth_error (ctypes t) (Z.to_nat c) = Some ct -> nan_of ct <> None ->
  (if ct =? "float32" then SetTByColIndex "float32" c r NaN32 else SetTByColIndex "float64" c r NaN64) s0 = (s0, Err).
Proof.
  intros R C T N. assert (NR : ~ (0 <= r < RowCount t)%Z) by (intros P; apply HasRow_iff in P; congruence).
  destruct (nan_of_cases ct) as [[? _]|[[-> _]|[-> _]]]; [contradiction| |].
  - rewrite String.eqb_refl. destruct (SetTByColIndex_eq "float32" c r NaN32 s0 W) as [(ct' & _ & P & _)|[_ X]];
      [apply str_in_In; reflexivity|reflexivity|exact C|contradiction|exact X].
  - change ("float64" =? "float32") with false. cbn match.
    destruct (SetTByColIndex_eq "float64" c r NaN64 s0 W) as [(ct' & _ & P & _)|[_ X]];
      [apply str_in_In; reflexivity|reflexivity|exact C|contradiction|exact X].
Qed.

Lemma sim_nan_cell_no ci ri : sim E b (OSetFloatCellToNaNByColIndex ci ri) t.
Proof.
  destruct (HasColByColIndex t ci) eqn:C.
  - apply HasCol_iff in C. destruct (ColTypeByColIndex_ok _ ci W C) as (ct & CT & T & Hct).
    destruct (HasRow t ri) eqn:R.
    + pose proof R as R0. apply HasRow_iff in R. destruct (SetFloatCellToNaNByColIndex_eq ci ri s0 W C R) as (ct' & T' & X).
      cbn [s_tab s0] in T'. rewrite T in T'. injection T' as <-. destruct (nan_of ct) as [v|] eqn:N.
      * destruct X as (s' & X & W' & O). eapply sim_by; [exact X|]. apply if_ok_yes; [|reflexivity|].
        -- split; [exact R|]. apply (float_col ci ct); auto; try lia. congruence.
        -- eapply changed_nan with (at_ := fun c r => c = ci /\ r = ri); eauto.
           ++ destruct O as [A B D F]. split; auto.
              ** intros c r ct0 w _ _ [-> ->] T0 N0. congruence.
              ** intros c r ct0 T0 [H|H]; apply F.
                 { intros Q. injection Q as -> ->. apply H. auto. }
                 { intros Q. injection Q as -> ->. cbn [s_tab s0] in T0. congruence. }
           ++ intros c r ct0 _ _ T0. split; [|tauto]. intros [-> ->]. split; [auto|]. congruence.
           ++ intros c r. destruct (Z.eq_dec c ci), (Z.eq_dec r ri); [left; auto|right; tauto..].
      * eapply sim_by; [exact X|]. apply if_ok_no; try reflexivity. intros (_ & P).
        apply (float_col ci ct) in P; auto; try lia.
    + unfold sim. assert (X : exec E (OSetFloatCellToNaNByColIndex ci ri) s0 = (s0, Err)).
      { cbn [exec]. unfold SetFloatCellToNaNByColIndex. rewrite bind_reads. cbn [s_tab s0]. rewrite CT.
        destruct (nan_of ct) as [v|] eqn:N.
        - pose proof (NaN_no_row ci ri ct R C T) as Y. rewrite N in Y. specialize (Y ltac:(discriminate)).
          destruct (nan_of_cases ct) as [[? _]|[[-> _]|[-> _]]]; [congruence|exact Y|exact Y].
        - destruct (nan_of_cases ct) as [(_ & N1 & N2)|[[-> ?]|[-> ?]]]; [|discriminate|discriminate].
          apply String.eqb_neq in N1, N2. rewrite N1, N2. reflexivity. }
      eapply sim_by; [exact X|]. apply if_ok_no; try reflexivity. intros (P & _). apply row_in_abs, HasRow_iff in P. congruence.
  - assert (N : ~ (0 <= ci < ColCount t)%Z) by (intros P; apply HasCol_iff in P; congruence).
    assert (VT : In "int" all_types) by (apply str_in_In; reflexivity).
    destruct (C42_errors t b ci ri VNil "int" W VT N) as (_ & _ & _ & _ & _ & _ & X).
    unfold sim. cbn [exec]. rewrite X. apply if_ok_no; try reflexivity. intros (_ & col & C' & _).
    apply col_no_type in C'. tauto.
Qed.

Lemma float_col_name c cn : col_at t c cn -> forall P : string -> Prop,
  (exists col, col_of (abs t) cn = Some col /\ P (c_type col)) <-> (exists col, col_no (abs t) c = Some col /\ P (c_type col)).
Proof.
  intros C P. destruct (col_of_no _ _ _ W C) as (col & -> & -> & _). reflexivity.
Qed.

Lemma sim_nan_cell cn ri : sim E b (OSetFloatCellToNaN cn ri) t.
Proof.
  destruct (in_dec string_dec cn (cnames t)) as [I|I].
  - pose proof I as I0. apply col_at_In in I as [c I]. pose proof (sim_nan_cell_no c ri) as [S1 S2].
    assert (R : run (exec E (OSetFloatCellToNaN cn ri)) b t = run (exec E (OSetFloatCellToNaNByColIndex c ri)) b t).
    { unfold run. cbn [exec]. unfold SetFloatCellToNaN. rewrite bind_reads. cbn [s_tab]. rewrite (proj1 (ColIndex_col_at _ _ _ W) I). reflexivity. }
    pose proof (float_col_name c cn I (fun ct => nan_of ct <> None)) as FC. cbv beta in FC.
    unfold sim. rewrite R. split.
    + intros (P1 & P2). destruct S1 as [D C]; [split; [exact P1|apply FC, P2]|]. split; [exact D|].
      intros ci C'. apply (col_no_at _ _ _ W) in C'. rewrite (col_at_inj _ _ _ _ W C' I). exact C.
    + intros P. apply S2. rewrite <- FC. exact P.
  - eapply sim_by. { cbn [exec]. unfold SetFloatCellToNaN. rewrite bind_reads. cbn [s_tab].
      rewrite (proj1 (C05_no_such_column t cn 0 W I)). reflexivity. }
    apply if_ok_no; try reflexivity. intros (_ & col & C & _). apply (col_of_none _ _ W) in I. congruence.
Qed.

Lemma nan_row_no_row ri l : HasRow t ri = false -> Forall (fun c => (0 <= c < ColCount t)%Z) l ->
  (Forall (fun c => forall ct, nth_error (ctypes t) (Z.to_nat c) = Some ct -> nan_of ct = None) l /\
   mfor l (fun ci => let* ct := reads (fun t => ColTypeByColIndex t ci) in
    if ct =? "float32" then SetTByColIndex "float32" ci ri NaN32
    else if ct =? "float64" then SetTByColIndex "float64" ci ri NaN64 else ret tt) s0 = (s0, Ok tt))
  \/ (Exists (fun c => exists ct, nth_error (ctypes t) (Z.to_nat c) = Some ct /\ nan_of ct <> None) l /\
   mfor l (fun ci => let* ct := reads (fun t => ColTypeByColIndex t ci) in
    if ct =? "float32" then SetTByColIndex "float32" ci ri NaN32
    else if ct =? "float64" then SetTByColIndex "float64" ci ri NaN64 else ret tt) s0 = (s0, Err)).
Proof.
  intros R F. induction F as [|c l C F IH].
  - left. split; [constructor|reflexivity].
  - destruct (ColTypeByColIndex_ok _ c W C) as (ct & CT & T & Hct). cbn [mfor].
    destruct (nan_of ct) as [v|] eqn:N.
    + right. split. { left. exists ct. split; [exact T|congruence]. }
      apply bind_eq_err. rewrite bind_reads. cbn [s_tab s0]. rewrite CT.
      pose proof (NaN_no_row c ri ct R C T) as Y. rewrite N in Y. specialize (Y ltac:(discriminate)).
      destruct (nan_of_cases ct) as [[? _]|[[-> _]|[-> _]]]; [congruence|exact Y|exact Y].
    + assert (X : forall r', (let* ct := reads (fun t => ColTypeByColIndex t c) in
        if ct =? "float32" then SetTByColIndex "float32" c ri NaN32
        else if ct =? "float64" then SetTByColIndex "float64" c ri NaN64 else ret tt) s0 = (s0, r') <-> Ok tt = r').
      { intros r'. rewrite bind_reads. cbn [s_tab s0]. rewrite CT.
        destruct (nan_of_cases ct) as [(_ & N1 & N2)|[[-> ?]|[-> ?]]]; [|discriminate|discriminate].
        apply String.eqb_neq in N1, N2. rewrite N1, N2. cbn. unfold ret. split; congruence. }
      rewrite (bind_eq_ok _ _ _ _ _ (proj2 (X _) eq_refl)).
      destruct IH as [[A B]|[A B]]; [left|right]; (split; [|exact B]).
      * constructor; [|exact A]. congruence.
      * right. exact A.
Qed.

Lemma zseq_range : Forall (fun c => (0 <= c < ColCount t)%Z) (zseq (List.length (cnames t))).
Proof. apply Forall_forall. intros x X. unfold zseq in X. apply in_map_iff in X as (k & <- & K). apply in_seq in K. unfold ColCount. lia. Qed.

Lemma sim_nan_row ri : sim E b (OSetRowFloatCellsToNaN ri) t.
Proof.
  destruct (HasRow t ri) eqn:R.
  - apply HasRow_iff in R. destruct (SetRowFloatCellsToNaN_region ri s0 W R) as (s' & X & W' & Z).
    eapply sim_by; [exact X|]. apply if_ok_yes; [left; exact R|reflexivity|].
    eapply changed_nan; eauto.
    + intros c r ct LC LR T. cbv beta. rewrite (float_col c ct) by (auto; lia). reflexivity.
    + intros c r. apply Z.eq_dec.
  - destruct (nan_row_no_row ri _ R zseq_range) as [[A X]|[A X]]; (eapply sim_by; [cbn [exec]; unfold SetRowFloatCellsToNaN; rewrite bind_get; exact X|]).
    + apply if_ok_yes; [|reflexivity|].
      * right. rewrite (abs_types _ W). apply Forall_forall. intros ct K. apply In_nth_error in K as [k K]. rewrite Forall_forall in A. apply (A (Z.of_nat k)).
        -- unfold zseq. apply in_map, in_seq. rewrite <- (wf_types_len _ W). assert (k < List.length (ctypes t)) by (apply nth_error_Some; congruence). lia.
        -- rewrite Nat2Z.id. exact K.
      * apply (changed_refl _ _ t W). intros c r LC LR [-> _]. apply HasRow_iff in LR. congruence.
    + apply if_ok_no; try reflexivity. intros [P|P].
      * apply row_in_abs, HasRow_iff in P. congruence.
      * rewrite (abs_types _ W) in P. apply Exists_exists in A as (c & _ & ct & T & N). apply nth_error_In in T.
        rewrite Forall_forall in P. apply N, P, T.
Qed.

Lemma sim_nan_all : sim E b OSetAllFloatCellsToNaN t.
Proof.
  destruct (SetAllFloatCellsToNaN_region s0 W) as (s' & X & W' & Z).
  eapply sim_by; [exact X|]. split; [reflexivity|]. eapply changed_nan; eauto.
  - intros c r ct LC LR T. cbv beta. rewrite (float_col c ct) by (auto; lia). tauto.
Qed.

Lemma nan_cell_err ci ri : (forall ct, (0 <= ci)%Z -> nth_error (ctypes t) (Z.to_nat ci) = Some ct -> nan_of ct = None) ->
  SetFloatCellToNaNByColIndex ci ri s0 = (s0, Err).
Proof.
  intros H. unfold SetFloatCellToNaNByColIndex. rewrite bind_reads. cbn [s_tab s0]. destruct (HasColByColIndex t ci) eqn:C.
  - apply HasCol_iff in C. destruct (ColTypeByColIndex_ok _ ci W C) as (ct & CT & T & Hct). rewrite CT.
    destruct (nan_of_cases ct) as [(_ & N1 & N2)|[[-> N]|[-> N]]].
    + apply String.eqb_neq in N1, N2. rewrite N1, N2. reflexivity.
    + rewrite H in N; [discriminate|lia|exact T].
    + rewrite H in N; [discriminate|lia|exact T].
  - assert (X : ColTypeByColIndex t ci = Err).
    { destruct (abs_answers t W) as [_ _ _ _ _ _ _ _ A _ _ _ _ _ _ _ _]. rewrite A. unfold col_no. destruct (Z.ltb_spec ci 0); [reflexivity|].
      destruct (nth_error (a_cols (abs t)) (Z.to_nat ci)) eqn:N; [|reflexivity]. exfalso.
      assert (L : Z.to_nat ci < List.length (a_cols (abs t))) by (apply nth_error_Some; congruence). rewrite (abs_width _ W) in L.
      assert (P : (0 <= ci < ColCount t)%Z) by (unfold ColCount; lia). apply HasCol_iff in P. congruence. }
    rewrite X. reflexivity.
Qed.

Lemma sim_nan_col_no ci : sim E b (OSetColFloatCellsToNaNByColIndex ci) t.
Proof.
  destruct (rows t) as [|row rs] eqn:R.
  - eapply sim_by. { cbn [exec]. unfold SetColFloatCellsToNaNByColIndex. rewrite bind_get. cbn [s_tab]. rewrite R. reflexivity. }
    apply if_ok_yes; [left; cbn; rewrite R; reflexivity|reflexivity|].
    apply (changed_refl _ _ t W). intros c r _ L. unfold RowCount in L. rewrite R in L. cbn in L. lia.
  - assert (NZ : a_len (abs t) <> 0) by (cbn; rewrite R; discriminate).
    assert (BAD : (forall ct, (0 <= ci)%Z -> nth_error (ctypes t) (Z.to_nat ci) = Some ct -> nan_of ct = None) -> sim E b (OSetColFloatCellsToNaNByColIndex ci) t).
    { intros H. eapply sim_by. { cbn [exec]. unfold SetColFloatCellsToNaNByColIndex. rewrite bind_get. cbn [s_tab]. rewrite R.
        unfold zseq. cbn [List.length seq map mfor Z.of_nat]. apply bind_eq_err. apply nan_cell_err, H. }
      apply if_ok_no; try reflexivity. intros [P|(col & C & N)]; [contradiction|]. apply col_no_type in C as [L T]. apply N, H; [lia|exact T]. }
    destruct (HasColByColIndex t ci) eqn:C.
    + apply HasCol_iff in C. destruct (ColTypeByColIndex_ok _ ci W C) as (ct & CT & T & Hct).
      destruct (nan_of ct) as [v|] eqn:N.
      * destruct (SetColFloatCellsToNaNByColIndex_region ci s0 v ct W C T N) as (s' & X & W' & Z).
        eapply sim_by; [exact X|]. apply if_ok_yes; [|reflexivity|].
        -- right. apply (float_col ci ct); auto; try lia. congruence.
        -- eapply changed_nan with (at_ := fun c r => c = ci); eauto.
           ++ intros c r ct0 _ _ T0. split; [|tauto]. intros ->. split; [reflexivity|congruence].
           ++ intros c r. apply Z.eq_dec.
      * apply BAD. congruence.
    + apply BAD. intros ct L T. exfalso. assert (P : (0 <= ci < ColCount t)%Z).
      { unfold ColCount. rewrite <- (wf_types_len _ W). assert (Z.to_nat ci < List.length (ctypes t)) by (apply nth_error_Some; congruence). lia. }
      apply HasCol_iff in P. congruence.
Qed.

Lemma sim_nan_col cn : sim E b (OSetColFloatCellsToNaN cn) t.
Proof.
  destruct (in_dec string_dec cn (cnames t)) as [I|I].
  - pose proof I as I0. apply col_at_In in I as [c I]. pose proof (sim_nan_col_no c) as [S1 S2].
    assert (R : run (exec E (OSetColFloatCellsToNaN cn)) b t = run (exec E (OSetColFloatCellsToNaNByColIndex c)) b t).
    { unfold run. cbn [exec]. unfold SetColFloatCellsToNaN. rewrite bind_reads. cbn [s_tab]. rewrite (proj1 (ColIndex_col_at _ _ _ W) I). reflexivity. }
    destruct (col_of_no _ _ _ W I) as (col & C1 & C2 & _).
    unfold sim. rewrite R. split.
    + intros (col' & Q & P). rewrite C1 in Q. injection Q as <-. destruct S1 as [D C].
      { destruct P as [P|P]; [left; exact P|right; eauto]. } split; [exact D|].
      intros ci C'. apply (col_no_at _ _ _ W) in C'. rewrite (col_at_inj _ _ _ _ W C' I). exact C.
    + intros P. apply S2. intros [Q|(col' & Q & N)]; apply P; exists col; (split; [exact C1|]).
      * left. exact Q.
      * right. congruence.
  - eapply sim_by. { cbn [exec]. unfold SetColFloatCellsToNaN. rewrite bind_reads. cbn [s_tab].
      rewrite (proj1 (C05_no_such_column t cn 0 W I)). reflexivity. }
    apply if_ok_no; try reflexivity. intros (col & C & _). apply (col_of_none _ _ W) in I. congruence.
Qed.

(** ---------- sort keys ---------- *)

Lemma key_for_abs cn : key_for_col (abs t) cn = key_for t cn.
Proof.
  unfold key_for_col, key_for. destruct (abs_answers t W) as [_ _ _ _ _ _ _ _ _ A _ _ _ _ _ _ _]. rewrite A.
  destruct (col_of (abs t) cn) as [c|]; [|reflexivity]. cbn [option_map answer].
  destruct (in_dec string_dec (c_type c) sortable_types) as [I|I].
  - apply str_in_In in I. rewrite I. reflexivity.
  - destruct (str_in (c_type c) sortable_types) eqn:X; [|reflexivity]. apply str_in_In in X. contradiction.
Qed.
Lemma asked_keys_abs cns : asked_keys (abs t) cns = keys_for t cns.
Proof. induction cns as [|cn r IH]; [reflexivity|]. cbn [asked_keys keys_for]. rewrite key_for_abs, IH. reflexivity. Qed.
Lemma abs_with_skeys ks : abs (with_skeys ks t) = a_with_keys ks (abs t).
Proof. reflexivity. Qed.

Lemma sim_SetSortKeys cns : sim E b (OSetSortKeys cns) t.
Proof.
  eapply sim_by; [exact (SetSortKeys_eq cns s0 W)|]. cbn [astep]. rewrite asked_keys_abs. cbn [s_tab s0 on_tab]. split; reflexivity.
Qed.

Lemma sim_AppendSortKey cn : sim E b (OAppendSortKey cn) t.
Proof.
  unfold sim, run. cbn [exec]. rewrite (AppendSortKey_eq cn (mkS t b []) W). cbn [astep s_tab]. rewrite key_for_abs.
  destruct (key_for t cn) as [k|]; split; reflexivity.
Qed.

Lemma mark_rev cn ks : mark cn ks = rev_keys cn ks.
Proof.
  unfold mark, rev_keys. apply map_ext. intros k. destruct (string_dec (k_col k) cn) as [D|D].
  - apply String.eqb_eq in D. rewrite D. reflexivity.
  - apply String.eqb_neq in D. rewrite D. reflexivity.
Qed.
Lemma existsb_key cn ks : existsb (fun k => k_col k =? cn) ks = if in_dec string_dec cn (map k_col ks) then true else false.
Proof.
  destruct (in_dec string_dec cn (map k_col ks)) as [I|I].
  - apply existsb_exists. apply in_map_iff in I as (k & <- & I). exists k. split; [exact I|apply String.eqb_refl].
  - destruct (existsb _ _) eqn:X; [|reflexivity]. exfalso. apply I. apply existsb_exists in X as (k & J & Q).
    apply String.eqb_eq in Q. subst cn. now apply in_map.
Qed.
Lemma marked_run cns : forall s, mfor cns setSortKeyReverse s =
  (on_tab (with_skeys (fst (marked_keys cns (skeys (s_tab s))))) s, if snd (marked_keys cns (skeys (s_tab s))) then Ok tt else Err).
Proof.
  assert (ID : forall s, on_tab (with_skeys (skeys (s_tab s))) s = s) by (intros [[] ? ?]; reflexivity).
  induction cns as [|cn r IH]; intros s; cbn [mfor marked_keys].
  - cbn [fst snd]. rewrite ID. reflexivity.
  - pose proof (setSortKeyReverse_eq cn s) as X. rewrite existsb_key in X.
    destruct (in_dec string_dec cn (map k_col (skeys (s_tab s)))).
    + rewrite (bind_eq_ok _ _ _ _ _ X), IH. cbn [on_tab s_tab]. cbn [with_skeys skeys]. rewrite mark_rev. reflexivity.
    + rewrite (bind_eq_err _ _ _ _ X). cbn [fst snd]. rewrite ID. reflexivity.
Qed.
Lemma sim_SetSortKeysReverse cns : sim E b (OSetSortKeysReverse cns) t.
Proof. eapply sim_by; [exact (marked_run cns s0)|]. split; reflexivity. Qed.

Lemma sim_DeleteSortKey cn : sim E b (ODeleteSortKey cn) t.
Proof.
  destruct (C39_DeleteSortKey t b cn W) as [Y N]. unfold sim. cbn [exec].
  destruct (in_dec string_dec cn (cnames t)) as [I|I].
  - pose proof (find_key_spec cn (skeys t) 0) as F. destruct (find_key cn (skeys t) 0).
    + destruct F as (k1 & k & k2 & F1 & F2 & F3 & _). destruct (Y k1 k k2 F1 F2 F3 I) as (t' & -> & S & K).
      apply if_ok_yes; [|reflexivity|].
      * rewrite (abs_names _ W). split; [exact I|]. cbn [abs a_keys]. rewrite F1, map_app, in_app_iff. right. left. exact F2.
      * exists k1, k, k2. repeat split; auto. cbn [fst]. unfold same_but_keys in S. rewrite S, K. reflexivity.
    + rewrite N by (right; exact F). apply if_ok_no; try reflexivity. intros [_ P]. contradiction.
  - rewrite N by (left; exact I). apply if_ok_no; try reflexivity. rewrite (abs_names _ W). tauto.
Qed.

End Step2.

(** ---------- sorting ---------- *)

Lemma a_keys_ok_abs t : wf_table t -> a_keys_ok (abs t) <-> keys_ok t.
Proof.
  intros W. unfold a_keys_ok, keys_ok. rewrite !Forall_forall. split; intros H k I; specialize (H k I).
  - destruct H as (c & C & T & S). apply (col_of_inv _ _ _ W) in C as (i & N & Q). apply abs_col_inv in N as (N1 & N2 & _).
    exists i. rewrite N1, N2, Q, T. auto.
  - destruct H as (i & N & T & S). pose proof (abs_col_some t i _ _ N T) as C. eexists. split.
    + apply (col_of_inv _ _ _ W). exists i. split; [exact C|reflexivity].
    + split; [reflexivity|exact S].
Qed.
Lemma a_get_iff t cn r v : wf_table t -> a_get (abs t) cn r = Some v <-> GetVal t cn r = Ok v.
Proof. intros W. rewrite (a_get_abs _ _ _ W). destruct (a_get _ _ _); cbn; split; congruence. Qed.
Lemma a_no_nan_abs t : wf_table t -> a_no_nan (abs t) <-> no_nan_keys t.
Proof.
  intros W. unfold a_no_nan, no_nan_keys. split; intros H k r v I G; apply (H k r v I); apply (a_get_iff _ _ _ _ W); exact G.
Qed.
Lemma a_before_abs E t ks i j : wf_table t -> a_before E (abs t) ks i j <-> keys_lt E t ks i j.
Proof.
  intros W. induction ks as [|k r IH]; cbn [a_before keys_lt]; [tauto|].
  split; intros (v & w & G1 & G2 & H); exists v, w; apply (a_get_iff _ _ _ _ W) in G1, G2; rewrite ?IH in *; auto.
Qed.
Lemma a_sorted_abs E t : wf_table t -> a_sorted E (abs t) <-> sorted_table E t.
Proof.
  intros W. unfold a_sorted, sorted_table. split; intros H i j A B C; apply (H i j A B), (a_before_abs _ _ _ _ _ W), C.
Qed.

Section Sorting.
Variables (E : env) (b : nat).
Hypothesis (EOK : env_ok E).

Lemma sorts_abs t s : wf_table t -> s_tab s = t ->
  sorts E (abs t) (snd (sortByKeys E s)) (abs (s_tab (fst (sortByKeys E s)))).
Proof.
  intros W <-. set (t := s_tab s) in *. unfold sortByKeys. rewrite bind_get. fold t.
  destruct (go_sort E (less_rows E (cmap t) (skeys t)) (rows t)) as [rs|] eqn:R.
  - pose proof (eo_perm E EOK _ _ _ R) as P.
    assert (RA : rearranged (abs t) (abs (with_rows rs t))) by (apply rearranged_abs; assumption).
    change (snd (modify (with_rows rs) s)) with (@Ok unit tt). change (s_tab (fst (modify (with_rows rs) s))) with (with_rows rs t).
    split; [|intros _; split; [left; reflexivity|exact RA]].
    intros K. split; [reflexivity|]. split; [exact RA|]. intros N. apply a_sorted_abs; [now apply wf_perm|].
    apply (sorted_rows E t rs EOK W); [apply a_keys_ok_abs; assumption|apply a_no_nan_abs; assumption|exact R].
  - assert (NK : ~ a_keys_ok (abs t)).
    { intros K. apply (a_keys_ok_abs _ W) in K.
      destruct (eo_total E EOK (less_rows E (cmap t) (skeys t)) (rows t)) as [rs R'].
      { intros x y X Y. destruct (less_rows_total E t (skeys t) x y W K X Y) as [c ->]. discriminate. }
      congruence. }
    split; [contradiction|]. intros _. split; [right; reflexivity|]. change (s_tab (fst (crash s))) with t.
    assert (Q : abs t = abs (with_rows (rows t) t)) by (destruct t; reflexivity). rewrite Q at 2.
    apply rearranged_abs. apply Permutation_refl.
Qed.

Lemma keys_for_nil t cns : snd (keys_for t cns) = true -> cns <> [] -> fst (keys_for t cns) <> [].
Proof.
  destruct cns as [|cn r]; [congruence|]. cbn [keys_for]. destruct (key_for t cn); [|discriminate].
  destruct (keys_for t r). discriminate.
Qed.

Lemma sim_OSort t cns : wf_table t -> sim E b (OSort cns) t.
Proof.
  intros W. unfold sim. destruct cns as [|cn cns].
  - cbn [astep exec]. unfold run. rewrite Sort_keys_eq. cbn [s_tab]. change (a_keys (abs t)) with (skeys t).
    pose proof (sorts_abs t (mkS t b []) W eq_refl) as S. unfold sortByKeys in S. rewrite bind_get in S. cbn [s_tab] in S.
    destruct (skeys t) as [|k ks] eqn:K; cbn [List.length Nat.eqb].
    + split; reflexivity.
    + destruct (go_sort _ _ _); exact S.
  - cbn [astep]. rewrite (asked_keys_abs _ W). set (cs := cn :: cns). set (kf := keys_for t cs).
    cbn [exec]. unfold run, Sort. change (Nat.ltb 0 (List.length cs)) with true. cbn match.
    pose proof (SetSortKeys_eq cs (mkS t b []) W) as X. cbn [s_tab] in X. fold kf in X.
    destruct (snd kf) eqn:B.
    + rewrite (bind_eq_ok _ _ _ _ _ X). rewrite bind_get, bind_check. cbn [on_tab s_tab].
      change (skeys (with_skeys (fst kf) t)) with (fst kf).
      assert (NE : fst kf <> []) by (apply keys_for_nil; [exact B|discriminate]).
      destruct (Nat.eqb_spec (List.length (fst kf)) 0) as [Z|_]; [apply length_zero_iff_nil in Z; contradiction|]. cbn [negb].
      match goal with |- context [sortByKeys E ?s] => pose proof (sorts_abs (with_skeys (fst kf) t) s (wf_with_skeys _ _ W) eq_refl) as S;
        destruct (sortByKeys E s) as [s' r'] end. exact S.
    + rewrite (bind_eq_err _ _ _ _ X). split; reflexivity.
Qed.

Lemma sim_OSortSimple t cns : wf_table t -> sim E b (OSortSimple cns) t.
Proof.
  intros W. unfold sim. destruct cns as [|cn cns].
  - split; reflexivity.
  - cbn [astep]. rewrite (asked_keys_abs _ W). set (cs := cn :: cns). set (kf := keys_for t cs).
    cbn [exec]. unfold run, SortSimple. rewrite bind_check. change (negb (Nat.eqb (List.length cs) 0)) with true. cbn match.
    pose proof (SetSortKeys_eq cs (mkS t b []) W) as X. cbn [s_tab] in X. fold kf in X.
    destruct (snd kf) eqn:B.
    + rewrite (bind_eq_ok _ _ _ _ _ X).
      match goal with |- context [sortByKeys E ?s] => pose proof (sorts_abs (with_skeys (fst kf) t) s (wf_with_skeys _ _ W) eq_refl) as S;
        destruct (sortByKeys E s) as [s' r'] end. exact S.
    + rewrite (bind_eq_err _ _ _ _ X). split; reflexivity.
Qed.

Lemma sim_OrderCols t : wf_table t -> sim E b OOrderColsBySortKeys t.
Proof.
  intros W. set (order := map k_col (skeys t) ++ non_key_cols t).
  assert (FE : non_key_cols t = filter (fun n => negb (existsb (fun k => k_col k =? n) (skeys t))) (cnames t)).
  { unfold non_key_cols. apply filter_ext. intros n. rewrite existsb_key. destruct (in_dec _ _ _); reflexivity. }
  unfold sim. cbn [astep]. cbv zeta. change (a_keys (abs t)) with (skeys t). rewrite (abs_names _ W).
  change (filter (fun n => if in_dec string_dec n (map k_col (skeys t)) then false else true) (cnames t)) with (non_key_cols t).
  fold order. rewrite (abs_width _ W).
  assert (X : run (exec E OOrderColsBySortKeys) b t =
    if Nat.ltb (List.length (cnames t)) (List.length order) then (t, Panic)
    else run (ReorderCols (order ++ repeat "" (List.length (cnames t) - List.length order))) b t).
  { cbn [exec]. unfold run, OrderColsBySortKeys. rewrite bind_get. cbn [s_tab]. rewrite <- FE. fold order.
    destruct (Nat.ltb (List.length (cnames t)) (List.length order)); [reflexivity|].
    rewrite bind_ret, bind_reads. cbn [s_tab].
    assert (IS : forall l, (forall n, In n l -> In n (cnames t)) -> exists bs, mapM (IsSortKey t) l = Ok bs).
    { induction l as [|n l IH]; intros H; [exists []; reflexivity|]. destruct IH as [bs IH]; [intros; apply H; now right|].
      simpl. unfold IsSortKey at 1. rewrite wf_HasCol by auto. cbn [rbind].
      destruct (in_dec string_dec n (cnames t)) as [_|Q]; [|exfalso; apply Q, H; now left]. cbn [rbind]. rewrite IH. cbn [rbind]. eauto. }
    destruct (IS (cnames t) (fun n H => H)) as [bs ->]. reflexivity. }
  rewrite X. destruct (Nat.ltb_spec (List.length (cnames t)) (List.length order)) as [L|L].
  - split; [intros _; split; reflexivity|lia].
  - split; [lia|]. intros _.
    pose proof (reorder_names E t b W (order ++ repeat "" (List.length (cnames t) - List.length order))) as S.
    unfold sim in S. cbn [astep exec] in S. rewrite (abs_names _ W) in S.
    destruct (Nat.eq_dec (List.length order) (List.length (cnames t))) as [Q|Q].
    + rewrite Q, Nat.sub_diag in S |- *. cbn [repeat] in S |- *. rewrite app_nil_r in S |- *. exact S.
    + assert (NP : ~ Permutation (order ++ repeat "" (List.length (cnames t) - List.length order)) (cnames t)).
      { intros P. assert (I : In "" (cnames t)). { eapply Permutation_in; [exact P|]. apply in_app_iff. right.
          destruct (List.length (cnames t) - List.length order) eqn:D; [lia|left; reflexivity]. }
        pose proof (wf_colnames _ W) as V. rewrite Forall_forall in V. destruct (V _ I) as [(c & r & Z & _) _]. discriminate Z. }
      destruct S as [_ S]. destruct (S NP) as [S1 S2]. apply if_ok_no; auto.
      intros P. apply Permutation_length in P. lia.
Qed.
End Sorting.
