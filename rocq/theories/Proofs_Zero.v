(** Proofs_Zero.v -- zero-value and NaN setters. *)
From Coq Require Import ZArith NArith List String Ascii Bool SpecFloat Permutation Lia.
From Verif Require Import Base Model_Names Model_Table Spec.
From Verif Require Import Proofs_Lib Proofs_Table Proofs_Cells Proofs_Struct Proofs_Api Proofs_Pres.
Import ListNotations.
Local Open Scope string_scope.
Local Open Scope list_scope.

Lemma mfor_inv (P : nat -> st -> Prop) body n : forall s, P 0 s ->
  (forall k s1, k < n -> P k s1 -> exists s2, body (Z.of_nat k) s1 = (s2, Ok tt) /\ P (S k) s2) ->
  exists s', mfor (zseq n) body s = (s', Ok tt) /\ P n s'.
Proof.
  induction n as [|n IH]; intros s H0 H.
  - exists s. split; auto.
  - destruct (IH s H0) as (s1 & E1 & P1). { intros; apply H; auto. }
    destruct (H n s1) as (s2 & E2 & P2); auto.
    exists s2. split; auto. rewrite zseq_S, mfor_app. rewrite (bind_eq_ok _ _ _ _ _ E1).
    simpl. unfold bind. rewrite E2. reflexivity.
Qed.

Lemma zero_region_empty t F : zero_region t t F (fun _ _ => False).
Proof. constructor; auto using same_header_refl; tauto. Qed.

Lemma same_header_trans a b c : same_header a b -> same_header b c -> same_header a c.
Proof. intros [] []. constructor; congruence. Qed.

(** One cell. *)
Lemma zero_cell_eq sp c r s : wf_table (s_tab s) -> (0 <= c < ColCount (s_tab s))%Z -> (0 <= r < RowCount (s_tab s))%Z ->
  exists s' v ct, (let* ct := reads (fun t => match znth (ctypes t) c with Some ct => Ok ct | None => Panic end) in
    let* v := zero_val sp ct in set_cell c r v) s = (s', Ok tt)
   /\ nth_error (ctypes (s_tab s)) (Z.to_nat c) = Some ct
   /\ zero_of (fun p => next s <= p < next s') ct v /\ next s <= next s'
   /\ wf_table (s_tab s') /\ only_cell_changed (s_tab s) (s_tab s') c r v.
Proof.
  intros W Hc Hr. destruct (wf_type_at _ W (Z.to_nat c)) as (ct & T & Hct); [unfold ColCount in Hc; lia|].
  mstep. replace (znth (ctypes (s_tab s)) c) with (Some ct)
    by (symmetry; apply znth_some; split; auto; lia).
  destruct (is_tab ct) eqn:IT.
  - apply is_tab_eq in IT. subst ct. rewrite (bind_eq_ok _ _ _ _ _ (zero_val_tab sp s)).
    set (s1 := mkS (s_tab s) (s_base s) (s_news s ++ [sp])).
    rewrite (set_cell_ok c r (VTable (Some (next s))) s1) by auto.
    eexists. exists (VTable (Some (next s))), "*Table". split; [reflexivity|]. split; auto.
    assert (N : next s1 = S (next s)) by (unfold next, s1; simpl; rewrite app_length; simpl; lia).
    change (next (on_tab _ s1)) with (next s1).
    split; [split; auto; lia|]. split; [lia|].
    destruct (written_only (Z.to_nat c) (Z.to_nat r) (VTable (Some (next s))) (s_tab s) "*Table" W T) as [A B];
      try reflexivity; [unfold RowCount in Hr; lia|]. rewrite !Z2Nat.id in B by lia. auto.
  - rewrite (bind_eq_ok _ _ _ _ _ (zero_val_plain sp ct s Hct IT)).
    rewrite (set_cell_ok c r (zplain ct) s) by auto.
    eexists. exists (zplain ct), ct. split; [reflexivity|]. split; auto.
    split; [now apply zplain_ok|]. split; [auto|].
    pose proof (zplain_cell_ok ct Hct IT) as [K1 K2].
    destruct (written_only (Z.to_nat c) (Z.to_nat r) (zplain ct) (s_tab s) ct W T) as [A B];
      auto; [unfold RowCount in Hr; lia|]. rewrite !Z2Nat.id in B by lia. auto.
Qed.

Lemma zero_of_mono (F G : ptr -> Prop) ct v : (forall p, F p -> G p) -> zero_of F ct v -> zero_of G ct v.
Proof. intros H. destruct v; simpl; auto. destruct o; auto. intuition. Qed.

(** A region grows by one zeroed cell. *)
Lemma zero_region_step t t1 t2 (F G : ptr -> Prop) (R : Z -> Z -> Prop) c r v ct :
  (forall p, F p -> G p) -> (0 <= c)%Z ->
  zero_region t t1 F R -> only_cell_changed t1 t2 c r v -> nth_error (ctypes t) (Z.to_nat c) = Some ct -> zero_of G ct v ->
  zero_region t t2 G (fun c' r' => R c' r' \/ (c' = c /\ r' = r)).
Proof.
  intros FG C0 [H1 H2 H3 H4] [O1 O2 O3 O4] T Z. constructor.
  - eapply same_header_trans; eauto.
  - congruence.
  - intros c' r' ct' Hc Hr HR T'.
    destruct (Z.eq_dec c' c) as [->|N]; [destruct (Z.eq_dec r' r) as [->|N]|].
    + exists v. rewrite O3. split; auto. congruence.
    + destruct HR as [HR|[_ HR]]; [|contradiction].
      destruct (H3 c r' ct' Hc Hr HR T') as (w & E & Zw). exists w. split; [|now apply (zero_of_mono F)].
      rewrite O4 by congruence. auto.
    + destruct HR as [HR|[HR _]]; [|contradiction].
      destruct (H3 c' r' ct' Hc Hr HR T') as (w & E & Zw). exists w. split; [|now apply (zero_of_mono F)].
      rewrite O4 by congruence. auto.
  - intros c' r' HR. rewrite O4; [apply H4; tauto|]. intros E. injection E as -> ->. tauto.
Qed.

Lemma zero_region_ext t t' F (R R' : Z -> Z -> Prop) :
  (forall c r, R c r <-> R' c r) -> zero_region t t' F R -> zero_region t t' F R'.
Proof.
  intros E [H1 H2 H3 H4]. constructor; auto.
  - intros. apply H3; auto. now apply E.
  - intros c r H. apply H4. now rewrite E.
Qed.

Lemma only_zero_region t t' c r v ct F : nth_error (ctypes t) (Z.to_nat c) = Some ct -> (0 <= c)%Z ->
  only_cell_changed t t' c r v -> zero_of F ct v -> zero_region t t' F (fun c' r' => c' = c /\ r' = r).
Proof.
  intros T C0 O Z.
  apply (zero_region_ext _ _ _ (fun c' r' => False \/ (c' = c /\ r' = r))); [tauto|].
  eapply (zero_region_step t t t' F F); eauto. apply zero_region_empty.
Qed.

(** The loop of SetRowCellsToZeroValue. *)
Lemma SetRowCellsToZeroValue_region r s : wf_table (s_tab s) -> (0 <= r < RowCount (s_tab s))%Z ->
  exists s', SetRowCellsToZeroValue r s = (s', Ok tt) /\ wf_table (s_tab s') /\
    zero_region (s_tab s) (s_tab s') (fun p => next s <= p < next s') (fun _ r' => r' = r).
Proof.
  intros W Hr. unfold SetRowCellsToZeroValue. mstep. rewrite (wf_row_not_nil _ _ W Hr). simpl negb. cbv iota.
  destruct (mfor_inv (fun k s1 => wf_table (s_tab s1) /\ next s <= next s1 /\
      zero_region (s_tab s) (s_tab s1) (fun p => next s <= p < next s1) (fun c' r' => (c' < Z.of_nat k)%Z /\ r' = r /\ (0 <= c')%Z))
     (fun ci => let* ct := reads (fun t => match znth (ctypes t) ci with Some ct => Ok ct | None => Panic end) in
    let* v := zero_val true ct in set_cell ci r v) (List.length (cnames (s_tab s))) s) as (s' & E & W' & _ & Z').
  - split; auto. split; auto. eapply zero_region_ext; [|apply zero_region_empty]. simpl. intros. lia.
  - intros k s1 Hk (W1 & N1 & Z1).
    assert (RC : RowCount (s_tab s1) = RowCount (s_tab s)) by apply (zr_rows _ _ _ _ Z1).
    assert (CC : ColCount (s_tab s1) = ColCount (s_tab s)) by (unfold ColCount; now rewrite (sh_cols _ _ (zr_header _ _ _ _ Z1))).
    destruct (zero_cell_eq true (Z.of_nat k) r s1 W1) as (s2 & v & ct & E2 & T & Zv & N2 & W2 & O).
    { rewrite CC. unfold ColCount. lia. } { lia. }
    exists s2. split; [exact E2|]. split; auto. split; [lia|].
    rewrite (sh_types _ _ (zr_header _ _ _ _ Z1)) in T.
    eapply zero_region_ext; [|eapply (zero_region_step (s_tab s) (s_tab s1) (s_tab s2) _ (fun p => next s <= p < next s2)
       _ (Z.of_nat k) r v ct _ ltac:(lia) Z1 O T)].
    + intros c' r'. simpl. lia.
    + eapply zero_of_mono; [|exact Zv]. simpl. intros. lia.
  - exists s'. split; auto. split; auto.
    destruct Z' as [H1 H2 H3 H4]. constructor; auto.
    + intros c' r' ct Hc Hr' -> T. apply H3; auto. unfold ColCount in Hc. lia.
    + intros c' r' N. apply H4. tauto.
  Unshelve. simpl. intros. lia.
Qed.

Lemma SetColCellsToZeroValueByColIndex_region c s : wf_table (s_tab s) -> (0 <= c < ColCount (s_tab s))%Z ->
  exists s', SetColCellsToZeroValueByColIndex c s = (s', Ok tt) /\ wf_table (s_tab s') /\
    zero_region (s_tab s) (s_tab s') (fun p => next s <= p < next s') (fun c' _ => c' = c).
Proof.
  intros W Hc. unfold SetColCellsToZeroValueByColIndex. mstep.
  destruct (mfor_inv (fun k s1 => wf_table (s_tab s1) /\ next s <= next s1 /\
      zero_region (s_tab s) (s_tab s1) (fun p => next s <= p < next s1) (fun c' r' => (r' < Z.of_nat k)%Z /\ c' = c /\ (0 <= r')%Z))
     (fun ri => SetCellToZeroValueByColIndex c ri) (List.length (rows (s_tab s))) s) as (s' & E & W' & _ & Z').
  - split; auto. split; auto. eapply zero_region_ext; [|apply zero_region_empty]. simpl. intros. lia.
  - intros k s1 Hk (W1 & N1 & Z1).
    assert (RC : RowCount (s_tab s1) = RowCount (s_tab s)) by apply (zr_rows _ _ _ _ Z1).
    assert (CC : ColCount (s_tab s1) = ColCount (s_tab s)) by (unfold ColCount; now rewrite (sh_cols _ _ (zr_header _ _ _ _ Z1))).
    destruct (zero_cell_eq false c (Z.of_nat k) s1 W1) as (s2 & v & ct & E2 & T & Zv & N2 & W2 & O).
    { lia. } { rewrite RC. unfold RowCount. lia. }
    exists s2. split; [exact E2|]. split; auto. split; [lia|].
    rewrite (sh_types _ _ (zr_header _ _ _ _ Z1)) in T.
    eapply zero_region_ext; [|eapply (zero_region_step (s_tab s) (s_tab s1) (s_tab s2) _ (fun p => next s <= p < next s2)
       _ c (Z.of_nat k) v ct _ ltac:(lia) Z1 O T)].
    + intros c' r'. simpl. lia.
    + eapply zero_of_mono; [|exact Zv]. simpl. intros. lia.
  - exists s'. split; auto. split; auto.
    destruct Z' as [H1 H2 H3 H4]. constructor; auto.
    + intros c' r' ct Hc' Hr' -> T. apply H3; auto. unfold RowCount in Hr'. lia.
    + intros c' r' N. apply H4. tauto.
  Unshelve. simpl. intros. lia.
Qed.

(** ---------- NaN ---------- *)

Lemma nan_region_empty t : nan_region t t (fun _ _ => False).
Proof. constructor; auto using same_header_refl; tauto. Qed.

Lemma nan_region_ext t t' (R R' : Z -> Z -> Prop) :
  (forall c r ct, nth_error (ctypes t) (Z.to_nat c) = Some ct -> nan_of ct <> None -> R c r <-> R' c r) ->
  nan_region t t' R -> nan_region t t' R'.
Proof.
  intros E [H1 H2 H3 H4]. constructor; auto.
  - intros c r ct v Hc Hr HR T N. eapply H3; eauto. apply (E c r ct); auto. congruence.
  - intros c r ct T H. eapply H4; eauto. destruct (nan_of ct) as [v|] eqn:N; auto.
    left. destruct H as [H|]; [|discriminate]. rewrite (E c r ct); auto. congruence.
Qed.

Lemma nan_region_step t t1 t2 (R : Z -> Z -> Prop) c r v ct :
  (0 <= c)%Z -> nan_region t t1 R -> only_cell_changed t1 t2 c r v ->
  nth_error (ctypes t) (Z.to_nat c) = Some ct -> nan_of ct = Some v ->
  nan_region t t2 (fun c' r' => R c' r' \/ (c' = c /\ r' = r)).
Proof.
  intros C0 [H1 H2 H3 H4] [O1 O2 O3 O4] T Z. constructor.
  - eapply same_header_trans; eauto.
  - congruence.
  - intros c' r' ct' v' Hc Hr HR T' N'.
    destruct (Z.eq_dec c' c) as [->|N]; [destruct (Z.eq_dec r' r) as [->|N]|].
    + rewrite O3. congruence.
    + destruct HR as [HR|[_ HR]]; [|contradiction]. rewrite O4 by congruence. eauto.
    + destruct HR as [HR|[HR _]]; [|contradiction]. rewrite O4 by congruence. eauto.
  - intros c' r' ct' T' HR.
    destruct (Z.eq_dec c' c) as [->|N]; [destruct (Z.eq_dec r' r) as [->|N]|].
    + destruct HR as [HR|HR]; [tauto|congruence].
    + rewrite O4 by congruence. eapply H4; eauto. tauto.
    + rewrite O4 by congruence. eapply H4; eauto. tauto.
Qed.

Lemma nan_cell_eq c r s ct v : wf_table (s_tab s) -> (0 <= c < ColCount (s_tab s))%Z -> (0 <= r < RowCount (s_tab s))%Z ->
  nth_error (ctypes (s_tab s)) (Z.to_nat c) = Some ct -> nan_of ct = Some v ->
  exists s', (if ct =? "float32" then SetTByColIndex "float32" c r NaN32 else SetTByColIndex "float64" c r NaN64) s = (s', Ok tt)
   /\ wf_table (s_tab s') /\ only_cell_changed (s_tab s) (s_tab s') c r v.
Proof.
  intros W Hc Hr T N. unfold nan_of in N.
  assert (K : forall vt w, ct = vt -> In vt all_types -> arg_of_type vt w = true -> has_type vt w -> not_nil_arg w = true -> go_value w = true ->
     exists s', SetTByColIndex vt c r w s = (s', Ok tt) /\ wf_table (s_tab s') /\ only_cell_changed (s_tab s) (s_tab s') c r w).
  { intros vt w <- Hvt Ha HT NN G.
    destruct (SetTByColIndex_eq ct c r w s W Hvt Ha Hc) as [(ct' & _ & _ & T' & HT' & E)|[NE _]].
    - rewrite E. eexists. split; [reflexivity|].
      destruct (written_spec (s_tab s) (s_base s) c r w W G) as [A B]; [split; [lia|split; [auto|eauto]]|]. auto.
    - exfalso. apply NE. exists ct. auto. }
  destruct (string_dec ct "float32") as [->|].
  - injection N as <-. apply K; auto; try reflexivity. now apply str_in_In.
  - destruct (string_dec ct "float64") as [->|]; [|discriminate].
    injection N as <-. apply K; auto; try reflexivity. now apply str_in_In.
Qed.

Lemma nan_of_cases ct : (nan_of ct = None /\ ct <> "float32" /\ ct <> "float64") \/ (ct = "float32" /\ nan_of ct = Some NaN32) \/ (ct = "float64" /\ nan_of ct = Some NaN64).
Proof.
  unfold nan_of. destruct (string_dec ct "float32"); auto. destruct (string_dec ct "float64"); auto.
Qed.

Lemma ColTypeByColIndex_ok t c : wf_table t -> (0 <= c < ColCount t)%Z ->
  exists ct, ColTypeByColIndex t c = Ok ct /\ nth_error (ctypes t) (Z.to_nat c) = Some ct /\ In ct all_types.
Proof.
  intros W H. destruct (wf_type_at _ W (Z.to_nat c)) as (ct & T & Hct); [unfold ColCount in H; lia|].
  exists ct. rewrite ColTypeByColIndex_eq by auto. rewrite (proj2 (HasCol_iff t c) H), T. auto.
Qed.

Lemma SetFloatCellToNaNByColIndex_eq c r s : wf_table (s_tab s) -> (0 <= c < ColCount (s_tab s))%Z -> (0 <= r < RowCount (s_tab s))%Z ->
  exists ct, nth_error (ctypes (s_tab s)) (Z.to_nat c) = Some ct /\
  match nan_of ct with
  | Some v => exists s', SetFloatCellToNaNByColIndex c r s = (s', Ok tt) /\ wf_table (s_tab s') /\ only_cell_changed (s_tab s) (s_tab s') c r v
  | None => SetFloatCellToNaNByColIndex c r s = (s, Err)
  end.
Proof.
  intros W Hc Hr. destruct (ColTypeByColIndex_ok _ c W Hc) as (ct & E & T & Hct).
  exists ct. split; auto. unfold SetFloatCellToNaNByColIndex. mstep. rewrite E.
  destruct (nan_of_cases ct) as [(N & N1 & N2)|[[-> N]|[-> N]]]; rewrite N.
  - apply String.eqb_neq in N1, N2. rewrite N1, N2. reflexivity.
  - exact (nan_cell_eq c r s "float32" _ W Hc Hr T N).
  - exact (nan_cell_eq c r s "float64" _ W Hc Hr T N).
Qed.

Lemma nan_col_frame t t' R : nan_region t t' R -> ColCount t' = ColCount t /\ RowCount t' = RowCount t /\ ctypes t' = ctypes t.
Proof. intros H. split; [|split]; [unfold ColCount; now rewrite (sh_cols _ _ (nr_header _ _ _ H))|apply (nr_rows _ _ _ H)|apply (sh_types _ _ (nr_header _ _ _ H))]. Qed.

Lemma SetRowFloatCellsToNaN_region r s : wf_table (s_tab s) -> (0 <= r < RowCount (s_tab s))%Z ->
  exists s', SetRowFloatCellsToNaN r s = (s', Ok tt) /\ wf_table (s_tab s') /\
    nan_region (s_tab s) (s_tab s') (fun _ r' => r' = r).
Proof.
  intros W Hr. unfold SetRowFloatCellsToNaN. mstep.
  match goal with |- exists s', mfor _ ?body s = _ /\ _ =>
  destruct (mfor_inv (fun k s1 => wf_table (s_tab s1) /\
      nan_region (s_tab s) (s_tab s1) (fun c' r' => (c' < Z.of_nat k)%Z /\ r' = r /\ (0 <= c')%Z))
     body (List.length (cnames (s_tab s))) s) as (s' & E & W' & Z') end.
  - split; auto. eapply nan_region_ext; [|apply nan_region_empty]. simpl. intros. lia.
  - intros k s1 Hk (W1 & Z1). destruct (nan_col_frame _ _ _ Z1) as (CC & RC & TT).
    assert (Hc : (0 <= Z.of_nat k < ColCount (s_tab s1))%Z) by (rewrite CC; unfold ColCount; lia).
    destruct (ColTypeByColIndex_ok _ _ W1 Hc) as (ct & E & T & Hct). mstep. rewrite E.
    destruct (nan_of_cases ct) as [(N & N1 & N2)|NN].
    + pose proof N1 as N1'. pose proof N2 as N2'. apply String.eqb_neq in N1, N2. rewrite N1, N2.
      exists s1. split; [reflexivity|]. split; auto. rewrite TT in T.
      eapply nan_region_ext; [|exact Z1]. intros c' r' ct' T' N'. simpl.
      assert (c' <> Z.of_nat k). { intros ->. congruence. } 
      assert (Hneg : (c' < 0)%Z \/ (0 <= c')%Z) by lia. lia.
    + destruct NN as [[-> N]|[-> N]].
      * destruct (nan_cell_eq (Z.of_nat k) r s1 "float32" _ W1 Hc ltac:(lia) T N) as (s2 & E2 & W2 & O).
        exists s2. split; [exact E2|]. split; auto. rewrite TT in T.
        eapply nan_region_ext; [|eapply (nan_region_step _ _ _ _ (Z.of_nat k) r _ _ ltac:(lia) Z1 O T N)].
        simpl. intros. lia.
      * destruct (nan_cell_eq (Z.of_nat k) r s1 "float64" _ W1 Hc ltac:(lia) T N) as (s2 & E2 & W2 & O).
        exists s2. split; [exact E2|]. split; auto. rewrite TT in T.
        eapply nan_region_ext; [|eapply (nan_region_step _ _ _ _ (Z.of_nat k) r _ _ ltac:(lia) Z1 O T N)].
        simpl. intros. lia.
  - exists s'. split; auto. split; auto.
    destruct Z' as [H1 H2 H3 H4]. constructor; auto.
    + intros c' r' ct v Hc Hr' -> T N. eapply H3; eauto. unfold ColCount in Hc. lia.
    + intros c' r' ct T N. eapply H4; eauto. tauto.
Qed.

Lemma SetColFloatCellsToNaNByColIndex_region c s v ct : wf_table (s_tab s) -> (0 <= c < ColCount (s_tab s))%Z ->
  nth_error (ctypes (s_tab s)) (Z.to_nat c) = Some ct -> nan_of ct = Some v ->
  exists s', SetColFloatCellsToNaNByColIndex c s = (s', Ok tt) /\ wf_table (s_tab s') /\
    nan_region (s_tab s) (s_tab s') (fun c' _ => c' = c).
Proof.
  intros W Hc T N. unfold SetColFloatCellsToNaNByColIndex. mstep.
  match goal with |- exists s', mfor _ ?body s = _ /\ _ =>
  destruct (mfor_inv (fun k s1 => wf_table (s_tab s1) /\
      nan_region (s_tab s) (s_tab s1) (fun c' r' => (r' < Z.of_nat k)%Z /\ c' = c /\ (0 <= r')%Z))
     body (List.length (rows (s_tab s))) s) as (s' & E & W' & Z') end.
  - split; auto. eapply nan_region_ext; [|apply nan_region_empty]. simpl. intros. lia.
  - intros k s1 Hk (W1 & Z1). destruct (nan_col_frame _ _ _ Z1) as (CC & RC & TT).
    destruct (SetFloatCellToNaNByColIndex_eq c (Z.of_nat k) s1 W1) as (ct' & T' & M).
    { lia. } { rewrite RC. unfold RowCount. lia. }
    rewrite TT in T'. assert (ct' = ct) by congruence. subst ct'. rewrite N in M.
    destruct M as (s2 & E2 & W2 & O). exists s2. split; [exact E2|]. split; auto.
    eapply nan_region_ext; [|eapply (nan_region_step _ _ _ _ c (Z.of_nat k) _ _ ltac:(lia) Z1 O T N)].
    simpl. intros. lia.
  - exists s'. split; auto. split; auto.
    destruct Z' as [H1 H2 H3 H4]. constructor; auto.
    + intros c' r' ct' v' Hc' Hr' -> T' N'. eapply H3; eauto. unfold RowCount in Hr'. lia.
    + intros c' r' ct' T' N'. eapply H4; eauto. tauto.
Qed.

(** A region and then another. *)
Lemma nan_region_union t t1 t2 (R1 R2 : Z -> Z -> Prop) :
  (forall c r, {R2 c r} + {~ R2 c r}) ->
  nan_region t t1 R1 -> nan_region t1 t2 R2 -> nan_region t t2 (fun c r => R1 c r \/ R2 c r).
Proof.
  intros D H K. destruct (nan_col_frame _ _ _ H) as (CC & RC & TT). destruct H as [H1 H2 H3 H4], K as [K1 K2 K3 K4]. constructor.
  - eapply same_header_trans; eauto.
  - congruence.
  - intros c r ct v Hc Hr HR T N. destruct (D c r) as [Y|Y].
    + eapply K3; eauto; try lia. now rewrite TT.
    + rewrite (K4 c r ct); [|now rewrite TT|auto]. eapply H3; eauto. tauto.
  - intros c r ct T HR. rewrite (K4 c r ct); [|now rewrite TT|tauto]. eapply H4; eauto. tauto.
Qed.

Lemma SetAllFloatCellsToNaN_region s : wf_table (s_tab s) ->
  exists s', SetAllFloatCellsToNaN s = (s', Ok tt) /\ wf_table (s_tab s') /\
    nan_region (s_tab s) (s_tab s') (fun _ _ => True).
Proof.
  intros W. unfold SetAllFloatCellsToNaN. mstep.
  match goal with |- exists s', mfor _ ?body s = _ /\ _ =>
  destruct (mfor_inv (fun k s1 => wf_table (s_tab s1) /\
      nan_region (s_tab s) (s_tab s1) (fun c' r' => (0 <= c' < Z.of_nat k)%Z))
     body (List.length (cnames (s_tab s))) s) as (s' & E & W' & Z') end.
  - split; auto. eapply nan_region_ext; [|apply nan_region_empty]. simpl. intros. lia.
  - intros k s1 Hk (W1 & Z1). destruct (nan_col_frame _ _ _ Z1) as (CC & RC & TT).
    assert (Hc : (0 <= Z.of_nat k < ColCount (s_tab s1))%Z) by (rewrite CC; unfold ColCount; lia).
    destruct (ColTypeByColIndex_ok _ _ W1 Hc) as (ct & E & T & Hct). mstep. rewrite E.
    destruct (nan_of ct) as [v|] eqn:N.
    + replace ((ct =? "float32") || (ct =? "float64")) with true
        by (destruct (nan_of_cases ct) as [[? _]|[[-> _]|[-> _]]]; [congruence|reflexivity|reflexivity]).
      destruct (SetColFloatCellsToNaNByColIndex_region (Z.of_nat k) s1 v ct W1 Hc T N) as (s2 & E2 & W2 & Z2).
      exists s2. split; [exact E2|]. split; auto.
      pose proof (nan_region_union _ _ _ _ _ (fun c r => Z.eq_dec c (Z.of_nat k)) Z1 Z2) as Z3.
      eapply nan_region_ext; [|exact Z3]. simpl. intros. lia.
    + replace ((ct =? "float32") || (ct =? "float64")) with false
        by (destruct (nan_of_cases ct) as [(_ & N1 & N2)|[[-> ?]|[-> ?]]]; [|discriminate|discriminate];
            apply String.eqb_neq in N1, N2; now rewrite N1, N2).
      exists s1. split; [reflexivity|]. split; auto. rewrite TT in T.
      eapply nan_region_ext; [|exact Z1]. intros c' r' ct' T' N'. simpl.
      assert (c' <> Z.of_nat k) by (intros ->; congruence). lia.
  - exists s'. split; auto. split; auto.
    destruct Z' as [H1 H2 H3 H4]. constructor; auto.
    + intros c' r' ct' v' Hc' Hr' _ T' N'. eapply H3; eauto. 
    + intros c' r' ct' T' [N'|N']; [tauto|]. eapply H4; eauto.
Qed.
