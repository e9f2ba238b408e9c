(** Proofs_Equals.v -- lemmas about Equals. *)
From Coq Require Import ZArith NArith List String Ascii Bool SpecFloat Permutation Lia.
From Verif Require Import Base Model_Names Model_Table Model_Sort Model_Copy Model_Ops Model_Heap.
From Verif Require Import Spec Spec_Sort Spec_Heap Spec_Equals.
From Verif Require Import Proofs_Lib Proofs_Table Proofs_Cells Proofs_Pres Proofs_Api Proofs_Api2 Proofs_Heap.
Import ListNotations.
Local Open Scope string_scope.
Local Open Scope list_scope.

Lemma rfor_spec {A} (l : list A) body : (forall x, In x l -> body x <> Panic) ->
  rfor l body <> Panic /\ (rfor l body = Ok tt <-> forall x, In x l -> body x = Ok tt).
Proof.
  induction l as [|x l IH]; intros H; simpl.
  - split; [discriminate|]. split; auto. intros _ x [].
  - assert (Hx := H x (or_introl eq_refl)). destruct IH as [P Q]. { intros y I. apply H. now right. }
    destruct (body x) as [[]| |] eqn:E; simpl.
    + split; auto. rewrite Q. split; intros K y; [intros [<-|I]; auto|intros I; apply K; auto].
    + split; [discriminate|]. split; [discriminate|]. intros K. rewrite K in E; auto.
    + congruence.
Qed.

Lemma In_zseq n i : In i (zseq n) <-> (0 <= i < Z.of_nat n)%Z.
Proof.
  unfold zseq. rewrite in_map_iff. split.
  - intros (k & <- & I). apply in_seq in I. lia.
  - intros H. exists (Z.to_nat i). split; [lia|]. apply in_seq. lia.
Qed.

Lemma bytes_eqb_eq a : forall b, bytes_eqb a b = true <-> a = b.
Proof.
  induction a as [|x a IH]; intros [|y b]; simpl; split; intros H; try discriminate; auto.
  - apply andb_true_iff in H as [H1 H2]. apply Ascii.eqb_eq in H1. apply IH in H2. congruence.
  - injection H as -> ->. rewrite Ascii.eqb_refl. now apply IH.
Qed.
Lemma ikind_eqb_eq a b : ikind_eqb a b = true <-> a = b.
Proof. destruct a, b; simpl; split; intros; try discriminate; auto. Qed.

Lemma SFcompare_Eq a b : SFcompare a b = Some Eq <->
  (a = b /\ a <> S754_nan) \/ (exists s s', a = S754_zero s /\ b = S754_zero s').
Proof.
  destruct a as [s|s| |s m e], b as [s'|s'| |s' m' e']; simpl.
  - split; eauto.
  - split; [destruct s'; discriminate|intros [[? _]|(? & ? & ? & ?)]; discriminate].
  - split; [discriminate|intros [[? _]|(? & ? & ? & ?)]; discriminate].
  - split; [destruct s'; discriminate|intros [[? _]|(? & ? & ? & ?)]; discriminate].
  - split; [destruct s; discriminate|intros [[? _]|(? & ? & ? & ?)]; discriminate].
  - split.
    + destruct s, s'; try discriminate; left; split; congruence.
    + intros [[E _]|(? & ? & ? & ?)]; [injection E as ->; destruct s'; reflexivity|discriminate].
  - split; [destruct s; discriminate|intros [[? _]|(? & ? & ? & ?)]; discriminate].
  - split; [destruct s; discriminate|intros [[? _]|(? & ? & ? & ?)]; discriminate].
  - split; [discriminate|intros [[? _]|(? & ? & ? & ?)]; discriminate].
  - split; [discriminate|intros [[? _]|(? & ? & ? & ?)]; discriminate].
  - split; [discriminate|intros [[_ ?]|(? & ? & ? & ?)]; [congruence|discriminate]].
  - split; [discriminate|intros [[? _]|(? & ? & ? & ?)]; discriminate].
  - split; [destruct s; discriminate|intros [[? _]|(? & ? & ? & ?)]; discriminate].
  - split; [destruct s, s'; discriminate|intros [[? _]|(? & ? & ? & ?)]; discriminate].
  - split; [discriminate|intros [[? _]|(? & ? & ? & ?)]; discriminate].
  - split.
    + destruct s, s'; try discriminate; destruct (Z.compare_spec e e'); try discriminate; subst;
        intros H; left; (split; [|discriminate]); f_equal; injection H as H.
      * destruct (Pos.compare_cont Eq m m') eqn:C; try discriminate. now apply Pos.compare_eq.
      * now apply Pos.compare_eq.
    + intros [[E _]|(? & ? & ? & ?)]; [|discriminate]. injection E as -> -> ->.
      rewrite Z.compare_refl, Pos.compare_cont_refl. destruct s'; reflexivity.
Qed.

Lemma same_value_refl v : v <> VFloat32 S754_nan -> v <> VFloat64 S754_nan -> same_value v v.
Proof. destruct v; simpl; auto; intros H1 H2; apply SFcompare_Eq; left; split; congruence. Qed.
Lemma same_value_sym v w : same_value v w -> same_value w v.
Proof.
  destruct v, w; simpl; auto; try (intros; congruence).
  - rewrite !SFcompare_Eq. intros [[-> N]|(s & s' & -> & ->)]; [left; auto|right; eauto].
  - rewrite !SFcompare_Eq. intros [[-> N]|(s & s' & -> & ->)]; [left; auto|right; eauto].
  - intros [? ?]. split; congruence.
Qed.
Lemma same_value_trans u v w : same_value u v -> same_value v w -> same_value u w.
Proof.
  assert (F : forall a b c, SFcompare a b = Some Eq -> SFcompare b c = Some Eq -> SFcompare a c = Some Eq).
  { intros a b c. rewrite !SFcompare_Eq. intros [[-> N]|(s & s' & -> & ->)]; auto.
    intros [[<- N]|(s1 & s2 & _ & ->)]; right; eauto. }
  destruct u, v, w; simpl; intros H1 H2; try discriminate; try congruence; eauto.
  - destruct H1, H2. split; congruence.
Qed.

(** The comparison of two cells of the same type other than *Table. *)
Definition cell_eqb (ct : string) (v1 v2 : value) : res unit :=
  if (ct =? "[]byte") || (ct =? "[]uint8") then
    match v1, v2 with
    | VBytes a, VBytes b => rcheck (bytes_eqb (bytes_of a) (bytes_of b))
    | _, _ => Panic
    end
  else if ct =? "time.Time" then
    match v1, v2 with
    | VTime a, VTime b => rcheck (time_eqb a b)
    | _, _ => Panic
    end
  else rcheck (iface_eqb v1 v2).

Lemma cell_eqb_spec ct v w : In ct all_types -> ct <> "*Table" -> cell_ok ct v -> cell_ok ct w ->
  cell_eqb ct v w <> Panic /\ (cell_eqb ct v w = Ok tt <-> same_value v w).
Proof.
  intros I NT [V _] [W _].
  assert (R : forall b (P : Prop), (b = true <-> P) -> rcheck b <> Panic /\ (rcheck b = Ok tt <-> P)).
  { intros [] P H; simpl; split; try discriminate; split; auto; try tauto; try discriminate. intros; exfalso. destruct H as [_ H]. now specialize (H H0). }
  assert (FE : forall a b, float_eqb a b = true <-> SFcompare a b = Some Eq).
  { intros a b. unfold float_eqb. destruct (SFcompare a b) as [[]|]; split; intros; congruence. }
  unfold cell_eqb.
  destruct v as [|b|s|k z|f|f|o|[p|]|t|s]; simpl in V; try contradiction;
  destruct w as [|b'|s'|k' z'|f'|f'|o'|[p'|]|t'|s']; simpl in W; try contradiction; try congruence;
  try (destruct k); try (destruct k');
  repeat match goal with H : _ \/ _ |- _ => destruct H end; subst; try congruence; cbn -[bytes_eqb bytes_of time_eqb float_eqb String.eqb Z.eqb]; 
  apply R;
  try (rewrite eqb_true_iff; split; congruence);
  try (rewrite String.eqb_eq; split; congruence);
  try (rewrite Z.eqb_eq; split; congruence);
  try apply FE;
  try (rewrite bytes_eqb_eq; reflexivity).
  unfold time_eqb. rewrite andb_true_iff, !Z.eqb_eq. reflexivity.
Qed.

Lemma ColName_at t ci : (0 <= ci < ColCount t)%Z -> exists cn, ColName t ci = Ok cn /\ nth_error (cnames t) (Z.to_nat ci) = Some cn /\ col_at t ci cn.
Proof.
  intros H. destruct (col_at_ex t ci H) as [cn Hc]. exists cn. unfold ColCount in *.
  destruct Hc as [H0 Hn]. split; [|split; [auto|split; auto]].
  unfold ColName, ColCount. replace ((ci <? 0) || (ci >? Z.of_nat (List.length (cnames t)) - 1))%Z with false by lia.
  replace (znth (cnames t) ci) with (Some cn); auto. symmetry. apply znth_some. split; auto.
Qed.
Lemma ColType_at t ci : wf_table t -> (0 <= ci < ColCount t)%Z ->
  exists ct, ColTypeByColIndex t ci = Ok ct /\ nth_error (ctypes t) (Z.to_nat ci) = Some ct /\ In ct all_types.
Proof.
  intros W H. destruct (wf_type_at t W (Z.to_nat ci)) as (ct & Hct & I); [unfold ColCount in H; lia|].
  exists ct. split; auto. rewrite ColTypeByColIndex_eq by auto. apply HasCol_iff in H. now rewrite H, Hct.
Qed.

Lemma equal_cols_spec t1 t2 : wf_table t1 -> wf_table t2 ->
  equal_cols t1 t2 <> Panic /\ (equal_cols t1 t2 = Ok tt <-> forall cn ct, ColType t1 cn = Ok ct -> ColType t2 cn = Ok ct).
Proof.
  intros W1 W2. unfold equal_cols.
  assert (B : forall ci, In ci (zseq (List.length (cnames t1))) -> exists cn ct, ColName t1 ci = Ok cn /\ ColTypeByColIndex t1 ci = Ok ct /\ ColType t1 cn = Ok ct).
  { intros ci I. apply In_zseq in I. destruct (ColName_at t1 ci I) as (cn & A & N & _). destruct (ColType_at t1 ci W1 I) as (ct & C & D & _).
    exists cn, ct. repeat split; auto. apply (wf_ColType_iff t1 W1). eauto. }
  assert (K : forall ci, In ci (zseq (List.length (cnames t1))) -> forall cn ct, ColName t1 ci = Ok cn -> ColTypeByColIndex t1 ci = Ok ct ->
     (let! cn := ColName t1 ci in let! ct1 := ColTypeByColIndex t1 ci in let! ct2 := ColType t2 cn in rcheck (ct1 =? ct2))
      = match ColType t2 cn with Ok ct2 => rcheck (ct =? ct2) | Err => Err | Panic => Panic end).
  { intros ci I cn ct -> ->. reflexivity. }
  destruct (rfor_spec (zseq (List.length (cnames t1))) (fun ci =>
    let! cn := ColName t1 ci in let! ct1 := ColTypeByColIndex t1 ci in let! ct2 := ColType t2 cn in rcheck (ct1 =? ct2))) as [P Q].
  { intros ci I. destruct (B ci I) as (cn & ct & E1 & E2 & _). rewrite (K ci I cn ct E1 E2).
    pose proof (wf_ColType_no_panic t2 W2 cn). destruct (ColType t2 cn); try congruence. destruct (ct =? a); discriminate. }
  split; auto. rewrite Q. clear P Q. split.
  - intros H cn ct E. apply (wf_ColType_iff t1 W1) in E as (i & Hn & Ht).
    assert (I : In (Z.of_nat i) (zseq (List.length (cnames t1)))) by (apply In_zseq; apply nth_error_some_lt in Hn; lia).
    destruct (ColName_at t1 (Z.of_nat i)) as (cn' & A & N & _); [apply In_zseq in I; exact I|].
    destruct (ColType_at t1 (Z.of_nat i) W1) as (ct' & C & D & _); [apply In_zseq in I; exact I|].
    rewrite Nat2Z.id in *. assert (cn' = cn) by congruence. assert (ct' = ct) by congruence. subst.
    specialize (H _ I). rewrite (K _ I _ _ A C) in H. destruct (ColType t2 cn); try discriminate.
    destruct (String.eqb_spec ct a); [congruence|discriminate].
  - intros H ci I. destruct (B ci I) as (cn & ct & E1 & E2 & E3). rewrite (K ci I cn ct E1 E2). rewrite (H _ _ E3), String.eqb_refl. reflexivity.
Qed.

(** The same columns in both directions, when there are equally many. *)
Lemma cols_both t1 t2 : wf_table t1 -> wf_table t2 -> List.length (cnames t1) = List.length (cnames t2) ->
  (forall cn ct, ColType t1 cn = Ok ct -> ColType t2 cn = Ok ct) ->
  forall cn ct, ColType t1 cn = Ok ct <-> ColType t2 cn = Ok ct.
Proof.
  intros W1 W2 L H cn ct. split; auto. intros E.
  assert (IN : incl (cnames t1) (cnames t2)).
  { intros n I. destruct (ColType t1 n) as [c| |] eqn:E1.
    - apply H, (wf_ColType_iff t2 W2) in E1 as (i & Hi & _). eapply nth_error_In; eauto.
    - apply (wf_ColType_err t1 W1) in E1. contradiction.
    - now apply wf_ColType_no_panic in E1. }
  assert (I2 : In cn (cnames t2)) by (apply (wf_ColType_iff t2 W2) in E as (i & Hi & _); eapply nth_error_In; eauto).
  apply (NoDup_length_incl (wf_nodup _ W1)) in IN; [|lia]. apply IN in I2.
  destruct (ColType t1 cn) as [c| |] eqn:E1.
  - apply H in E1. congruence.
  - apply (wf_ColType_err t1 W1) in E1. contradiction.
  - now apply wf_ColType_no_panic in E1.
Qed.
Lemma cols_count t1 t2 : wf_table t1 -> wf_table t2 ->
  (forall cn ct, ColType t1 cn = Ok ct <-> ColType t2 cn = Ok ct) -> List.length (cnames t1) = List.length (cnames t2).
Proof.
  intros W1 W2 H.
  assert (K : forall a b, wf_table a -> wf_table b -> (forall cn ct, ColType a cn = Ok ct -> ColType b cn = Ok ct) -> List.length (cnames a) <= List.length (cnames b)).
  { intros a b Wa Wb Hab. apply NoDup_incl_length; [apply (wf_nodup _ Wa)|]. intros n I. destruct (ColType a n) as [c| |] eqn:E1.
    - apply Hab, (wf_ColType_iff b Wb) in E1 as (i & Hi & _). eapply nth_error_In; eauto.
    - apply (wf_ColType_err a Wa) in E1. contradiction.
    - now apply wf_ColType_no_panic in E1. }
  apply Nat.le_antisymm; apply K; auto; intros cn ct; apply H.
Qed.

Lemma wf_nil_name t1 t2 : wf_table t1 -> wf_table t2 -> tname t1 = tname t2 -> is_nil t1 = is_nil t2.
Proof.
  intros W1 W2 E. destruct (wf_name _ W1) as [[N1 V1]|(N1 & V1 & _)], (wf_name _ W2) as [[N2 V2]|(N2 & V2 & _)]; try congruence.
  - rewrite E, V2 in V1. exfalso. apply IsValidTableName_spec in V1. discriminate.
  - rewrite <- E, V1 in V2. exfalso. apply IsValidTableName_spec in V2. discriminate.
Qed.

Lemma nested_cell c r p : In (VTable (Some p)) c -> In c r -> In p (nested_in r).
Proof. intros H1 H2. unfold nested_in. apply in_flat_map. exists c. split; auto. apply in_flat_map. exists (VTable (Some p)). simpl. auto. Qed.

Lemma no_nested_type t : wf_table t -> no_nested t -> forall i r ct v, nth_error (ctypes t) i = Some ct -> at_cell t i r = Some v -> ct <> "*Table".
Proof.
  intros W N i r ct v Hc Ha ->. unfold at_cell in Ha. destruct (nth_error (rows t) r) as [row|] eqn:Hr; [|discriminate].
  pose proof (Forall_nth_error _ _ _ _ (wf_cells _ W) Hr) as F. destruct (Forall2_nth _ _ _ _ _ F Hc) as (w & Hw & [T _]).
  assert (w = v) by congruence. subst w. destruct v as [| | | k z| | | |[p|]| |]; simpl in T; try contradiction; try discriminate.
  - destruct k; try discriminate; destruct T; discriminate.
  - destruct T; discriminate.
  - assert (I : In p (nested_in (rows t))) by (apply (nested_cell row); eapply nth_error_In; eauto). unfold no_nested in N. now rewrite N in I.
Qed.

Lemma get_cell t c r : wf_table t -> (0 <= c < ColCount t)%Z -> (0 <= r < RowCount t)%Z ->
  exists ct v, nth_error (ctypes t) (Z.to_nat c) = Some ct /\ In ct all_types /\ GetValByColIndex t c r = Ok v /\ cell_ok ct v
    /\ at_cell t (Z.to_nat c) (Z.to_nat r) = Some v.
Proof.
  intros W Hc Hr. unfold ColCount, RowCount in *.
  destruct (wf_at_cell t (Z.to_nat c) (Z.to_nat r) W ltac:(lia) ltac:(lia)) as (ct & v & A & B & C & D).
  exists ct, v. split; [auto|]. split; [auto|]. split; [|split; auto].
  rewrite GetValByColIndex_eq by auto.
  destruct (is_nil t) eqn:N.
  { destruct (wf_name _ W) as [[? _]|(_ & _ & _ & E)]; [congruence|]. rewrite E in Hr. simpl in Hr. lia. }
  replace (HasRow t r) with true by (symmetry; apply HasRow_iff; unfold RowCount; lia).
  replace (HasColByColIndex t c) with true by (symmetry; apply HasCol_iff; unfold ColCount; lia). simpl. now rewrite C.
Qed.

Lemma GetVal_ok t cn r v : wf_table t -> GetVal t cn r = Ok v ->
  exists c, col_at t c cn /\ (0 <= r < RowCount t)%Z /\ GetValByColIndex t c r = Ok v.
Proof.
  intros W H. destruct (in_dec string_dec cn (cnames t)) as [I|I].
  - apply col_at_In in I as [c Hc]. exists c. rewrite (GetVal_col_at t c cn r W Hc) in H. split; auto. split; auto.
    rewrite GetValByColIndex_eq in H by auto. destruct (is_nil t); try discriminate.
    destruct (HasRow t r) eqn:HR; [|discriminate]. now apply HasRow_iff.
  - now rewrite (GetVal_no_col t cn r W I) in H.
Qed.

Lemma Equals_flat fuel h p1 p2 : wf_table (tab h p1) -> wf_table (tab h p2) -> no_nested (tab h p1) ->
  Equals (S fuel) h (Some p1) (Some p2) <> Panic
  /\ (Equals (S fuel) h (Some p1) (Some p2) = Ok tt <-> same_table (tab h p1) (tab h p2)).
Proof.
  intros W1 W2 NN. cbn [Equals]. set (t1 := tab h p1) in *. set (t2 := tab h p2) in *.
  assert (FALSE : ~ same_table t1 t2 -> @Err unit <> Panic /\ (@Err unit = Ok tt <-> same_table t1 t2)).
  { intros H. split; [discriminate|]. split; [discriminate|contradiction]. }
  destruct (String.eqb_spec (tname t1) (tname t2)) as [EN|NE].
  2:{ destruct (Bool.eqb (is_nil t1) (is_nil t2)); cbn [rcheck rbind]; apply FALSE; intros (H & _); contradiction. }
  rewrite (wf_nil_name _ _ W1 W2 EN), eqb_reflx. cbn [rcheck rbind].
  destruct (Z.eqb_spec (RowCount t1) (RowCount t2)) as [ER|NE]; cbn [rcheck rbind]; [|apply FALSE; intros (_ & H & _); contradiction].
  destruct (Z.eqb_spec (ColCount t1) (ColCount t2)) as [EC|NE]; cbn [rcheck rbind].
  2:{ apply FALSE; intros (_ & _ & H & _). apply NE. unfold ColCount. now rewrite (cols_count t1 t2 W1 W2 H). }
  destruct (equal_cols_spec t1 t2 W1 W2) as [P Q].
  destruct (equal_cols t1 t2) as [[]| |] eqn:EQ; [|cbn [rbind]; apply FALSE; intros (_ & _ & H & _)|congruence].
  2:{ enough (@Err unit = Ok tt) by discriminate. apply Q. intros cn ct. apply H. }
  cbn [rbind]. assert (CT : forall cn ct, ColType t1 cn = Ok ct <-> ColType t2 cn = Ok ct).
  { apply cols_both; auto; [unfold ColCount in EC; lia|]. now apply Q. }
  clear P Q EQ FALSE.
  assert (CELL : forall ci ri cn ct, (0 <= ci < ColCount t1)%Z -> (0 <= ri < RowCount t1)%Z ->
    ColName t1 ci = Ok cn -> ColTypeByColIndex t1 ci = Ok ct ->
    exists v1 v2, GetVal t1 cn ri = Ok v1 /\ GetVal t2 cn ri = Ok v2
     /\ equal_cell (Equals fuel h) t1 t2 cn ct ci ri <> Panic
     /\ (equal_cell (Equals fuel h) t1 t2 cn ct ci ri = Ok tt <-> same_value v1 v2)).
  { intros ci ri cn ct Hc Hr A C. destruct (ColName_at t1 ci Hc) as (cn' & A' & N & CA). destruct (ColType_at t1 ci W1 Hc) as (ct' & C' & D & AT).
    assert (cn' = cn) by congruence. assert (ct' = ct) by congruence. subst cn' ct'.
    destruct (get_cell t1 ci ri W1 Hc Hr) as (ct' & v1 & D' & _ & G1 & O1 & AC). assert (ct' = ct) by congruence. subst ct'.
    assert (T2 : ColType t2 cn = Ok ct) by (apply CT, (wf_ColType_iff t1 W1); eauto).
    apply (wf_ColType_iff t2 W2) in T2 as (j & Hj & Tj). pose proof (proj1 (col_at_nat t2 j cn) Hj) as CA2.
    destruct (get_cell t2 (Z.of_nat j) ri W2) as (ct' & v2 & D2 & _ & G2 & O2 & _); [eapply col_at_range; eauto|lia|].
    rewrite Nat2Z.id in D2. assert (ct' = ct) by congruence. subst ct'.
    assert (NT : ct <> "*Table") by (apply (no_nested_type t1 W1 NN _ _ _ _ D AC)).
    exists v1, v2. split; [now rewrite (GetVal_col_at t1 ci cn ri W1 CA)|].
    assert (GV2 : GetVal t2 cn ri = Ok v2) by now rewrite (GetVal_col_at t2 _ cn ri W2 CA2).
    split; auto.
    replace (equal_cell (Equals fuel h) t1 t2 cn ct ci ri) with (cell_eqb ct v1 v2); [now apply cell_eqb_spec|].
    unfold equal_cell. rewrite G1, GV2. cbn [rbind]. unfold cell_eqb.
    destruct ((ct =? "[]byte") || (ct =? "[]uint8")); auto. destruct (String.eqb_spec ct "*Table"); [contradiction|reflexivity]. }
  assert (ROW : forall ci, In ci (zseq (List.length (cnames t1))) ->
    (let! cn := ColName t1 ci in let! ct := ColTypeByColIndex t1 ci in
       rfor (zseq (List.length (rows t1))) (fun ri => equal_cell (Equals fuel h) t1 t2 cn ct ci ri)) <> Panic
    /\ ((let! cn := ColName t1 ci in let! ct := ColTypeByColIndex t1 ci in
       rfor (zseq (List.length (rows t1))) (fun ri => equal_cell (Equals fuel h) t1 t2 cn ct ci ri)) = Ok tt <->
        forall cn r v w, col_at t1 ci cn -> GetVal t1 cn r = Ok v -> GetVal t2 cn r = Ok w -> same_value v w)).
  { intros ci I. apply In_zseq in I. fold (ColCount t1) in I.
    destruct (ColName_at t1 ci I) as (cn & A & N & CA). destruct (ColType_at t1 ci W1 I) as (ct & C & D & AT).
    rewrite A, C. cbn [rbind].
    destruct (rfor_spec (zseq (List.length (rows t1))) (fun ri => equal_cell (Equals fuel h) t1 t2 cn ct ci ri)) as [P Q].
    { intros ri Ir. apply In_zseq in Ir. destruct (CELL ci ri cn ct I Ir A C) as (v1 & v2 & _ & _ & H & _). exact H. }
    split; auto. rewrite Q. split.
    - intros H cn' r v w CA' G1 G2. assert (cn' = cn) by (destruct CA as [_ X], CA' as [_ Y]; congruence). subst cn'.
      destruct (GetVal_ok t1 cn r v W1 G1) as (_ & _ & Hr & _).
      destruct (CELL ci r cn ct I Hr A C) as (v1 & v2 & E1 & E2 & _ & H4). 
      assert (v1 = v) by congruence. assert (v2 = w) by congruence. subst. apply H4, H. now apply In_zseq.
    - intros H ri Ir. apply In_zseq in Ir. destruct (CELL ci ri cn ct I Ir A C) as (v1 & v2 & E1 & E2 & _ & H4). apply H4. eauto. }
  match goal with |- rfor ?l ?b <> _ /\ _ => destruct (rfor_spec l b) as [P Q] end.
  { intros ci I. now apply ROW. }
  split; auto. rewrite Q. clear P Q. split.
  - intros H. split; auto. split; auto. split; auto. intros cn r v w G1 G2.
    destruct (GetVal_ok t1 cn r v W1 G1) as (c & CA & _ & _). assert (I : In c (zseq (List.length (cnames t1)))) by (apply In_zseq; now apply (col_at_range t1 c cn)).
    specialize (H c I). eapply (ROW c I) in H; eauto.
  - intros (_ & _ & _ & H) ci I. apply (ROW ci I). intros cn r v w _. apply H.
Qed.

Lemma same_table_refl t : wf_table t -> no_nan t -> same_table t t.
Proof.
  intros W N. repeat split; auto. intros cn r v w G1 G2. assert (v = w) by congruence. subst w.
  destruct (GetVal_ok t cn r v W G1) as (c & _ & _ & G). apply N in G as [? ?]. now apply same_value_refl.
Qed.
Lemma same_table_sym t1 t2 : same_table t1 t2 -> same_table t2 t1.
Proof.
  intros (A & B & C & D). split; [auto|]. split; [auto|]. split; [intros; symmetry; apply C|].
  intros cn r v w G1 G2. apply same_value_sym. eauto.
Qed.
Lemma GetVal_iff t cn r : wf_table t -> (exists v, GetVal t cn r = Ok v) <-> (exists ct, ColType t cn = Ok ct) /\ (0 <= r < RowCount t)%Z.
Proof.
  intros W. split.
  - intros (v & H). destruct (GetVal_ok t cn r v W H) as (c & CA & Hr & _). split; auto.
    destruct (ColType_at t c W (col_at_range _ _ _ CA)) as (ct & _ & D & _). exists ct. apply (wf_ColType_iff t W). destruct CA. eauto.
  - intros [(ct & H) Hr]. apply (wf_ColType_iff t W) in H as (i & Hi & _). pose proof (proj1 (col_at_nat t i cn) Hi) as CA.
    destruct (get_cell t (Z.of_nat i) r W (col_at_range _ _ _ CA) Hr) as (_ & v & _ & _ & G & _). exists v. now rewrite (GetVal_col_at t _ cn r W CA).
Qed.
Lemma same_table_trans t1 t2 t3 : wf_table t1 -> wf_table t2 -> same_table t1 t2 -> same_table t2 t3 -> same_table t1 t3.
Proof.
  intros W1 W2 (A & B & C & D) (A' & B' & C' & D'). split; [congruence|]. split; [congruence|]. split; [intros; rewrite C; apply C'|].
  intros cn r v w G1 G2. assert (exists u, GetVal t2 cn r = Ok u) as [u G].
  { apply (GetVal_iff t2 cn r W2). destruct (proj1 (GetVal_iff t1 cn r W1) (ex_intro _ v G1)) as [(ct & H) Hr].
    split; [exists ct; now apply C|lia]. }
  eapply same_value_trans; eauto.
Qed.

(** A table with the same header and the same rows is equal, if the nested tables are equal
    to themselves. *)
Lemma Equals_same_rows fuel h p1 p2 : wf_table (tab h p1) -> wf_table (tab h p2) ->
  tname (tab h p2) = tname (tab h p1) -> cnames (tab h p2) = cnames (tab h p1) -> ctypes (tab h p2) = ctypes (tab h p1) ->
  rows (tab h p2) = rows (tab h p1) -> no_nan (tab h p1) ->
  (forall q, In q (nested_in (rows (tab h p1))) -> Equals fuel h (Some q) (Some q) = Ok tt) ->
  Equals (S fuel) h (Some p1) (Some p2) = Ok tt.
Proof.
  intros W1 W2 EN EC ET ER NN NE. cbn [Equals]. set (t1 := tab h p1) in *. set (t2 := tab h p2) in *.
  rewrite EN, String.eqb_refl, (wf_nil_name _ _ W1 W2 (eq_sym EN)), eqb_reflx. cbn [rcheck rbind].
  assert (RC : RowCount t2 = RowCount t1) by (unfold RowCount; now rewrite ER).
  assert (CC : ColCount t2 = ColCount t1) by (unfold ColCount; now rewrite EC).
  rewrite RC, CC, !Z.eqb_refl. cbn [rcheck rbind].
  assert (CT : forall cn ct, ColType t1 cn = Ok ct -> ColType t2 cn = Ok ct).
  { intros cn ct H. apply (wf_ColType_iff t1 W1) in H as (i & A & B). apply (wf_ColType_iff t2 W2). exists i. now rewrite EC, ET. }
  rewrite (proj2 (proj2 (equal_cols_spec t1 t2 W1 W2)) CT). cbn [rbind].
  assert (GI : forall c r, GetValByColIndex t2 c r = GetValByColIndex t1 c r).
  { intros c r. rewrite !GetValByColIndex_eq by auto. unfold HasRow, HasColByColIndex, at_cell. now rewrite RC, CC, ER, (wf_nil_name _ _ W1 W2 (eq_sym EN)). }
  assert (CELL : forall ci ri cn ct, (0 <= ci < ColCount t1)%Z -> (0 <= ri < RowCount t1)%Z ->
    ColName t1 ci = Ok cn -> ColTypeByColIndex t1 ci = Ok ct ->
    equal_cell (Equals fuel h) t1 t2 cn ct ci ri = Ok tt).
  { intros ci ri cn ct Hc Hr A C. destruct (ColName_at t1 ci Hc) as (cn' & A' & N & CA). destruct (ColType_at t1 ci W1 Hc) as (ct' & C' & D & AT).
    assert (cn' = cn) by congruence. assert (ct' = ct) by congruence. subst cn' ct'.
    destruct (get_cell t1 ci ri W1 Hc Hr) as (ct' & v & D' & _ & G1 & O1 & AC). assert (ct' = ct) by congruence. subst ct'.
    assert (CA2 : col_at t2 ci cn) by (destruct CA; split; auto; now rewrite EC).
    unfold equal_cell. rewrite (GetVal_col_at t2 ci cn ri W2 CA2), GI, G1. cbn [rbind].
    destruct (String.eqb_spec ct "*Table") as [->|NT].
    - cbn [String.eqb Ascii.eqb Bool.eqb orb].
      destruct v as [| | |[] z| | |o|[p|]| |]; destruct O1 as [T _]; simpl in T; try contradiction; try discriminate; try (destruct T; discriminate).
      assert (GT : forall t, wf_table t -> (0 <= ci < ColCount t)%Z -> (0 <= ri < RowCount t)%Z ->
        nth_error (ctypes t) (Z.to_nat ci) = Some "*Table" -> GetValByColIndex t ci ri = Ok (VTable (Some p)) -> GetTableByColIndex t ci ri = Ok (Some p)).
      { intros t Wt Hc' Hr' Ht Hg. unfold GetTableByColIndex.
        destruct (GetTByColIndex_eq "*Table" t ci ri Wt) as [(c & _ & _ & _ & _ & E' & w & G & _)|[NO _]]; [now apply str_in_In| |].
        - rewrite E', Hg. reflexivity.
        - exfalso. apply NO. exists "*Table". repeat split; auto; try lia. now left. }
      rewrite (GT t1), (GT t2); auto; try (rewrite ?CC, ?RC, ?ET; auto; fail).
      + cbn [rbind]. apply NE. apply (nested_cell (nth (Z.to_nat ri) (rows t1) [])).
        * unfold at_cell in AC. destruct (nth_error (rows t1) (Z.to_nat ri)) as [row|] eqn:R; [|discriminate].
          rewrite (nth_error_nth _ _ _ R). eapply nth_error_In; eauto.
        * apply nth_In. unfold RowCount in Hr. lia.
      + now rewrite GI.
    - assert (V : cell_eqb ct v v = Ok tt).
      { apply cell_eqb_spec; auto. destruct (NN _ _ _ G1). now apply same_value_refl. }
      unfold cell_eqb in V. destruct ((ct =? "[]byte") || (ct =? "[]uint8")); auto. }
  apply rfor_spec.
  - intros ci I. apply In_zseq in I. fold (ColCount t1) in I.
    destruct (ColName_at t1 ci I) as (cn & A & _). destruct (ColType_at t1 ci W1 I) as (ct & C & _). rewrite A, C. cbn [rbind].
    apply rfor_spec. intros ri Ir. apply In_zseq in Ir. rewrite (CELL ci ri cn ct I Ir A C). discriminate.
  - intros ci I. apply In_zseq in I. fold (ColCount t1) in I.
    destruct (ColName_at t1 ci I) as (cn & A & _). destruct (ColType_at t1 ci W1 I) as (ct & C & _). rewrite A, C. cbn [rbind].
    apply rfor_spec; intros ri Ir; apply In_zseq in Ir; rewrite (CELL ci ri cn ct I Ir A C); [discriminate|reflexivity].
Qed.
