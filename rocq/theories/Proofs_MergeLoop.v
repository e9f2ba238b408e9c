(** Proofs_MergeLoop.v -- Merge, the loop over the sorted rows. *)
From Coq Require Import ZArith NArith List String Ascii Bool SpecFloat Permutation Lia.
From Verif Require Import Base Model_Names Model_Table Model_Sort Model_Copy Model_Merge Spec Spec_Sort Spec_Copy Spec_Merge.
From Verif Require Import Proofs_Lib Proofs_Table Proofs_Cells Proofs_Struct Proofs_Api Proofs_Pres Samples Proofs_Zero Proofs_Api2.
From Verif Require Import Proofs_Copy Props_Copy Proofs_Order Proofs_Sort Proofs_Search Proofs_Keys Props_Sort Proofs_MergePure Proofs_MergeRun Proofs_MergeFill.
Import ListNotations.
Local Open Scope string_scope.
Local Open Scope list_scope.

(** ---------- keys of a row ---------- *)
Definition typed_keys (t : table) (ks : list skey) : Prop :=
  Forall (fun k => ColType t (k_col k) = Ok (k_type k) /\ In (k_type k) sortable_types) ks.

Lemma typed_kgood t ks : wf_table t -> typed_keys t ks -> kgood t ks.
Proof.
  intros W F. unfold kgood. eapply Forall_impl; [|exact F]. intros k [C S].
  apply (wf_ColType_iff t W) in C as (i & H1 & H2). exists i. auto.
Qed.

Lemma row_keys t ks row : wf_table t -> typed_keys t ks -> Forall2 cell_ok (ctypes t) row ->
  kin (cmap t) ks row /\ Forall2 (fun k v => In (k_type k) sortable_types /\ cell_ok (k_type k) v) ks (kv (cmap t) ks row).
Proof.
  intros W F R. induction F as [|k ks [C S] F IH]; [split; constructor|]. destruct IH as [I1 I2].
  apply (wf_ColType_iff t W) in C as (i & H1 & H2). destruct (Forall2_nth _ _ _ _ _ R H2) as (v & V1 & V2).
  pose proof (proj2 (wf_map _ W (k_col k) i) H1) as M. split.
  - constructor; auto. exists i, v. auto.
  - simpl. rewrite M. rewrite (nth_error_nth _ _ VNil V1). constructor; auto.
Qed.

Lemma tok_intro ks vs : Forall2 (fun k v => In (k_type k) sortable_types /\ cell_ok (k_type k) v) ks vs ->
  Forall (fun v => ~ is_nan v) vs -> tok ks vs.
Proof. induction 1 as [|k v ks vs [H1 H2] F IH]; intros N; constructor; inversion N; subst; auto. split; auto. split; auto. now apply IH. Qed.

Lemma kv_first t ks more row : wf_table t -> cnames t = map k_col ks ++ more -> List.length ks <= List.length row ->
  kv (cmap t) ks row = firstn (List.length ks) row.
Proof.
  intros W CN L. apply nth_error_ext. intros i. unfold kv. rewrite nth_error_map, nth_error_firstn.
  destruct (Nat.ltb_spec i (List.length ks)) as [Li|Li].
  - destruct (nth_error ks i) as [k|] eqn:K; [|apply nth_error_None in K; lia]. simpl.
    assert (M : mget (cmap t) (k_col k) = Some i).
    { apply (wf_map _ W). rewrite CN, nth_error_app1 by (rewrite map_length; lia). rewrite nth_error_map, K. reflexivity. }
    rewrite M. symmetry. apply nth_error_nth'. lia.
  - replace (nth_error ks i) with (@None skey); auto. symmetry. now apply nth_error_None.
Qed.

(** ---------- Sort ---------- *)
Lemma sorted_pairs {A} (P : A -> A -> Prop) l : (forall i j x y, i < j -> nth_error l i = Some x -> nth_error l j = Some y -> P x y) ->
  ForallOrdPairs P l.
Proof.
  induction l as [|a l IH]; intros H; constructor.
  - apply Forall_forall. intros y I. apply In_nth_error in I as (j & J). apply (H 0 (S j) a y); auto. lia.
  - apply IH. intros i j x y L X Y. apply (H (S i) (S j)); auto. lia.
Qed.

Lemma runs_sort E t ns ts ks rs : env_ok E -> tb t ns ts ks rs -> ks <> [] -> typed_keys t ks ->
  exists t' rs', runs (Sort E []) t t' tt /\ tb t' ns ts ks rs' /\ Permutation rs' rs /\ t' = with_rows rs' t
    /\ (no_nan_keys t -> sorted_table E t')
    /\ (Forall (fun row => Forall (fun v => ~ is_nan v) (kv (cmap t) ks row)) rs ->
        ForallOrdPairs (fun x y => ~ tlt E ks (kv (cmap t) ks y) (kv (cmap t) ks x)) rs').
Proof.
  intros EO T NE TK. pose proof T as [W N NM SH PA CN CT KS RS].
  assert (KG : keys_ok t). { unfold keys_ok. rewrite KS. now apply typed_kgood. }
  destruct (eo_total E EO (less_rows E (cmap t) (skeys t)) (rows t)) as [rs' R].
  { intros x y X Y. destruct (less_rows_total E t (skeys t) x y W KG X Y) as [c ->]. discriminate. }
  pose proof (eo_perm E EO _ _ _ R) as P. rewrite RS in P.
  exists (with_rows rs' t), rs'. split; [|split; [|split; [|split; [|split]]]].
  - intros b nw. rewrite Sort_keys_eq. cbn [s_tab]. rewrite R.
    destruct (Nat.eqb_spec (List.length (skeys t)) 0) as [Z0|_]; [apply length_zero_iff_nil in Z0; congruence|]. reflexivity.
  - eapply tb_rows; eauto. pose proof (tb_cells _ _ _ _ _ T) as F. rewrite Forall_forall in *. intros x I. apply F.
    eapply Permutation_in; eauto.
  - exact P.
  - reflexivity.
  - intros NN. now apply sorted_rows.
  - intros NN. rewrite KS in R.
    assert (RO : Forall (fun row => kin (cmap t) ks row /\ tok ks (kv (cmap t) ks row)) rs).
    { pose proof (tb_cells _ _ _ _ _ T) as F. rewrite Forall_forall in *. intros x I.
      destruct (row_keys t ks x W TK) as [K1 K2]; [rewrite CT; now apply F|]. split; auto. apply tok_intro; auto. }
    rewrite RS in R. pose proof (eo_sorted E EO _ _ _ (less_ok_rows E (cmap t) ks rs RO) R) as SO.
    apply sorted_pairs. intros i j x y L X Y TL. specialize (SO i j x y L X Y).
    assert (forall z, In z rs' -> In z rs) by (intros z; apply Permutation_in; auto).
    rewrite Forall_forall in RO. apply nth_error_In in X, Y. destruct (RO x), (RO y); auto.
    destruct (less_rows_spec E (cmap t) ks y x) as (bb & B1 & B2); auto. assert (bb = true) by tauto. congruence.
Qed.

(** ---------- equality of keys ---------- *)
Fixpoint keyeqb (E : env) (ks : list skey) (us vs : list value) : bool :=
  match ks, us, vs with
  | k :: ks', u :: us', v :: vs' =>
      match compare_val E (k_type k) u v with Some c => (c =? 0)%Z && keyeqb E ks' us' vs' | None => false end
  | _, _, _ => true
  end.

Lemma keyeqb_spec E ks : forall us vs, tok ks us -> tok ks vs -> keyeqb E ks us vs = true <-> teq us vs.
Proof.
  induction ks as [|k ks IH]; intros us vs U V; inversion U; inversion V; subst; simpl.
  - split; auto. intros _. constructor.
  - match goal with H1 : In _ _ /\ comparable _ ?u, H2 : In _ _ /\ comparable _ ?v |- _ =>
      destruct H1 as [S C1], H2 as [_ C2]; destruct (compare_val_ok E _ _ _ S C1 C2) as (c & -> & R & L1 & L2 & L3) end.
    rewrite andb_true_iff, Z.eqb_eq, L2. rewrite IH by auto. unfold teq. split.
    + intros [? ?]. constructor; auto.
    + intros F. inversion F; auto.
Qed.

Lemma compare_keys_eqb E t ks r1 r2 w1 w2 : wf_table t -> kgood t ks ->
  nth_error (rows t) r1 = Some w1 -> nth_error (rows t) r2 = Some w2 ->
  exists c, compare_keys E t ks (Z.of_nat r1) (Z.of_nat r2) = Ok c
    /\ (c =? 0)%Z = keyeqb E ks (kv (cmap t) ks w1) (kv (cmap t) ks w2).
Proof.
  intros W G H1 H2. induction G as [|k ks H G IH]; simpl.
  - exists 0%Z. auto.
  - rewrite <- (Nat2Z.id r1) in H1. rewrite <- (Nat2Z.id r2) in H2.
    destruct (keys_cell t k (Z.of_nat r1) w1 W H1 ltac:(lia) H) as (c1 & v1 & M1 & V1 & G1 & C1 & S).
    destruct (keys_cell t k (Z.of_nat r2) w2 W H2 ltac:(lia) H) as (c2 & v2 & M2 & V2 & G2 & C2 & _).
    rewrite G1, G2. cbn [rbind]. rewrite M1. rewrite M1 in M2. injection M2 as <-.
    rewrite (nth_error_nth _ _ VNil V1), (nth_error_nth _ _ VNil V2).
    destruct (compare_val_some E _ _ _ S C1 C2) as (c & ->).
    destruct (Z.eqb_spec c 0) as [->|NZ]; cbn [negb].
    + destruct IH as (c & -> & X). exists c. auto.
    + exists c. split; auto. destruct (Z.eqb_spec c 0); auto. contradiction.
Qed.

Lemma CompareRows_eqb E t ks r1 r2 w1 w2 : wf_table t -> skeys t = ks -> ks <> [] -> typed_keys t ks ->
  nth_error (rows t) r1 = Some w1 -> nth_error (rows t) r2 = Some w2 ->
  exists c, CompareRows E t (Z.of_nat r1) (Z.of_nat r2) = Ok c
    /\ (c =? 0)%Z = keyeqb E ks (kv (cmap t) ks w1) (kv (cmap t) ks w2).
Proof.
  intros W KS NE TK H1 H2. unfold CompareRows. rewrite (HasRow_nat _ _ _ H1), (HasRow_nat _ _ _ H2). cbn [negb].
  destruct (Nat.eqb_spec (List.length (skeys t)) 0) as [Z0|_]; [apply length_zero_iff_nil in Z0; congruence|].
  rewrite KS. apply compare_keys_eqb; auto. now apply typed_kgood.
Qed.

(** ---------- one pair of cells ---------- *)
Lemma mergeable_cases ct : In ct mergeable_types ->
  ((ct =? "string") || (ct =? "bool") = true)
  \/ ((ct =? "string") || (ct =? "bool") = false /\
      str_in ct ["int8"; "int16"; "int32"; "int64"; "int"; "uint8"; "uint16"; "uint32"; "uint64"; "uint"] = true)
  \/ ((ct =? "string") || (ct =? "bool") = false /\
      str_in ct ["int8"; "int16"; "int32"; "int64"; "int"; "uint8"; "uint16"; "uint32"; "uint64"; "uint"] = false /\
      (ct =? "float32") || (ct =? "float64") = true).
Proof.
  intros H. unfold mergeable_types in H. simpl in H.
  repeat (destruct H as [<-|H]; [first [left; reflexivity | right; left; split; reflexivity | right; right; repeat split; reflexivity]|]). destruct H.
Qed.

Lemma not_float_no_nan ct v : has_type ct v -> ct <> "float32" -> ct <> "float64" -> is_nan_b v = false.
Proof.
  intros H N1 N2. destruct v as [| | | |f|f| | | |]; auto; simpl in H; congruence.
Qed.

Lemma with_rows_id t rs : rows t = rs -> with_rows rs t = t.
Proof. intros <-. destruct t; reflexivity. Qed.

Lemma app_cons2 {A} (a : list A) x r : a ++ x :: r = (a ++ [x]) ++ r.
Proof. now rewrite <- app_assoc. Qed.

Lemma runs_eq {A} (m m' : M A) t t' a : (forall b nw, m (mkS t b nw) = m' (mkS t b nw)) -> runs m' t t' a -> runs m t t' a.
Proof. intros H R b nw. rewrite H. apply R. Qed.

Section PairOfCells.
  Context (t : table) (ns ts : list string) (ks : list skey) (A : list (list value)) (r1 r2 : list value) (C : list (list value))
          (i : nat) (cn ct : string) (a b : value).
  Hypothesis T : tb t ns ts ks (A ++ r1 :: r2 :: C).
  Hypothesis HN : nth_error ns i = Some cn.
  Hypothesis HT : nth_error ts i = Some ct.
  Hypothesis MT : In ct mergeable_types.
  Hypothesis H1 : nth_error r1 i = Some a.
  Hypothesis H2 : nth_error r2 i = Some b.

  Let Z1 : Z := Z.of_nat (List.length A).

  Lemma T2 : tb t ns ts ks ((A ++ [r1]) ++ r2 :: C).
  Proof. rewrite <- app_assoc. exact T. Qed.
  Lemma Z2 : Z.of_nat (List.length (A ++ [r1])) = (Z1 + 1)%Z.
  Proof. rewrite app_length. simpl. unfold Z1. lia. Qed.
  Lemma okA : cell_ok ct a.
  Proof.
    pose proof (tb_cells _ _ _ _ _ T) as F. apply Forall_app in F as [_ F]. inversion F as [|? ? F1 _]; subst.
    eapply Forall2_nth_both; eauto.
  Qed.
  Lemma okB : cell_ok ct b.
  Proof.
    pose proof (tb_cells _ _ _ _ _ T) as F. apply Forall_app in F as [_ F]. inversion F as [|? ? _ F']; subst. inversion F' as [|? ? F1 _]; subst.
    eapply Forall2_nth_both; eauto.
  Qed.
  Lemma getA : GetValByColIndex t (Z.of_nat i) Z1 = Ok a. Proof. exact (get_mid _ _ _ _ _ _ _ _ T _ H1). Qed.
  Lemma getB : GetValByColIndex t (Z.of_nat i) (Z1 + 1) = Ok b. Proof. rewrite <- Z2. exact (get_mid _ _ _ _ _ _ _ _ T2 _ H2). Qed.
  Lemma ctype : ColTypeByColIndex t (Z.of_nat i) = Ok ct.
  Proof.
    rewrite ColTypeByColIndex_eq by apply (tb_wf _ _ _ _ _ T). rewrite Nat2Z.id, (tb_ct _ _ _ _ _ T), HT.
    replace (HasColByColIndex t (Z.of_nat i)) with true; auto. symmetry. apply HasCol_iff. unfold ColCount.
    rewrite (tb_cn _ _ _ _ _ T). apply nth_error_some_lt in HN. lia.
  Qed.
  Lemma getT r v : GetValByColIndex t (Z.of_nat i) r = Ok v -> GetTByColIndex ct t (Z.of_nat i) r = Ok v.
  Proof.
    intros G. destruct (GetTByColIndex_eq ct t (Z.of_nat i) r (tb_wf _ _ _ _ _ T) (mergeable_all _ MT)) as [(ct' & _ & _ & _ & _ & E & _)|(X & _)].
    - congruence.
    - exfalso. apply X. exists ct. rewrite GetValByColIndex_eq in G by apply (tb_wf _ _ _ _ _ T).
      destruct (is_nil t); [discriminate|]. destruct (HasRow t r && HasColByColIndex t (Z.of_nat i)) eqn:Q; [|discriminate].
      apply andb_true_iff in Q as [Q1 Q2]. apply HasRow_iff in Q1. apply HasCol_iff in Q2.
      rewrite Nat2Z.id, (tb_ct _ _ _ _ _ T), HT. split; auto. split; auto. split; auto. left. reflexivity.
  Qed.
  Lemma nilA v : cell_ok ct v -> not_nil_arg v = true.
  Proof.
    intros [H _]. destruct (has_type_not_nil_arg _ _ H) as [N| ->]; auto. exfalso. clear -H MT.
    unfold mergeable_types in MT. simpl in H, MT. destruct H as [-> | ->]; intuition discriminate.
  Qed.

  Definition tab1 (x : value) : table := with_rows (A ++ upd r1 i x :: r2 :: C) t.
  Definition tab2 (x : value) : table := with_rows (A ++ r1 :: upd r2 i x :: C) t.

  Lemma set1 x : cell_ok ct x -> runs (SetValByColIndex (Z.of_nat i) Z1 x) t (tab1 x) tt.
  Proof. intros X. exact (runs_SetValByColIndex _ _ _ _ _ _ _ i ct x T HT X). Qed.
  Lemma set2 x : cell_ok ct x -> runs (SetValByColIndex (Z.of_nat i) (Z1 + 1) x) t (tab2 x) tt.
  Proof.
    intros X. rewrite <- Z2. pose proof (runs_SetValByColIndex _ _ _ _ _ _ _ i ct x T2 HT X) as R.
    rewrite <- app_assoc in R. exact R.
  Qed.
  Lemma setT1 x : cell_ok ct x -> runs (SetTByColIndex ct (Z.of_nat i) Z1 x) t (tab1 x) tt.
  Proof. intros X. refine (runs_SetTByColIndex _ _ _ _ _ _ _ i cn ct x T HN HT X _ _); [now apply mergeable_all|now apply nilA]. Qed.
  Lemma setT2 x : cell_ok ct x -> runs (SetTByColIndex ct (Z.of_nat i) (Z1 + 1) x) t (tab2 x) tt.
  Proof.
    intros X. rewrite <- Z2. pose proof (runs_SetTByColIndex _ _ _ _ _ _ _ i cn ct x T2 HN HT X (mergeable_all _ MT) (nilA _ X)) as R.
    rewrite <- app_assoc in R. exact R.
  Qed.

  Lemma keepR x y : x = a -> y = b -> with_rows (A ++ upd r1 i x :: upd r2 i y :: C) t = t.
  Proof. intros -> ->. rewrite !upd_same by auto. apply with_rows_id, (tb_rs _ _ _ _ _ T). Qed.

  Lemma runs_merge_cell : runs (merge_cell (Z.of_nat i) Z1) t (with_rows (A ++ upd r1 i (pickL a b) :: upd r2 i (pickR a b) :: C) t) tt.
  Proof.
    pose proof okA as OA. pose proof okB as OB. pose proof getA as GA. pose proof getB as GB.
    assert (E1 : with_rows (A ++ upd r1 i a :: upd r2 i a :: C) t = tab2 a) by (rewrite (upd_same r1) by auto; reflexivity).
    assert (E2 : with_rows (A ++ upd r1 i b :: upd r2 i b :: C) t = tab1 b) by (rewrite (upd_same r2) by auto; reflexivity).
    assert (E3 : with_rows (A ++ upd r1 i a :: upd r2 i b :: C) t = t) by (apply keepR; auto).
    destruct (mergeable_cases ct MT) as [Q|[(Q & Q2)|(Q & Q2 & Q3)]].
    - assert (NA : is_nan_b a = false /\ is_nan_b b = false).
      { split; eapply not_float_no_nan; try apply OA; try apply OB; intros ->; discriminate. }
      destruct NA as [NA NB]. unfold pickL, pickR, data_b. rewrite NA, NB. cbn [negb]. rewrite !andb_true_r.
      eapply runs_eq. { intros. unfold merge_cell. rewrite bind_reads. cbn [s_tab]. rewrite ctype, Q, bind_reads. cbn [s_tab].
        rewrite (getT _ _ GA), bind_reads. cbn [s_tab]. rewrite (getT _ _ GB). reflexivity. }
      destruct (nonzero a); [rewrite E1; now apply setT2|]. destruct (nonzero b); [rewrite E2; now apply setT1|].
      rewrite E3. intros b0 nw. reflexivity.
    - assert (NA : is_nan_b a = false /\ is_nan_b b = false).
      { split; eapply not_float_no_nan; try apply OA; try apply OB; intros ->; discriminate. }
      destruct NA as [NA NB]. unfold pickL, pickR, data_b. rewrite NA, NB. cbn [negb]. rewrite !andb_true_r.
      eapply runs_eq. { intros. unfold merge_cell. rewrite bind_reads. cbn [s_tab]. rewrite ctype, Q, Q2, bind_reads. cbn [s_tab].
        rewrite GA, bind_reads. cbn [s_tab]. rewrite GB. reflexivity. }
      destruct (nonzero a); [rewrite E1; now apply set2|]. destruct (nonzero b); [rewrite E2; now apply set1|].
      rewrite E3. intros b0 nw. reflexivity.
    - eapply runs_eq. { intros. unfold merge_cell. rewrite bind_reads. cbn [s_tab]. rewrite ctype, Q, Q2, Q3, bind_reads. cbn [s_tab].
        rewrite GA, bind_reads. cbn [s_tab]. rewrite GB. reflexivity. }
      unfold pickL, pickR. fold (data_b a). fold (data_b b).
      destruct (data_b a); [rewrite E1; now apply set2|]. destruct (data_b b); [rewrite E2; now apply set1|].
      destruct (is_nan_b a); [rewrite E2; now apply set1|]. destruct (is_nan_b b); [rewrite E1; now apply set2|].
      rewrite E3. intros b0 nw. reflexivity.
  Qed.
End PairOfCells.

(** ---------- one pair of rows ---------- *)
Fixpoint zipw {A B C} (f : A -> B -> C) (l1 : list A) (l2 : list B) : list C :=
  match l1, l2 with a :: r1, b :: r2 => f a b :: zipw f r1 r2 | _, _ => [] end.

Lemma zipw_len {A B C} (f : A -> B -> C) l1 : forall l2, List.length l1 = List.length l2 -> List.length (zipw f l1 l2) = List.length l1.
Proof. induction l1; intros [|b l2] H; simpl in *; try discriminate; auto. Qed.

Lemma cell_pick ct a b : cell_ok ct a -> cell_ok ct b -> cell_ok ct (pickL a b) /\ cell_ok ct (pickR a b).
Proof. intros. unfold pickL, pickR. destruct (data_b a), (data_b b), (is_nan_b a), (is_nan_b b); auto. Qed.

Lemma runs_cells t ns ts ks A C c1 : forall c2 d1 d2 l1 l2 t0,
  t0 = with_rows (A ++ (d1 ++ c1 ++ l1) :: (d2 ++ c2 ++ l2) :: C) t ->
  tb t0 ns ts ks (A ++ (d1 ++ c1 ++ l1) :: (d2 ++ c2 ++ l2) :: C) ->
  List.length d1 = List.length d2 -> List.length c1 = List.length c2 ->
  (forall i ct, i < List.length d1 + List.length c1 -> nth_error ts i = Some ct -> In ct mergeable_types) ->
  runs (mfor (map Z.of_nat (seq (List.length d1) (List.length c1))) (fun ci => merge_cell ci (Z.of_nat (List.length A)))) t0
    (with_rows (A ++ (d1 ++ zipw pickL c1 c2 ++ l1) :: (d2 ++ zipw pickR c1 c2 ++ l2) :: C) t) tt
  /\ tb (with_rows (A ++ (d1 ++ zipw pickL c1 c2 ++ l1) :: (d2 ++ zipw pickR c1 c2 ++ l2) :: C) t) ns ts ks
       (A ++ (d1 ++ zipw pickL c1 c2 ++ l1) :: (d2 ++ zipw pickR c1 c2 ++ l2) :: C).
Proof.
  induction c1 as [|a c1 IH]; intros [|b c2] d1 d2 l1 l2 t0 E0 T LD LC MT; try discriminate LC.
  - cbn [List.length seq map mfor zipw app]. subst t0. split; [intros b nw; reflexivity|exact T].
  - cbn [List.length seq map mfor].
    pose proof (tb_cells _ _ _ _ _ T) as F. apply Forall_app in F as [_ F]. inversion F as [|? ? F1 F']. subst. inversion F' as [|? ? F2 _]. subst.
    assert (N1 : nth_error (d1 ++ (a :: c1) ++ l1) (List.length d1) = Some a) by (rewrite nth_error_app2, Nat.sub_diag by lia; reflexivity).
    assert (N2 : nth_error (d2 ++ (b :: c2) ++ l2) (List.length d1) = Some b) by (rewrite LD, nth_error_app2, Nat.sub_diag by lia; reflexivity).
    destruct (Forall2_nth_r _ _ _ _ _ F1 N1) as (ct & HT & OA). pose proof (Forall2_nth_both _ _ _ _ _ _ F2 HT N2) as OB.
    assert (HM : In ct mergeable_types) by (apply (MT (List.length d1)); auto; simpl; lia).
    destruct (nth_error ns (List.length d1)) as [cn|] eqn:HN.
    2:{ exfalso. apply nth_error_None in HN. pose proof (nth_error_some_lt _ _ _ HT) as X.
        pose proof (wf_types_len _ (tb_wf _ _ _ _ _ T)) as Y. rewrite (tb_ct _ _ _ _ _ T), (tb_cn _ _ _ _ _ T) in Y. lia. }
    pose proof (runs_merge_cell _ _ _ _ _ _ _ _ _ _ _ _ _ T HN HT HM N1 N2) as R.
    assert (U1 : forall x, upd (d1 ++ (a :: c1) ++ l1) (List.length d1) x = (d1 ++ [x]) ++ c1 ++ l1).
    { intros x. cbn [app]. rewrite upd_app_mid, <- app_assoc. reflexivity. }
    assert (U2 : forall x, upd (d2 ++ (b :: c2) ++ l2) (List.length d1) x = (d2 ++ [x]) ++ c2 ++ l2).
    { intros x. cbn [app]. rewrite LD, upd_app_mid, <- app_assoc. reflexivity. }
    destruct (cell_pick _ _ _ OA OB) as [PL PR].
    assert (T' : tb (with_rows (A ++ ((d1 ++ [pickL a b]) ++ c1 ++ l1) :: ((d2 ++ [pickR a b]) ++ c2 ++ l2) :: C) t) ns ts ks
      (A ++ ((d1 ++ [pickL a b]) ++ c1 ++ l1) :: ((d2 ++ [pickR a b]) ++ c2 ++ l2) :: C)).
    { rewrite <- U1, <- U2. pose proof (tb_upd _ _ _ _ _ _ _ _ _ _ T HT PL) as T1.
      rewrite app_cons2 in T1. rewrite app_cons2. pose proof (tb_upd _ _ _ _ _ _ _ _ _ _ T1 HT PR) as T2. exact T2. }
    rewrite U1, U2 in R.
    destruct (IH c2 (d1 ++ [pickL a b]) (d2 ++ [pickR a b]) l1 l2 _ eq_refl T') as [R2 T2].
    + rewrite !app_length. simpl. lia.
    + simpl in LC. lia.
    + rewrite app_length. simpl. intros i ct' Li. apply MT. simpl. lia.
    + rewrite app_length in R2. simpl in R2. rewrite Nat.add_1_r in R2. cbn [zipw].
      assert (AS : forall (d : list value) x c l, (d ++ [x]) ++ c ++ l = d ++ (x :: c) ++ l) by (intros; now rewrite <- app_assoc).
      rewrite (AS d1 _ (zipw pickL c1 c2)), (AS d2 _ (zipw pickR c1 c2)) in R2, T2.
      split; [|exact T2]. eapply runs_bind; [exact R|]. exact R2.
Qed.

Definition wrow (p : list value * Z) : list value := fst p ++ [VInt KInt (snd p); VBool false].
Definition drow (p : list value * Z) : list value := fst p ++ [VInt KInt (snd p); VBool true].
Definition keq (E : env) (K : list skey) (p q : list value * Z) : bool :=
  keyeqb E K (firstn (List.length K) (fst p)) (firstn (List.length K) (fst q)).
Definition joinR (p q : list value * Z) : list value * Z := (zipw pickR (fst p) (fst q), snd q).
Definition joinL (p q : list value * Z) : list value * Z := (zipw pickL (fst p) (fst q), snd p).

(** The rows after the loop. *)
Fixpoint wlist (E : env) (K : list skey) (cur : list value * Z) (rest : list (list value * Z)) : list (list value) :=
  match rest with
  | [] => [wrow cur]
  | r :: rest' => if keq E K cur r then drow (joinL cur r) :: wlist E K (joinR cur r) rest' else wrow cur :: wlist E K r rest'
  end.

Section Loop.
  Context (E : env) (K : list skey) (N TS : list string) (more : list string) (z : table).
  Let ns : list string := N ++ ["_TABLE_"; "_DELETE_"].
  Let ts : list string := TS ++ ["int"; "bool"].
  Hypothesis LN : List.length N = List.length TS.
  Hypothesis NK : N = map k_col K ++ more.
  Hypothesis KN : K <> [].
  Hypothesis MT : Forall (fun ct => In ct mergeable_types) TS.
  Hypothesis TK : typed_keys z K.
  Hypothesis ZN : cnames z = ns.
  Hypothesis ZT : ctypes z = ts.
  Hypothesis ZM : wf_table z.

  Lemma LK : List.length K <= List.length TS.
  Proof. rewrite <- LN, NK, app_length, map_length. lia. Qed.

  Lemma kv_wrow p rs : tb (with_rows rs z) ns ts K rs -> List.length (fst p) = List.length TS ->
    kv (cmap (with_rows rs z)) K (wrow p) = firstn (List.length K) (fst p).
  Proof.
    intros T L. rewrite (kv_first _ K (more ++ ["_TABLE_"; "_DELETE_"])).
    - unfold wrow. rewrite firstn_app. pose proof LK. replace (List.length K - List.length (fst p)) with 0 by lia. now rewrite firstn_O, app_nil_r.
    - apply (tb_wf _ _ _ _ _ T).
    - rewrite (tb_cn _ _ _ _ _ T). unfold ns. now rewrite NK, <- app_assoc.
    - unfold wrow. rewrite app_length. pose proof LK. lia.
  Qed.

  Lemma typed_with rs : typed_keys (with_rows rs z) K.
  Proof. exact TK. Qed.

  Lemma runs_merge_row pre cur r rest :
    tb (with_rows (pre ++ wrow cur :: wrow r :: rest) z) ns ts K (pre ++ wrow cur :: wrow r :: rest) ->
    List.length (fst cur) = List.length TS -> List.length (fst r) = List.length TS ->
    exists rs', rs' = (if keq E K cur r then pre ++ drow (joinL cur r) :: wrow (joinR cur r) :: rest else pre ++ wrow cur :: wrow r :: rest) /\
      runs (merge_row E (Z.of_nat (List.length pre))) (with_rows (pre ++ wrow cur :: wrow r :: rest) z) (with_rows rs' z) tt
      /\ tb (with_rows rs' z) ns ts K rs'.
  Proof.
    intros T L1 L2. eexists. split; [reflexivity|].
    destruct (CompareRows_eqb E (with_rows (pre ++ wrow cur :: wrow r :: rest) z) K (List.length pre) (S (List.length pre)) (wrow cur) (wrow r)) as (c & C1 & C2); auto.
    - apply (tb_wf _ _ _ _ _ T).
    - apply (tb_ks _ _ _ _ _ T).
    - cbn [rows with_rows]. rewrite nth_error_app2, Nat.sub_diag by lia. reflexivity.
    - cbn [rows with_rows]. rewrite nth_error_app2 by lia. replace (S (List.length pre) - List.length pre) with 1 by lia. reflexivity.
    - rewrite !kv_wrow in C2 by auto. fold (keq E K cur r) in C2. rewrite <- C2.
      replace (Z.of_nat (S (List.length pre))) with (Z.of_nat (List.length pre) + 1)%Z in C1 by lia.
      destruct (c =? 0)%Z eqn:QC.
      2:{ split; [|exact T]. intros b nw. unfold merge_row. rewrite bind_reads. cbn [s_tab]. rewrite C1, QC. reflexivity. }
      destruct (runs_cells z ns ts K pre rest (fst cur) (fst r) [] [] [VInt KInt (snd cur); VBool false] [VInt KInt (snd r); VBool false] _ eq_refl T) as [R1 T1]; auto; [lia| |].
      + intros i ct Li H. simpl in Li. rewrite L1 in Li. unfold ts in H. rewrite nth_error_app1 in H by lia.
        rewrite Forall_forall in MT. apply MT. eapply nth_error_In; eauto.
      + cbn [app List.length] in R1, T1.
        set (X := zipw pickL (fst cur) (fst r) ++ [VInt KInt (snd cur); VBool false]) in *.
        set (Y := zipw pickR (fst cur) (fst r) ++ [VInt KInt (snd r); VBool false]) in *.
        assert (LX : List.length (zipw pickL (fst cur) (fst r)) = List.length TS) by (rewrite zipw_len; lia).
        assert (UD : upd X (List.length TS + 1) (VBool true) = drow (joinL cur r)).
        { unfold X, drow, joinL. cbn [fst snd]. change [VInt KInt (snd cur); VBool false] with ([VInt KInt (snd cur)] ++ [VBool false]).
          rewrite app_assoc. replace (List.length TS + 1) with (List.length (zipw pickL (fst cur) (fst r) ++ [VInt KInt (snd cur)])) by (rewrite app_length, LX; reflexivity).
          rewrite upd_app_mid, <- app_assoc. reflexivity. }
        assert (HT : nth_error ts (List.length TS + 1) = Some "bool").
        { unfold ts. rewrite nth_error_app2 by lia. replace (List.length TS + 1 - List.length TS) with 1 by lia. reflexivity. }
        assert (HN : nth_error ns (List.length TS + 1) = Some "_DELETE_").
        { unfold ns. rewrite nth_error_app2 by lia. replace (List.length TS + 1 - List.length N) with 1 by lia. reflexivity. }
        assert (OK : cell_ok "bool" (VBool true)) by (split; reflexivity).
        pose proof (runs_SetT _ _ _ _ _ _ _ _ _ _ _ T1 HN HT OK ltac:(now apply str_in_In) eq_refl) as R2.
        pose proof (tb_upd _ _ _ _ _ _ _ _ _ _ T1 HT OK) as T2.
        rewrite UD in R2, T2. fold (wrow (joinR cur r)) in Y. 
        split; [|exact T2].
        eapply runs_eq. { intros b nw. unfold merge_row. rewrite bind_reads. cbn [s_tab]. rewrite C1, QC. reflexivity. }
        apply runs_get. eapply runs_bind; [|exact R2].
        replace (Z.to_nat _) with (List.length (fst cur)); [exact R1|].
        unfold ColCount. cbn [s_tab]. rewrite (tb_cn _ _ _ _ _ T). unfold ns. rewrite app_length. simpl. lia.
  Qed.

  Lemma runs_rows rest : forall cur pre,
    tb (with_rows (pre ++ map wrow (cur :: rest)) z) ns ts K (pre ++ map wrow (cur :: rest)) ->
    Forall (fun p => List.length (fst p) = List.length TS) (cur :: rest) ->
    runs (mfor (map Z.of_nat (seq (List.length pre) (List.length rest))) (merge_row E)) (with_rows (pre ++ map wrow (cur :: rest)) z)
      (with_rows (pre ++ wlist E K cur rest) z) tt
    /\ tb (with_rows (pre ++ wlist E K cur rest) z) ns ts K (pre ++ wlist E K cur rest).
  Proof.
    induction rest as [|r rest IH]; intros cur pre T LL.
    - split; [intros b nw; reflexivity|exact T].
    - pose proof (Forall_inv LL) as L1. pose proof (Forall_inv_tail LL) as LL'. pose proof (Forall_inv LL') as L2. pose proof (Forall_inv_tail LL') as LL''. cbv beta in L1, L2. cbn [map] in T.
      destruct (runs_merge_row pre cur r (map wrow rest) T L1 L2) as (rs' & E1 & R & T'). cbn [wlist List.length seq map mfor].
      destruct (keq E K cur r); subst rs'.
      + specialize (IH (joinR cur r) (pre ++ [drow (joinL cur r)])). rewrite app_length in IH. simpl in IH. rewrite Nat.add_1_r, <- !app_assoc in IH.
        destruct IH as [R2 T2]; auto.
        { constructor; auto. simpl. rewrite zipw_len; lia. }
        split; [|exact T2]. eapply runs_bind; [exact R|exact R2].
      + specialize (IH r (pre ++ [wrow cur])). rewrite app_length in IH. simpl in IH. rewrite Nat.add_1_r, <- !app_assoc in IH.
        destruct IH as [R2 T2]; auto.
        split; [|exact T2]. eapply runs_bind; [exact R|exact R2].
  Qed.
End Loop.

Definition alive (row : list value) : bool := match last row VNil with VBool true => false | _ => true end.
Lemma alive_wrow p : alive (wrow p) = true.
Proof. unfold alive, wrow. change [VInt KInt (snd p); VBool false] with ([VInt KInt (snd p)] ++ [VBool false]). rewrite app_assoc, last_last. reflexivity. Qed.
Lemma alive_drow p : alive (drow p) = false.
Proof. unfold alive, drow. change [VInt KInt (snd p); VBool true] with ([VInt KInt (snd p)] ++ [VBool true]). rewrite app_assoc, last_last. reflexivity. Qed.

Lemma wlist_alive E K rest : forall cur, filter alive (wlist E K cur rest) = map wrow (surv (keq E K) joinR cur rest).
Proof.
  induction rest as [|r rest IH]; intros cur; cbn [wlist surv].
  - cbn [filter map]. now rewrite alive_wrow.
  - destruct (keq E K cur r); cbn [filter map]; rewrite ?alive_drow, ?alive_wrow, IH; reflexivity.
Qed.

Lemma wlist_rows E K rest : forall cur, Forall (fun row => exists p, row = wrow p \/ row = drow p) (wlist E K cur rest).
Proof.
  induction rest as [|r rest IH]; intros cur; cbn [wlist]; [constructor; eauto|].
  destruct (keq E K cur r); constructor; eauto.
Qed.
