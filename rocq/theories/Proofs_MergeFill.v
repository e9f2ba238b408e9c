(** Proofs_MergeFill.v -- Merge, the rows before the first sort. *)
From Coq Require Import ZArith NArith List String Ascii Bool SpecFloat Permutation Lia.
From Verif Require Import Base Model_Names Model_Table Model_Sort Model_Copy Model_Merge Spec Spec_Sort Spec_Copy Spec_Merge.
From Verif Require Import Proofs_Lib Proofs_Table Proofs_Cells Proofs_Struct Proofs_Api Proofs_Pres Samples Proofs_Zero Proofs_Api2.
From Verif Require Import Proofs_Copy Props_Copy Proofs_Order Proofs_Sort Proofs_Search Proofs_Keys Props_Sort Proofs_MergePure Proofs_MergeRun.
Import ListNotations.
Local Open Scope string_scope.
Local Open Scope list_scope.

Lemma Forall2_nth_both {A B} (P : A -> B -> Prop) la lb i a b :
  Forall2 P la lb -> nth_error la i = Some a -> nth_error lb i = Some b -> P a b.
Proof. intros F H1 H2. destruct (Forall2_nth _ _ _ _ _ F H1) as (b' & H3 & H4). congruence. Qed.

Lemma put_mid A row C i v : put i (List.length A) v (A ++ row :: C) = A ++ upd row i v :: C.
Proof.
  unfold put. rewrite nth_error_app2, Nat.sub_diag by lia. cbn [nth_error]. apply upd_app_mid.
Qed.

Lemma tb_upd t ns ts ks A row C i ct v : tb t ns ts ks (A ++ row :: C) -> nth_error ts i = Some ct -> cell_ok ct v ->
  tb (with_rows (A ++ upd row i v :: C) t) ns ts ks (A ++ upd row i v :: C).
Proof.
  intros T CT CV. pose proof T as [W N NM SH PA CN CTE KS RS]. constructor; auto.
  rewrite <- put_mid. rewrite <- RS. eapply wf_put; eauto. congruence.
Qed.

Section Cell.
  Context (t : table) (ns ts : list string) (ks : list skey) (A : list (list value)) (row : list value) (C : list (list value))
          (i : nat) (cn ct : string) (v : value).
  Hypothesis T : tb t ns ts ks (A ++ row :: C).
  Hypothesis CN : nth_error ns i = Some cn.
  Hypothesis CT : nth_error ts i = Some ct.
  Hypothesis CV : cell_ok ct v.

  Lemma mid_row : (0 <= Z.of_nat (List.length A) < RowCount t)%Z.
  Proof. unfold RowCount. rewrite (tb_rs _ _ _ _ _ T), app_length. simpl. lia. Qed.
  Lemma CN' : nth_error (cnames t) i = Some cn. Proof. now rewrite (tb_cn _ _ _ _ _ T). Qed.
  Lemma CT' : nth_error (ctypes t) i = Some ct. Proof. now rewrite (tb_ct _ _ _ _ _ T). Qed.
  Lemma HT : has_type ct v. Proof. apply CV. Qed.
  Lemma NN : not_nil_value v = true. Proof. eapply has_type_not_nil; apply CV. Qed.

  Lemma written_mid b nw : written i (Z.to_nat (Z.of_nat (List.length A))) v (mkS t b nw) = mkS (with_rows (A ++ upd row i v :: C) t) b nw.
  Proof. unfold written, on_tab. cbn [s_tab s_base s_news]. rewrite Nat2Z.id, (tb_rs _ _ _ _ _ T), put_mid. reflexivity. Qed.

  Lemma runs_SetVal : runs (SetVal cn (Z.of_nat (List.length A)) v) t (with_rows (A ++ upd row i v :: C) t) tt.
  Proof.
    intros b nw. destruct (SetVal_eq cn (Z.of_nat (List.length A)) v (mkS t b nw) (tb_wf _ _ _ _ _ T)) as [(i' & ct' & _ & _ & C1 & _ & _ & R)|(NX & _)].
    - rewrite R. assert (i' = i).
      { apply (proj1 (NoDup_nth_error _) (wf_nodup _ (tb_wf _ _ _ _ _ T))); [eapply nth_error_some_lt; exact C1|]. cbn [s_tab] in C1. rewrite C1. symmetry. apply CN'. }
      subst i'. now rewrite written_mid.
    - exfalso. apply NX. exists i, ct. split; [apply NN|]. split; [apply mid_row|]. split; [apply CN'|]. split; [apply CT'|]. apply HT.
  Qed.

  Lemma runs_SetValByColIndex : runs (SetValByColIndex (Z.of_nat i) (Z.of_nat (List.length A)) v) t (with_rows (A ++ upd row i v :: C) t) tt.
  Proof.
    intros b nw. destruct (SetValByColIndex_eq (Z.of_nat i) (Z.of_nat (List.length A)) v (mkS t b nw) (tb_wf _ _ _ _ _ T)) as [(_ & R)|(NX & _)].
    - rewrite R. rewrite (Nat2Z.id i). now rewrite written_mid.
    - exfalso. apply NX. split; [apply NN|]. split; [apply mid_row|]. exists ct. split; [lia|]. rewrite Nat2Z.id. split; [apply CT'|]. apply HT.
  Qed.

  Lemma runs_SetT : In ct all_types -> not_nil_arg v = true -> runs (SetT ct cn (Z.of_nat (List.length A)) v) t (with_rows (A ++ upd row i v :: C) t) tt.
  Proof.
    intros IT NA b nw. destruct (SetT_eq ct cn (Z.of_nat (List.length A)) v (mkS t b nw) (tb_wf _ _ _ _ _ T) IT) as [(i' & ct' & _ & _ & C1 & _ & _ & R)|(NX & _)].
    - apply arg_has_type; auto; [apply NN|apply HT].
    - rewrite R. assert (i' = i).
      { apply (proj1 (NoDup_nth_error _) (wf_nodup _ (tb_wf _ _ _ _ _ T))); [eapply nth_error_some_lt; exact C1|]. cbn [s_tab] in C1. rewrite C1. symmetry. apply CN'. }
      subst i'. now rewrite written_mid.
    - exfalso. apply NX. exists i, ct. split; [auto|]. split; [apply mid_row|]. split; [apply CN'|]. split; [apply CT'|]. apply HT.
  Qed.

  Lemma runs_SetTByColIndex : In ct all_types -> not_nil_arg v = true ->
    runs (SetTByColIndex ct (Z.of_nat i) (Z.of_nat (List.length A)) v) t (with_rows (A ++ upd row i v :: C) t) tt.
  Proof.
    intros IT NA b nw. destruct (SetTByColIndex_eq ct (Z.of_nat i) (Z.of_nat (List.length A)) v (mkS t b nw) (tb_wf _ _ _ _ _ T) IT) as [(ct' & _ & _ & _ & _ & R)|(NX & _)].
    - apply arg_has_type; auto; [apply NN|apply HT].
    - pose proof CN' as X. apply nth_error_some_lt in X. unfold ColCount. cbn [s_tab]. lia.
    - rewrite R. rewrite (Nat2Z.id i). now rewrite written_mid.
    - exfalso. apply NX. exists ct. split; [auto|]. split; [apply mid_row|]. rewrite Nat2Z.id. split; [apply CT'|]. apply HT.
  Qed.

  Lemma get_mid w : nth_error row i = Some w -> GetValByColIndex t (Z.of_nat i) (Z.of_nat (List.length A)) = Ok w.
  Proof.
    intros H. rewrite get_at_nat by apply (tb_wf _ _ _ _ _ T). unfold at_cell. rewrite (tb_rs _ _ _ _ _ T).
    rewrite nth_error_app2, Nat.sub_diag by lia. cbn [nth_error]. now rewrite H.
  Qed.
End Cell.

Lemma runs_loop n (body : Z -> M unit) (F : nat -> table) :
  (forall k, k < n -> runs (body (Z.of_nat k)) (F k) (F (S k)) tt) -> runs (mfor (zseq n) body) (F 0) (F n) tt.
Proof.
  induction n as [|n IH]; intros H b nw; [reflexivity|].
  rewrite zseq_S, mfor_app. unfold bind. rewrite IH by (intros; apply H; lia). cbn [mfor]. unfold bind. now rewrite H by lia.
Qed.

Lemma mfor_ext {X} (l : list X) (f g : X -> M unit) s : (forall x s, In x l -> f x s = g x s) -> mfor l f s = mfor l g s.
Proof.
  revert s. induction l as [|x l IH]; intros s H; auto. cbn [mfor]. unfold bind. rewrite H by (now left).
  destruct (g x s) as [s' [[]| |]]; auto. apply IH. intros; apply H; now right.
Qed.

(** ---------- SetAllFloatCellsToNaN ---------- *)
Definition dfl (ct : string) : value := match nan_of ct with Some v => v | None => zplain ct end.

Lemma dfl_cell_ok ct : In ct mergeable_types -> cell_ok ct (dfl ct).
Proof.
  intros H. unfold mergeable_types in H. simpl in H.
  repeat (destruct H as [<-|H]; [vm_compute; repeat constructor; auto|]). destruct H.
Qed.

Lemma rows_eq t rs : wf_table t -> List.length (rows t) = List.length rs ->
  Forall (fun row => List.length row = List.length (cnames t)) rs ->
  (forall r row c v, nth_error rs r = Some row -> nth_error row c = Some v -> at_cell t c r = Some v) -> rows t = rs.
Proof.
  intros W L F H. apply nth_error_ext. intros r. destruct (nth_error rs r) as [row|] eqn:R.
  - destruct (nth_error (rows t) r) as [row'|] eqn:R'.
    + f_equal. apply nth_error_ext. intros c. destruct (nth_error row c) as [v|] eqn:V.
      * pose proof (H r row c v R V) as X. unfold at_cell in X. now rewrite R' in X.
      * apply nth_error_None in V. apply nth_error_None. rewrite (wf_row_len t W r row' R').
        rewrite Forall_forall in F. rewrite <- (F row); auto. eapply nth_error_In; eauto.
    + apply nth_error_None in R'. apply nth_error_some_lt in R. lia.
  - apply nth_error_None in R. apply nth_error_None. lia.
Qed.

Lemma nth_error_repeat {X} (x : X) n i y : nth_error (repeat x n) i = Some y -> y = x /\ i < n.
Proof.
  intros H. split; [|apply nth_error_some_lt in H; now rewrite repeat_length in H].
  apply nth_error_In in H. now apply repeat_spec in H.
Qed.

Lemma runs_nan t ns ts ks n : tb t ns ts ks (repeat (map zplain ts) n) ->
  exists t', runs SetAllFloatCellsToNaN t t' tt /\ tb t' ns ts ks (repeat (map dfl ts) n).
Proof.
  intros T. pose proof T as T0. destruct T0 as [W N NM SH PA CN CT KS RS].
  destruct (SetAllFloatCellsToNaN_region (mkS t 0 []) W) as (s' & R & W' & [[] NR NNAN NO]). cbn [s_tab] in *.
  exists (s_tab s'). split.
  { apply (quiet_runs _ _ _ _ 0); [apply quiet_SetAllFloat|]. unfold run. now rewrite R. }
  constructor; auto; try congruence.
  apply rows_eq; auto.
  - unfold RowCount in NR. rewrite RS in NR. rewrite repeat_length in *. lia.
  - apply Forall_forall. intros row I. apply repeat_spec in I. subst row. rewrite map_length, sh_cols, <- (wf_types_len _ W), CT. reflexivity.
  - intros r row c v H1 H2. apply nth_error_repeat in H1 as [-> Lr]. rewrite nth_error_map in H2.
    destruct (nth_error ts c) as [ct|] eqn:HC; [|discriminate]. injection H2 as <-.
    assert (RC : RowCount t = Z.of_nat n) by (unfold RowCount; now rewrite RS, repeat_length).
    assert (CC : (0 <= Z.of_nat c < ColCount t)%Z).
    { unfold ColCount. rewrite <- (wf_types_len _ W), CT. apply nth_error_some_lt in HC. lia. }
    assert (G : GetValByColIndex (s_tab s') (Z.of_nat c) (Z.of_nat r) = Ok (dfl ct)).
    { unfold dfl. destruct (nan_of ct) as [v|] eqn:NV.
      - apply (NNAN _ _ ct); auto; [lia|]. rewrite Nat2Z.id, CT. exact HC.
      - rewrite (NO _ _ ct); auto; [|rewrite Nat2Z.id, CT; exact HC]. rewrite get_at_nat by auto.
        unfold at_cell. rewrite RS. rewrite (nth_error_nth' _ (map zplain ts)) by (rewrite repeat_length; lia).
        rewrite (repeat_spec n (map zplain ts) (nth r (repeat (map zplain ts) n) (map zplain ts))).
        + rewrite nth_error_map, HC. reflexivity.
        + apply nth_In. rewrite repeat_length. lia. }
    rewrite get_at_nat in G by auto. destruct (at_cell (s_tab s') c r); congruence.
Qed.

(** ---------- copyTableCells ---------- *)

(** The cell of row r of f in the column called cn, if f has that column among its first k. *)
Definition overk (k : nat) (f : table) (ns : list string) (r d : list value) : list value :=
  map (fun p => match mget (cmap f) (fst p) with
                | Some i => if Nat.ltb i k then nth i r VNil else snd p
                | None => snd p end) (combine ns d).
Definition over (f : table) (ns : list string) (r d : list value) : list value :=
  map (fun p => match mget (cmap f) (fst p) with Some i => nth i r VNil | None => snd p end) (combine ns d).

Lemma overk_0 f ns r d : List.length ns = List.length d -> overk 0 f ns r d = d.
Proof.
  unfold overk. intros L. transitivity (map snd (combine ns d)); [|now apply map_snd_combine].
  apply map_ext. intros [cn v]. simpl. destruct (mget (cmap f) cn); auto.
Qed.
Lemma overk_full f ns r d : wf_table f -> overk (List.length (cnames f)) f ns r d = over f ns r d.
Proof.
  intros W. unfold overk, over. apply map_ext. intros [cn v]. simpl. destruct (mget (cmap f) cn) as [i|] eqn:M; auto.
  apply (wf_map _ W) in M. apply nth_error_some_lt in M. destruct (Nat.ltb_spec i (List.length (cnames f))); auto. lia.
Qed.
Lemma overk_S k f ns r d ic cn : wf_table f -> NoDup ns -> List.length ns = List.length d ->
  nth_error (cnames f) k = Some cn -> nth_error ns ic = Some cn ->
  upd (overk k f ns r d) ic (nth k r VNil) = overk (S k) f ns r d.
Proof.
  intros W ND L HK HC. apply nth_error_ext. intros j. rewrite nth_error_upd.
  unfold overk at 1. rewrite map_length, combine_length, <- L, Nat.min_id.
  unfold overk. rewrite !nth_error_map, !nth_error_combine.
  destruct (Nat.eqb_spec ic j) as [<-|NE].
  - rewrite HC. assert (ic < List.length ns) by (eapply nth_error_some_lt; eauto).
    destruct (nth_error d ic) as [v|] eqn:D; [|apply nth_error_None in D; lia].
    destruct (Nat.ltb_spec ic (List.length ns)); [|lia]. simpl.
    rewrite (proj2 (wf_map _ W cn k) HK). destruct (Nat.ltb_spec k (S k)); auto. lia.
  - destruct (nth_error ns j) as [n|] eqn:NJ; auto. destruct (nth_error d j) as [v|]; auto. simpl. f_equal.
    destruct (mget (cmap f) n) as [i|] eqn:M; auto.
    assert (i <> k).
    { intros ->. apply (wf_map _ W) in M. rewrite HK in M. injection M as <-. apply NE.
      apply (proj1 (NoDup_nth_error _) ND); [eapply nth_error_some_lt; eauto|congruence]. }
    destruct (Nat.ltb_spec i k), (Nat.ltb_spec i (S k)); auto; lia.
Qed.

(** f's columns are columns of a table with names ns and types ts. *)
Definition within (f : table) (ns ts : list string) : Prop :=
  forall c cn ct, nth_error (cnames f) c = Some cn -> nth_error (ctypes f) c = Some ct ->
    exists i, nth_error ns i = Some cn /\ nth_error ts i = Some ct.

Lemma overk_cells k f ns ts r d : wf_table f -> NoDup ns -> within f ns ts -> Forall2 cell_ok (ctypes f) r ->
  List.length ns = List.length ts -> Forall2 cell_ok ts d -> Forall2 cell_ok ts (overk k f ns r d).
Proof.
  intros W ND WI FR L FD. pose proof (Forall2_len _ _ _ FD) as LD.
  apply Forall2_nth_iff.
  - unfold overk. rewrite map_length, combine_length. lia.
  - intros i ct v H1 H2. unfold overk in H2. rewrite nth_error_map, nth_error_combine in H2.
    destruct (nth_error ns i) as [cn|] eqn:HN; [|discriminate]. destruct (nth_error d i) as [v0|] eqn:HD; [|discriminate].
    simpl in H2. injection H2 as <-.
    assert (C0 : cell_ok ct v0) by (eapply Forall2_nth_both; eauto).
    destruct (mget (cmap f) cn) as [j|] eqn:M; auto. destruct (Nat.ltb_spec j k); auto.
    apply (wf_map _ W) in M. assert (LJ : j < List.length (ctypes f)) by (rewrite (wf_types_len _ W); eapply nth_error_some_lt; eauto).
    destruct (nth_error (ctypes f) j) as [cj|] eqn:CJ; [|apply nth_error_None in CJ; lia].
    destruct (WI j cn cj M CJ) as (i' & I1 & I2).
    assert (i' = i). { apply (proj1 (NoDup_nth_error _) ND); [eapply nth_error_some_lt; eauto|congruence]. }
    subst i'. assert (cj = ct) by congruence. subst cj.
    apply (Forall2_nth_both _ _ _ j _ _ FR CJ). apply nth_error_nth'. rewrite <- (Forall2_len _ _ _ FR). lia.
Qed.

Lemma runs_copy t ns ts ks A d C f : tb t ns ts ks (A ++ repeat d (List.length (rows f)) ++ C) -> wf_table f -> within f ns ts ->
  Forall2 cell_ok ts d ->
  exists t', runs (copyTableCells f (Z.of_nat (List.length A))) t t' tt
    /\ tb t' ns ts ks (A ++ map (fun r => over f ns r d) (rows f) ++ C).
Proof.
  intros T Wf WI CD. pose proof T as [W N NM SH PA CN CT KS RS].
  assert (ND : NoDup ns) by (rewrite <- CN; apply (wf_nodup _ W)).
  assert (LN : List.length ns = List.length ts) by (rewrite <- CN, <- CT; symmetry; apply (wf_types_len _ W)).
  assert (LD : List.length ns = List.length d) by (rewrite LN; apply (Forall2_len _ _ _ CD)).
  pose proof (tb_cells _ _ _ _ _ T) as TC. apply Forall_app in TC as [TA TC]. apply Forall_app in TC as [_ TC].
  set (F := fun k => with_rows (A ++ map (fun r => overk k f ns r d) (rows f) ++ C) t).
  set (G := fun k j => with_rows (A ++ (map (fun r => overk (S k) f ns r d) (firstn j (rows f)) ++ map (fun r => overk k f ns r d) (skipn j (rows f))) ++ C) t).
  assert (OK : forall k, Forall (Forall2 cell_ok ts) (map (fun r => overk k f ns r d) (rows f))).
  { intros k. rewrite Forall_map. eapply Forall_impl; [|apply (wf_cells _ Wf)]. intros r FR. now apply overk_cells. }
  assert (OK' : forall k, Forall (fun r => Forall2 cell_ok ts (overk k f ns r d)) (rows f)).
  { intros k. rewrite <- Forall_map. apply OK. }
  assert (TF : forall k, tb (F k) ns ts ks (A ++ map (fun r => overk k f ns r d) (rows f) ++ C)).
  { intros k. unfold F. eapply tb_rows; eauto. apply Forall_app. split; auto. apply Forall_app. auto. }
  assert (F0 : F 0 = t).
  { unfold F. rewrite (map_ext _ (fun _ => d)) by (intros; now apply overk_0).
    replace (map (fun _ => d) (rows f)) with (repeat d (List.length (rows f))).
    - rewrite <- RS. destruct t; reflexivity.
    - clear. induction (rows f); simpl; congruence. }
  exists (F (List.length (cnames f))). split.
  2:{ rewrite (map_ext (fun r => over f ns r d) (fun r => overk (List.length (cnames f)) f ns r d)); [apply TF|].
      intros r. now rewrite overk_full. }
  unfold copyTableCells. rewrite <- F0 at 1. apply runs_loop. intros k Lk.
  destruct (nth_error (cnames f) k) as [cn|] eqn:HK; [|apply nth_error_None in HK; lia].
  destruct (nth_error (ctypes f) k) as [ct|] eqn:HT; [|apply nth_error_None in HT; rewrite (wf_types_len _ Wf) in HT; lia].
  destruct (WI k cn ct HK HT) as (ic & IC1 & IC2).
  intros b nw. rewrite bind_lift.
  assert (CNE : ColName f (Z.of_nat k) = Ok cn).
  { rewrite ColName_eq. replace (HasColByColIndex f (Z.of_nat k)) with true.
    - rewrite Nat2Z.id. f_equal. now apply nth_error_nth.
    - symmetry. apply HasCol_iff. unfold ColCount. lia. }
  rewrite CNE. revert b nw.
  assert (G0 : G k 0 = F k) by reflexivity.
  assert (GN : G k (List.length (rows f)) = F (S k)).
  { unfold G, F. rewrite firstn_all, skipn_all. simpl. now rewrite app_nil_r. }
  change (runs (mfor (zseq (List.length (rows f))) (fun ri => let* v := lift (GetValByColIndex f (Z.of_nat k) ri) in
     SetVal cn (Z.of_nat (List.length A) + ri) v)) (F k) (F (S k)) tt).
  rewrite <- G0, <- GN. apply runs_loop. intros j Lj.
  destruct (nth_error (rows f) j) as [r|] eqn:HR; [|apply nth_error_None in HR; lia].
  assert (HV : GetValByColIndex f (Z.of_nat k) (Z.of_nat j) = Ok (nth k r VNil) /\ cell_ok ct (nth k r VNil)).
  { assert (FR : Forall2 cell_ok (ctypes f) r). { pose proof (wf_cells _ Wf) as X. rewrite Forall_forall in X. apply X. eapply nth_error_In; eauto. }
    destruct (Forall2_nth _ _ _ _ _ FR HT) as (v & V1 & V2). rewrite (nth_error_nth _ _ VNil V1). split; auto.
    rewrite get_at_nat by auto. unfold at_cell. rewrite HR, V1. reflexivity. }
  destruct HV as [HV HVO]. intros b nw. rewrite bind_lift, HV. revert b nw.
  change (runs (SetVal cn (Z.of_nat (List.length A) + Z.of_nat j) (nth k r VNil)) (G k j) (G k (S j)) tt).
  set (A1 := A ++ map (fun r => overk (S k) f ns r d) (firstn j (rows f))).
  set (C1 := map (fun r => overk k f ns r d) (skipn (S j) (rows f)) ++ C).
  assert (GE : G k j = with_rows (A1 ++ overk k f ns r d :: C1) (G k j)).
  { unfold G, A1, C1. rewrite (skipn_nth _ _ _ HR). cbn [map]. rewrite <- !app_assoc. reflexivity. }
  assert (TG : tb (G k j) ns ts ks (A1 ++ overk k f ns r d :: C1)).
  { assert (TG0 : tb (G k j) ns ts ks (A ++ (map (fun r => overk (S k) f ns r d) (firstn j (rows f)) ++ map (fun r => overk k f ns r d) (skipn j (rows f))) ++ C)).
    { unfold G. eapply tb_rows; eauto. apply Forall_app. split; auto. apply Forall_app. split; auto. apply Forall_app. split.
      - rewrite Forall_map. apply Forall_firstn. apply OK'.
      - rewrite Forall_map. apply Forall_skipn. apply OK'. }
    rewrite (skipn_nth _ _ _ HR) in TG0. cbn [map] in TG0. rewrite <- !app_assoc in TG0. unfold A1, C1. rewrite <- !app_assoc. exact TG0. }
  pose proof (runs_SetVal _ _ _ _ _ _ _ ic cn ct (nth k r VNil) TG IC1 IC2 HVO) as R.
  assert (LA1 : List.length A1 = List.length A + j).
  { unfold A1. rewrite app_length, map_length, firstn_length. lia. }
  rewrite LA1, Nat2Z.inj_add in R.
  replace (G k (S j)) with (with_rows (A1 ++ upd (overk k f ns r d) ic (nth k r VNil) :: C1) (G k j)); [exact R|].
  rewrite (overk_S k f ns r d ic cn); auto.
  unfold G, A1, C1. rewrite (firstn_nth _ _ _ HR). rewrite map_app. cbn [map]. rewrite <- !app_assoc. reflexivity.
Qed.

(** ---------- the number of the table a row comes from ---------- *)
Lemma runs_marks t ns ts ks A B C z : tb t (ns ++ ["_TABLE_"]) (ts ++ ["int"]) ks (A ++ B ++ C) -> List.length ns = List.length ts ->
  in_range KInt z = true ->
  exists t', runs (mfor (zseq (List.length B)) (fun k => SetT "int" "_TABLE_" (Z.of_nat (List.length A) + k) (VInt KInt z))) t t' tt
    /\ tb t' (ns ++ ["_TABLE_"]) (ts ++ ["int"]) ks (A ++ map (fun r => upd r (List.length ns) (VInt KInt z)) B ++ C).
Proof.
  intros T L IR. set (u := fun r => upd r (List.length ns) (VInt KInt z)).
  set (F := fun j => with_rows (A ++ (map u (firstn j B) ++ skipn j B) ++ C) t).
  assert (HN : nth_error (ns ++ ["_TABLE_"]) (List.length ns) = Some "_TABLE_") by (rewrite nth_error_app2, Nat.sub_diag by lia; reflexivity).
  assert (HT : nth_error (ts ++ ["int"]) (List.length ns) = Some "int") by (rewrite nth_error_app2, L, Nat.sub_diag by lia; reflexivity).
  assert (CV : cell_ok "int" (VInt KInt z)) by (split; [reflexivity|exact IR]).
  assert (TF : forall j, tb (F j) (ns ++ ["_TABLE_"]) (ts ++ ["int"]) ks (A ++ (map u (firstn j B) ++ skipn j B) ++ C)).
  { intros j. unfold F. eapply tb_rows; eauto. pose proof (tb_cells _ _ _ _ _ T) as TC. apply Forall_app in TC as [TA TC].
    apply Forall_app in TC as [TB TC]. apply Forall_app. split; auto. apply Forall_app. split; auto. apply Forall_app. split.
    - rewrite Forall_map. apply Forall_firstn. eapply Forall_impl; [|exact TB]. intros r FR. unfold u.
      apply Forall2_nth_iff; [rewrite upd_length; apply (Forall2_len _ _ _ FR)|].
      intros i ct v H1 H2. rewrite nth_error_upd in H2. destruct (Nat.eqb_spec (List.length ns) i) as [<-|NE].
      + destruct (Nat.ltb _ _); [|discriminate]. injection H2 as <-. rewrite HT in H1. now injection H1 as <-.
      + eapply Forall2_nth_both; eauto.
    - now apply Forall_skipn. }
  exists (F (List.length B)). split.
  - replace t with (F 0) at 1. 2:{ unfold F. cbn [firstn map skipn app]. rewrite <- (tb_rs _ _ _ _ _ T). destruct t; reflexivity. }
    apply runs_loop. intros j Lj. destruct (nth_error B j) as [r|] eqn:HR; [|apply nth_error_None in HR; lia].
    set (A1 := A ++ map u (firstn j B)). set (C1 := skipn (S j) B ++ C).
    assert (TG : tb (F j) (ns ++ ["_TABLE_"]) (ts ++ ["int"]) ks (A1 ++ r :: C1)).
    { pose proof (TF j) as X. rewrite (skipn_nth _ _ _ HR) in X. rewrite <- !app_assoc in X. unfold A1, C1. rewrite <- !app_assoc. exact X. }
    pose proof (runs_SetT _ _ _ _ _ _ _ (List.length ns) "_TABLE_" "int" (VInt KInt z) TG HN HT CV) as R.
    assert (LA1 : List.length A1 = List.length A + j) by (unfold A1; rewrite app_length, map_length, firstn_length; lia).
    rewrite LA1, Nat2Z.inj_add in R. fold (u r) in R.
    replace (F (S j)) with (with_rows (A1 ++ u r :: C1) (F j)).
    + apply R; auto. now apply str_in_In.
    + unfold F, A1, C1. rewrite (firstn_nth _ _ _ HR), map_app. cbn [map]. rewrite <- !app_assoc. reflexivity.
  - pose proof (TF (List.length B)) as X. rewrite firstn_all, skipn_all, app_nil_r in X. exact X.
Qed.
