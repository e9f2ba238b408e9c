(** Proofs_MergeRun.v -- the steps of Merge on a table without nested tables: no allocation,
    so each step is a function from table to table. *)
From Coq Require Import ZArith NArith List String Ascii Bool SpecFloat Permutation Lia.
From Verif Require Import Base Model_Names Model_Table Model_Sort Model_Copy Model_Merge Spec Spec_Sort Spec_Copy Spec_Merge.
From Verif Require Import Proofs_Lib Proofs_Table Proofs_Cells Proofs_Struct Proofs_Api Proofs_Pres Samples Proofs_Zero Proofs_Api2.
From Verif Require Import Props_Struct Proofs_Copy Props_Copy Proofs_Order Proofs_Sort Proofs_Search Proofs_Keys Props_Sort Proofs_MergePure.
Import ListNotations.
Local Open Scope string_scope.
Local Open Scope list_scope.

(** m turns t into t' and returns a, without allocating. *)
Definition runs {A} (m : M A) (t t' : table) (a : A) : Prop := forall b nw, m (mkS t b nw) = (mkS t' b nw, Ok a).
Definition quiet {A} (m : M A) : Prop := forall t, exists t' r, forall b nw, m (mkS t b nw) = (mkS t' b nw, r).

Lemma quiet_runs {A} (m : M A) t t' a b : quiet m -> run m b t = (t', Ok a) -> runs m t t' a.
Proof. intros Q R b' nw'. destruct (Q t) as (t1 & r & H). unfold run in R. rewrite H in R. injection R as <- <-. apply H. Qed.
Lemma runs_run {A} (m : M A) t t' a b : runs m t t' a -> run m b t = (t', Ok a).
Proof. intros R. unfold run. now rewrite R. Qed.

Lemma runs_bind {A B} (m : M A) (f : A -> M B) t t1 t2 a c : runs m t t1 a -> runs (f a) t1 t2 c -> runs (bind m f) t t2 c.
Proof. intros R1 R2 b nw. unfold bind. rewrite R1. apply R2. Qed.
Lemma runs_get {B} (f : table -> M B) t t' c : runs (f t) t t' c -> runs (bind get f) t t' c.
Proof. intros R b nw. rewrite bind_get. apply R. Qed.

Lemma quiet_ret {A} (a : A) : quiet (ret a). Proof. intros t. exists t, (Ok a). reflexivity. Qed.
Lemma quiet_fail {A} : quiet (@fail A). Proof. intros t. exists t, Err. reflexivity. Qed.
Lemma quiet_crash {A} : quiet (@crash A). Proof. intros t. exists t, Panic. reflexivity. Qed.
Lemma quiet_get : quiet get. Proof. intros t. exists t, (Ok t). reflexivity. Qed.
Lemma quiet_reads {A} (f : table -> res A) : quiet (reads f). Proof. intros t. exists t, (f t). reflexivity. Qed.
Lemma quiet_lift {A} (f : res A) : quiet (lift f). Proof. intros t. exists t, f. reflexivity. Qed.
Lemma quiet_check c : quiet (check c). Proof. intros t. destruct c; [exists t, (Ok tt)|exists t, Err]; reflexivity. Qed.
Lemma quiet_modify f : quiet (modify f). Proof. intros t. exists (f t), (Ok tt). reflexivity. Qed.
Lemma quiet_bind {A B} (m : M A) (f : A -> M B) : quiet m -> (forall a, quiet (f a)) -> quiet (bind m f).
Proof.
  intros Q F t. destruct (Q t) as (t1 & [a| |] & H).
  - destruct (F a t1) as (t2 & r & H2). exists t2, r. intros b nw. unfold bind. rewrite H. apply H2.
  - exists t1, Err. intros b nw. unfold bind. now rewrite H.
  - exists t1, Panic. intros b nw. unfold bind. now rewrite H.
Qed.
Lemma quiet_mfor {A} (l : list A) body : (forall x, quiet (body x)) -> quiet (mfor l body).
Proof. intros Q. induction l; [apply quiet_ret|]. apply quiet_bind; auto. Qed.
Lemma quiet_set_cell ci ri v : quiet (set_cell ci ri v).
Proof.
  intros t. unfold set_cell. cbn [s_tab].
  destruct (zidx ri (List.length (rows t))) as [r|]; [|do 2 eexists; intros; reflexivity].
  destruct (nth_error (rows t) r) as [row|]; [|do 2 eexists; intros; reflexivity].
  destruct (zidx ci (List.length row)); do 2 eexists; intros; unfold on_tab; cbn [s_tab s_base s_news]; reflexivity.
Qed.

Ltac qt := repeat first
  [ solve [auto with quiet]
  | match goal with
    | |- quiet (bind _ _) => apply quiet_bind; [|intros ?]
    | |- quiet (mfor _ _) => apply quiet_mfor; intros ?
    | |- quiet (if ?c then _ else _) => destruct c
    | |- quiet (match ?c with _ => _ end) => destruct c
    end ].
Global Hint Resolve quiet_ret quiet_fail quiet_crash quiet_get quiet_reads quiet_lift quiet_check quiet_modify quiet_set_cell : quiet.

Lemma quiet_SetName n : quiet (SetName n). Proof. unfold SetName. qt. Qed.
Lemma quiet_SetValByColIndex ci ri v : quiet (SetValByColIndex ci ri v). Proof. unfold SetValByColIndex. qt. Qed.
Lemma quiet_SetVal cn ri v : quiet (SetVal cn ri v). Proof. unfold SetVal. qt. apply quiet_SetValByColIndex. Qed.
Lemma quiet_SetTByColIndex vt ci ri v : quiet (SetTByColIndex vt ci ri v). Proof. unfold SetTByColIndex. qt. Qed.
Lemma quiet_SetT vt cn ri v : quiet (SetT vt cn ri v). Proof. unfold SetT. qt. Qed.
Global Hint Resolve quiet_SetName quiet_SetValByColIndex quiet_SetVal quiet_SetTByColIndex quiet_SetT : quiet.
Lemma quiet_SetAllFloat : quiet SetAllFloatCellsToNaN.
Proof. unfold SetAllFloatCellsToNaN, SetColFloatCellsToNaNByColIndex, SetFloatCellToNaNByColIndex. qt. Qed.
Lemma quiet_AppendSortKey cn : quiet (AppendSortKey cn). Proof. unfold AppendSortKey. qt. Qed.
Global Hint Resolve quiet_AppendSortKey : quiet.
Lemma quiet_SetSortKeys cns : quiet (SetSortKeys cns). Proof. unfold SetSortKeys. qt. Qed.
Lemma quiet_setSortKeyReverse cn : quiet (setSortKeyReverse cn). Proof. unfold setSortKeyReverse. qt. Qed.
Global Hint Resolve quiet_SetSortKeys quiet_setSortKeyReverse : quiet.
Lemma quiet_SetSortKeysReverse cns : quiet (SetSortKeysReverse cns). Proof. unfold SetSortKeysReverse. qt. Qed.
Global Hint Resolve quiet_SetSortKeysReverse : quiet.
Lemma quiet_SetSortKeysFromTable f : quiet (SetSortKeysFromTable f). Proof. unfold SetSortKeysFromTable. qt. Qed.
Lemma quiet_DeleteSortKey cn : quiet (DeleteSortKey cn). Proof. unfold DeleteSortKey. qt. Qed.
Lemma quiet_sortByKeys E : quiet (sortByKeys E). Proof. unfold sortByKeys. qt. Qed.
Global Hint Resolve quiet_SetSortKeysFromTable quiet_DeleteSortKey quiet_sortByKeys : quiet.
Lemma quiet_Sort E cols : quiet (Sort E cols). Proof. unfold Sort. qt. Qed.
Lemma quiet_ReorderColsByColIndex o : quiet (ReorderColsByColIndex o). Proof. unfold ReorderColsByColIndex. qt. Qed.
Global Hint Resolve quiet_Sort quiet_ReorderColsByColIndex : quiet.
Lemma quiet_ReorderCols o : quiet (ReorderCols o). Proof. unfold ReorderCols. qt. Qed.
Global Hint Resolve quiet_ReorderCols : quiet.
Lemma quiet_OrderColsBySortKeys : quiet OrderColsBySortKeys. Proof. unfold OrderColsBySortKeys. qt. Qed.
Lemma quiet_copyTableCells f z : quiet (copyTableCells f z). Proof. unfold copyTableCells. qt. Qed.
Lemma quiet_DeleteRows f l : quiet (DeleteRows f l). Proof. unfold DeleteRows. qt. Qed.
Lemma quiet_DeleteColByColIndex c : quiet (DeleteColByColIndex c). Proof. unfold DeleteColByColIndex. qt. Qed.
Global Hint Resolve quiet_DeleteColByColIndex : quiet.
Lemma quiet_DeleteCol c : quiet (DeleteCol c). Proof. unfold DeleteCol. qt. Qed.
Lemma quiet_merge_cell ci r : quiet (merge_cell ci r). Proof. unfold merge_cell. qt. Qed.
Global Hint Resolve quiet_merge_cell : quiet.
Lemma quiet_merge_row E ri : quiet (merge_row E ri). Proof. unfold merge_row. qt. Qed.
Global Hint Resolve quiet_SetAllFloat quiet_OrderColsBySortKeys quiet_copyTableCells quiet_DeleteRows quiet_DeleteCol quiet_merge_row : quiet.

(** A table under construction. *)
Record tb (t : table) (ns ts : list string) (ks : list skey) (rs : list (list value)) : Prop := {
  tb_wf : wf_table t; tb_nil : is_nil t = false; tb_name : tname t = "Merged"; tb_shape : struct_shape t = false;
  tb_parent : parent t = None; tb_cn : cnames t = ns; tb_ct : ctypes t = ts; tb_ks : skeys t = ks; tb_rs : rows t = rs }.

Lemma tb_rows t ns ts ks rs rs' : tb t ns ts ks rs -> Forall (Forall2 cell_ok ts) rs' -> tb (with_rows rs' t) ns ts ks rs'.
Proof. intros [] F. constructor; auto. apply wf_with_rows; auto; [congruence|intros; congruence]. Qed.
Lemma tb_keys t ns ts ks rs ks' : tb t ns ts ks rs -> tb (with_skeys ks' t) ns ts ks' rs.
Proof. intros []. constructor; auto. now apply wf_with_skeys. Qed.
Lemma tb_cells t ns ts ks rs : tb t ns ts ks rs -> Forall (Forall2 cell_ok ts) rs.
Proof. intros []. subst. now apply wf_cells. Qed.

(** ---------- the header ---------- *)
Lemma absorb_quiet cols : forall s s' r, wf_table (s_tab s) -> is_nil (s_tab s) = false -> rows (s_tab s) = [] ->
  Forall (fun p => valid_name (fst p) /\ In (snd p) all_types) cols ->
  mfor cols absorb s = (s', r) -> s_news s' = s_news s.
Proof.
  induction cols as [|[cn ct] cols IH]; intros s s' r W N R F H.
  - injection H as <- _. reflexivity.
  - inversion F as [|? ? [V T] F']; subst. cbn [fst snd] in *. cbn [mfor] in H.
    destruct (absorb_cases cn ct s W N V T) as [(NC & E & W1)|(i & ct' & C1 & C2 & E)].
    + rewrite (bind_eq_ok _ _ _ _ _ E) in H.
      assert (NW : s_news (col_added cn ct s) = s_news s).
      { simpl. rewrite R. simpl. destruct (is_tab ct); apply app_nil_r. }
      rewrite <- NW. apply (IH _ _ _ W1) in H; auto. simpl. now rewrite R.
    + destruct (ct =? ct').
      * rewrite (bind_eq_ok _ _ _ _ _ E) in H. eapply IH; eauto.
      * rewrite (bind_eq_err _ _ _ _ E) in H. injection H as <- _. reflexivity.
Qed.

Lemma runs_AppendCols t ns ts f : tb t ns ts [] [] -> wf_table f -> is_nil f = false -> shared_cols_agree t f ->
  exists t', runs (AppendColsFromTable (fun _ => f)) t t' tt
    /\ tb t' (ns ++ map fst (new_columns t f)) (ts ++ map snd (new_columns t f)) [] [].
Proof.
  intros T Wf Nf AG. pose proof T as T0. destruct T0 as [W N NM SH PA CN CT KS RS].
  destruct (wf_cols_of f Wf) as (_ & _ & _ & FC & ND).
  assert (AT : agree_types t (cols_of f)).
  { intros cn ct i ct' I H1 H2. unfold cols_of in I. apply In_nth_error in I as (j & J). rewrite nth_error_combine in J.
    destruct (nth_error (cnames f) j) eqn:J1; [|discriminate]. destruct (nth_error (ctypes f) j) eqn:J2; [|discriminate].
    injection J as -> ->. eapply AG; eauto. }
  assert (X : forall b nw, exists s', mfor (cols_of f) absorb (mkS t b nw) = (s', Ok tt) /\ s_base s' = b /\ s_news s' = nw
     /\ wf_table (s_tab s') /\ cols_extended (fun p => True) (missing (cnames t) (cols_of f)) t (s_tab s')).
  { intros b nw. destruct (absorb_loop (cols_of f) (mkS t b nw)) as (s' & ex & W' & B' & _ & CE & [(R & _ & EX)|(R & NA)]); auto; [|contradiction].
    exists s'. split; auto. split; auto. split; [apply absorb_quiet in R; auto|]. split; auto. subst ex.
    eapply cols_extended_weak; [|exact CE]. auto. }
  assert (DET : forall b nw, s_tab (fst (mfor (cols_of f) absorb (mkS t b nw))) = s_tab (fst (mfor (cols_of f) absorb (mkS t 0 [])))).
  { assert (G : forall cols s1 s2, s_tab s1 = s_tab s2 -> wf_table (s_tab s1) -> is_nil (s_tab s1) = false -> rows (s_tab s1) = [] ->
      Forall (fun p => valid_name (fst p) /\ In (snd p) all_types) cols ->
      s_tab (fst (mfor cols absorb s1)) = s_tab (fst (mfor cols absorb s2))).
    { clear. induction cols as [|[cn ct] cols IH]; intros s1 s2 E W N R F; [exact E|].
      inversion F as [|? ? [V T] F']; subst. cbn [fst snd] in *. cbn [mfor].
      destruct (absorb_cases cn ct s1 W N V T) as [(NC & E1 & W1)|(i & ct' & C1 & C2 & E1)];
      (rewrite E in W, N; destruct (absorb_cases cn ct s2 W N V T) as [(NC' & E2 & W2)|(i' & ct2 & C1' & C2' & E2)]).
      - rewrite (bind_eq_ok _ _ _ _ _ E1), (bind_eq_ok _ _ _ _ _ E2). apply IH; auto.
        + unfold col_added. cbn [s_tab]. rewrite <- E, R. reflexivity.
        + simpl. congruence.
        + simpl. now rewrite R.
      - exfalso. apply NC. rewrite E. eapply nth_error_In; eauto.
      - exfalso. apply NC'. rewrite <- E. eapply nth_error_In; eauto.
      - assert (i = i'). { apply (proj1 (NoDup_nth_error _) (wf_nodup _ W)); [|congruence]. rewrite E in C1. eapply nth_error_some_lt; eauto. }
        assert (ct' = ct2) by congruence. subst. destruct (ct =? ct2).
        + rewrite (bind_eq_ok _ _ _ _ _ E1), (bind_eq_ok _ _ _ _ _ E2). apply IH; auto; congruence.
        + rewrite (bind_eq_err _ _ _ _ E1), (bind_eq_err _ _ _ _ E2). exact E. }
    intros b nw. apply G; auto. }
  destruct (X 0 []) as (s0 & R0 & _ & _ & W0 & CE0). rewrite R0 in DET. cbn [fst] in DET.
  exists (s_tab s0). split.
  - intros b nw. rewrite AppendColsFromTable_eq by auto. cbn [s_tab]. rewrite N, Nf.
    destruct (X b nw) as (s' & R & B & NW & _). specialize (DET b nw). rewrite R in *. cbn [fst] in DET.
    destruct s' as [t0 b0 n0]. cbn [s_tab s_base s_news] in *. now subst.
  - destruct CE0 as [[] CN0 CT0 CR0]. rewrite RS in CR0. inversion CR0.
    constructor; auto; try congruence.
    + rewrite CN0, CN. unfold new_columns, missing, cols_of. now rewrite CN.
    + rewrite CT0, CT. unfold new_columns, missing, cols_of. now rewrite CN.
Qed.

Lemma ColType_cols t cn ct : wf_table t -> ColType t cn = Ok ct <-> In (cn, ct) (cols_of t).
Proof.
  intros W. rewrite (wf_ColType_iff t W). unfold cols_of. split.
  - intros (i & H1 & H2). apply nth_error_In with i. rewrite nth_error_combine, H1, H2. reflexivity.
  - intros I. apply In_nth_error in I as (i & I). rewrite nth_error_combine in I. exists i.
    destruct (nth_error (cnames t) i); [|discriminate]. destruct (nth_error (ctypes t) i); [|discriminate]. injection I as -> ->. auto.
Qed.

Lemma combine_app {A B} (a a' : list A) (b b' : list B) : List.length a = List.length b ->
  combine (a ++ a') (b ++ b') = combine a b ++ combine a' b'.
Proof. revert b. induction a as [|x a IH]; intros [|y b] L; try discriminate; auto. simpl. f_equal. apply IH. now injection L. Qed.
Lemma combine_split_eq {A B} (l : list (A * B)) : combine (map fst l) (map snd l) = l.
Proof. induction l as [|[a b] l IH]; simpl; congruence. Qed.

Lemma mergeable_all ct : In ct mergeable_types -> In ct all_types.
Proof. intros H. unfold mergeable_types in H. simpl in H. apply str_in_In. repeat (destruct H as [<-|H]; [reflexivity|]). destruct H. Qed.

Lemma keys_ok_cols t ks : wf_table t -> skeys t = ks ->
  Forall (fun k => ColType t (k_col k) = Ok (k_type k) /\ In (k_type k) sortable_types) ks -> keys_ok t.
Proof.
  intros W KS F. unfold keys_ok. rewrite KS. eapply Forall_impl; [|exact F]. intros k [C S].
  apply (wf_ColType_iff t W) in C as (i & H1 & H2). exists i. auto.
Qed.

Lemma runs_keys t ns ts ks rs from : tb t ns ts ks rs -> skeys from <> [] -> NoDup (map k_col (skeys from)) ->
  Forall (fun k => ColType t (k_col k) = Ok (k_type k) /\ In (k_type k) sortable_types) (skeys from) ->
  exists t', runs (SetSortKeysFromTable from) t t' tt /\ tb t' ns ts (skeys from) rs.
Proof.
  intros T NE ND F. destruct (C39_same_keys t 0 from (tb_wf _ _ _ _ _ T) NE F ND) as (t' & R & SB & KS).
  exists t'. split; [eapply quiet_runs; [|exact R]; auto with quiet|]. rewrite SB, KS. eapply tb_keys. exact T.
Qed.

Definition others (ks : list skey) (ns : list string) : list string :=
  filter (fun n => if in_dec string_dec n (map k_col ks) then false else true) ns.

Lemma runs_order t ns ts ks : tb t ns ts ks [] -> NoDup (map k_col ks) ->
  Forall (fun k => ColType t (k_col k) = Ok (k_type k) /\ In (k_type k) sortable_types) ks ->
  exists t' ts', runs OrderColsBySortKeys t t' tt /\ tb t' (map k_col ks ++ others ks ns) ts' ks []
    /\ forall cn, ColType t' cn = ColType t cn.
Proof.
  intros T ND F. pose proof T as T0. destruct T0 as [W N NM SH PA CN CT KS RS].
  destruct (C44_OrderColsBySortKeys t 0 W) as (t' & R & SB & CC & AT & BN).
  { eapply keys_ok_cols; eauto. }
  { congruence. }
  assert (W' : wf_table t').
  { replace t' with (fst (run OrderColsBySortKeys 0 t)) by (now rewrite R).
    apply run_pres; auto; [apply pres_OrderColsBySortKeys|]. unfold ptrs_lt. rewrite RS. constructor. }
  exists t', (ctypes t'). split; [eapply quiet_runs; [|exact R]; auto with quiet|].
  split; [|intros cn; apply (BN cn 0%Z)].
  destruct SB. constructor; auto; try congruence.
  - apply nth_error_ext. intros i. destruct (nth_error (map k_col ks ++ others ks ns) i) as [n|] eqn:H.
    + assert (H' : nth_error (map k_col (skeys t) ++ non_key_cols t) i = Some n).
      { unfold non_key_cols. rewrite KS, CN. exact H. }
      apply AT in H'. rewrite ColName_eq in H'. destruct (HasColByColIndex t' (Z.of_nat i)) eqn:HC; [|discriminate].
      injection H' as <-. rewrite Nat2Z.id. apply HasCol_iff in HC. apply nth_error_nth'. unfold ColCount in HC. lia.
    + assert (PL : Permutation (map k_col ks ++ others ks ns) ns).
      { subst ns. apply NoDup_Permutation; [|apply (wf_nodup _ W)|].
        - apply NoDup_app2; auto.
          + apply NoDup_filter, (wf_nodup _ W).
          + intros n I J. apply filter_In in J as [_ J]. destruct (in_dec _ _ _); [discriminate|contradiction].
        - intros n. rewrite in_app_iff. unfold others. rewrite filter_In. split.
          + intros [I|[I _]]; auto. apply in_map_iff in I as (k & <- & I). rewrite Forall_forall in F.
            destruct (F k I) as [C _]. apply (wf_ColType_iff t W) in C as (j & C & _). eapply nth_error_In; eauto.
          + intros I. destruct (in_dec string_dec n (map k_col ks)) as [J|J]; auto. }
      apply nth_error_None in H. rewrite (Permutation_length PL) in H. apply nth_error_None.
      unfold ColCount in CC. rewrite <- CN in H. lia.
  - rewrite <- length_zero_iff_nil. unfold RowCount in *. rewrite RS in *. simpl in *. lia.
Qed.

Lemma runs_AppendCol t ns ts ks rs cn ct : tb t ns ts ks rs -> valid_name cn -> ~ In cn ns -> In ct all_types -> is_tab ct = false ->
  exists t', runs (AppendCol cn ct) t t' tt /\ tb t' (ns ++ [cn]) (ts ++ [ct]) ks (map (fun row => row ++ [zplain ct]) rs).
Proof.
  intros T V NI IT NT. pose proof T as T0. destruct T0 as [W N NM SH PA CN CT KS RS].
  assert (CA : can_append_col t cn ct = true).
  { unfold can_append_col. rewrite N. cbn [negb andb]. rewrite (proj2 (IsValidColName_spec cn) V), (proj2 (IsValidColType_spec ct) IT).
    cbn [andb]. destruct (mget (cmap t) cn) eqn:M; auto. exfalso. apply NI. rewrite <- CN.
    apply (wf_map _ W) in M. eapply nth_error_In; eauto. }
  exists (s_tab (col_added cn ct (mkS t 0 []))). split.
  - intros b nw. rewrite AppendCol_eq by auto. cbn [s_tab]. rewrite CA. unfold col_added. cbn [s_tab s_base s_news]. rewrite NT.
    cbn [repeat]. rewrite app_nil_r. f_equal. f_equal. f_equal. apply mapi_ext_in. intros. unfold zcol. now rewrite NT.
  - constructor; auto; try (simpl; congruence).
    + apply col_added_wf; auto.
    + simpl. rewrite RS. generalize 0 at 2. clear -NT. induction rs as [|r rs IH]; intros i; simpl; auto. unfold zcol at 1. rewrite NT. f_equal. apply IH.
Qed.

Lemma zeros_plain ts : Forall (fun ct => is_tab ct = false) ts -> forall p, zeros p ts = map zplain ts.
Proof. induction 1 as [|ct ts H F IH]; intros p; simpl; auto. now rewrite H, IH. Qed.
Lemma ntab_plain ts : Forall (fun ct => is_tab ct = false) ts -> ntab ts = 0.
Proof. unfold ntab. induction 1 as [|ct ts H F IH]; simpl; auto. now rewrite H. Qed.

Lemma runs_AppendRows t ns ts ks n : tb t ns ts ks [] -> Forall (fun ct => is_tab ct = false) ts ->
  exists t', runs (AppendRows (Z.of_nat n)) t t' tt /\ tb t' ns ts ks (repeat (map zplain ts) n).
Proof.
  intros T NT. pose proof T as T0. destruct T0 as [W N NM SH PA CN CT KS RS].
  exists (with_rows (repeat (map zplain ts) n) t).
  assert (ZR : forall p, zero_rows p ts n = repeat (map zplain ts) n).
  { induction n as [|m IH]; intros p; simpl; auto. now rewrite zeros_plain, IH. }
  split.
  - intros b nw. rewrite AppendRows_eq by auto. cbn [s_tab]. rewrite N.
    replace (Z.of_nat n <? 0)%Z with false by (symmetry; apply Z.ltb_ge; lia).
    unfold rows_added. cbn [s_tab s_base s_news]. rewrite RS, CT, Nat2Z.id, ZR, ntab_plain by auto.
    rewrite Nat.mul_0_r. cbn [repeat app]. now rewrite app_nil_r.
  - eapply tb_rows; eauto. apply Forall_forall. intros row I. apply repeat_spec in I. subst row.
    pose proof (wf_types _ W) as FT. rewrite CT in FT. clear -NT FT. induction ts as [|ct ts IH]; constructor.
    + inversion FT; inversion NT; subst. now apply zplain_cell_ok.
    + inversion FT; inversion NT; subst. auto.
Qed.
