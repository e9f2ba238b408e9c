(** Proofs_MergeDelete.v -- Merge, from the marked rows to the result. *)
From Coq Require Import ZArith NArith List String Ascii Bool SpecFloat Permutation Lia.
From Verif Require Import Base Model_Names Model_Table Model_Sort Model_Copy Model_Merge Spec Spec_Sort Spec_Copy Spec_Merge.
From Verif Require Import Proofs_Lib Proofs_Table Proofs_Cells Proofs_Struct Proofs_Api Proofs_Pres Samples Proofs_Zero Proofs_Api2.
From Verif Require Import Props_Struct Proofs_Copy Props_Copy Proofs_Order Proofs_Sort Proofs_Search Proofs_Keys Props_Sort Proofs_MergePure Proofs_MergeRun Proofs_MergeFill Proofs_MergeLoop.
Import ListNotations.
Local Open Scope string_scope.
Local Open Scope list_scope.

(** The computation fails on t. *)
Definition fails {A} (m : M A) (t : table) : Prop := forall b nw, exists s', m (mkS t b nw) = (s', Err).
Lemma fails_bind {A B} (m : M A) (f : A -> M B) t t1 a : runs m t t1 a -> fails (f a) t1 -> fails (bind m f) t.
Proof. intros R1 R2 b nw. unfold bind. rewrite R1. apply R2. Qed.
Lemma fails_first {A B} (m : M A) (f : A -> M B) t : fails m t -> fails (bind m f) t.
Proof. intros R b nw. destruct (R b nw) as [s' H]. exists s'. unfold bind. now rewrite H. Qed.

Lemma GetVal_cell t cn r v : wf_table t -> GetVal t cn r = Ok v <->
  exists i row, (0 <= r)%Z /\ nth_error (cnames t) i = Some cn /\ nth_error (rows t) (Z.to_nat r) = Some row /\ nth_error row i = Some v.
Proof.
  intros W. split.
  - intros G. destruct (in_dec string_dec cn (cnames t)) as [I|I]; [|rewrite (GetVal_no_col t cn r W I) in G; discriminate].
    apply In_nth_error in I as (i & I). assert (CA : col_at t (Z.of_nat i) cn) by (split; [lia|now rewrite Nat2Z.id]).
    rewrite (GetVal_col_at t _ cn r W CA), GetValByColIndex_eq in G by auto. destruct (is_nil t); [discriminate|].
    destruct (HasRow t r && HasColByColIndex t (Z.of_nat i)) eqn:Q; [|discriminate]. apply andb_true_iff in Q as [Q1 Q2].
    apply HasRow_iff in Q1. rewrite Nat2Z.id in G. unfold RowCount in Q1.
    destruct (nth_error (rows t) (Z.to_nat r)) as [row|] eqn:R; [|apply nth_error_None in R; lia].
    exists i, row. split; [lia|]. split; auto. split; auto. unfold at_cell in G. rewrite R in G.
    destruct (nth_error row i) eqn:V; congruence.
  - intros (i & row & H0 & H1 & H2 & H3). assert (CA : col_at t (Z.of_nat i) cn) by (split; [lia|now rewrite Nat2Z.id]).
    rewrite (GetVal_col_at t _ cn r W CA), GetValByColIndex_eq by auto.
    pose proof (nth_error_some_lt _ _ _ H1). pose proof (nth_error_some_lt _ _ _ H2).
    destruct (is_nil t) eqn:QN. { rewrite (wf_nil_rows t W QN) in H2. destruct (Z.to_nat r); discriminate. }
    replace (HasRow t r) with true by (symmetry; apply HasRow_iff; unfold RowCount; lia).
    replace (HasColByColIndex t (Z.of_nat i)) with true by (symmetry; apply HasCol_iff; unfold ColCount; lia).
    cbn [andb]. rewrite Nat2Z.id. unfold at_cell. now rewrite H2, H3.
Qed.

(** ---------- keys ---------- *)
Definition typed_lists (N TS : list string) (K : list skey) : Prop :=
  Forall (fun k => exists i, nth_error N i = Some (k_col k) /\ nth_error TS i = Some (k_type k) /\ In (k_type k) sortable_types) K.

Lemma typed_of_lists t ns ts ks rs K : tb t ns ts ks rs -> typed_lists ns ts K -> typed_keys t K.
Proof.
  intros T F. eapply Forall_impl; [|exact F]. intros k (i & H1 & H2 & H3). split; auto.
  apply (wf_ColType_iff t (tb_wf _ _ _ _ _ T)). exists i. rewrite (tb_cn _ _ _ _ _ T), (tb_ct _ _ _ _ _ T). auto.
Qed.
Lemma typed_app N TS K n' t' : typed_lists N TS K -> typed_lists (N ++ n') (TS ++ t') K.
Proof.
  intros F. eapply Forall_impl; [|exact F]. intros k (i & H1 & H2 & H3). exists i.
  rewrite !nth_error_app1 by (eapply nth_error_some_lt; eauto). auto.
Qed.

Lemma runs_key t ns ts ks rs i cn ct : tb t ns ts ks rs -> nth_error ns i = Some cn -> nth_error ts i = Some ct -> In ct sortable_types ->
  runs (AppendSortKey cn) t (with_skeys (ks ++ [mkKey cn ct false]) t) tt.
Proof.
  intros T H1 H2 S b nw. assert (CT : ColType t cn = Ok ct).
  { apply (wf_ColType_iff t (tb_wf _ _ _ _ _ T)). exists i. now rewrite (tb_cn _ _ _ _ _ T), (tb_ct _ _ _ _ _ T). }
  unfold AppendSortKey. rewrite bind_reads. cbn [s_tab]. rewrite CT.
  assert (Q1 : (ct =? "") = false). { apply String.eqb_neq. intros ->. revert S. apply str_in_false. reflexivity. }
  assert (Q2 : str_in ct sortable_types = true) by now apply str_in_In.
  rewrite Q1, Q2. rewrite <- (tb_ks _ _ _ _ _ T). reflexivity.
Qed.

Lemma remove_last {A} (l : list A) x : remove_at (List.length l) (l ++ [x]) = l.
Proof.
  unfold remove_at. rewrite firstn_app, firstn_all, Nat.sub_diag. rewrite skipn_all2 by (rewrite app_length; simpl; lia).
  cbn [firstn]. now rewrite !app_nil_r.
Qed.

Lemma runs_unkey t ns ts ks rs k i : tb t ns ts (ks ++ [k]) rs -> nth_error ns i = Some (k_col k) -> ~ In (k_col k) (map k_col ks) ->
  runs (DeleteSortKey (k_col k)) t (with_skeys ks t) tt.
Proof.
  intros T H1 NI. eapply (quiet_runs _ _ _ _ 0); [apply quiet_DeleteSortKey|].
  destruct (proj1 (C39_DeleteSortKey t 0 (k_col k) (tb_wf _ _ _ _ _ T)) ks k []) as (t' & R & S1 & S2); auto.
  - apply (tb_ks _ _ _ _ _ T).
  - rewrite (tb_cn _ _ _ _ _ T). eapply nth_error_In; eauto.
  - rewrite R. f_equal. rewrite S1, S2. now rewrite app_nil_r.
Qed.

(** ---------- deleting the last column ---------- *)
Lemma runs_drop_col t ns ts ks rs cn ct : tb t (ns ++ [cn]) (ts ++ [ct]) ks rs -> List.length ns = List.length ts ->
  exists t', runs (DeleteCol cn) t t' tt /\ tb t' ns ts ks (map (firstn (List.length ts)) rs).
Proof.
  intros T L. pose proof T as [W N NM SH PA CN CT KS RS].
  assert (H : nth_error (cnames t) (List.length ns) = Some cn) by (rewrite CN, nth_error_app2, Nat.sub_diag by lia; reflexivity).
  assert (HL : List.length ns < List.length (cnames t)) by (eapply nth_error_some_lt; eauto).
  exists (s_tab (col_deleted (List.length ns) (mkS t 0 []))). split.
  - eapply (quiet_runs _ _ _ _ 0); [apply quiet_DeleteCol|].
    rewrite (C09_DeleteCol t 0 (Z.of_nat (List.length ns)) cn W).
    2:{ split; [|rewrite Nat2Z.id; exact H]. lia. }
    unfold run. rewrite DeleteColByColIndex_eq. cbn [s_tab].
    replace (HasColByColIndex t (Z.of_nat (List.length ns))) with true by (symmetry; apply HasCol_iff; unfold ColCount; lia).
    rewrite Nat2Z.id. reflexivity.
  - constructor; try assumption.
    + apply (col_deleted_wf _ (mkS t 0 [])); auto.
    + cbn. rewrite CN. apply remove_last.
    + cbn. rewrite CT, L. apply remove_last.
    + cbn. rewrite RS. apply map_ext_in. intros row I. pose proof (tb_cells _ _ _ _ _ T) as F. rewrite Forall_forall in F.
      apply F, Forall2_len in I. rewrite app_length in I. simpl in I. unfold remove_at. rewrite skipn_all2 by lia. rewrite app_nil_r. now rewrite L.
Qed.

(** ---------- deleting the marked rows ---------- *)
Lemma filter_range {A} (p : A -> bool) l : forall f n, f <= n -> n < List.length l ->
  (forall i x, nth_error l i = Some x -> p x = false <-> f <= i <= n) -> filter p l = firstn f l ++ skipn (S n) l.
Proof.
  induction l as [|a l IH]; intros f n FN NL H; [simpl in NL; lia|].
  destruct f as [|f].
  - assert (PA : p a = false) by (apply (H 0); [reflexivity|lia]). simpl. rewrite PA. destruct n as [|n].
    + simpl. clear IH. assert (F : Forall (fun x => p x = true) l).
      { apply Forall_forall. intros x I. apply In_nth_error in I as (j & J). destruct (p x) eqn:Q; auto. apply (H (S j)) in Q; [lia|exact J]. }
      clear -F. induction F as [|x l P F IH]; auto. simpl. now rewrite P, IH.
    + rewrite (IH 0 n); [reflexivity|lia|simpl in NL; lia|]. intros i x J. rewrite (H (S i) x J). lia.
  - destruct (p a) eqn:PA. 2:{ apply (H 0) in PA; [lia|reflexivity]. }
    simpl. rewrite PA. destruct n as [|n]; [lia|]. simpl. f_equal. apply IH; [lia|simpl in NL; lia|].
    intros i x J. rewrite (H (S i) x J). lia.
Qed.

Definition del_key : skey := mkKey "_DELETE_" "bool" false.

Lemma last_app1 {A} (l : list A) n d x : nth_error l n = Some x -> List.length l = S n -> last l d = x.
Proof.
  intros H L. assert (l = firstn n l ++ [x]).
  { rewrite <- (firstn_skipn n l) at 1. f_equal. rewrite (skipn_nth _ _ _ H). f_equal. apply skipn_all2. lia. }
  rewrite H0. apply last_last.
Qed.

Section Delete.
  Context (E : env) (K : list skey) (N TS : list string) (from : table).
  Let ns : list string := (N ++ ["_TABLE_"]) ++ ["_DELETE_"].
  Let ts : list string := (TS ++ ["int"]) ++ ["bool"].
  Hypothesis EO : env_ok E.
  Hypothesis LN : List.length N = List.length TS.
  Hypothesis KF : skeys from = K.
  Hypothesis KN : K <> [].
  Hypothesis KD : NoDup (map k_col K).
  Hypothesis TK : typed_lists N TS K.

  Definition merge_tail : M unit :=
    SetSortKeys ["_DELETE_"] ;;;
    Sort E [] ;;;
    let* fl := reads (fun t => SearchRange E t [VBool true]) in
    DeleteRows (fst fl) (snd fl) ;;;
    DeleteCol "_DELETE_" ;;;
    DeleteCol "_TABLE_" ;;;
    SetSortKeysFromTable from ;;;
    Sort E [].

  Lemma nth_del : nth_error ns (S (List.length TS)) = Some "_DELETE_" /\ nth_error ts (S (List.length TS)) = Some "bool".
  Proof.
    assert (G : forall (l : list string) x y, List.length l = List.length TS -> nth_error ((l ++ [x]) ++ [y]) (S (List.length TS)) = Some y).
    { intros l x y L. replace (S (List.length TS)) with (List.length (l ++ [x]) + 0) by (rewrite app_length; simpl; lia).
      rewrite nth_error_app2 by lia. rewrite Nat.add_comm, Nat.add_sub. reflexivity. }
    split; apply G; auto.
  Qed.

  Lemma row_del row : Forall2 cell_ok ts row -> exists b, nth_error row (S (List.length TS)) = Some (VBool b) /\ alive row = negb b.
  Proof.
    intros F. destruct nth_del as [_ H]. destruct (Forall2_nth _ _ _ _ _ F H) as (v & V1 & V2 & _).
    destruct v as [|b|s|k z|f|f|o|o|d|x]; try discriminate V2; try contradiction V2.
    - exists b. split; auto. unfold alive. rewrite (last_app1 _ _ VNil _ V1).
      + now destruct b.
      + apply Forall2_len in F. unfold ts in F. rewrite !app_length in F. simpl in F. lia.
    - destruct k; simpl in V2; try discriminate V2; destruct V2; discriminate.
    - simpl in V2. destruct V2; discriminate.
    - destruct o; [discriminate V2|destruct V2].
  Qed.

  Lemma runs_tail t rs : tb t ns ts K rs ->
    ((exists row, In row rs /\ alive row = false) ->
       exists t' rs', runs merge_tail t t' tt /\ tb t' N TS K rs'
         /\ Permutation rs' (map (firstn (List.length TS)) (filter alive rs))
         /\ (no_nan_keys t' -> sorted_table E t'))
    /\ ((forall row, In row rs -> alive row = true) -> fails merge_tail t).
  Proof.
    intros T. destruct nth_del as [HN HT].
    assert (R1 : runs (SetSortKeys ["_DELETE_"]) t (with_skeys [del_key] t) tt).
    { unfold SetSortKeys. pose proof (tb_keys _ _ _ _ _ [] T) as T0.
      pose proof (runs_key _ _ _ _ _ _ _ _ T0 HN HT ltac:(now apply str_in_In)) as R.
      intros b nw. cbn [mfor]. unfold bind at 1, modify. cbn [on_tab]. 
      change (bind (AppendSortKey "_DELETE_") (fun _ => ret tt) (mkS (with_skeys [] t) b nw) = (mkS (with_skeys [del_key] t) b nw, Ok tt)).
      unfold bind. rewrite R. reflexivity. }
    pose proof (tb_keys _ _ _ _ _ [del_key] T) as T1. set (t1 := with_skeys [del_key] t) in *.
    assert (TY : typed_lists ns ts [del_key]).
    { constructor; [|constructor]. exists (S (List.length TS)). split; auto. split; auto. now apply str_in_In. }
    destruct (runs_sort E t1 ns ts [del_key] rs EO T1 ltac:(discriminate) (typed_of_lists _ _ _ _ _ _ T1 TY)) as (t2 & rs2 & R2 & T2 & P2 & E2 & S2 & _).
    assert (FB : forall row, In row rs -> exists b, nth_error row (S (List.length TS)) = Some (VBool b) /\ alive row = negb b).
    { intros row I. apply row_del. pose proof (tb_cells _ _ _ _ _ T) as F. rewrite Forall_forall in F. auto. }
    assert (GV : forall t0 rs0 k, tb t0 ns ts k rs0 -> forall i row b, nth_error rs0 i = Some row -> nth_error row (S (List.length TS)) = Some (VBool b) ->
      GetVal t0 "_DELETE_" (Z.of_nat i) = Ok (VBool b)).
    { intros t0 rs0 k T0 i row b H1 H2. apply (GetVal_cell t0 _ _ _ (tb_wf _ _ _ _ _ T0)). exists (S (List.length TS)), row.
      rewrite (tb_cn _ _ _ _ _ T0), (tb_rs _ _ _ _ _ T0), Nat2Z.id. repeat split; auto; lia. }
    assert (NN1 : no_nan_keys t1).
    { intros k r v Ik G. unfold t1 in Ik. cbn in Ik. destruct Ik as [<-|[]]. cbn [k_col del_key] in G.
      apply (GetVal_cell t1 _ _ _ (tb_wf _ _ _ _ _ T1)) in G as (i & row & G0 & G1 & G2 & G3).
      rewrite (tb_rs _ _ _ _ _ T1) in G2. apply nth_error_In in G2. 
      assert (i = S (List.length TS)).
      { apply (proj1 (NoDup_nth_error _) (wf_nodup _ (tb_wf _ _ _ _ _ T1))); [eapply nth_error_some_lt; exact G1|]. rewrite G1, (tb_cn _ _ _ _ _ T1). auto. }
      subst i. destruct (FB _ G2) as (b & B1 & _). rewrite B1 in G3. injection G3 as <-. intros [X|X]; discriminate. }
    specialize (S2 NN1).
    assert (NN2 : no_nan_keys t2).
    { intros k r v Ik G. rewrite (tb_ks _ _ _ _ _ T2) in Ik. destruct Ik as [<-|[]]. cbn [k_col del_key] in G.
      apply (GetVal_cell t2 _ _ _ (tb_wf _ _ _ _ _ T2)) in G as (i & row & G0 & G1 & G2 & G3).
      rewrite (tb_rs _ _ _ _ _ T2) in G2. apply nth_error_In, (Permutation_in _ P2) in G2.
      assert (i = S (List.length TS)).
      { apply (proj1 (NoDup_nth_error _) (wf_nodup _ (tb_wf _ _ _ _ _ T2))); [eapply nth_error_some_lt; exact G1|]. rewrite G1, (tb_cn _ _ _ _ _ T2). auto. }
      subst i. destruct (FB _ G2) as (b & B1 & _). rewrite B1 in G3. injection G3 as <-. intros [X|X]; discriminate. }
    assert (KO : keys_ok t2). { eapply keys_ok_cols; [apply (tb_wf _ _ _ _ _ T2)|apply (tb_ks _ _ _ _ _ T2)|]. apply (typed_of_lists _ _ _ _ _ _ T2 TY). }
    pose proof (C19_SearchRange E t2 [VBool true] (tb_wf _ _ _ _ _ T2) KO NN2) as SR.
    rewrite (tb_ks _ _ _ _ _ T2) in SR. specialize (SR ltac:(discriminate)).
    assert (SV : search_values t2 [VBool true]).
    { unfold search_values. rewrite (tb_ks _ _ _ _ _ T2). constructor; [|constructor]. split; [split; reflexivity|]. intros [X|X]; discriminate. }
    specialize (SR SV S2).
    assert (RM : forall i row, nth_error rs2 i = Some row -> row_matches t2 [VBool true] (Z.of_nat i) <-> alive row = false).
    { intros i row H. destruct (FB row) as (b & B1 & B2). { eapply Permutation_in; [exact P2|]. eapply nth_error_In; eauto. }
      pose proof (GV _ _ _ T2 _ _ _ H B1) as G. unfold row_matches. rewrite (tb_ks _ _ _ _ _ T2), B2. split.
      - intros F. inversion F as [|? ? ? ? (c & C1 & C2) _]. subst. cbn [k_col del_key] in C1. rewrite G in C1. injection C1 as <-.
        destruct C2 as [C2|C2]; [now injection C2 as ->|destruct C2].
      - intros X. constructor; [|constructor]. exists (VBool b). split; auto. left. destruct b; [reflexivity|discriminate X]. }
    assert (RC : RowCount t2 = Z.of_nat (List.length rs2)) by (unfold RowCount; now rewrite (tb_rs _ _ _ _ _ T2)).
    split.
    - intros (row & Ir & Ar). destruct (SearchRange E t2 [VBool true]) as [[f l]| |] eqn:QS; [| |destruct SR].
      2:{ exfalso. apply (Permutation_in _ (Permutation_sym P2)) in Ir. apply In_nth_error in Ir as (i & Hi).
          apply (SR (Z.of_nat i)); [|now apply (RM i row)]. rewrite RC. apply nth_error_some_lt in Hi. lia. }
      destruct SR as (B1 & B2 & B3).
      assert (FR : filter alive rs2 = firstn (Z.to_nat f) rs2 ++ skipn (S (Z.to_nat l)) rs2).
      { apply filter_range; [lia|lia|]. intros i x H. rewrite <- (RM i x H). rewrite (B3 (Z.of_nat i)); [lia|].
        apply nth_error_some_lt in H. lia. }
      assert (R3 : runs (DeleteRows f l) t2 (with_rows (filter alive rs2) t2) tt).
      { intros b nw. rewrite DeleteRows_eq. cbn [s_tab].
        replace ((0 <=? f) && (f <=? l) && (l <? RowCount t2))%Z with true.
        - unfold rows_deleted. cbn [s_tab on_tab]. rewrite (tb_rs _ _ _ _ _ T2), FR. reflexivity.
        - symmetry. rewrite !andb_true_iff. repeat split; [apply Z.leb_le|apply Z.leb_le|apply Z.ltb_lt]; lia. }
      assert (T3 : tb (with_rows (filter alive rs2) t2) ns ts [del_key] (filter alive rs2)).
      { eapply tb_rows; [exact T2|]. pose proof (tb_cells _ _ _ _ _ T2) as F. rewrite Forall_forall in *. intros x I. apply F. apply filter_In in I. apply I. }
      destruct (runs_drop_col _ _ _ _ _ _ _ T3) as (t4 & R4 & T4); [rewrite !app_length; simpl; lia|].
      destruct (runs_drop_col _ _ _ _ _ _ _ T4) as (t5 & R5 & T5); [exact LN|].
      destruct (runs_keys _ _ _ _ _ from T5) as (t6 & R6 & T6).
      + now rewrite KF.
      + now rewrite KF.
      + rewrite KF. exact (typed_of_lists _ _ _ _ _ _ T5 TK).
      + rewrite KF in T6. destruct (runs_sort E t6 N TS K _ EO T6 KN (typed_of_lists _ _ _ _ _ _ T6 TK)) as (t7 & rs7 & R7 & T7 & P7 & E7 & S7 & _).
        exists t7, rs7. split; [|split; [exact T7|split]].
        * unfold merge_tail. eapply runs_bind; [exact R1|]. eapply runs_bind; [exact R2|].
          eapply runs_eq. { intros b nw. rewrite bind_reads. cbn [s_tab]. rewrite QS. reflexivity. }
          cbn [fst snd]. eapply runs_bind; [exact R3|]. eapply runs_bind; [exact R4|]. eapply runs_bind; [exact R5|].
          eapply runs_bind; [exact R6|]. exact R7.
        * eapply Permutation_trans; [exact P7|]. rewrite map_map.
          assert (ML : map (fun x => firstn (List.length TS) (firstn (List.length (TS ++ ["int"])) x)) (filter alive rs2) = map (firstn (List.length TS)) (filter alive rs2)).
          { apply map_ext. intros x. rewrite firstn_firstn, app_length. f_equal. lia. }
          rewrite ML. apply Permutation_map. clear -P2. induction P2; simpl; auto.
          -- destruct (alive x); auto.
          -- destruct (alive x), (alive y); auto. constructor.
          -- eapply Permutation_trans; eauto.
        * intros NN. apply S7. intros k r v Ik G. 
          assert (Ik' : In k (skeys t7)) by (rewrite (tb_ks _ _ _ _ _ T7), <- (tb_ks _ _ _ _ _ T6); exact Ik).
          apply (GetVal_cell t6 _ _ _ (tb_wf _ _ _ _ _ T6)) in G as (i & row0 & G0 & G1 & G2 & G3).
          rewrite (tb_rs _ _ _ _ _ T6) in G2. apply nth_error_In in G2. apply (Permutation_in _ (Permutation_sym P7)) in G2.
          apply In_nth_error in G2 as (j & J). apply (NN k (Z.of_nat j) v Ik').
          apply (GetVal_cell t7 _ _ _ (tb_wf _ _ _ _ _ T7)). exists i, row0. rewrite Nat2Z.id, (tb_rs _ _ _ _ _ T7), (tb_cn _ _ _ _ _ T7), <- (tb_cn _ _ _ _ _ T6).
          repeat split; auto; lia.
    - intros AL. unfold merge_tail. eapply fails_bind; [exact R1|]. eapply fails_bind; [exact R2|]. apply fails_first.
      intros b nw. unfold reads, bind, get, lift. cbn. destruct (SearchRange E t2 [VBool true]) as [[f l]| |] eqn:QS; [|eexists; reflexivity|destruct SR].
      exfalso. destruct SR as (B1 & B2 & B3). rewrite RC in B2.
      destruct (nth_error rs2 (Z.to_nat f)) as [row|] eqn:H; [|apply nth_error_None in H; lia].
      assert (X : row_matches t2 [VBool true] f) by (apply B3; lia).
      rewrite <- (Z2Nat.id f) in X by lia. apply (RM _ _ H) in X. rewrite (AL row) in X; [discriminate|].
      eapply Permutation_in; [exact P2|]. eapply nth_error_In; eauto.
  Qed.
End Delete.
