(** Props_Swap.v -- exactly what SwapCols does: C46. *)
From Coq Require Import ZArith NArith List String Ascii Bool SpecFloat Permutation Lia.
From Verif Require Import Base Model_Names Model_Table Model_Sort.
From Verif Require Import Spec.
From Verif Require Import Proofs_Lib Proofs_Table Proofs_Cells Proofs_Struct Proofs_Api Proofs_Api2 Proofs_Pres Samples.
Import ListNotations.
Local Open Scope string_scope.
Local Open Scope list_scope.

(** The position that changes places with k when i and j do. *)
Definition other (i j k : nat) : nat := if Nat.eqb k i then j else if Nat.eqb k j then i else k.

(** t' is t with the names and types of columns i and j exchanged, and the cells, sort keys
    and everything else as in t.  Looking up a name finds its new position. *)
Record headings_swapped (t t' : table) (i j : nat) : Prop := {
  hs_names : forall k, nth_error (cnames t') k = nth_error (cnames t) (other i j k);
  hs_types : forall k, nth_error (ctypes t') k = nth_error (ctypes t) (other i j k);
  hs_lookup : forall n k, ColIndex t' n = Ok (Z.of_nat k) <-> nth_error (cnames t') k = Some n;
  hs_rows : rows t' = rows t;
  hs_name : tname t' = tname t;
  hs_keys : skeys t' = skeys t;
  hs_shape : struct_shape t' = struct_shape t;
  hs_nil : is_nil t' = is_nil t;
  hs_parent : parent t' = parent t }.

Lemma nth_error_swap {A} i j (l : list A) k : i < List.length l -> j < List.length l ->
  nth_error (swap_rows i j l) k = nth_error l (other i j k).
Proof.
  intros Li Lj. unfold swap_rows, other. destruct (nth_error_lt l i Li) as [x Hx]. destruct (nth_error_lt l j Lj) as [y Hy]. rewrite Hx, Hy.
  destruct (Nat.eqb_spec k i) as [->|Ni].
  - destruct (Nat.eq_dec i j) as [->|Nij].
    + rewrite nth_error_upd_eq by (now rewrite upd_length). congruence.
    + rewrite nth_error_upd_ne by auto. rewrite nth_error_upd_eq by auto. auto.
  - destruct (Nat.eqb_spec k j) as [->|Nj].
    + rewrite nth_error_upd_eq by (now rewrite upd_length). auto.
    + now rewrite !nth_error_upd_ne by auto.
Qed.

Lemma NoDup_swap i j (l : list string) : NoDup l -> NoDup (swap_rows i j l).
Proof. intros N. eapply Permutation_NoDup; [symmetry; apply swap_rows_perm|auto]. Qed.

(** The table after the three exchanges. *)
Definition swapped (t : table) (i j : nat) (m : smap) : table :=
  with_cols (swap_rows i j (cnames t)) (swap_rows i j (ctypes t)) m t.

Lemma swapped_spec t i j n1 n2 m : wf_table t -> i <> j -> nth_error (cnames t) i = Some n1 -> nth_error (cnames t) j = Some n2 ->
  (forall n, mget m n = if String.eqb n n1 then Some j else if String.eqb n n2 then Some i else mget (cmap t) n) ->
  headings_swapped t (swapped t i j m) i j.
Proof.
  intros W NE H1 H2 HM.
  assert (L1 : i < List.length (cnames t)) by (apply nth_error_Some; congruence).
  assert (L2 : j < List.length (cnames t)) by (apply nth_error_Some; congruence).
  pose proof (wf_types_len _ W) as TL.
  assert (NN : n1 <> n2).
  { intros ->. apply NE. pose proof (wf_nodup _ W) as ND. rewrite NoDup_nth_error in ND. apply ND; auto. congruence. }
  constructor; try reflexivity; unfold swapped; cbn [cnames ctypes with_cols].
  - intros k. now apply nth_error_swap.
  - intros k. apply nth_error_swap; lia.
  - intros n k. rewrite nth_error_swap by auto. unfold ColIndex. cbn [cmap with_cols]. rewrite HM.
    assert (U : forall a b n, nth_error (cnames t) a = Some n -> nth_error (cnames t) b = Some n -> a = b).
    { intros a b x A B. pose proof (wf_nodup _ W) as ND. rewrite NoDup_nth_error in ND. apply ND; [apply nth_error_Some; congruence|congruence]. }
    unfold other. destruct (String.eqb_spec n n1) as [->|N1].
    + split.
      * intros [= E]. assert (k = j) by lia. subst k. destruct (Nat.eqb_spec j i); [congruence|]. now rewrite Nat.eqb_refl.
      * intros E. f_equal. destruct (Nat.eqb_spec k i) as [->|]; [exfalso; apply NN; congruence|].
        destruct (Nat.eqb_spec k j) as [->|]; auto. exfalso. pose proof (U _ _ _ E H1). congruence.
    + destruct (String.eqb_spec n n2) as [->|N2].
      * split.
        -- intros [= E]. assert (k = i) by lia. subst k. now rewrite Nat.eqb_refl.
        -- intros E. f_equal. destruct (Nat.eqb_spec k i) as [->|]; auto.
           destruct (Nat.eqb_spec k j) as [->|]; [congruence|]. exfalso. pose proof (U _ _ _ E H2). congruence.
      * transitivity (nth_error (cnames t) k = Some n).
        { rewrite <- (wf_map _ W). destruct (mget (cmap t) n); split; try discriminate; intros [= E]; f_equal; lia. }
        destruct (Nat.eqb_spec k i) as [->|]; [split; congruence|]. destruct (Nat.eqb_spec k j) as [->|]; [split; congruence|reflexivity].
Qed.

Lemma cell_ok_same a b v : same_go_type a b -> cell_ok a v -> cell_ok b v.
Proof.
  intros S [T G]. split; auto. destruct S as [->|S]; auto.
  destruct S as [[-> ->]|[[-> ->]|[[-> ->]|[[-> ->]|[[-> ->]|[-> ->]]]]]]; destruct v as [| | |k z| | | |[p|]| |]; try destruct k; cbn [has_type] in *; intuition discriminate.
Qed.
Lemma cell_ok_two a b v : cell_ok a v -> cell_ok b v -> same_go_type a b.
Proof.
  intros [A _] [B _]. unfold same_go_type. destruct v as [| | |k z| | | |[p|]| |]; try destruct k; cbn [has_type] in *; intuition (subst; auto 10).
Qed.

(** The result is well formed exactly when there are no rows or the two types are the same
    Go type. *)
Lemma swapped_wf t t' i j ct1 ct2 : wf_table t -> i <> j -> nth_error (ctypes t) i = Some ct1 -> nth_error (ctypes t) j = Some ct2 ->
  cnames t' = swap_rows i j (cnames t) -> ctypes t' = swap_rows i j (ctypes t) ->
  headings_swapped t t' i j -> wf_table t' <-> rows t = [] \/ same_go_type ct1 ct2.
Proof.
  intros W NE T1 T2 EN ET [HN HT HL HR Hname _ _ Hnil _].
  pose proof (wf_types_len _ W) as TL.
  assert (L1 : i < List.length (ctypes t)) by (apply nth_error_Some; congruence).
  assert (L2 : j < List.length (ctypes t)) by (apply nth_error_Some; congruence).
  split.
  - intros W'. destruct (rows t) as [|row rest] eqn:ER; [now left|right].
    pose proof (wf_cells _ W) as C. pose proof (wf_cells _ W') as C'. rewrite HR in C'. rewrite ER in C.
    inversion C as [|? ? F _]; subst. inversion C' as [|? ? F' _]; subst.
    assert (Lr : i < List.length row) by (apply Forall2_len in F; lia). destruct (nth_error_lt row i Lr) as [v Hv].
    destruct (Forall2_nth_r _ _ _ _ _ F Hv) as (a & Ha & A). destruct (Forall2_nth_r _ _ _ _ _ F' Hv) as (b & Hb & B).
    rewrite HT in Hb. unfold other in Hb. rewrite Nat.eqb_refl in Hb. assert (a = ct1) by congruence. assert (b = ct2) by congruence. subst.
    eapply cell_ok_two; eauto.
  - intros K. constructor.
    + destruct (wf_name _ W) as [[A B]|(A & B & C & D)].
      * left. now rewrite Hnil, Hname.
      * exfalso. rewrite C in TL. cbn in TL. lia.
    + rewrite EN. apply NoDup_swap, (wf_nodup _ W).
    + rewrite EN. apply Forall_forall. intros x I. pose proof (wf_colnames _ W) as F. rewrite Forall_forall in F. apply F.
      eapply Permutation_in; [apply swap_rows_perm|exact I].
    + rewrite EN, ET. rewrite !(Permutation_length (swap_rows_perm i j _)). auto.
    + rewrite ET. apply Forall_forall. intros x I. pose proof (wf_types _ W) as F. rewrite Forall_forall in F. apply F.
      eapply Permutation_in; [apply swap_rows_perm|exact I].
    + intros n k. rewrite <- HL. unfold ColIndex. destruct (mget (cmap t') n); split; try discriminate; intros [= E]; f_equal; lia.
    + rewrite HR. destruct K as [->|S]; [constructor|]. eapply Forall_impl; [|exact (wf_cells _ W)]. intros row F. cbn beta in F.
      apply Forall2_nth_iff; [rewrite ET, (Permutation_length (swap_rows_perm i j _)); now apply Forall2_len in F|].
      intros k a v Ha Hv. rewrite HT in Ha. destruct (Forall2_nth_r _ _ _ _ _ F Hv) as (b & Hb & B).
      unfold other in Ha. destruct (Nat.eqb_spec k i) as [->|].
      * assert (b = ct1) by congruence. assert (a = ct2) by congruence. subst. eapply cell_ok_same; eauto.
      * destruct (Nat.eqb_spec k j) as [->|]; [|congruence].
        assert (b = ct2) by congruence. assert (a = ct1) by congruence. subst. eapply cell_ok_same; [|exact B].
        clear -S. unfold same_go_type in *. intuition (subst; auto 10).
Qed.

Lemma SwapColsByColIndex_eq t b c1 c2 n1 n2 : wf_table t -> (0 <= c1)%Z -> (0 <= c2)%Z -> c1 <> c2 ->
  nth_error (cnames t) (Z.to_nat c1) = Some n1 -> nth_error (cnames t) (Z.to_nat c2) = Some n2 ->
  run (SwapColsByColIndex c1 c2) b t =
    (swapped t (Z.to_nat c1) (Z.to_nat c2) (mset (mset (cmap t) n2 (Z.to_nat c1)) n1 (Z.to_nat c2)), Ok tt).
Proof.
  intros W P1 P2 NE H1 H2.
  assert (L1 : Z.to_nat c1 < List.length (cnames t)) by (apply nth_error_Some; congruence).
  assert (L2 : Z.to_nat c2 < List.length (cnames t)) by (apply nth_error_Some; congruence).
  unfold run, SwapColsByColIndex. rewrite bind_get, bind_check. cbn [s_tab].
  rewrite (proj2 (HasCol_iff t c1)) by (unfold ColCount; lia). rewrite bind_check, (proj2 (HasCol_iff t c2)) by (unfold ColCount; lia).
  rewrite bind_check. destruct (Z.eqb_spec c1 c2) as [|_]; [contradiction|]. cbn [negb]. rewrite !bind_modify, bind_reads.
  set (s := on_tab _ _).
  assert (C : forall c n, (0 <= c)%Z -> Z.to_nat c < List.length (cnames t) -> nth_error (cnames t) (other (Z.to_nat c1) (Z.to_nat c2) (Z.to_nat c)) = Some n ->
    ColName (s_tab s) c = Ok n).
  { intros c n Pc Lc Hn. unfold ColName, ColCount. cbn [s s_tab on_tab cnames with_cols].
    rewrite (Permutation_length (swap_rows_perm _ _ (cnames t))).
    replace ((c <? 0) || (c >? Z.of_nat (List.length (cnames t)) - 1))%Z with false by lia.
    rewrite (proj2 (znth_some _ c n)); auto. split; auto. cbn [cnames with_cols]. now rewrite nth_error_swap by auto. }
  assert (O1 : other (Z.to_nat c1) (Z.to_nat c2) (Z.to_nat c1) = Z.to_nat c2) by (unfold other; now rewrite Nat.eqb_refl).
  rewrite (C c1 n2) by (auto; congruence).
  rewrite bind_reads.
  assert (O2 : other (Z.to_nat c1) (Z.to_nat c2) (Z.to_nat c2) = Z.to_nat c1) by (unfold other; rewrite Nat.eqb_refl; destruct (Nat.eqb_spec (Z.to_nat c2) (Z.to_nat c1)); congruence).
  rewrite (C c2 n1) by (auto; congruence).
  unfold modify, s, on_tab, swapped. cbn [s_tab fst snd]. unfold with_cols. cbn [cnames ctypes cmap].
  apply (wf_map _ W) in H1, H2. unfold mgetd. now rewrite H1, H2.
Qed.

Lemma SwapCols_eq t b c1 c2 n1 n2 : wf_table t -> c1 <> c2 ->
  nth_error (cnames t) c1 = Some n1 -> nth_error (cnames t) c2 = Some n2 ->
  run (SwapCols n1 n2) b t = (swapped t c1 c2 (mset (mset (cmap t) n1 c2) n2 c1), Ok tt).
Proof.
  intros W NE H1 H2. unfold run, SwapCols. rewrite bind_reads. cbn [s_tab].
  rewrite (proj2 (ColIndex_iff t n1 c1 W) H1), bind_reads. cbn [s_tab]. rewrite (proj2 (ColIndex_iff t n2 c2 W) H2), bind_check.
  assert (NN : n1 <> n2).
  { intros ->. apply NE. pose proof (wf_nodup _ W) as ND. rewrite NoDup_nth_error in ND. apply ND; [apply nth_error_Some; congruence|congruence]. }
  apply String.eqb_neq in NN. rewrite NN. cbn [negb]. rewrite !bind_modify, !Nat2Z.id.
  unfold modify, on_tab, swapped. cbn [s_tab fst snd]. unfold with_cols. cbn [cnames ctypes cmap].
  apply (wf_map _ W) in H1, H2. unfold mgetd. now rewrite H1, H2.
Qed.

(** SwapColsByColIndex succeeds exactly for two different existing columns.  It exchanges
    their names and types, not their cells: so the table stays well formed exactly when it
    has no rows or the columns have the same Go type.  A rejected call changes nothing. *)
Theorem C46_SwapColsByColIndex : forall t b c1 c2, wf_table t ->
  ((0 <= c1 < ColCount t)%Z /\ (0 <= c2 < ColCount t)%Z /\ c1 <> c2 ->
     exists t' ct1 ct2, run (SwapColsByColIndex c1 c2) b t = (t', Ok tt)
       /\ headings_swapped t t' (Z.to_nat c1) (Z.to_nat c2)
       /\ ColTypeByColIndex t c1 = Ok ct1 /\ ColTypeByColIndex t c2 = Ok ct2
       /\ (wf_table t' <-> rows t = [] \/ same_go_type ct1 ct2))
  /\ (~ ((0 <= c1 < ColCount t)%Z /\ (0 <= c2 < ColCount t)%Z /\ c1 <> c2) -> run (SwapColsByColIndex c1 c2) b t = (t, Err)).
Proof.
  intros t b c1 c2 W. split.
  - intros (R1 & R2 & NE). unfold ColCount in *. pose proof (wf_types_len _ W) as TL.
    destruct (nth_error_lt (cnames t) (Z.to_nat c1)) as [n1 H1]; [lia|]. destruct (nth_error_lt (cnames t) (Z.to_nat c2)) as [n2 H2]; [lia|].
    destruct (nth_error_lt (ctypes t) (Z.to_nat c1)) as [ct1 T1]; [lia|]. destruct (nth_error_lt (ctypes t) (Z.to_nat c2)) as [ct2 T2]; [lia|].
    assert (HS : headings_swapped t (swapped t (Z.to_nat c1) (Z.to_nat c2) (mset (mset (cmap t) n2 (Z.to_nat c1)) n1 (Z.to_nat c2))) (Z.to_nat c1) (Z.to_nat c2)).
    { apply swapped_spec with (n1 := n1) (n2 := n2); auto; [lia|]. intros n. now rewrite !mget_mset. }
    eexists. exists ct1, ct2. split; [apply (SwapColsByColIndex_eq t b c1 c2 n1 n2 W); try assumption; lia|]. split; [exact HS|].
    split; [rewrite ColTypeByColIndex_eq, (proj2 (HasCol_iff t c1)), T1 by (auto; unfold ColCount; lia); reflexivity|].
    split; [rewrite ColTypeByColIndex_eq, (proj2 (HasCol_iff t c2)), T2 by (auto; unfold ColCount; lia); reflexivity|].
    apply (swapped_wf t _ (Z.to_nat c1) (Z.to_nat c2) ct1 ct2 W); auto. lia.
  - intros N. unfold run, SwapColsByColIndex. rewrite bind_get, bind_check. cbn [s_tab].
    destruct (HasColByColIndex t c1) eqn:E1; [|reflexivity]. rewrite bind_check.
    destruct (HasColByColIndex t c2) eqn:E2; [|reflexivity]. rewrite bind_check.
    destruct (Z.eqb_spec c1 c2) as [->|NE]; [reflexivity|]. apply HasCol_iff in E1, E2. tauto.
Qed.

(** SwapCols, by name, likewise: two different existing names. *)
Theorem C46_SwapCols : forall t b n1 n2, wf_table t ->
  (forall c1 c2, col_at t c1 n1 -> col_at t c2 n2 -> n1 <> n2 ->
     exists t' ct1 ct2, run (SwapCols n1 n2) b t = (t', Ok tt)
       /\ headings_swapped t t' (Z.to_nat c1) (Z.to_nat c2)
       /\ ColType t n1 = Ok ct1 /\ ColType t n2 = Ok ct2
       /\ (wf_table t' <-> rows t = [] \/ same_go_type ct1 ct2))
  /\ (~ (In n1 (cnames t) /\ In n2 (cnames t) /\ n1 <> n2) -> run (SwapCols n1 n2) b t = (t, Err)).
Proof.
  intros t b n1 n2 W. split.
  - intros c1 c2 [P1 H1] [P2 H2] NE. pose proof (wf_types_len _ W) as TL.
    assert (L1 : Z.to_nat c1 < List.length (cnames t)) by (apply nth_error_Some; congruence).
    assert (L2 : Z.to_nat c2 < List.length (cnames t)) by (apply nth_error_Some; congruence).
    assert (NC : Z.to_nat c1 <> Z.to_nat c2) by congruence.
    destruct (nth_error_lt (ctypes t) (Z.to_nat c1)) as [ct1 T1]; [lia|]. destruct (nth_error_lt (ctypes t) (Z.to_nat c2)) as [ct2 T2]; [lia|].
    assert (HS : headings_swapped t (swapped t (Z.to_nat c1) (Z.to_nat c2) (mset (mset (cmap t) n1 (Z.to_nat c2)) n2 (Z.to_nat c1))) (Z.to_nat c1) (Z.to_nat c2)).
    { apply swapped_spec with (n1 := n1) (n2 := n2); auto. intros n. rewrite !mget_mset.
      destruct (String.eqb_spec n n2) as [->|]; [|reflexivity]. destruct (String.eqb_spec n2 n1); [congruence|reflexivity]. }
    eexists. exists ct1, ct2. split; [apply (SwapCols_eq t b (Z.to_nat c1) (Z.to_nat c2) n1 n2 W); assumption|]. split; [exact HS|].
    assert (CT : forall c n ct, nth_error (cnames t) c = Some n -> nth_error (ctypes t) c = Some ct -> ColType t n = Ok ct).
    { intros c n ct Hn Hc. unfold ColType. apply (wf_map _ W) in Hn. now rewrite Hn, Hc. }
    split; [eapply CT; eauto|]. split; [eapply CT; eauto|]. apply (swapped_wf t _ (Z.to_nat c1) (Z.to_nat c2) ct1 ct2 W); auto.
  - intros N. unfold run, SwapCols. rewrite bind_reads. cbn [s_tab].
    destruct (ColIndex_cases t n1 W) as [(i & I1 & ->)|[_ ->]]; [|reflexivity]. rewrite bind_reads. cbn [s_tab].
    destruct (ColIndex_cases t n2 W) as [(j & I2 & ->)|[_ ->]]; [|reflexivity]. rewrite bind_check.
    destruct (String.eqb_spec n1 n2); [reflexivity|]. exfalso. apply N. repeat split; auto; eapply nth_error_In; eauto.
Qed.

(** The cells do not move with their names: when the result is well formed, reading either
    name gives what the other name gave before, and reading any other name is unchanged. *)
Theorem C46_reads_after_swap : forall t t' i j n1 n2 r, wf_table t -> wf_table t' -> headings_swapped t t' i j ->
  nth_error (cnames t) i = Some n1 -> nth_error (cnames t) j = Some n2 ->
  GetVal t' n1 r = GetVal t n2 r /\ GetVal t' n2 r = GetVal t n1 r
  /\ forall n, n <> n1 -> n <> n2 -> GetVal t' n r = GetVal t n r.
Proof.
  intros t t' i j n1 n2 r W W' [HN HT HL HR _ _ _ _ _] H1 H2.
  assert (G : forall c n c' n', nth_error (cnames t') c = Some n -> nth_error (cnames t) c' = Some n' -> c = c' -> GetVal t' n r = GetVal t n' r).
  { intros c n c' n' A B <-. rewrite (GetVal_col_at t' (Z.of_nat c) n) by (auto; now apply col_at_nat).
    rewrite (GetVal_col_at t (Z.of_nat c) n') by (auto; now apply col_at_nat). rewrite !get_at by auto. unfold at_cell. now rewrite HR. }
  assert (O1 : other i j j = i) by (unfold other; rewrite Nat.eqb_refl; destruct (Nat.eqb_spec j i); congruence).
  assert (O2 : other i j i = j) by (unfold other; now rewrite Nat.eqb_refl).
  split; [apply (G j n1 j n2); auto; rewrite HN; now rewrite O1|].
  split; [apply (G i n2 i n1); auto; rewrite HN; now rewrite O2|].
  intros n N1 N2. destruct (in_dec string_dec n (cnames t)) as [I|I].
  - apply In_nth_error in I as [k Hk]. apply (G k n k n); auto. rewrite HN. unfold other.
    destruct (Nat.eqb_spec k i) as [->|]; [congruence|]. destruct (Nat.eqb_spec k j) as [->|]; [congruence|auto].
  - rewrite (GetVal_no_col t n r W I), GetVal_no_col; auto. intros I'. apply I. apply In_nth_error in I' as [k Hk]. rewrite HN in Hk.
    eapply nth_error_In; eauto.
Qed.

(** Two columns of the same type with rows are swapped; columns of different types are
    swapped in a table without rows. *)
Definition swap_build : M unit :=
  SetName "T" ;;; AppendCol "a" "int" ;;; AppendCol "b" "string" ;;; AppendCol "c" "int" ;;; AppendRows 2 ;;; SetT "int" "c" 1 (VInt KInt 7).
Definition swap_table : table := Eval vm_compute in fst (run swap_build 1 NewNilTable).
Lemma wf_swap_table : wf_table swap_table.
Proof.
  change swap_table with (fst (swap_table, @Ok unit tt)). assert (E : run swap_build 1 NewNilTable = (swap_table, Ok tt)) by (vm_compute; reflexivity).
  rewrite <- E. apply run_pres; [|apply wf_NewNilTable|constructor].
  unfold swap_build. pr; try (apply pres_SetT; try reflexivity; try exact I; now apply in_types).
Qed.
Example C46_nonvacuous : wf_table swap_table
  /\ (exists t', run (SwapCols "a" "c") 0 swap_table = (t', Ok tt) /\ wf_table t' /\ cnames t' = ["c"; "b"; "a"]
        /\ GetVal swap_table "a" 1 = Ok (VInt KInt 0) /\ GetVal t' "a" 1 = Ok (VInt KInt 7))
  /\ (exists t', run (SwapColsByColIndex 0 1) 0 swap_table = (t', Ok tt) /\ ~ wf_table t').
Proof.
  pose proof wf_swap_table as W.
  split; auto. split.
  - destruct (proj1 (C46_SwapCols swap_table 0 "a" "c" W) 0%Z 2%Z) as (t' & ct1 & ct2 & R & HS & T1 & T2 & WF);
      [split; [lia|reflexivity]|split; [lia|reflexivity]|discriminate|].
    exists t'. split; [exact R|]. vm_compute in T1, T2. injection T1 as <-. injection T2 as <-.
    split; [apply WF; right; now left|]. vm_compute in R. injection R as <-. vm_compute. auto.
  - destruct (proj1 (C46_SwapColsByColIndex swap_table 0 0 1 W)) as (t' & ct1 & ct2 & R & HS & T1 & T2 & WF); [vm_compute; intuition discriminate|].
    exists t'. split; [exact R|]. vm_compute in T1, T2. injection T1 as <-. injection T2 as <-.
    intros W'. apply WF in W' as [X|X]; [discriminate X|]. unfold same_go_type in X. intuition discriminate.
Qed.

(** Axioms used by any theorem of this file. *)
Definition all_Props_Swap :=
  (@C46_SwapColsByColIndex,
   @C46_SwapCols,
   @C46_reads_after_swap).
Print Assumptions all_Props_Swap.
