(** Proofs_Merge.v -- Merge: the rows it computes. *)
From Coq Require Import ZArith NArith List String Ascii Bool SpecFloat Permutation Lia.
From Verif Require Import Base Model_Names Model_Table Model_Sort Model_Copy Model_Merge Spec Spec_Sort Spec_Copy Spec_Merge.
From Verif Require Import Proofs_Lib Proofs_Table Proofs_Cells Proofs_Struct Proofs_Api Proofs_Pres Samples Proofs_Zero Proofs_Api2.
From Verif Require Import Proofs_Copy Props_Copy Proofs_Order Proofs_Sort Proofs_Search Proofs_Keys Props_Sort Proofs_MergePure Proofs_MergeRun Proofs_MergeFill Proofs_MergeLoop Proofs_MergeDelete.
Import ListNotations.
Local Open Scope string_scope.
Local Open Scope list_scope.

Definition mrow (p : list value * Z) : list value := fst p ++ [VInt KInt (snd p)].
(** The rows of f spread over the columns ns, marked with z. *)
Definition spread (f : table) (ns ts : list string) (z : Z) : list (list value * Z) :=
  map (fun r => (over f ns r (map dfl ts), z)) (rows f).
Definition mark_key : skey := mkKey "_TABLE_" "int" false.

Lemma over_app f ns r d n' v : wf_table f -> List.length ns = List.length d -> ~ In n' (cnames f) ->
  over f (ns ++ [n']) r (d ++ [v]) = over f ns r d ++ [v].
Proof.
  intros W L N. unfold over. rewrite combine_app by auto. rewrite map_app. f_equal. simpl.
  destruct (mget (cmap f) n') as [i|] eqn:M; auto. apply (wf_map _ W) in M. apply nth_error_In in M. contradiction.
Qed.
Lemma over_len f ns r d : List.length ns = List.length d -> List.length (over f ns r d) = List.length ns.
Proof. intros L. unfold over. rewrite map_length, combine_length. lia. Qed.

Lemma mark_rows f ns ts z : wf_table f -> List.length ns = List.length ts -> ~ In "_TABLE_" (cnames f) ->
  map (fun r => upd r (List.length ns) (VInt KInt z)) (map (fun r => over f (ns ++ ["_TABLE_"]) r (map dfl (ts ++ ["int"]))) (rows f))
  = map mrow (spread f ns ts z).
Proof.
  intros W L N. unfold spread. rewrite !map_map. apply map_ext. intros r. rewrite map_app. cbn [map].
  rewrite over_app by (rewrite ?map_length; auto). unfold mrow. cbn [fst snd].
  rewrite <- (over_len f ns r (map dfl ts)) by now rewrite map_length. apply upd_app_mid.
Qed.

Lemma tlt_snoc E k : forall ks us vs a b, List.length ks = List.length us -> List.length us = List.length vs ->
  tlt E (ks ++ [k]) (us ++ [a]) (vs ++ [b]) <-> tlt E ks us vs \/ (teq us vs /\ klt E k a b).
Proof.
  induction ks as [|k0 ks IH]; intros [|u us] [|v vs] a b L1 L2; try discriminate.
  - simpl. split; [intros [H|[_ []]]; right; split; auto; constructor|intros [[]|[_ H]]; auto].
  - cbn [app tlt]. rewrite IH by (simpl in *; lia). unfold teq. split.
    + intros [H|(H1 & [H2|[H2 H3]])]; auto.
    + intros [[H|[H1 H2]]|[H1 H2]]; auto. inversion H1; subst. auto.
Qed.

Lemma combine_nth_iff {A B} (a : list A) (b : list B) x y : In (x, y) (combine a b) <-> exists i, nth_error a i = Some x /\ nth_error b i = Some y.
Proof.
  split.
  - intros I. apply In_nth_error in I as (i & I). rewrite nth_error_combine in I. exists i.
    destruct (nth_error a i), (nth_error b i); try discriminate. now injection I as -> ->.
  - intros (i & H1 & H2). apply (nth_error_In _ i). rewrite nth_error_combine, H1, H2. reflexivity.
Qed.

Lemma fails_get {B} (f : table -> M B) t : fails (f t) t -> fails (bind get f) t.
Proof. intros R b nw. rewrite bind_get. apply R. Qed.

Record layout (K : list skey) (t1 t2 : table) (N TS more : list string) : Prop := {
  ly_len : List.length N = List.length TS;
  ly_keys : N = map k_col K ++ more;
  ly_nodup : NoDup N;
  ly_cols : forall cn ct, (exists i, nth_error N i = Some cn /\ nth_error TS i = Some ct) <-> ColType t1 cn = Ok ct \/ ColType t2 cn = Ok ct;
  ly_types : Forall (fun ct => In ct mergeable_types) TS;
  ly_typed : typed_lists N TS K;
  ly_in1 : within t1 N TS;
  ly_in2 : within t2 N TS }.

(** rows in the order Merge visits them *)
Definition ordered (E : env) (K : list skey) (l : list (list value * Z)) : Prop :=
  ForallOrdPairs (fun x y => ~ tlt E (K ++ [mark_key]) (firstn (List.length K) (fst y) ++ [VInt KInt (snd y)])
                                  (firstn (List.length K) (fst x) ++ [VInt KInt (snd x)])) l.

Lemma FOP_map {A B} (f : A -> B) (P : B -> B -> Prop) l : ForallOrdPairs P (map f l) -> ForallOrdPairs (fun x y => P (f x) (f y)) l.
Proof. induction l as [|a l IH]; intros H; constructor; inversion H; subst; auto. now rewrite <- Forall_map. Qed.

Lemma over_key f ns ts r d i cn : wf_table f -> List.length ns = List.length d -> nth_error ns i = Some cn ->
  within f ns ts -> In cn (cnames f) -> Forall2 cell_ok (ctypes f) r ->
  exists j, nth_error (cnames f) j = Some cn /\ nth_error (over f ns r d) i = nth_error r j.
Proof.
  intros W L H WI I FR. apply In_nth_error in I as (j & J). exists j. split; auto.
  unfold over. rewrite nth_error_map, nth_error_combine, H.
  destruct (nth_error d i) as [v|] eqn:D; [|apply nth_error_None in D; apply nth_error_some_lt in H; lia]. cbn [option_map fst].
  rewrite (proj2 (wf_map _ W cn j) J). symmetry. apply nth_error_nth'. apply Forall2_len in FR. pose proof (wf_types_len _ W).
  apply nth_error_some_lt in J. lia.
Qed.

Lemma over_nan K f ns ts r more : wf_table f -> List.length ns = List.length ts -> ns = map k_col K ++ more -> within f ns ts ->
  Forall (fun k => ColType f (k_col k) = Ok (k_type k) /\ In (k_type k) sortable_types) K ->
  (forall k i v, In k K -> GetVal f (k_col k) i = Ok v -> ~ is_nan v) -> In r (rows f) ->
  Forall (fun v => ~ is_nan v) (firstn (List.length K) (over f ns r (map dfl ts))).
Proof.
  intros W L NK WI KT NN I. apply Forall_forall. intros v Iv. apply In_nth_error in Iv as (i & Hi).
  rewrite nth_error_firstn in Hi. destruct (Nat.ltb_spec i (List.length K)) as [Li|]; [|discriminate].
  destruct (nth_error K i) as [k|] eqn:HK; [|apply nth_error_None in HK; lia].
  assert (HN : nth_error ns i = Some (k_col k)).
  { rewrite NK, nth_error_app1 by (rewrite map_length; lia). rewrite nth_error_map, HK. reflexivity. }
  pose proof (wf_cells _ W) as F. rewrite Forall_forall in F. specialize (F r I).
  rewrite Forall_forall in KT. destruct (KT k (nth_error_In _ _ HK)) as [CT _].
  apply (wf_ColType_iff f W) in CT as (c & C1 & C2).
  destruct (over_key f ns ts r (map dfl ts) i (k_col k) W ltac:(now rewrite map_length) HN WI (nth_error_In _ _ C1) F) as (j & J1 & J2).
  apply In_nth_error in I as (n & Hn). apply (NN k (Z.of_nat n) v (nth_error_In _ _ HK)).
  apply (GetVal_cell f _ _ _ W). exists j, r. rewrite Nat2Z.id. split; [lia|]. split; auto. split; auto. congruence.
Qed.

Section Body.
  Context (E : env) (t1 t2 : table) (K : list skey).
  Hypothesis EO : env_ok E.
  Hypothesis MB : mergeable K t1 t2.
  Hypothesis KF : skeys t1 = K.

  Lemma body_layout : exists N TS more t, layout K t1 t2 N TS more /\ tb t N TS K [] /\
    forall (B : Type) (m : M B),
      (forall t' a, runs m t t' a -> runs (SetName "Merged" ;;; AppendColsFromTable (fun _ => t1) ;;; AppendColsFromTable (fun _ => t2) ;;;
          SetSortKeysFromTable t1 ;;; OrderColsBySortKeys ;;; m) NewNilTable t' a)
      /\ (fails m t -> fails (SetName "Merged" ;;; AppendColsFromTable (fun _ => t1) ;;; AppendColsFromTable (fun _ => t2) ;;;
          SetSortKeysFromTable t1 ;;; OrderColsBySortKeys ;;; m) NewNilTable).
  Proof using EO MB KF.
    pose proof MB as [W1 W2 R1 R2 KN KD KT1 KT2 NN1 NN2 AG MT1 MT2 [NT1 ND1] [NT2 ND2]].
    assert (NI1 : is_nil t1 = false). { destruct (is_nil t1) eqn:Q; auto. pose proof (wf_nil_rows _ W1 Q) as X. unfold RowCount in R1. rewrite X in R1. simpl in R1. lia. }
    assert (NI2 : is_nil t2 = false). { destruct (is_nil t2) eqn:Q; auto. pose proof (wf_nil_rows _ W2 Q) as X. unfold RowCount in R2. rewrite X in R2. simpl in R2. lia. }
    assert (S0 : exists t0, runs (SetName "Merged") NewNilTable t0 tt /\ tb t0 [] [] [] []).
    { exists (with_nil false (with_name "Merged" NewNilTable)). split.
      - apply (quiet_runs _ _ _ _ 0); [auto with quiet|reflexivity].
      - constructor; try reflexivity. apply named_wf; [apply wf_nil_table|]. now apply IsValidTableName_spec. }
    destruct S0 as (t0 & Q0 & T0).
    destruct (runs_AppendCols t0 [] [] t1 T0 W1 NI1) as (ta & Qa & Ta).
    { intros i j cn ct ct' X. rewrite (tb_cn _ _ _ _ _ T0) in X. destruct i; discriminate. }
    assert (NC : new_columns t0 t1 = combine (cnames t1) (ctypes t1)).
    { unfold new_columns. rewrite (tb_cn _ _ _ _ _ T0). clear. induction (combine (cnames t1) (ctypes t1)) as [|p l IH]; auto. simpl. f_equal. exact IH. }
    rewrite NC in Ta. cbn [app] in Ta.
    rewrite (map_fst_combine (cnames t1) (ctypes t1)), (map_snd_combine (cnames t1) (ctypes t1)) in Ta by (symmetry; apply (wf_types_len _ W1)).
    destruct (runs_AppendCols ta _ _ t2 Ta W2 NI2) as (tc & Qc & Tc).
    { intros i j cn ct ct'. rewrite (tb_cn _ _ _ _ _ Ta), (tb_ct _ _ _ _ _ Ta). apply AG. }
    set (NW := new_columns ta t2) in *.
    assert (CU : forall cn ct, ColType tc cn = Ok ct <-> ColType t1 cn = Ok ct \/ ColType t2 cn = Ok ct).
    { intros cn ct. rewrite !ColType_cols by (auto; apply (tb_wf _ _ _ _ _ Tc)). unfold cols_of.
      rewrite (tb_cn _ _ _ _ _ Tc), (tb_ct _ _ _ _ _ Tc), combine_app by (symmetry; apply (wf_types_len _ W1)).
      rewrite combine_split_eq, in_app_iff. unfold NW, new_columns. rewrite filter_In, (tb_cn _ _ _ _ _ Ta).
      destruct (in_dec string_dec (fst (cn, ct)) (cnames t1)) as [I|I]; cbn [fst] in I; split; try tauto.
      intros [H|H]; auto. left. apply In_nth_error in I as (i & I). apply combine_nth_iff in H as (j & J1 & J2).
      destruct (nth_error (ctypes t1) i) as [ct'|] eqn:CI.
      - apply combine_nth_iff. exists i. split; auto. rewrite CI. f_equal. eapply AG; eauto.
      - apply nth_error_None in CI. apply nth_error_some_lt in I. pose proof (wf_types_len _ W1). lia. }
    assert (TKc : forall t, (forall cn, ColType t cn = ColType tc cn) ->
      Forall (fun k => ColType t (k_col k) = Ok (k_type k) /\ In (k_type k) sortable_types) K).
    { intros t X. eapply Forall_impl; [|exact KT1]. intros k [H1 H2]. split; auto. rewrite X. apply CU. auto. }
    destruct (runs_keys tc _ _ _ _ t1 Tc) as (td & Qd & Td); rewrite ?KF; auto.
    rewrite KF in Td.
    assert (CD : forall cn, ColType td cn = ColType tc cn).
    { intros cn. destruct (ColType tc cn) as [ct| |] eqn:Q.
      - apply (ColType_cols td cn ct (tb_wf _ _ _ _ _ Td)). apply (ColType_cols tc cn ct (tb_wf _ _ _ _ _ Tc)) in Q. unfold cols_of in *.
        now rewrite (tb_cn _ _ _ _ _ Td), (tb_ct _ _ _ _ _ Td), <- (tb_cn _ _ _ _ _ Tc), <- (tb_ct _ _ _ _ _ Tc).
      - apply (wf_ColType_err td (tb_wf _ _ _ _ _ Td)). apply (wf_ColType_err tc (tb_wf _ _ _ _ _ Tc)) in Q.
        now rewrite (tb_cn _ _ _ _ _ Td), <- (tb_cn _ _ _ _ _ Tc).
      - exfalso. now apply (wf_ColType_no_panic tc (tb_wf _ _ _ _ _ Tc) cn). }
    destruct (runs_order td _ _ K Td KD (TKc td CD)) as (te & TS & Qe & Te & CE).
    match type of Te with tb te (_ ++ ?m) _ _ _ => set (more := m) in * end.
    exists (map k_col K ++ more), TS, more, te.
    assert (CEU : forall cn ct, (exists i, nth_error (map k_col K ++ more) i = Some cn /\ nth_error TS i = Some ct) <-> ColType t1 cn = Ok ct \/ ColType t2 cn = Ok ct).
    { intros cn ct. rewrite <- CU, <- CD, <- CE. rewrite (wf_ColType_iff te (tb_wf _ _ _ _ _ Te)), (tb_cn _ _ _ _ _ Te), (tb_ct _ _ _ _ _ Te). reflexivity. }
    split; [constructor|split; [exact Te|]].
    - rewrite <- (tb_cn _ _ _ _ _ Te), <- (tb_ct _ _ _ _ _ Te). symmetry. apply (wf_types_len _ (tb_wf _ _ _ _ _ Te)).
    - reflexivity.
    - rewrite <- (tb_cn _ _ _ _ _ Te). apply (wf_nodup _ (tb_wf _ _ _ _ _ Te)).
    - exact CEU.
    - apply Forall_forall. intros ct I. apply In_nth_error in I as (i & I).
      destruct (nth_error (map k_col K ++ more) i) as [cn|] eqn:HN.
      2:{ apply nth_error_None in HN. rewrite <- (tb_cn _ _ _ _ _ Te) in HN. rewrite <- (wf_types_len _ (tb_wf _ _ _ _ _ Te)), (tb_ct _ _ _ _ _ Te) in HN. apply nth_error_some_lt in I. lia. }
      destruct (proj1 (CEU cn ct)) as [C|C]; [eauto| |].
      + apply (wf_ColType_iff t1 W1) in C as (j & _ & J). rewrite Forall_forall in MT1. apply MT1. eapply nth_error_In; eauto.
      + apply (wf_ColType_iff t2 W2) in C as (j & _ & J). rewrite Forall_forall in MT2. apply MT2. eapply nth_error_In; eauto.
    - unfold typed_lists. eapply Forall_impl; [|exact KT1]. intros k [H1 H2]. destruct (proj2 (CEU _ _) (or_introl H1)) as (i & I1 & I2). eauto.
    - intros c cn ct H1 H2. apply CEU. left. apply (wf_ColType_iff t1 W1). eauto.
    - intros c cn ct H1 H2. apply CEU. right. apply (wf_ColType_iff t2 W2). eauto.
    - intros B m. split.
      + intros t' a R. eapply runs_bind; [exact Q0|]. eapply runs_bind; [exact Qa|]. eapply runs_bind; [exact Qc|].
        eapply runs_bind; [exact Qd|]. eapply runs_bind; [exact Qe|]. exact R.
      + intros R. eapply fails_bind; [exact Q0|]. eapply fails_bind; [exact Qa|]. eapply fails_bind; [exact Qc|].
        eapply fails_bind; [exact Qd|]. eapply fails_bind; [exact Qe|]. exact R.
  Qed.

  Definition src (N TS : list string) : list (list value * Z) := spread t1 N TS 1 ++ spread t2 N TS 2.

  Lemma body_rows : exists N TS more cur rest, layout K t1 t2 N TS more
    /\ Permutation (cur :: rest) (src N TS) /\ ordered E K (cur :: rest)
    /\ ((exists row, In row (wlist E K cur rest) /\ alive row = false) ->
         exists t' rs', runs (merge_body E t1 t2) NewNilTable t' tt /\ tb t' N TS K rs'
           /\ Permutation rs' (map fst (surv (keq E K) joinR cur rest)) /\ (no_nan_keys t' -> sorted_table E t'))
    /\ ((forall row, In row (wlist E K cur rest) -> alive row = true) -> fails (merge_body E t1 t2) NewNilTable).
  Proof using EO MB KF.
    pose proof MB as [W1 W2 R1 R2 KN KD KT1 KT2 NN1 NN2 AG MT1 MT2 [NT1 ND1] [NT2 ND2]].
    destruct body_layout as (N & TS & more & ta & LY & Ta & Q0). pose proof LY as [LN NK NDN CEU MT TL WI1 WI2].
    assert (NIN : forall x, ~ In x (cnames t1) -> ~ In x (cnames t2) -> ~ In x N).
    { intros x X1 X2 I. apply In_nth_error in I as (i & I). destruct (nth_error TS i) as [ct|] eqn:C.
      2:{ apply nth_error_None in C. apply nth_error_some_lt in I. lia. }
      destruct (proj1 (CEU x ct)) as [H|H]; [eauto| |].
      - apply (wf_ColType_iff t1 W1) in H as (j & J & _). apply X1. eapply nth_error_In; eauto.
      - apply (wf_ColType_iff t2 W2) in H as (j & J & _). apply X2. eapply nth_error_In; eauto. }
    assert (NTN : ~ In "_TABLE_" N) by now apply NIN. assert (NDE : ~ In "_DELETE_" N) by now apply NIN.
    assert (LD : List.length N = List.length (map dfl TS)) by now rewrite map_length.
    (* columns and rows *)
    destruct (runs_AppendCol ta N TS K [] "_TABLE_" "int" Ta) as (tb1 & Qb & Tb); auto; [now apply IsValidColName_spec|now apply str_in_In|].
    cbn [map] in Tb.
    assert (IT : Forall (fun ct => is_tab ct = false) (TS ++ ["int"])).
    { apply Forall_app. split; [|constructor; [reflexivity|constructor]]. eapply Forall_impl; [|exact MT]. intros ct I.
      unfold mergeable_types in I. simpl in I. repeat (destruct I as [<-|I]; [reflexivity|]). destruct I. }
    set (n1 := List.length (rows t1)) in *. set (n2 := List.length (rows t2)) in *.
    destruct (runs_AppendRows tb1 _ _ K (n1 + n2) Tb IT) as (tc & Qc & Tc).
    destruct (runs_nan tc _ _ K _ Tc) as (td & Qd & Td).
    set (d := map dfl (TS ++ ["int"])) in *.
    assert (CD : Forall2 cell_ok (TS ++ ["int"]) d).
    { unfold d. assert (F : Forall (fun ct => In ct mergeable_types) (TS ++ ["int"])).
      { apply Forall_app. split; auto. constructor; [now apply str_in_In|constructor]. }
      clear -F. induction F; constructor; auto. now apply dfl_cell_ok. }
    (* table 1 *)
    replace (repeat d (n1 + n2)) with ([] ++ repeat d n1 ++ repeat d n2) in Td by (simpl; symmetry; apply repeat_app).
    assert (W1' : within t1 (N ++ ["_TABLE_"]) (TS ++ ["int"])).
    { intros c cn ct H1 H2. destruct (WI1 c cn ct H1 H2) as (i & I1 & I2). exists i. rewrite !nth_error_app1 by (eapply nth_error_some_lt; eauto). auto. }
    assert (W2' : within t2 (N ++ ["_TABLE_"]) (TS ++ ["int"])).
    { intros c cn ct H1 H2. destruct (WI2 c cn ct H1 H2) as (i & I1 & I2). exists i. rewrite !nth_error_app1 by (eapply nth_error_some_lt; eauto). auto. }
    destruct (runs_copy td _ _ K [] d _ t1 Td W1 W1' CD) as (te & Qe & Te).
    set (A1 := map (fun r => over t1 (N ++ ["_TABLE_"]) r d) (rows t1)) in *.
    assert (LA1 : List.length A1 = n1) by (unfold A1; now rewrite map_length).
    destruct (runs_marks te N TS K [] A1 (repeat d n2) 1 Te LN eq_refl) as (tf & Qf & Tf).
    unfold A1 at 1 in Tf. unfold d at 1 in Tf. rewrite (mark_rows t1 N TS 1 W1 LN NT1) in Tf. cbn [app] in Tf.
    set (B1 := map mrow (spread t1 N TS 1)) in *.
    assert (LB1 : List.length B1 = n1) by (unfold B1, spread; now rewrite !map_length).
    (* table 2 *)
    replace (B1 ++ repeat d n2) with (B1 ++ repeat d n2 ++ []) in Tf by now rewrite app_nil_r.
    destruct (runs_copy tf _ _ K B1 d [] t2 Tf W2 W2' CD) as (tg & Qg & Tg).
    set (A2 := map (fun r => over t2 (N ++ ["_TABLE_"]) r d) (rows t2)) in *.
    assert (LA2 : List.length A2 = n2) by (unfold A2; now rewrite map_length).
    destruct (runs_marks tg N TS K B1 A2 [] 2 Tg LN eq_refl) as (ti & Qi & Ti).
    unfold A2 at 1 in Ti. unfold d at 1 in Ti. rewrite (mark_rows t2 N TS 2 W2 LN NT2) in Ti.
    rewrite app_nil_r in Ti. unfold B1 in Ti at 1. rewrite <- map_app in Ti. fold (src N TS) in Ti.
    (* sort *)
    assert (HNt : nth_error (N ++ ["_TABLE_"]) (List.length N) = Some "_TABLE_") by (rewrite nth_error_app2, Nat.sub_diag by lia; reflexivity).
    assert (HTt : nth_error (TS ++ ["int"]) (List.length N) = Some "int") by (rewrite LN, nth_error_app2, Nat.sub_diag by lia; reflexivity).
    pose proof (runs_key ti _ _ K _ _ _ _ Ti HNt HTt ltac:(now apply str_in_In)) as Qj. fold mark_key in Qj.
    pose proof (tb_keys _ _ _ _ _ (K ++ [mark_key]) Ti) as Tj. set (tj := with_skeys (K ++ [mark_key]) ti) in *.
    assert (TLm : typed_lists (N ++ ["_TABLE_"]) (TS ++ ["int"]) (K ++ [mark_key])).
    { apply Forall_app. split; [now apply typed_app|]. constructor; [|constructor]. exists (List.length N). split; auto. split; auto. now apply str_in_In. }
    destruct (runs_sort E tj _ _ _ _ EO Tj ltac:(destruct K; discriminate) (typed_of_lists _ _ _ _ _ _ Tj TLm)) as (tk & rk & Qk & Tk & Pk & _ & _ & Ok).
    destruct (Permutation_map_inv _ _ Pk) as (l & El & Pl). apply Permutation_sym in Pl.
    assert (LS : Forall (fun p => List.length (fst p) = List.length TS) (src N TS)).
    { unfold src, spread. apply Forall_app. split; rewrite Forall_map; apply Forall_forall; intros r _; cbn [fst]; rewrite over_len; auto. }
    assert (LKT : List.length K <= List.length TS) by (rewrite <- LN, NK, app_length, map_length; lia).
    assert (KVm : forall p, In p (src N TS) -> kv (cmap tj) (K ++ [mark_key]) (mrow p) = firstn (List.length K) (fst p) ++ [VInt KInt (snd p)]).
    { intros p I. rewrite Forall_forall in LS. specialize (LS p I). unfold kv. rewrite map_app. f_equal.
      - change (map (fun k => match mget (cmap tj) (k_col k) with Some c => nth c (mrow p) VNil | None => VNil end) K) with (kv (cmap tj) K (mrow p)).
        rewrite (kv_first tj K (more ++ ["_TABLE_"])).
        + unfold mrow. rewrite firstn_app. replace (List.length K - List.length (fst p)) with 0 by lia. now rewrite firstn_O, app_nil_r.
        + apply (tb_wf _ _ _ _ _ Tj).
        + rewrite (tb_cn _ _ _ _ _ Tj), NK, app_assoc. reflexivity.
        + unfold mrow. rewrite app_length. lia.
      - cbn [map k_col mark_key]. rewrite (proj2 (wf_map _ (tb_wf _ _ _ _ _ Tj) "_TABLE_" (List.length N))) by (now rewrite (tb_cn _ _ _ _ _ Tj)).
        f_equal. unfold mrow. rewrite app_nth2 by lia. rewrite LS, LN, Nat.sub_diag. reflexivity. }
    assert (NNk : Forall (fun p => Forall (fun v => ~ is_nan v) (firstn (List.length K) (fst p))) (src N TS)).
    { unfold src, spread. apply Forall_app. split; rewrite Forall_map; apply Forall_forall; intros r I; cbn [fst]; eapply over_nan; eauto. }
    assert (OR : ordered E K l).
    { assert (F : Forall (fun row => Forall (fun v => ~ is_nan v) (kv (cmap tj) (K ++ [mark_key]) row)) (map mrow (src N TS))).
      { rewrite Forall_map. rewrite Forall_forall in *. intros p I. rewrite KVm by auto. apply Forall_app. split; [apply NNk; auto|].
        constructor; [|constructor]. intros [X|X]; discriminate. }
      specialize (Ok F). subst rk. apply FOP_map in Ok. unfold ordered.
      assert (IL : forall p, In p l -> In p (src N TS)) by (intros p; apply Permutation_in; auto).
      clear -Ok KVm IL. induction Ok as [|x l Fx Ok IH]; constructor; [|apply IH; intros; apply IL; now right].
      rewrite Forall_forall in *. intros y Iy. rewrite <- !KVm by (apply IL; simpl; auto). auto. }
    subst rk.
    (* loop *)
    assert (NMK : ~ In "_TABLE_" (map k_col K)) by (intros I; apply NTN; rewrite NK; apply in_or_app; auto).
    pose proof (runs_unkey tk _ _ K _ mark_key (List.length N) Tk HNt NMK) as Ql. cbn [k_col mark_key] in Ql.
    pose proof (tb_keys _ _ _ _ _ K Tk) as Tl. set (tl := with_skeys K tk) in *.
    destruct (runs_AppendCol tl _ _ K _ "_DELETE_" "bool" Tl) as (tm & Qm & Tm); auto; [now apply IsValidColName_spec| |now apply str_in_In|].
    { intros I. apply in_app_or in I as [I|[I|[]]]; [contradiction|discriminate]. }
    assert (EW : map (fun row => row ++ [zplain "bool"]) (map mrow l) = map wrow l).
    { rewrite map_map. apply map_ext. intros p. unfold mrow, wrow. rewrite <- app_assoc. reflexivity. }
    rewrite EW in Tm.
    destruct l as [|cur rest].
    { apply Permutation_nil in Pl. exfalso. apply (f_equal (@List.length _)) in Pl. unfold src, spread in Pl. rewrite app_length, !map_length in Pl.
      unfold RowCount in R1. simpl in Pl. lia. }
    assert (Tm' : tb (with_rows ([] ++ map wrow (cur :: rest)) tm) (N ++ ["_TABLE_"; "_DELETE_"]) (TS ++ ["int"; "bool"]) K ([] ++ map wrow (cur :: rest))).
    { cbn [app]. rewrite (with_rows_id tm) by apply (tb_rs _ _ _ _ _ Tm). rewrite <- !app_assoc in Tm. exact Tm. }
    assert (LL : Forall (fun p => List.length (fst p) = List.length TS) (cur :: rest)).
    { rewrite Forall_forall in *. intros p I. apply LS. eapply Permutation_in; eauto. }
    assert (TKm : typed_keys tm K). { eapply typed_of_lists; [exact Tm|]. rewrite <- !app_assoc. now apply typed_app. }
    assert (RL := runs_rows E K N TS more tm LN NK KN MT TKm).
    specialize (RL rest cur [] Tm' LL).
    destruct RL as [Qn Tn]. cbn [app List.length] in Qn, Tn.
    rewrite (with_rows_id tm (map wrow (cur :: rest))) in Qn by apply (tb_rs _ _ _ _ _ Tm).
    set (tn := with_rows (wlist E K cur rest) tm) in *.
    exists N, TS, more, cur, rest. split; [exact LY|]. split; [exact Pl|]. split; [exact OR|].
    change [("_TABLE_" : string); "_DELETE_"] with (["_TABLE_"] ++ ["_DELETE_"]) in Tn.
    change [("int" : string); "bool"] with (["int"] ++ ["bool"]) in Tn. rewrite !app_assoc in Tn.
    assert (LWR : forall p, In p (surv (keq E K) joinR cur rest) -> List.length (fst p) = List.length TS).
    { clear -LL. revert cur LL. induction rest as [|r rest IH]; intros cur LL p I; cbn [surv] in I.
      - destruct I as [<-|[]]. now inversion LL.
      - inversion LL as [|? ? L1 LL']. subst. inversion LL' as [|? ? L2 LL'']. subst. destruct (keq E K cur r).
        + apply (IH (joinR cur r)); auto. constructor; auto. cbn. rewrite zipw_len; lia.
        + destruct I as [<-|I]; auto. apply (IH r); auto. }
    destruct (runs_tail E K N TS t1 EO LN KF KN KD TL tn _ Tn) as [TO TF].
    assert (RC1 : RowCount t1 = Z.of_nat n1) by reflexivity. assert (RC2 : RowCount t2 = Z.of_nat n2) by reflexivity.
    assert (CH : forall (B : Type) (m : M B),
      (forall t' a, runs m tn t' a -> runs (AppendCol "_TABLE_" "int" ;;; AppendRows (RowCount t1 + RowCount t2) ;;; SetAllFloatCellsToNaN ;;;
        copyTableCells t1 0 ;;; mfor (zseq (List.length (rows t1))) (fun ri => SetT "int" "_TABLE_" ri (VInt KInt 1)) ;;;
        copyTableCells t2 (RowCount t1) ;;; let* t := get in
        mfor (zseq (Z.to_nat (RowCount t - RowCount t1))) (fun k => SetT "int" "_TABLE_" (RowCount t1 + k) (VInt KInt 2)) ;;;
        AppendSortKey "_TABLE_" ;;; Sort E [] ;;; DeleteSortKey "_TABLE_" ;;; AppendCol "_DELETE_" "bool" ;;; let* t := get in
        mfor (zseq (Z.to_nat (RowCount t - 1))) (merge_row E) ;;; m) ta t' a)
      /\ (fails m tn -> fails (AppendCol "_TABLE_" "int" ;;; AppendRows (RowCount t1 + RowCount t2) ;;; SetAllFloatCellsToNaN ;;;
        copyTableCells t1 0 ;;; mfor (zseq (List.length (rows t1))) (fun ri => SetT "int" "_TABLE_" ri (VInt KInt 1)) ;;;
        copyTableCells t2 (RowCount t1) ;;; let* t := get in
        mfor (zseq (Z.to_nat (RowCount t - RowCount t1))) (fun k => SetT "int" "_TABLE_" (RowCount t1 + k) (VInt KInt 2)) ;;;
        AppendSortKey "_TABLE_" ;;; Sort E [] ;;; DeleteSortKey "_TABLE_" ;;; AppendCol "_DELETE_" "bool" ;;; let* t := get in
        mfor (zseq (Z.to_nat (RowCount t - 1))) (merge_row E) ;;; m) ta)).
    { assert (Qc' : runs (AppendRows (RowCount t1 + RowCount t2)) tb1 tc tt).
      { rewrite RC1, RC2, <- Nat2Z.inj_add. exact Qc. }
      assert (Qf' : runs (mfor (zseq (List.length (rows t1))) (fun ri => SetT "int" "_TABLE_" ri (VInt KInt 1))) te tf tt).
      { fold n1. rewrite <- LA1. exact Qf. }
      assert (Qg' : runs (copyTableCells t2 (RowCount t1)) tf tg tt).
      { rewrite RC1, <- LB1. exact Qg. }
      assert (Qi' : runs (mfor (zseq (Z.to_nat (RowCount tg - RowCount t1))) (fun k => SetT "int" "_TABLE_" (RowCount t1 + k) (VInt KInt 2))) tg ti tt).
      { replace (Z.to_nat (RowCount tg - RowCount t1)) with (List.length A2).
        - rewrite RC1, <- LB1. exact Qi.
        - unfold RowCount at 1. rewrite (tb_rs _ _ _ _ _ Tg), RC1. fold A2. rewrite app_nil_r, app_length, LB1. lia. }
      assert (Qn' : runs (mfor (zseq (Z.to_nat (RowCount tm - 1))) (merge_row E)) tm tn tt).
      { replace (Z.to_nat (RowCount tm - 1)) with (List.length rest); [exact Qn|].
        unfold RowCount. rewrite (tb_rs _ _ _ _ _ Tm), map_length. cbn [List.length]. lia. }
      intros B m. split.
      - intros t' a R. eapply runs_bind; [exact Qb|]. eapply runs_bind; [exact Qc'|]. eapply runs_bind; [exact Qd|]. eapply runs_bind; [exact Qe|].
        eapply runs_bind; [exact Qf'|]. eapply runs_bind; [exact Qg'|]. apply runs_get. eapply runs_bind; [exact Qi'|].
        eapply runs_bind; [exact Qj|]. eapply runs_bind; [exact Qk|]. eapply runs_bind; [exact Ql|]. eapply runs_bind; [exact Qm|].
        apply runs_get. eapply runs_bind; [exact Qn'|]. exact R.
      - intros R. eapply fails_bind; [exact Qb|]. eapply fails_bind; [exact Qc'|]. eapply fails_bind; [exact Qd|]. eapply fails_bind; [exact Qe|].
        eapply fails_bind; [exact Qf'|]. eapply fails_bind; [exact Qg'|].
        apply fails_get. eapply fails_bind; [exact Qi'|].
        eapply fails_bind; [exact Qj|]. eapply fails_bind; [exact Qk|]. eapply fails_bind; [exact Ql|]. eapply fails_bind; [exact Qm|].
        apply fails_get. eapply fails_bind; [exact Qn'|]. exact R. }
    split.
    - intros X. destruct (TO X) as (t' & rs' & Qo & To & Po & So). exists t', rs'. split; [|split; [exact To|split; [|exact So]]].
      + exact (proj1 (Q0 unit _) t' tt (proj1 (CH unit (merge_tail E t1)) t' tt Qo)).
      + eapply Permutation_trans; [exact Po|]. rewrite wlist_alive, map_map.
        erewrite map_ext_in; [apply Permutation_refl|]. intros p I. cbn beta. unfold wrow. rewrite firstn_app, (LWR p I), Nat.sub_diag.
        cbn [firstn]. rewrite app_nil_r. apply firstn_all2. rewrite (LWR p I). lia.
    - intros X. exact (proj2 (Q0 unit _) (proj2 (CH unit (merge_tail E t1)) (TF X))).
  Qed.
End Body.
