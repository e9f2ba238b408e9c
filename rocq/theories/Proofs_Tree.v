(** Proofs_Tree.v -- NewTreeTable fills a copy that nobody sees. *)
From Coq Require Import ZArith NArith List String Ascii Bool SpecFloat Lia.
From Verif Require Import Base Model_Names Model_Table Model_Sort Model_Copy Model_Heap Model_Lex Model_Print Model_Parser Model_Json Model_Query Model_Nest.
From Verif Require Import Spec Spec_Sort Spec_Copy Spec_Heap Spec_Walk Spec_Equals.
From Verif Require Import Proofs_Lib Proofs_Table Proofs_Cells Proofs_Api Proofs_Api2 Proofs_Pres Proofs_Heap Proofs_Frame Proofs_Nesting Proofs_Nest.
From Verif Require Import Props_Walk Props_Equals Props_Query.
Import ListNotations.
Local Open Scope string_scope.
Local Open Scope list_scope.

Lemma hfor_inv {A} (I : heap -> Prop) (body : A -> HM unit) l : (forall x h, In x l -> I h -> exists h', body x h = (h', Ok tt) /\ I h') ->
  forall h, I h -> exists h', hfor l body h = (h', Ok tt) /\ I h'.
Proof.
  induction l as [|x l IH]; intros B h H; [exists h; split; [reflexivity|exact H]|].
  destruct (B x h (or_introl eq_refl) H) as (h1 & E & H1). destruct (IH (fun y g Y => B y g (or_intror Y)) h1 H1) as (h2 & E2 & H2).
  exists h2. split; [|exact H2]. cbn [hfor]. unfold hbind. now rewrite E.
Qed.
Lemma hfor_idle {A} (body : A -> HM unit) l h : (forall x, In x l -> body x h = (h, Ok tt)) -> hfor l body h = (h, Ok tt).
Proof.
  intros B. destruct (hfor_inv (fun g => g = h) body l) with (h := h) as (h' & E & ->); auto.
  intros x g I ->. exists h. split; [now apply B|reflexivity].
Qed.

(** A table without columns is left alone. *)
Lemma tree_no_cols d orig q h : cnames (tab h q) = [] -> newTreeTable_recursive d orig q h = (h, Ok tt).
Proof.
  intros C. destruct d; [reflexivity|]. cbn [newTreeTable_recursive]. unfold hbind at 1. unfold asks at 1. rewrite C. apply hfor_idle. reflexivity.
Qed.

Lemma flat_nesting_same h h' (p : ptr) : wf_heap h -> p < List.length h -> (forall z, z < List.length h -> nth_error h' z = nth_error h z) ->
  flat_nesting h p -> flat_nesting h' p.
Proof.
  intros W L S [A B]. assert (T : tab h' p = tab h p) by (apply tab_eq; now apply S). unfold flat_nesting. rewrite T. split; [exact A|].
  intros q I. rewrite (tab_eq h h' q); [now apply B|]. apply S. destruct (tab_wf h p W) as [_ P]. now apply (proj1 (Proofs_Heap.nested_lt _ (tab h p))).
Qed.

Section Tree.
  Variables (h0 : heap) (p c : ptr) (cns cts : list string) (n : nat).
  Hypothesis W0 : wf_heap h0.
  Hypothesis LP : p < List.length h0.
  Hypothesis NP : is_nil (tab h0 p) = false.
  Hypothesis FP : flat_nesting h0 p.
  Hypothesis LC : List.length h0 <= c.

  Record tinv (h : heap) : Prop := {
    ti_wf : wf_heap h;
    ti_len : List.length h0 <= List.length h;
    ti_old : forall z, z < List.length h0 -> nth_error h z = nth_error h0 z;
    ti_copy : exists tc, nth_error h c = Some tc /\ cnames tc = cns /\ ctypes tc = cts /\ List.length (rows tc) = n }.

  Lemma tree_cell_ok d ri ci h : In ri (zseq n) -> In ci (zseq (List.length cns)) -> tinv h ->
    exists h', tree_cell p c (newTreeTable_recursive d p) ri ci h = (h', Ok tt) /\ tinv h'.
  Proof.
    intros IR IC T. destruct T as [W L OLD (tc & HC & CN & CT & RN)]. pose proof (nth_error_some_lt _ _ _ HC) as LCh.
    apply In_zseq in IR. apply In_zseq in IC.
    assert (Wc : wf_table tc) by (pose proof (wh_tables _ W) as F; rewrite Forall_forall in F; apply F; now apply nth_error_In in HC).
    set (kc := Z.to_nat ci). set (kr := Z.to_nat ri).
    destruct (nth_error_lt (cnames tc) kc) as [cn CNM]; [rewrite CN; unfold kc; lia|].
    destruct (nth_error_lt (ctypes tc) kc) as [ct CTY]; [rewrite (wf_types_len _ Wc), CN; unfold kc; lia|].
    assert (CA : col_at tc ci cn) by (split; [lia|exact CNM]).
    destruct (C51_IsTableCol tc cn Wc) as [Q _]. destruct (Q ci ct CA CTY) as (Q1 & Q2 & Q3).
    unfold tree_cell. unfold hbind at 1. unfold asks at 1. rewrite (tab_nth _ _ _ HC), Q3.
    destruct (string_dec ct "*Table") as [-> |NT].
    2:{ rewrite (Q2 NT). exists h. split; [reflexivity|]. constructor; eauto. }
    rewrite (Q1 eq_refl).
    destruct (nth_error_lt (rows tc) kr) as [row ROW]; [unfold kr; lia|].
    pose proof (wf_cells _ Wc) as WC. rewrite Forall_forall in WC. specialize (WC row (nth_error_In _ _ ROW)).
    destruct (Forall2_nth _ _ _ _ _ WC CTY) as (v & V & [HT _]).
    assert (exists q : ptr, v = VTable (Some q)) as [q ->].
    { destruct v as [|b|s|k z|f|f|o|[q|]|tm|x]; cbn in HT; try discriminate; try contradiction; eauto. - destruct k; intuition discriminate. - intuition discriminate. }
    pose proof (GetTableByColIndex_at tc kc kr row q Wc ROW CTY V) as G. unfold kc, kr in G. rewrite !Z2Nat.id in G by lia.
    unfold hbind at 1. unfold asks at 1. rewrite (tab_nth _ _ _ HC), G. unfold hbind at 1. unfold asks at 1.
    destruct (is_nil (tab h q)) eqn:NQ; [|exists h; split; [reflexivity|constructor; eauto]].
    assert (LQ : q < List.length h).
    { apply (wh_nested _ W c tc q HC). apply In_nested_in. eauto. }
    assert (NQC : q <> c).
    { intros ->. rewrite (tab_nth _ _ _ HC) in NQ. apply (wf_nil_cols _ Wc) in NQ. rewrite NQ in CNM. destruct kc; discriminate. }
    unfold hbind at 1. unfold asks at 1. rewrite (tab_nth _ _ _ HC).
    replace (ColName tc ci) with (Ok cn).
    2:{ unfold ColName. pose proof (col_at_range _ _ _ CA) as R. destruct (Z.ltb_spec ci 0), (Z.gtb_spec ci (ColCount tc - 1)); try lia.
        cbn [orb]. now rewrite (proj2 (znth_some _ _ _) CA). }
    assert (TP : tab h p = tab h0 p) by (apply tab_eq; now apply OLD).
    destruct (C14_Copy h p W ltac:(lia)) as [CP _]. rewrite TP in CP.
    destruct (CP NP (flat_nesting_same h0 h p W0 LP OLD FP)) as (h1 & c1 & E1 & [B1 B2] & _ & _ & _ & _ & OLD1).
    destruct (Copy_wf p h W) as [W1 L1]. rewrite E1 in W1, L1. cbn [fst] in W1, L1.
    unfold hbind at 1. rewrite E1. unfold hbind at 1. cbn [SetTable].
    set (h2 := set_parent c1 c h1).
    assert (LCh1 : c < List.length h1) by lia.
    destruct (set_parent_wf c1 c h1 W1 LCh1) as [W2 L2]. fold h2 in W2, L2.
    assert (F2 : forall z, z < List.length h -> nth_error h2 z = nth_error h z).
    { intros z Z. unfold h2. rewrite set_parent_frame by lia. now apply OLD1. }
    assert (HC2 : nth_error h2 c = Some tc) by (rewrite F2; assumption).
    assert (RT : exists t', run (SetT "*Table" cn ri (VTable (Some c1))) (List.length h2) tc = (t', Ok tt) /\ wf_table t' /\ only_cell_changed tc t' ci ri (VTable (Some c1))).
    { destruct (SetT_eq "*Table" cn ri (VTable (Some c1)) (mkS tc (List.length h2) []) Wc) as [(i & ct & _ & _ & C' & T' & HT' & EQ)|H]; [now apply str_in_In|reflexivity| |].
      - cbn [s_tab] in *. assert (i = kc). { eapply (NoDup_nth_error (cnames tc)); [apply (wf_nodup _ Wc)|now apply nth_error_some_lt in C'|congruence]. } subst i.
        eexists. split; [unfold run; rewrite EQ; reflexivity|].
        destruct (written_only kc (Z.to_nat ri) (VTable (Some c1)) tc ct Wc T' HT' eq_refl) as [X Y]; [lia|].
        rewrite Z2Nat.id in Y by lia. unfold kc in Y at 2. rewrite Z2Nat.id in Y by lia. split; [exact X|exact Y].
      - exfalso. destruct H as [NE _]. apply NE. exists kc, "*Table". cbn [s_tab]. unfold RowCount. repeat split; auto; lia. }
    destruct RT as (t' & RT & Wt' & OC). destruct (on_heap_run c _ _ _ _ _ HC2 RT) as (l & OH). rewrite OH.
    set (h3 := upd h2 c t' ++ l) in *.
    assert (W3 : wf_heap h3).
    { destruct (on_heap_wf c (SetT "*Table" cn ri (VTable (Some c1))) h2 W2) as [X _]; [|rewrite OH in X; exact X].
      apply pres_SetT; [now apply str_in_In|reflexivity|reflexivity|]. cbn. lia. }
    assert (F3 : forall z, z < List.length h -> z <> c -> nth_error h3 z = nth_error h z).
    { intros z Z NZ. unfold h3. rewrite nth_put_ne by (auto; lia). now apply F2. }
    assert (HQ3 : tab h3 q = tab h q) by (apply tab_eq; apply F3; auto).
    exists h3. split.
    - apply tree_no_cols. rewrite HQ3. apply wf_nil_cols; [apply (proj1 (tab_wf h q W))|exact NQ].
    - constructor.
      + exact W3.
      + pose proof (length_put h2 l c t'). unfold h3. lia.
      + intros z Z. rewrite F3 by lia. now apply OLD.
      + exists t'. split; [eapply nth_put; exact HC2|]. destruct (occ_header _ _ _ _ _ OC) as [_ C1 C2 _ _ _ _]. rewrite C1, C2. split; [exact CN|]. split; [exact CT|].
        pose proof (occ_rows _ _ _ _ _ OC) as R. unfold RowCount in R. lia.
  Qed.

  Lemma tree_ok d h : tinv h -> exists h', newTreeTable_recursive d p c h = (h', Ok tt) /\ tinv h'.
  Proof.
    intros T. destruct d; [exists h; split; [reflexivity|exact T]|]. cbn [newTreeTable_recursive]. unfold hbind at 1. unfold asks at 1.
    destruct (ti_copy _ T) as (tc & HC & CN & CT & RN). rewrite (tab_nth _ _ _ HC), RN, CN. clear tc HC CN CT RN.
    apply hfor_inv; [|exact T]. intros ri g IR TG. apply hfor_inv; [|exact TG]. intros ci g' IC TG'. now apply tree_cell_ok.
  Qed.
End Tree.

Lemma NewTreeTable_spec h (p : ptr) depth : wf_heap h -> p < List.length h ->
  exists h' r, NewTreeTable (Some p) depth h = (h', r) /\ (forall z, z < List.length h -> nth_error h' z = nth_error h z)
    /\ (is_nil (tab h p) = false /\ flat_nesting h p /\ (0 <= depth)%Z -> r = Ok (Some p))
    /\ (~ (is_nil (tab h p) = false /\ flat_nesting h p /\ (0 <= depth)%Z) -> r = Err).
Proof.
  intros W L. destruct (C14_Copy h p W L) as [C1 C2]. unfold NewTreeTable, hbind.
  destruct (HasCircularReference_eq h p W L) as [[F _]|[NF _]].
  2:{ rewrite C2 by tauto. exists h, Err. split; [reflexivity|]. split; [auto|]. split; [tauto|auto]. }
  destruct (is_nil (tab h p)) eqn:N.
  { rewrite C2 by (intros [? _]; discriminate). exists h, Err. split; [reflexivity|]. split; [auto|]. split; [intros [? _]; discriminate|auto]. }
  destruct (C1 eq_refl F) as (h1 & c & E & [B1 B2] & FT & CN & CT & RW & OLD). destruct (Copy_wf p h W) as [W1 L1]. rewrite E in W1, L1 |- *. cbn [fst] in W1, L1.
  destruct (Z.ltb_spec depth 0) as [D|D].
  { exists h1, Err. split; [reflexivity|]. split; [exact OLD|]. split; [intros (_ & _ & ?); lia|auto]. }
  destruct (nth_error_lt h1 c B2) as [tc HC].
  destruct (tree_ok h p c (cnames (tab h p)) (ctypes (tab h p)) (List.length (rows (tab h p))) W L N F B1 (Z.to_nat depth) h1) as (h2 & E2 & T2).
  { constructor; auto. exists tc. split; [exact HC|]. rewrite <- (tab_nth _ _ _ HC), CN, CT, RW. auto. }
  rewrite E2. exists h2, (Ok (Some p)). split; [reflexivity|]. split; [apply T2|]. split; [reflexivity|]. intros X. exfalso. apply X. auto.
Qed.
