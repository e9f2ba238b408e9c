(** Props_Sets.v -- Copy, Equals and IsValidTableSet of table sets: C49. *)
From Coq Require Import ZArith NArith List String Ascii Bool SpecFloat Permutation Lia.
From Verif Require Import Base Model_Names Model_Table Model_Sort Model_Copy Model_Ops Model_Heap Model_TableSet.
From Verif Require Import Spec Spec_Sort Spec_Copy Spec_Heap Spec_Walk Spec_Frame Spec_TableSet Spec_Equals Spec_Keys Spec_Sets.
From Verif Require Import Proofs_Lib Proofs_Table Proofs_Cells Proofs_Pres Samples Proofs_Env Proofs_Heap Proofs_Frame Proofs_Nesting Proofs_TableSet Proofs_Api2 Proofs_Equals Proofs_Valid.
From Verif Require Import Props_Heap Props_Walk Props_TableSet Props_Equals Props_Valid.
Import ListNotations.
Local Open Scope string_scope.
Local Open Scope list_scope.

(** ---------- Equals ---------- *)

Lemma TS_Equals_spec fuel h s1 s2 :
  (forall o1 o2, In o1 (ts_tables s1) -> In o2 (ts_tables s2) -> Equals fuel h o1 o2 <> Panic) ->
  TS_Equals fuel h s1 s2 <> Panic
  /\ (TS_Equals fuel h s1 s2 = Ok tt <-> Forall2 (fun o1 o2 => Equals fuel h o1 o2 = Ok tt) (ts_tables s1) (ts_tables s2)).
Proof.
  intros NP. unfold TS_Equals, rcheck, TableCount.
  destruct (Z.eqb_spec (Z.of_nat (List.length (ts_tables s2))) (Z.of_nat (List.length (ts_tables s1)))) as [L|L]; cbn [rbind].
  2:{ split; [discriminate|]. split; [discriminate|]. intros F. apply Forall2_len in F. lia. }
  assert (B : forall i o1 o2, nth_error (ts_tables s1) i = Some o1 -> nth_error (ts_tables s2) i = Some o2 ->
    (let! o1 := GetTableByTableIndex s1 (Z.of_nat i) in let! o2 := GetTableByTableIndex s2 (Z.of_nat i) in Equals fuel h o1 o2)
    = Equals fuel h o1 o2).
  { intros i o1 o2 H1 H2.
    assert (G1 : GetTableByTableIndex s1 (Z.of_nat i) = Ok o1) by (apply C16_GetTableByTableIndex; rewrite Nat2Z.id; split; auto; lia).
    assert (G2 : GetTableByTableIndex s2 (Z.of_nat i) = Ok o2) by (apply C16_GetTableByTableIndex; rewrite Nat2Z.id; split; auto; lia).
    rewrite G1. cbn [rbind]. rewrite G2. reflexivity. }
  set (body := fun i : Z => _).
  assert (EX : forall i, In i (zseq (List.length (ts_tables s1))) -> exists o1 o2, nth_error (ts_tables s1) (Z.to_nat i) = Some o1
     /\ nth_error (ts_tables s2) (Z.to_nat i) = Some o2 /\ body i = Equals fuel h o1 o2).
  { intros i I. apply Proofs_Lib.In_zseq in I.
    destruct (nth_error (ts_tables s1) (Z.to_nat i)) as [o1|] eqn:H1; [|apply nth_error_None in H1; lia].
    destruct (nth_error (ts_tables s2) (Z.to_nat i)) as [o2|] eqn:H2; [|apply nth_error_None in H2; lia].
    exists o1, o2. repeat split; auto. rewrite <- (B _ _ _ H1 H2). unfold body. rewrite Z2Nat.id by lia. reflexivity. }
  destruct (rfor_spec (zseq (List.length (ts_tables s1))) body) as [P Q].
  { intros i I. destruct (EX i I) as (o1 & o2 & H1 & H2 & ->). apply NP; eapply nth_error_In; eauto. }
  split; auto. rewrite Q. split.
  - intros A. apply Forall2_nth_iff; [lia|]. intros i o1 o2 H1 H2. rewrite <- (B _ _ _ H1 H2). apply (A (Z.of_nat i)).
    apply Proofs_Lib.In_zseq. pose proof (proj1 (nth_error_Some (ts_tables s1) i) ltac:(congruence)). lia.
  - intros F i I. destruct (EX i I) as (o1 & o2 & H1 & H2 & ->). 
    destruct (Forall2_nth_r _ _ _ _ _ F H2) as (o1' & H1' & E). congruence.
Qed.

Lemma Equals_entry fuel h s1 o1 o2 : wf_heap h -> set_no_nested h s1 -> In o1 (ts_tables s1) ->
  Equals (S fuel) h o1 o2 <> Panic /\ (Equals (S fuel) h o1 o2 = Ok tt <-> same_entry h o1 o2).
Proof.
  intros WH N1 I1. destruct o1 as [p1|], o2 as [p2|].
  2,3,4: split; [discriminate|]; split; [discriminate|]; intros (a & b & A & B & _); discriminate.
  destruct (Equals_flat fuel h p1 p2 (proj1 (tab_wf h p1 WH)) (proj1 (tab_wf h p2 WH)) (N1 p1 I1)) as [P Q].
  split; auto. rewrite Q. split.
  - intros S. now exists p1, p2.
  - intros (a & b & A & B & S). now injection A as ->; injection B as ->.
Qed.

(** Equals of two sets whose tables nest no tables answers true exactly when the sets hold
    the same tables in the same order, and (false, err) otherwise: a nil entry, another
    number of tables, or a difference between two tables. *)
Theorem C49_Equals_exactly_the_same_sets : forall fuel h s1 s2, wf_heap h -> set_no_nested h s1 -> set_no_nested h s2 ->
  (same_sets h s1 s2 -> TS_Equals (S fuel) h s1 s2 = Ok tt)
  /\ (~ same_sets h s1 s2 -> TS_Equals (S fuel) h s1 s2 = Err)
  /\ (TS_Equals (S fuel) h s1 s2 = Ok tt -> same_sets h s1 s2).
Proof.
  intros fuel h s1 s2 WH N1 N2.
  destruct (TS_Equals_spec (S fuel) h s1 s2) as [P Q].
  { intros o1 o2 I1 I2. apply (Equals_entry fuel h s1 o1 o2 WH N1 I1). }
  assert (R : TS_Equals (S fuel) h s1 s2 = Ok tt <-> same_sets h s1 s2).
  { rewrite Q. unfold same_sets. clear P Q.
    assert (A : forall o1 o2, In o1 (ts_tables s1) -> (Equals (S fuel) h o1 o2 = Ok tt <-> same_entry h o1 o2)).
    { intros o1 o2 I1. apply (Equals_entry fuel h s1 o1 o2 WH N1 I1). }
    revert A. generalize (ts_tables s1), (ts_tables s2). intros l1 l2 A. split; intros F.
    - induction F as [|o1 o2 l1 l2 E F IH]; constructor; [apply A; [now left|exact E]|]. apply IH. intros. apply A. now right.
    - induction F as [|o1 o2 l1 l2 E F IH]; constructor; [apply A; [now left|exact E]|]. apply IH. intros. apply A. now right. }
  split; [apply R|]. split; [|apply R].
  intros NS. destruct (TS_Equals (S fuel) h s1 s2) as [[]| |]; auto; [|congruence]. exfalso. apply NS. now apply R.
Qed.

Theorem C49_Equals_reflexive : forall fuel h s, wf_heap h -> set_no_nested h s -> ~ In None (ts_tables s) ->
  (forall p, In (Some p) (ts_tables s) -> no_nan (tab h p)) -> TS_Equals (S fuel) h s s = Ok tt.
Proof.
  intros fuel h s WH N NI NN. apply (C49_Equals_exactly_the_same_sets fuel h s s WH N N). unfold same_sets.
  revert NI NN. clear N. induction (ts_tables s) as [|o l IH]; intros NI NN; constructor.
  - destruct o as [p|]; [|exfalso; apply NI; now left]. exists p, p. split; [reflexivity|]. split; [reflexivity|]. apply same_table_refl; [apply (tab_wf h p WH)|apply NN; now left].
  - apply IH; [intros I; apply NI; now right|intros p I; apply NN; now right].
Qed.
Theorem C49_Equals_symmetric : forall fuel h s1 s2, wf_heap h -> set_no_nested h s1 -> set_no_nested h s2 ->
  TS_Equals (S fuel) h s1 s2 = TS_Equals (S fuel) h s2 s1.
Proof.
  assert (SY : forall h s1 s2, same_sets h s1 s2 -> same_sets h s2 s1).
  { intros h s1 s2. unfold same_sets. induction 1 as [|o1 o2 l1 l2 E F IH]; constructor; auto.
    destruct E as (a & b & -> & -> & S). exists b, a. auto using same_table_sym. }
  intros fuel h s1 s2 WH N1 N2.
  destruct (C49_Equals_exactly_the_same_sets fuel h s1 s2 WH N1 N2) as (A & B & C).
  destruct (C49_Equals_exactly_the_same_sets fuel h s2 s1 WH N2 N1) as (A' & B' & C').
  destruct (TS_Equals (S fuel) h s1 s2) as [[]| |] eqn:E.
  - symmetry. apply A', SY, C. reflexivity.
  - symmetry. apply B'. intros S. apply SY, A in S. discriminate.
  - symmetry. exfalso. assert (NS : ~ same_sets h s1 s2) by (intros S; apply A in S; discriminate). apply B in NS. discriminate.
Qed.
Theorem C49_Equals_transitive : forall fuel h s1 s2 s3, wf_heap h -> set_no_nested h s1 -> set_no_nested h s2 -> set_no_nested h s3 ->
  TS_Equals (S fuel) h s1 s2 = Ok tt -> TS_Equals (S fuel) h s2 s3 = Ok tt -> TS_Equals (S fuel) h s1 s3 = Ok tt.
Proof.
  intros fuel h s1 s2 s3 WH N1 N2 N3 E1 E2.
  apply C49_Equals_exactly_the_same_sets in E1, E2; auto. apply C49_Equals_exactly_the_same_sets; auto.
  unfold same_sets in *. revert E2. generalize (ts_tables s3). induction E1 as [|o1 o2 l1 l2 S F IH]; intros l3 G; inversion G; subst; constructor; auto.
  destruct S as (a & b & -> & -> & S). match goal with H : same_entry h (Some b) _ |- _ => destruct H as (b' & c & B & -> & S') end.
  injection B as <-. exists a, c. split; [reflexivity|]. split; [reflexivity|].
  apply (same_table_trans _ (tab h b)); auto; [apply (tab_wf h a WH)|apply (tab_wf h b WH)].
Qed.

(** The names of the sets, and of their files, are not compared: sets that differ there are
    equal.  So "equal sets have the same name" is false. *)
Theorem C49_Equals_ignores_set_names_refuted : forall fuel h s n f, wf_heap h -> set_no_nested h s -> ~ In None (ts_tables s) ->
  (forall p, In (Some p) (ts_tables s) -> no_nan (tab h p)) ->
  TS_Equals (S fuel) h s (SetFileName f (TS_SetName n s)) = Ok tt.
Proof. intros fuel h s n f WH N NI NN. exact (C49_Equals_reflexive fuel h s WH N NI NN). Qed.

(** ---------- Copy ---------- *)

Lemma copyable_dec h o : wf_heap h -> (forall p, o = Some p -> p < List.length h) -> copyable h o \/ ~ copyable h o.
Proof.
  intros WH L. destruct o as [p|]; [|right; intros (p & ? & _); discriminate].
  destruct (HasCircularReference_eq h p WH (L p eq_refl)) as [[F _]|[NF _]].
  - destruct (is_nil (tab h p)) eqn:N; [right; intros (a & A & B & _); injection A as <-; congruence|left; now exists p].
  - right. intros (a & A & _ & B). injection A as <-. auto.
Qed.
Lemma copyable_old h h' o : wf_heap h -> (forall p, o = Some p -> p < List.length h) ->
  (forall z, z < List.length h -> nth_error h' z = nth_error h z) -> copyable h o <-> copyable h' o.
Proof.
  intros WH L OLD. assert (T : forall z, z < List.length h -> tab h' z = tab h z) by (intros; now apply tab_eq, OLD).
  split; intros (p & -> & N & [ND NQ]); exists p; specialize (L p eq_refl).
  - split; auto. rewrite (T p L). split; auto. unfold flat_nesting. rewrite (T p L). split; auto.
    intros q I. rewrite T; auto. exact (nested_lt h p q WH I).
  - rewrite (T p L) in *. split; auto. split; auto. unfold flat_nesting. split; auto.
    intros q I. rewrite <- T; auto. exact (nested_lt h p q WH I).
Qed.

Lemma find_table_none h n ts : ~ In n (map (ref_name h) ts) -> find_table h n ts = None.
Proof.
  intros NI. pose proof (find_table_spec h n ts) as F. destruct (find_table h n ts) as [o|]; auto.
  destruct F as (i & I & R & _). exfalso. apply NI. rewrite <- R. apply in_map. eapply nth_error_In; eauto.
Qed.

Definition same_before (h h' : heap) : Prop := List.length h <= List.length h' /\ forall z, z < List.length h -> nth_error h' z = nth_error h z.
Lemma ref_name_old h h' o : same_before h h' -> (forall p, o = Some p -> p < List.length h) -> ref_name h' o = ref_name h o.
Proof. intros [_ OLD] L. destruct o as [p|]; auto. cbn [ref_name]. now rewrite (tab_eq h h' p (OLD p (L p eq_refl))). Qed.

Lemma copy_tables_spec ts : forall c h, wf_heap h -> (forall p, In (Some p) ts -> p < List.length h) ->
  (forall p, In (Some p) (ts_tables c) -> p < List.length h) -> NoDup (map (ref_name h) (ts_tables c ++ ts)) ->
  (Forall (copyable h) ts -> exists h' qs, copy_tables ts c h = (h', Ok (mkTS (ts_name c) (ts_file c) (ts_tables c ++ qs)))
     /\ Forall2 (copied h h') ts qs /\ same_before h h' /\ wf_heap h')
  /\ (~ Forall (copyable h) ts -> exists h', copy_tables ts c h = (h', Err) /\ same_before h h' /\ wf_heap h').
Proof.
  induction ts as [|o ts IH]; intros c h WH LT LC ND.
  - split.
    + intros _. exists h, []. rewrite app_nil_r. split; [now destruct c|]. split; [constructor|]. split; [split; auto|auto].
    + intros NF. exfalso. apply NF. constructor.
  - assert (LO : forall p, o = Some p -> p < List.length h) by (intros p ->; apply LT; now left).
    destruct (copyable_dec h o WH LO) as [C|NC].
    2:{ split; [intros F; inversion F; contradiction|]. intros _. exists h. split; [|split; [split; auto|auto]].
        destruct o as [p|]; [|reflexivity]. cbn [copy_tables]. rewrite (proj2 (C14_Copy h p WH (LO p eq_refl))); auto.
        intros [A B]. apply NC. now exists p. }
    pose proof C as (p & -> & NN & FN). specialize (LO p eq_refl).
    destruct (proj1 (C14_Copy h p WH LO) NN FN) as (h1 & q & EC & LQ & FT & E1 & E2 & E3 & OLD).
    pose proof (proj1 (Copy_wf p h WH)) as WH1. rewrite EC in WH1. cbn [fst] in WH1.
    assert (SB : same_before h h1) by (split; [lia|auto]).
    assert (NM : ref_name h1 (Some q) = ref_name h (Some p)) by (cbn [ref_name]; apply (ft_name _ _ FT)).
    assert (MC : map (ref_name h1) (ts_tables c) = map (ref_name h) (ts_tables c)).
    { apply map_ext_in. intros o I. apply ref_name_old; auto. intros ? ->. auto. }
    assert (MT : map (ref_name h1) ts = map (ref_name h) ts).
    { apply map_ext_in. intros o I. apply ref_name_old; auto. intros ? ->. apply LT. now right. }
    rewrite map_app in ND. cbn [map] in ND.
    assert (AP : AppendTable h1 c (Some q) = (mkTS (ts_name c) (ts_file c) (ts_tables c ++ [Some q]), Ok tt)).
    { unfold AppendTable. rewrite NM, find_table_none; auto. rewrite MC. apply NoDup_remove_2 in ND.
      intros I. apply ND. apply in_or_app. now left. }
    set (c1 := mkTS (ts_name c) (ts_file c) (ts_tables c ++ [Some q])) in *.
    destruct (IH c1 h1 WH1) as [IH1 IH2].
    { intros p' I. pose proof (LT p' (or_intror I)). lia. }
    { intros p' I. cbn [ts_tables c1] in I. apply in_app_or in I as [I|[I|[]]]; [pose proof (LC p' I); lia|injection I as <-; lia]. }
    { cbn [ts_tables c1]. rewrite <- app_assoc, map_app. cbn [map app]. now rewrite MC, MT, NM. }
    assert (FE : Forall (copyable h) ts <-> Forall (copyable h1) ts).
    { rewrite !Forall_forall. split; intros A x I; apply (copyable_old h h1); auto; intros p' ->; apply LT; now right. }
    assert (CT : copy_tables (Some p :: ts) c h = copy_tables ts c1 h1) by (cbn [copy_tables]; now rewrite EC, AP).
    unfold ref, ptr in *. rewrite CT. split.
    + intros F. inversion F as [|? ? _ F']; subst. destruct (IH1 (proj1 FE F')) as (h' & qs & E & F2 & SB' & WH').
      exists h', (Some q :: qs). split; [rewrite E; unfold c1; cbn [ts_name ts_file ts_tables]; now rewrite <- app_assoc|].
      destruct SB' as [L' O']. split; [|split; [split; [lia|intros z Lz; rewrite O' by lia; apply OLD; auto]|auto]].
      constructor.
      * exists p, q. rewrite (tab_eq h1 h' q) by (apply O'; lia). split; [reflexivity|]. split; [reflexivity|]. split; [lia|]. auto.
      * clear -F2 LT SB. assert (LT' : forall p', In (Some p') ts -> p' < List.length h) by (intros; apply LT; now right). clear LT.
        induction F2 as [|x y l1 l2 S F IH]; constructor; [|apply IH; intros; apply LT'; now right].
        destruct S as (a & b & -> & -> & L1 & L2 & L3 & L4 & L5). exists a, b. destruct SB as [LL OO].
        rewrite (tab_eq h h1 a) in * by (apply OO, LT'; now left). split; [reflexivity|]. split; [reflexivity|]. split; [lia|]. auto.
    + intros NF. destruct (IH2) as (h' & E & [L' O'] & WH').
      { intros F. apply NF. constructor; auto. now apply FE. }
      exists h'. split; auto. split; auto. split; [lia|]. intros z Lz. rewrite O' by lia. now apply OLD.
Qed.

(** Copy of a set succeeds exactly when every entry is a table that Copy of a table accepts.
    The copy has the name and file name of the set and new tables with the names, columns,
    types and cells of the original ones, in order.  No existing table changes. *)
Theorem C49_Copy : forall h s, wf_heap h -> entries_in h s -> NoDup (set_names h s) ->
  (Forall (copyable h) (ts_tables s) -> exists h' s', TS_Copy s h = (h', Ok s') /\ ts_name s' = ts_name s /\ ts_file s' = ts_file s
     /\ Forall2 (copied h h') (ts_tables s) (ts_tables s') /\ NoDup (set_names h' s')
     /\ (forall z, z < List.length h -> nth_error h' z = nth_error h z))
  /\ (~ Forall (copyable h) (ts_tables s) -> exists h', TS_Copy s h = (h', Err)
     /\ (forall z, z < List.length h -> nth_error h' z = nth_error h z)).
Proof.
  intros h s WH EI ND. destruct (copy_tables_spec (ts_tables s) (SetFileName (ts_file s) (NewTableSet (ts_name s))) h WH EI) as [A B].
  { intros p []. }
  { exact ND. }
  split.
  - intros F. destruct (A F) as (h' & qs & E & F2 & [_ OLD] & _). exists h'. eexists. split; [exact E|]. cbn [ts_name ts_file ts_tables app SetFileName NewTableSet].
    do 2 (split; [reflexivity|]). split; auto. split; auto. unfold set_names in *. cbn [ts_tables].
    replace (map (ref_name h') qs) with (map (ref_name h) (ts_tables s)); auto. clear -F2.
    induction F2 as [|x y l1 l2 S F IH]; cbn [map]; auto. rewrite IH. f_equal. destruct S as (a & b & -> & -> & _ & FT & _). symmetry. apply (ft_name _ _ FT).
  - intros NF. destruct (B NF) as (h' & E & [_ OLD] & _). exists h'. auto.
Qed.

Lemma copied_equal fuel h h' o1 o2 : wf_heap h -> (forall p, o1 = Some p -> p < List.length h) ->
  (forall z, z < List.length h -> nth_error h' z = nth_error h z) -> copyable h o1 -> copied h h' o1 o2 ->
  (forall p, o1 = Some p -> no_nan (tab h p) /\ forall q, In q (nested_in (rows (tab h p))) -> no_nan (tab h q)) ->
  Equals (S (S fuel)) h' o1 o2 = Ok tt /\ Equals (S (S fuel)) h' o2 o1 = Ok tt.
Proof.
  intros WH LO OLD (p0 & E0 & N & F) (p & q & -> & -> & LQ & FT & EC & ET & ER) NN. injection E0 as <-.
  specialize (LO p eq_refl). specialize (NN p eq_refl). destruct NN as [NN NZ].
  destruct (tab_wf h p WH) as [W _].
  assert (TP : forall z, z < List.length h -> tab h' z = tab h z) by (intros z Lz; now apply tab_eq, OLD).
  assert (NE : forall z, In z (nested_in (rows (tab h p))) -> Equals (S fuel) h' (Some z) (Some z) = Ok tt).
  { intros z I. pose proof (nested_lt h p z WH I) as Lz. apply Equals_same_rows; auto; try (rewrite TP by auto; apply (tab_wf h z WH)).
    - rewrite TP by auto. auto.
    - rewrite TP by auto. destruct F as [_ F]. rewrite (F z I). intros y []. }
  assert (NQ : no_nan (tab h' q)).
  { intros c r v G. apply (NN c r). rewrite <- G. pose proof (ft_wf _ _ FT). rewrite !get_at by auto.
    unfold at_cell. now rewrite ER. }
  split; apply Equals_same_rows; rewrite ?(TP p LO); auto; try apply (ft_wf _ _ FT); try apply (ft_name _ _ FT); try (symmetry; apply (ft_name _ _ FT)).
  rewrite ER. exact NE.
Qed.

(** Equals says that the copy is equal, when there is no NaN in the tables of the set. *)
Theorem C49_copy_is_equal : forall fuel h s h' s', wf_heap h -> entries_in h s -> NoDup (set_names h s) -> set_no_nan h s ->
  TS_Copy s h = (h', Ok s') ->
  TS_Equals (S (S fuel)) h' s s' = Ok tt /\ TS_Equals (S (S fuel)) h' s' s = Ok tt.
Proof.
  intros fuel h s h' s' WH EI ND NN E.
  assert (FD : Forall (copyable h) (ts_tables s) \/ ~ Forall (copyable h) (ts_tables s)).
  { assert (L : forall p, In (Some p) (ts_tables s) -> p < List.length h) by exact EI. clear -WH L.
    induction (ts_tables s) as [|o l IH]; [left; constructor|].
    destruct (copyable_dec h o WH) as [C|C]; [intros p ->; apply L; now left| |right; intros F; inversion F; contradiction].
    destruct IH as [F|F]; [intros p I; apply L; now right|left; now constructor|right; intros G; inversion G; contradiction]. }
  destruct (C49_Copy h s WH EI ND) as [A B]. destruct FD as [FD|FD].
  2:{ destruct (B FD) as (h2 & E2 & _). rewrite E in E2. discriminate. }
  destruct (A FD) as (h2 & s2 & E2 & _ & _ & F2 & _ & OLD). rewrite E in E2. injection E2 as <- <-.
  assert (P : Forall2 (fun o1 o2 => Equals (S (S fuel)) h' o1 o2 = Ok tt /\ Equals (S (S fuel)) h' o2 o1 = Ok tt) (ts_tables s) (ts_tables s')).
  { apply Forall2_nth_iff; [now apply Forall2_len in F2|]. intros i a b Ha Hb.
    destruct (Forall2_nth_r _ _ _ _ _ F2 Hb) as (a' & Ha' & C). rewrite Ha in Ha'. injection Ha' as <-.
    pose proof (nth_error_In _ _ Ha) as Ia. apply (copied_equal fuel h h' a b WH); auto.
    - intros p ->. now apply EI.
    - rewrite Forall_forall in FD. now apply FD.
    - intros p ->. now apply NN. }
  assert (Q : forall x y, Forall2 (fun o1 o2 => Equals (S (S fuel)) h' o1 o2 = Ok tt) (ts_tables x) (ts_tables y) -> TS_Equals (S (S fuel)) h' x y = Ok tt).
  { clear. intros x y F. unfold TS_Equals, rcheck, TableCount. pose proof F as L. apply Forall2_len in L.
    replace (Z.of_nat (List.length (ts_tables y)) =? Z.of_nat (List.length (ts_tables x)))%Z with true by (symmetry; apply Z.eqb_eq; lia). cbn [rbind].
    assert (G : forall l (body : Z -> res unit), (forall i, In i l -> body i = Ok tt) -> rfor l body = Ok tt).
    { clear. induction l as [|i l IH]; intros body H; cbn [rfor]; auto. rewrite H by now left. cbn [rbind]. apply IH. intros; apply H; now right. }
    apply G. intros i I. apply Proofs_Lib.In_zseq in I.
    destruct (nth_error (ts_tables y) (Z.to_nat i)) as [b|] eqn:Hb; [|apply nth_error_None in Hb; lia].
    destruct (Forall2_nth_r _ _ _ _ _ F Hb) as (a & Ha & EQ).
    rewrite (proj1 (proj1 (C16_GetTableByTableIndex x i) a)) by (split; auto; lia). cbn [rbind].
    rewrite (proj1 (proj1 (C16_GetTableByTableIndex y i) b)) by (split; auto; lia). exact EQ. }
  clear -P Q. split; apply Q; clear Q; induction P as [|a b l1 l2 [E1 E2] P IH]; constructor; auto.
Qed.

(** ---------- IsValidTableSet ---------- *)

(** In any program, IsValidTableSet accepts exactly the sets whose entries are all tables
    that IsValidTable accepts, and answers (false, err) otherwise. *)
Theorem C49_IsValidTableSet : forall E h s, env_ok E -> reachable E h -> entries_in h s ->
  (Forall (copyable h) (ts_tables s) -> IsValidTableSet h s = Valid)
  /\ (~ Forall (copyable h) (ts_tables s) -> IsValidTableSet h s = Invalid)
  /\ (IsValidTableSet h s = Valid <-> forall o, In o (ts_tables s) -> exists p, o = Some p /\ IsValidTable h p = Valid).
Proof.
  intros E h s EO R EI. pose proof (reachable_wf E h EO R) as WH. unfold IsValidTableSet, entries_in in *.
  induction (ts_tables s) as [|o l IH].
  - repeat split; auto. { intros N. exfalso. apply N. constructor. } intros _ o [].
  - destruct IH as (A & B & C); [intros p I; apply EI; now right|].
    destruct (copyable_dec h o WH) as [K|K]; [intros p ->; apply EI; now left| |].
    + pose proof K as (p & -> & N & F). pose proof (proj1 (C47_reachable_tables E h p EO R (EI p (or_introl eq_refl))) N F) as V.
      cbn [valid_tables]. rewrite V. split; [|split].
      * intros G. inversion G; auto.
      * intros G. apply B. intros G'. apply G. constructor; auto.
      * rewrite C. split; intros G o I; [destruct I as [<-|I]; [now exists p|auto]|apply G; now right].
    + assert (V : valid_tables h (o :: l) = Invalid).
      { destruct o as [p|]; auto. cbn [valid_tables].
        rewrite (proj2 (C47_reachable_tables E h p EO R (EI p (or_introl eq_refl)))); auto. intros [N F]. apply K. now exists p. }
      rewrite V. split; [|split]; auto; [intros G; inversion G; contradiction|]. split; [discriminate|].
      intros G. destruct (G o (or_introl eq_refl)) as (p & -> & VP). cbn [valid_tables] in V. rewrite VP in V.
      exfalso. apply K. destruct (C47_reachable_tables E h p EO R (EI p (or_introl eq_refl))) as [_ D].
      destruct (HasCircularReference_eq h p WH (EI p (or_introl eq_refl))) as [[F _]|[NF _]]; [|rewrite D in VP by tauto; discriminate].
      destruct (is_nil (tab h p)) eqn:N; [rewrite D in VP by (intros [? _]; discriminate); discriminate|]. now exists p.
Qed.

(** ---------- programs ---------- *)

(** The hypotheses above hold of every set of every program that renames no table behind a
    set's back. *)
Theorem C49_hypotheses_hold : forall E g s, env_ok E -> set_history E g -> In s (p_sets g) ->
  wf_heap (p_heap g) /\ entries_in (p_heap g) s /\ NoDup (set_names (p_heap g) s).
Proof.
  intros E g s EO SH I. pose proof (set_history_ok E g SH) as F. rewrite Forall_forall in F. destruct (F s I) as [ND FR].
  split; [|split; auto].
  2:{ intros p Ip. rewrite Forall_forall in FR. now apply ref_in_lt, FR. }
  clear - EO SH. induction SH as [|g c SH IH HT RS].
  - exact (reachable_wf E [] EO (reach_empty E)).
  - assert (ON : forall k f, wf_heap (p_heap (fst (on_set k f g)))).
    { intros [i|] f; cbn [on_set fst]; auto. destruct (nth_error (p_sets g) i); auto. destruct (f t); auto. }
    destruct c as [c|n|k n|k n|k o|k n|k i|[k|] a b|[k|]]; cbn [sexec]; auto.
    + destruct (hexec_wf E c (p_heap g) EO IH HT) as [WH _]. destruct (hexec E c (p_heap g)) as [h r]. exact WH.
    + destruct k; auto.
    + destruct (nth_error (p_sets g) k) as [s|]; auto. rewrite RenameTable_eq.
      destruct (find_table (p_heap g) a (ts_tables s)) as [[p|]|]; auto.
      destruct (in_dec string_dec b (set_names (p_heap g) s)); auto.
      destruct (on_heap_wf p (SetName b) (p_heap g) IH (pres_SetName _ _)) as [WH _].
      destruct (on_heap p (SetName b) (p_heap g)) as [h r]. exact WH.
    + destruct (nth_error (p_sets g) k) as [s|]; auto. unfold TS_Copy.
      assert (CW : forall ts c h, wf_heap h -> wf_heap (fst (copy_tables ts c h))).
      { clear. induction ts as [|[p|] ts IH]; intros c h WH; cbn [copy_tables]; auto.
        destruct (Copy_wf p h WH) as [WH1 _]. destruct (Copy p h) as [h1 r]. cbn [fst] in WH1. destruct r as [q| |]; auto.
        destruct (AppendTable h1 c (Some q)) as [c' [u| |]]; auto. }
      specialize (CW (ts_tables s) (SetFileName (ts_file s) (NewTableSet (ts_name s))) (p_heap g) IH).
      destruct (copy_tables _ _ _) as [h r]. destruct r; exact CW.
Qed.

(** A set of two tables, one of them with rows, is copied; then a cell of the copy changes. *)
Definition set_program : list sop :=
  [PTab (HNewTable "A"); PTab (HTab (Some 0) (OAppendCol "i" "int")); PTab (HTab (Some 0) (OAppendRows 2)); PTab (HNewTable "B");
   PNewTableSet "S"; PAppendTable (Some 0) (Some 0); PAppendTable (Some 0) (Some 1); PCopy (Some 0); PSetName (Some 1) "T"].
Definition set_state : pstate := Eval vm_compute in splay env0 set_program (mkP [] []).
Definition set_state2 : pstate := Eval vm_compute in fst (sexec env0 (PTab (HTab (Some 2) (OSet "int" "i" 1%Z (VInt KInt 5)))) set_state).
Example C49_nonvacuous : exists s s', set_history env0 set_state /\ p_sets set_state = [s; s']
  /\ Forall (copyable (p_heap set_state)) (ts_tables s) /\ ts_tables s = [Some 0; Some 1] /\ set_no_nested (p_heap set_state) s
  /\ set_no_nan (p_heap set_state) s /\ RowCount (tab (p_heap set_state) 0) = 2%Z
  /\ ts_name s <> ts_name s' /\ ts_tables s' = [Some 2; Some 3]
  /\ TS_Equals 2 (p_heap set_state) s s' = Ok tt /\ TS_Equals 2 (p_heap set_state2) s s' = Err.
Proof.
  assert (SH : set_history env0 set_state).
  { change set_state with (splay env0 set_program (mkP [] [])). unfold splay, set_program. cbn [fold_left].
    do 9 (apply sh_call; [|reflexivity|exact I]). constructor. }
  pose proof (C49_hypotheses_hold env0 set_state _ env0_ok SH (or_introl eq_refl)) as (WH & _ & _).
  eexists. eexists. split; [exact SH|]. split; [reflexivity|]. cbn [ts_tables ts_name].
  split. { repeat apply Forall_cons; try apply Forall_nil; (eexists; split; [reflexivity|]; split; [reflexivity|]; split; [vm_compute; repeat constructor; intros []|intros q []]). }
  split; [reflexivity|].
  split. { intros p [I|[I|[]]]; injection I as <-; reflexivity. }
  split.
  { intros p I. assert (NN : forall v, In v (List.concat (rows (tab (p_heap set_state) p))) -> v <> VFloat32 S754_nan /\ v <> VFloat64 S754_nan).
    { intros v IV. destruct I as [I|[I|[]]]; injection I as <-; vm_compute in IV; repeat (destruct IV as [<-|IV]); try (split; discriminate); destruct IV. }
    assert (NQ : nested_in (rows (tab (p_heap set_state) p)) = []) by (destruct I as [I|[I|[]]]; injection I as <-; reflexivity).
    split; [|rewrite NQ; intros q []]. intros c r v G. apply NN. rewrite get_at in G by apply (tab_wf _ _ WH).
    destruct (_ && _)%Z; [|discriminate]. unfold at_cell in G.
    destruct (nth_error (rows _) _) as [row|] eqn:E1; [|discriminate]. destruct (nth_error row _) as [w|] eqn:E2; [|discriminate].
    injection G as ->. apply in_concat. exists row. split; eapply nth_error_In; eauto. }
  vm_compute. repeat split; discriminate.
Qed.

(** Axioms used by any theorem of this file. *)
Definition all_Props_Sets :=
  (@C49_Equals_exactly_the_same_sets,
   @C49_Equals_reflexive,
   @C49_Equals_symmetric,
   @C49_Equals_transitive,
   @C49_Equals_ignores_set_names_refuted,
   @C49_Copy,
   @C49_copy_is_equal,
   @C49_IsValidTableSet,
   @C49_hypotheses_hold).
Print Assumptions all_Props_Sets.
