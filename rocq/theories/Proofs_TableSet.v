(** Proofs_TableSet.v -- lemmas about table sets. *)
From Coq Require Import ZArith NArith List String Ascii Bool SpecFloat Permutation Lia.
From Verif Require Import Base Model_Names Model_Table Model_Sort Model_Copy Model_Ops Model_Heap Model_TableSet.
From Verif Require Import Spec Spec_Sort Spec_Heap Spec_Frame Spec_TableSet.
From Verif Require Import Proofs_Lib Proofs_Table Proofs_Cells Proofs_Pres Proofs_Heap Proofs_Frame.
Import ListNotations.
Local Open Scope string_scope.
Local Open Scope list_scope.

Lemma find_table_spec h n ts : match find_table h n ts with
  | Some o => exists i, nth_error ts i = Some o /\ ref_name h o = n /\ (forall j o', j < i -> nth_error ts j = Some o' -> ref_name h o' <> n)
  | None => ~ In n (map (ref_name h) ts) end.
Proof.
  induction ts as [|o ts IH]; simpl; auto. destruct (String.eqb_spec (ref_name h o) n) as [E|N].
  - exists 0. repeat split; auto. intros; lia.
  - destruct (find_table h n ts) as [o'|].
    + destruct IH as (i & A & B & C). exists (S i). repeat split; auto. intros [|j] x L; simpl; [congruence|]. apply C. lia.
    + tauto.
Qed.

Lemma find_table_in h n ts o : NoDup (map (ref_name h) ts) -> In o ts -> ref_name h o = n -> find_table h n ts = Some o.
Proof.
  induction ts as [|x ts IH]; simpl; intros ND I E; [tauto|]. inversion ND as [|? ? NI ND']; subst.
  destruct I as [->|I]; [now rewrite String.eqb_refl|].
  destruct (String.eqb_spec (ref_name h x) (ref_name h o)) as [E|N]; auto.
  exfalso. apply NI. rewrite E. now apply in_map.
Qed.

Lemma TableIndex_spec h s n : match TableIndex h s n with
  | Ok i => (0 <= i < TableCount s)%Z /\ (exists o, nth_error (ts_tables s) (Z.to_nat i) = Some o /\ find_table h n (ts_tables s) = Some o)
      /\ (forall j o', j < Z.to_nat i -> nth_error (ts_tables s) j = Some o' -> ref_name h o' <> n)
  | Err => find_table h n (ts_tables s) = None
  | Panic => False end.
Proof.
  unfold TableIndex.
  assert (K : forall m k, k + m = List.length (ts_tables s) ->
    match fold_right (fun i rest => let! o := GetTableByTableIndex s i in if ref_name h o =? n then Ok i else rest) Err (map Z.of_nat (seq k m)) with
    | Ok i => (Z.of_nat k <= i < TableCount s)%Z /\ (exists o, nth_error (ts_tables s) (Z.to_nat i) = Some o /\ find_table h n (skipn k (ts_tables s)) = Some o)
        /\ (forall j o', k <= j < Z.to_nat i -> nth_error (ts_tables s) j = Some o' -> ref_name h o' <> n)
    | Err => find_table h n (skipn k (ts_tables s)) = None
    | Panic => False end).
  { induction m as [|m IH]; intros k L.
    - simpl. rewrite skipn_all2 by lia. reflexivity.
    - cbn [seq map fold_right]. unfold GetTableByTableIndex at 1, TableCount.
      destruct (nth_error_lt (ts_tables s) k) as [o Ho]; [lia|].
      assert (SK : skipn k (ts_tables s) = o :: skipn (S k) (ts_tables s)).
      { clear -Ho. revert k Ho. induction (ts_tables s) as [|x l IH]; intros [|k] H; try discriminate; simpl in *.
        - now injection H as ->.
        - rewrite (IH k H). reflexivity. }
      replace ((Z.of_nat k <? 0)%Z || (Z.of_nat k >? Z.of_nat (List.length (ts_tables s)) - 1)%Z) with false by lia.
      replace (znth (ts_tables s) (Z.of_nat k)) with (Some o) by (symmetry; apply znth_some; rewrite Nat2Z.id; split; [lia|auto]).
      cbn [rbind]. rewrite SK. simpl find_table. destruct (String.eqb_spec (ref_name h o) n) as [E|N].
      + split; [unfold TableCount; lia|]. split; [exists o; rewrite Nat2Z.id; auto|]. intros j o' Hj. rewrite Nat2Z.id in Hj. lia.
      + specialize (IH (S k) ltac:(lia)).
        destruct (fold_right _ Err (map Z.of_nat (seq (S k) m))) as [i| |]; auto.
        destruct IH as (A & B & C). split; [unfold TableCount in A; lia|]. split; auto. intros j o' Hj Hn.
        destruct (Nat.eq_dec j k) as [->|]; [congruence|]. apply (C j); auto. lia. }
  specialize (K (List.length (ts_tables s)) 0 eq_refl). unfold zseq. cbn [skipn] in K.
  destruct (fold_right _ Err _) as [i| |]; auto. destruct K as (A & B & C). split; [lia|]. split; auto.
  intros j o' Hj. apply C. lia.
Qed.

(** ---------- the invariant of histories ---------- *)

Definition set_ok (h : heap) (s : tset) : Prop :=
  NoDup (set_names h s) /\ Forall (fun o => ref_in h o = true) (ts_tables s).

Lemma ref_in_lt h p : ref_in h (Some p) = true <-> p < List.length h.
Proof. simpl. rewrite Nat.ltb_lt. reflexivity. Qed.

Lemma set_ok_names h h' s : set_ok h s -> List.length h <= List.length h' ->
  (forall p, In (Some p) (ts_tables s) -> p < List.length h -> tname (tab h' p) = tname (tab h p)) -> set_ok h' s.
Proof.
  intros [ND F] L N. rewrite Forall_forall in F. split.
  - unfold set_names in *. erewrite map_ext_in; [exact ND|]. intros [p|] I; simpl; auto. apply N; auto. now apply ref_in_lt, F.
  - apply Forall_forall. intros [p|] I; auto. apply ref_in_lt. apply F, ref_in_lt in I. lia.
Qed.

Lemma AppendTable_ok h s o : set_ok h s -> ref_in h o = true -> set_ok h (fst (AppendTable h s o)).
Proof.
  intros [ND F] R. unfold AppendTable. pose proof (find_table_spec h (ref_name h o) (ts_tables s)) as FS.
  destruct (find_table h (ref_name h o) (ts_tables s)); [split; auto|]. simpl. split.
  - unfold set_names. simpl. rewrite map_app. now apply NoDup_snoc.
  - simpl. apply Forall_app. auto.
Qed.

Lemma remove_at_incl {A} i (l : list A) : incl (remove_at i l) l.
Proof. intros x I. unfold remove_at in I. rewrite <- (firstn_skipn i l). apply in_or_app. apply in_app_or in I as [I|I]; [now left|right].
  revert l I. induction i; intros [|y l] I; simpl in *; auto. Qed.
Lemma NoDup_remove_at {A} i (l : list A) : NoDup l -> NoDup (remove_at i l).
Proof.
  revert i. induction l as [|x l IH]; intros [|i] ND; unfold remove_at; simpl; auto; inversion ND as [|? ? NI ND']; subst; auto.
  constructor; [|apply IH; auto]. intros I. apply NI. eapply remove_at_incl. exact I.
Qed.
Lemma map_remove_at {A B} (f : A -> B) i l : map f (remove_at i l) = remove_at i (map f l).
Proof. unfold remove_at. now rewrite map_app, firstn_map, skipn_map. Qed.

Lemma DeleteAt_ok h s i : set_ok h s -> set_ok h (fst (DeleteTableByTableIndex s i)).
Proof.
  intros [ND F]. unfold DeleteTableByTableIndex. destruct (_ || _); [split; auto|]. simpl. split.
  - unfold set_names. simpl. rewrite map_remove_at. now apply NoDup_remove_at.
  - simpl. rewrite Forall_forall in *. intros x I. apply F. eapply remove_at_incl; eauto.
Qed.
Lemma DeleteTable_ok h s n : set_ok h s -> set_ok h (fst (DeleteTable h s n)).
Proof. intros S. unfold DeleteTable. destruct (TableIndex h s n); auto. now apply DeleteAt_ok. Qed.

Lemma chg_copy_tables ts : forall c h nm, chg [] nm h (fst (copy_tables ts c h)).
Proof.
  induction ts as [|[p|] ts IH]; intros c h nm; simpl; try apply chg_refl.
  pose proof (chg_Copy p h nm) as C. destruct (Copy p h) as [h1 [q| |]]; auto.
  destruct (AppendTable h1 c (Some q)) as [c' [u| |]]; auto. eapply chg_trans; [apply C|apply IH].
Qed.
Lemma Copy_lt p h h1 q : Copy p h = (h1, Ok q) -> q < List.length h1.
Proof.
  unfold Copy. destruct (HasCircularReference h p) as [[]| |]; intros H; try discriminate.
  pose proof (new_tab_res (Copy_body (tab h p)) h) as R. rewrite H in R. simpl in R.
  specialize (R q eq_refl). subst q. clear -H. unfold new_tab in H. 
  destruct (Copy_body (tab h p) (mkS NewNilTable (S (List.length h)) [])) as [s [u| |]]; try discriminate.
  injection H as <-. rewrite !app_length. simpl. lia.
Qed.
Lemma copy_tables_ok ts : forall c h h' c', set_ok h c -> copy_tables ts c h = (h', Ok c') -> set_ok h' c'.
Proof.
  induction ts as [|[p|] ts IH]; intros c h h' c' S H; simpl in H; try discriminate.
  - injection H as <- <-. exact S.
  - destruct (Copy p h) as [h1 [q| |]] eqn:EC; try discriminate.
    pose proof (chg_Copy p h true) as C. rewrite EC in C. simpl in C. destruct C as (L & _ & N).
    assert (S1 : set_ok h1 c) by (eapply set_ok_names; eauto).
    pose proof (AppendTable_ok h1 c (Some q) S1) as S2. destruct (AppendTable h1 c (Some q)) as [c1 [u| |]]; try discriminate.
    eapply IH; [|exact H]. apply S2. apply ref_in_lt. eapply Copy_lt; eauto.
Qed.

(** RenameTable in closed form. *)
Lemma RenameTable_eq h s from to : RenameTable h s from to =
  match find_table h from (ts_tables s) with
  | Some (Some p) => if in_dec string_dec to (set_names h s) then (h, Err) else on_heap p (SetName to) h
  | _ => (h, Err)
  end.
Proof.
  unfold RenameTable, HasTable, GetTable. destruct (find_table h from (ts_tables s)) as [[p|]|]; auto.
  - pose proof (find_table_spec h to (ts_tables s)) as F. fold (set_names h s) in F.
    destruct (find_table h to (ts_tables s)) as [o|], (in_dec string_dec to (set_names h s)) as [I|I]; auto; [|contradiction].
    exfalso. apply I. destruct F as (i & F & <- & _). apply in_map. eapply nth_error_In; eauto.
  - destruct (find_table h to (ts_tables s)); auto.
Qed.

Lemma on_heap_SetName p n h : p < List.length h ->
  on_heap p (SetName n) h = if IsValidTableName n then (upd h p (with_nil false (with_name n (tab h p))), Ok tt) else (h, Err).
Proof.
  intros L. destruct (nth_error_lt h p L) as [t Hp]. unfold on_heap. rewrite Hp. unfold SetName, bind, check, modify, ret, fail. simpl.
  assert (TE : tab h p = t) by (unfold tab; now rewrite (nth_error_nth _ _ _ Hp)).
  destruct (IsValidTableName n); simpl.
  - rewrite TE, app_nil_r. reflexivity.
  - rewrite app_nil_r. f_equal. clear -Hp. revert p Hp. induction h as [|x h IH]; intros [|p] H; simpl in *; try discriminate; auto.
    + now injection H as ->.
    + now rewrite IH.
Qed.
