(** Proofs_Valid.v -- IsValidRow, IsValidTable. *)
From Coq Require Import ZArith NArith List String Ascii Bool Permutation Lia.
From Verif Require Import Base Model_Names Model_Table Model_Sort Model_Copy Model_Ops Model_Heap Model_TableSet.
From Verif Require Import Spec Spec_Sort Spec_Heap Spec_Walk Spec_Keys.
From Verif Require Import Proofs_Lib Proofs_Table Proofs_Cells Proofs_Struct Proofs_Api Proofs_Pres Proofs_Copy Proofs_Heap Proofs_Nesting Proofs_Frame Proofs_Equals Proofs_KeyInv.
Import ListNotations.
Local Open Scope string_scope.
Local Open Scope list_scope.

Lemma mget_cons k v m n : mget ((k, v) :: m) n = if n =? k then Some v else mget m n.
Proof. reflexivity. Qed.
Lemma mget_In m n : (exists i, mget m n = Some i) <-> In n (map fst m).
Proof.
  split.
  - intros [i H]. induction m as [|[k v] m IH]; [discriminate|]. rewrite mget_cons in *. cbn [map fst]. destruct (String.eqb_spec n k); [left; congruence|right; auto].
  - intros H. induction m as [|[k v] m IH]; [destruct H|]. setoid_rewrite mget_cons. cbn [map fst] in H. destruct (String.eqb_spec n k); eauto. destruct H; [congruence|auto].
Qed.
Lemma wf_map_len t : wf_table t -> map_len (cmap t) = List.length (cnames t).
Proof.
  intros W. unfold map_len. apply Permutation_length. apply NoDup_Permutation; [apply NoDup_nodup|apply (wf_nodup _ W)|].
  intros n. rewrite nodup_In, <- mget_In. split.
  - intros [i H]. apply (wf_map _ W) in H. eapply nth_error_In; eauto.
  - intros H. apply In_nth_error in H as [i H]. exists i. now apply (wf_map _ W).
Qed.
Lemma wf_names_map t : wf_table t -> isValidColNamesMap t = Ok tt.
Proof.
  intros W. unfold isValidColNamesMap. rewrite wf_map_len by auto.
  assert (H : forall ci, In ci (zseq (List.length (cnames t))) ->
    match znth (cnames t) ci with None => Panic | Some n => rcheck (Z.of_nat (mgetd (cmap t) n) =? ci)%Z end = Ok tt).
  { intros ci I. apply In_zseq in I. destruct (nth_error_lt (cnames t) (Z.to_nat ci)) as [n A]; [lia|].
    rewrite (proj2 (znth_some _ _ _) (conj (proj1 I) A)). unfold mgetd. apply (wf_map _ W) in A. rewrite A. rewrite Z2Nat.id by lia. now rewrite Z.eqb_refl. }
  apply rfor_spec; auto. intros x I. rewrite H by auto. discriminate.
Qed.
Lemma IsValidRow_spec t ri : IsValidRow t ri <> Panic
  /\ (IsValidRow t ri = Ok tt <-> exists row, (0 <= ri)%Z /\ nth_error (rows t) (Z.to_nat ri) = Some row /\ List.length row = List.length (cnames t)).
Proof.
  unfold IsValidRow. destruct (HasRow t ri) eqn:HR; simpl.
  - apply HasRow_iff in HR. unfold RowCount in HR. 
    destruct (nth_error_lt (rows t) (Z.to_nat ri)) as [row A]; [lia|]. rewrite (proj2 (znth_some _ _ _) (conj (proj1 HR) A)). unfold rcheck.
    destruct (Nat.eqb_spec (List.length row) (List.length (cnames t))); split; try discriminate; split; try discriminate; auto.
    + intros _. now exists row.
    + intros (row' & _ & E & L). congruence.
  - split; [discriminate|]. split; [discriminate|]. intros (row & P & A & _).
    assert (HasRow t ri = true) by (apply HasRow_iff; unfold RowCount; apply nth_error_some_lt in A; lia). congruence.
Qed.
Lemma rows_check t : rfor (zseq (List.length (rows t))) (IsValidRow t) <> Panic
  /\ (rfor (zseq (List.length (rows t))) (IsValidRow t) = Ok tt <-> Forall (fun row => List.length row = List.length (cnames t)) (rows t)).
Proof.
  destruct (rfor_spec (zseq (List.length (rows t))) (IsValidRow t)) as [P Q]; [intros; apply IsValidRow_spec|]. split; auto.
  rewrite Q. split.
  - intros H. apply Forall_forall. intros row I. apply In_nth_error in I as [i A].
    destruct (proj1 (proj2 (IsValidRow_spec t (Z.of_nat i)))) as (row' & _ & B & L).
    + apply H. apply In_zseq. apply nth_error_some_lt in A. lia.
    + rewrite Nat2Z.id in B. congruence.
  - intros F ri I. apply In_zseq in I. apply IsValidRow_spec. destruct (nth_error_lt (rows t) (Z.to_nat ri)) as [row A]; [lia|].
    exists row. split; [lia|]. split; auto. apply (Forall_nth_error _ _ _ _ F A).
Qed.
