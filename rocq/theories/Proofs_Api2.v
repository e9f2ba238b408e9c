(** Proofs_Api2.v -- structural operations at the API level. *)
From Coq Require Import ZArith NArith List String Ascii Bool SpecFloat Permutation Lia.
From Verif Require Import Base Model_Names Model_Table Spec.
From Verif Require Import Proofs_Lib Proofs_Table Proofs_Cells Proofs_Struct Proofs_Api Proofs_Pres.
Import ListNotations.
Local Open Scope string_scope.
Local Open Scope list_scope.

Lemma at_cell_range t c r v : wf_table t -> at_cell t c r = Some v -> c < List.length (cnames t) /\ r < List.length (rows t).
Proof.
  intros W H. unfold at_cell in H. destruct (nth_error (rows t) r) as [row|] eqn:E; [|discriminate].
  split; [|eapply nth_error_some_lt; eauto]. rewrite <- (wf_row_len t W r row E). eapply nth_error_some_lt; eauto.
Qed.

Lemma get_at t c r : wf_table t -> GetValByColIndex t c r =
  if ((0 <=? c) && (0 <=? r))%Z then match at_cell t (Z.to_nat c) (Z.to_nat r) with Some v => Ok v | None => Err end else Err.
Proof.
  intros W. rewrite GetValByColIndex_eq by auto.
  destruct (HasRow t r) eqn:HR; [apply HasRow_iff in HR|].
  - rewrite (wf_row_not_nil t r W HR). destruct (HasColByColIndex t c) eqn:HC; [apply HasCol_iff in HC|].
    + simpl. unfold ColCount, RowCount in *.
      destruct (wf_at_cell t (Z.to_nat c) (Z.to_nat r) W) as (ct & v & _ & _ & A & _); try lia. rewrite A.
      destruct (Z.leb_spec 0 c), (Z.leb_spec 0 r); simpl; auto; lia.
    + simpl. destruct (at_cell t (Z.to_nat c) (Z.to_nat r)) as [v|] eqn:A; [|now destruct (_ && _)%Z].
      apply at_cell_range in A; auto. destruct (Z.leb_spec 0 c); auto.
      exfalso. assert (HasColByColIndex t c = true) by (apply HasCol_iff; unfold ColCount; lia). congruence.
  - simpl. destruct (at_cell t (Z.to_nat c) (Z.to_nat r)) as [v|] eqn:A; [|destruct (is_nil t); now destruct (_ && _)%Z].
    apply at_cell_range in A; auto. destruct (Z.leb_spec 0 r); [|rewrite andb_false_r; now destruct (is_nil t)].
    exfalso. assert (HasRow t r = true) by (apply HasRow_iff; unfold RowCount; lia). congruence.
Qed.

Lemma get_at_nat t c r : wf_table t -> GetValByColIndex t (Z.of_nat c) (Z.of_nat r) =
  match at_cell t c r with Some v => Ok v | None => Err end.
Proof.
  intros W. rewrite get_at by auto. rewrite !Nat2Z.id.
  destruct (Z.leb_spec 0 (Z.of_nat c)); [|lia]. destruct (Z.leb_spec 0 (Z.of_nat r)); [reflexivity|lia].
Qed.

Lemma get_neg t c r : wf_table t -> (c < 0 \/ r < 0)%Z -> GetValByColIndex t c r = Err.
Proof.
  intros W H. rewrite get_at by auto. destruct (Z.leb_spec 0 c); simpl; auto. destruct (Z.leb_spec 0 r); auto. lia.
Qed.

(** nested tables in zero rows *)
Lemma nested_zeros cts : Forall (fun ct => In ct all_types) cts -> forall p, nested_in [zeros p cts] = seq p (ntab cts).
Proof.
  unfold nested_in. simpl. setoid_rewrite app_nil_r.
  induction 1 as [|ct r H _ IH]; intros p; simpl; auto.
  unfold ntab in *. simpl. destruct (is_tab ct) eqn:IT; simpl.
  - now rewrite IH.
  - rewrite IH. types H; try discriminate; reflexivity.
Qed.
Lemma nested_app a b : nested_in (a ++ b) = nested_in a ++ nested_in b.
Proof. unfold nested_in. apply flat_map_app. Qed.
Lemma nested_zero_rows cts : Forall (fun ct => In ct all_types) cts -> forall n p,
  nested_in (zero_rows p cts n) = seq p (n * ntab cts).
Proof.
  intros H. induction n as [|n IH]; intros p; cbn [zero_rows Nat.mul]; auto.
  change (zeros p cts :: zero_rows (p + ntab cts) cts n) with ([zeros p cts] ++ zero_rows (p + ntab cts) cts n).
  rewrite nested_app, nested_zeros, IH by auto. rewrite <- seq_app. reflexivity.
Qed.

Lemma zero_rows_length n : forall p cts, List.length (zero_rows p cts n) = n.
Proof. induction n; simpl; auto. Qed.
Lemma zero_rows_spec n : forall p cts, Forall (fun ct => In ct all_types) cts ->
  Forall (Forall2 (zero_of (fun q => p <= q)) cts) (zero_rows p cts n).
Proof.
  induction n; intros p cts H; simpl; constructor.
  - eapply Forall2_impl; [|apply zeros_spec; auto]. intros ct v. clear. 
    destruct v; simpl; auto. destruct o; auto. intuition.
  - specialize (IHn (p + ntab cts) cts H). revert IHn. apply Forall_impl. intros row. apply Forall2_impl.
    intros ct v. destruct v; simpl; auto. destruct o; auto. intuition lia.
Qed.
