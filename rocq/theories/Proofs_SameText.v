(** Proofs_SameText.v -- tables with the same data are written as the same text. *)
From Coq Require Import ZArith NArith List String Ascii Bool SpecFloat Lia Relations.
From Verif Require Import Base Model_Names Model_Table Model_Sort Model_Ops Model_Heap Model_TableSet Model_Lex Model_Float Model_Time
  Model_Parser Model_Print Model_Json Model_Yaml Model_Gob Spec Spec_Sort Spec_Heap Spec_Walk Spec_Equals Spec_TableSet Spec_Text Spec_Json Spec_Gob Spec_Convert
  Proofs_Lib Proofs_Table Proofs_Cells Proofs_Api2 Proofs_Heap Proofs_Walk Proofs_Equals Proofs_Convert.
Import ListNotations.
Local Open Scope string_scope.
Local Open Scope list_scope.

Definition not_nested (v : value) : Prop := forall q, v <> VTable (Some q).
Lemma flat_rows rs : nested_in rs = [] -> Forall (Forall not_nested) rs.
Proof.
  unfold nested_in. induction rs as [|row rs IH]; intros E; constructor; cbn [flat_map] in E; apply app_eq_nil in E as [E1 E2]; [|now apply IH]. clear - E1.
  induction row as [|v row IH]; constructor; cbn [flat_map] in E1; apply app_eq_nil in E1 as [E1 E2]; [|now apply IH]. intros q ->. discriminate E1.
Qed.

Lemma cell_text_moved q r h h' ct v w : gob_cell v w -> not_nested v -> cell_text q r h ct v = cell_text q r h' ct w.
Proof.
  intros [<-|G] N.
  - destruct v as [| | | | | | |[o|]| |]; try reflexivity. now elim (N o).
  - destruct v as [| | | | | |[[|]|]| | |], w as [| | | | | |[[|]|]| | |]; try contradiction; reflexivity.
Qed.

Lemma unpadded_cells_moved ip h h' : forall row row', Forall2 gob_cell row row' -> Forall not_nested row -> forall cts,
  unpadded_cells ip h cts row = unpadded_cells ip h' cts row'.
Proof.
  induction 1 as [|v w row row' G _ IH]; intros F cts; [destruct cts; reflexivity|]. inversion F; subst. destruct cts as [|ct cts]; [reflexivity|]. cbn [unpadded_cells].
  destruct (unpadded_unknown ct); [reflexivity|]. rewrite (cell_text_moved (Quote ip) (QuoteRune ip) h h' ct v w) by assumption. rewrite (IH ltac:(assumption)). reflexivity.
Qed.
Lemma unpadded_rows_moved ip h h' cts : forall rs rs', Forall2 (Forall2 gob_cell) rs rs' -> Forall (Forall not_nested) rs ->
  unpadded_rows ip h cts rs = unpadded_rows ip h' cts rs'.
Proof.
  induction 1 as [|row row' rs rs' G _ IH]; intros F; [reflexivity|]. inversion F; subst. cbn [unpadded_rows].
  rewrite (unpadded_cells_moved ip h h' row row') by assumption. rewrite (IH ltac:(assumption)). reflexivity.
Qed.
Lemma padded_cells_moved ip h h' : forall row row', Forall2 gob_cell row row' -> Forall not_nested row -> forall cts,
  padded_cells ip h cts row = padded_cells ip h' cts row'.
Proof.
  induction 1 as [|v w row row' G _ IH]; intros F cts; [destruct cts; reflexivity|]. inversion F; subst. destruct cts as [|ct cts]; [reflexivity|]. cbn [padded_cells].
  rewrite (cell_text_moved (Quote ip) (QuoteRune ip) h h' ct v w) by assumption. rewrite (IH ltac:(assumption)). reflexivity.
Qed.
Lemma padded_rows_moved ip h h' cts : forall rs rs', Forall2 (Forall2 gob_cell) rs rs' -> Forall (Forall not_nested) rs ->
  padded_rows ip h cts rs = padded_rows ip h' cts rs'.
Proof.
  induction 1 as [|row row' rs rs' G _ IH]; intros F; [reflexivity|]. inversion F; subst. cbn [padded_rows].
  rewrite (padded_cells_moved ip h h' row row') by assumption. rewrite (IH ltac:(assumption)). reflexivity.
Qed.

Lemma in_table_shape ok (cell : string -> value -> Prop) t : text_table ok cell t -> (struct_shape t && (RowCount t <=? 1)%Z)%bool = false.
Proof.
  intros (_ & _ & _ & SH & _). destruct SH as [->|H]; [reflexivity|]. unfold RowCount. apply andb_false_iff. right. apply Z.leb_gt. lia.
Qed.
Lemma unpadded_moved ip h h' t t' : no_nested t -> same_data t t' -> unpadded_table t -> unpadded_table t' -> StringUnpadded ip h' t' = StringUnpadded ip h t.
Proof.
  intros N [A B C D E] U U'. unfold StringUnpadded. rewrite (in_table_shape _ _ _ U), (in_table_shape _ _ _ U'), A, B, C.
  now rewrite (unpadded_rows_moved ip h h' (firstn (List.length (cnames t)) (ctypes t)) _ _ D (flat_rows _ N)).
Qed.
Lemma padded_moved ip h h' t t' : no_nested t -> same_data t t' -> padded_table t -> padded_table t' -> StringPadded ip h' t' = StringPadded ip h t.
Proof.
  intros N [A B C D E] U U'. unfold StringPadded. rewrite (in_table_shape _ _ _ U), (in_table_shape _ _ _ U'), A, B, C.
  now rewrite (padded_rows_moved ip h h' (firstn (List.length (cnames t)) (ctypes t)) _ _ D (flat_rows _ N)).
Qed.

(** ---------- JSON ---------- *)

Definition constant {A} (f : list ptr -> res (A * list ptr)) (r : res A) : Prop := forall seen, f seen = let! s := r in Ok (s, seen).

Lemma write_each_moved {A} (f g : A -> list ptr -> res (string * list ptr)) :
  (forall x, exists r, constant (f x) r /\ constant (g x) r) -> forall l, exists r, constant (write_each f l) r /\ constant (write_each g l) r.
Proof.
  intros X. induction l as [|x l (r & F & G)].
  - exists (Ok []). split; intros seen; reflexivity.
  - destruct (X x) as (a & Fx & Gx). exists (let! s := a in let! ss := r in Ok (s :: ss)).
    split; intros seen; cbn [write_each]; rewrite ?Fx, ?Gx; destruct a as [s| |]; try reflexivity; cbn [rbind]; rewrite ?F, ?G; destruct r; reflexivity.
Qed.

Section Cells.
Variables (h h' : heap) (t t' : table) (ip : Z -> bool).
Hypothesis W : wf_table t.
Hypothesis W' : wf_table t'.
Hypothesis NN : is_nil t = false.
Hypothesis N : no_nested t.
Hypothesis SD : same_data t t'.

Lemma get_moved c r : (GetValByColIndex t c r = Err /\ GetValByColIndex t' c r = Err)
  \/ exists v w, GetValByColIndex t c r = Ok v /\ GetValByColIndex t' c r = Ok w /\ gob_cell v w /\ not_nested v /\ v <> VTable None.
Proof.
  rewrite !get_at by assumption. destruct (_ && _)%bool; [|now left]. unfold at_cell.
  destruct (nth_error (rows t) (Z.to_nat r)) as [row|] eqn:R.
  - destruct (Forall2_nth _ _ _ _ _ (sd_rows _ _ SD) R) as (row' & R' & F). rewrite R'. destruct (nth_error row (Z.to_nat c)) as [v|] eqn:V.
    + destruct (Forall2_nth _ _ _ _ _ F V) as (w & V' & G). rewrite V'. right. exists v, w. split; [reflexivity|]. split; [reflexivity|]. split; [exact G|].
      pose proof (Forall_nth_error _ _ _ _ (flat_rows _ N) R) as FR. split; [exact (Forall_nth_error _ _ _ _ FR V)|].
      pose proof (Forall_nth_error _ _ _ _ (wf_cells _ W) R) as FC. destruct (Forall2_nth_r _ _ _ _ _ FC V) as (ct & _ & [HT _]). now intros ->.
    + left. split; [reflexivity|]. destruct (nth_error row' (Z.to_nat c)) as [w|] eqn:V'; [|reflexivity].
      apply nth_error_None in V. apply nth_error_some_lt in V'. rewrite (Forall2_len _ _ _ F) in V. lia.
  - left. split; [reflexivity|]. destruct (nth_error (rows t') (Z.to_nat r)) as [row'|] eqn:R'; [|reflexivity].
    apply nth_error_None in R. apply nth_error_some_lt in R'. rewrite (Forall2_len _ _ _ (sd_rows _ _ SD)) in R. lia.
Qed.

Lemma as_string_moved c r : GetValAsStringByColIndex h t c r = GetValAsStringByColIndex h' t' c r.
Proof.
  unfold GetValAsStringByColIndex. rewrite (sd_nil _ _ SD), NN, (sd_types _ _ SD). destruct (get_moved c r) as [[-> ->]|(v & w & -> & -> & G & NV & _)]; [reflexivity|].
  cbn [rbind]. destruct (znth (ctypes t) c) as [ct|]; [|reflexivity]. now rewrite (cell_text_moved (fun s => s) encode h h' ct v w G NV).
Qed.

Lemma json_cell_moved wr wr' ri ci : exists r, constant (json_cell ip h wr t ri ci) r /\ constant (json_cell ip h' wr' t' ri ci) r.
Proof.
  unfold json_cell. rewrite as_string_moved, (sd_names _ _ SD), (sd_types _ _ SD).
  destruct (znth (cnames t) ci) as [cn|]; [|exists Panic; split; intros seen; reflexivity]. cbn [rbind].
  destruct (get_moved ci ri) as [[-> ->]|(v & w & -> & -> & G & NV & NO)]; [exists Err; split; intros seen; reflexivity|]. cbn [rbind].
  set (tx := GetValAsStringByColIndex h' t' ci ri).
  assert (S : forall f : string -> string, exists r, constant (fun seen => let! (s, seen) := (let! s := tx in Ok (f s, seen)) in Ok (("{" ++ Quote ip cn ++ ":" ++ s ++ "}")%string, seen)) r).
  { intros f. exists (let! s := tx in Ok ("{" ++ Quote ip cn ++ ":" ++ f s ++ "}")%string). intros seen. destruct tx; reflexivity. }
  destruct G as [<-|G].
  - destruct v as [|b|s|k z|f|f|o|[o|]|tm|y]; try (eexists (Ok _); split; intros seen; reflexivity).
    + destruct (S (fun s => s)) as (r & R). exists r. split; exact R.
    + destruct k; try (destruct (S (fun s => s)) as (r & R); exists r; split; exact R).
      destruct (znth (ctypes t) ci) as [ct|]; [|exists (let! s := tx in Panic); split; intros seen; destruct tx; reflexivity].
      destruct (ct =? "int32"); [destruct (S (fun s => s)) as (r & R); exists r; split; exact R|].
      destruct (ct =? "rune"); [destruct (S (Quote ip)) as (r & R); exists r; split; exact R|].
      exists (let! s := tx in Err). split; intros seen; destruct tx; reflexivity.
    + destruct (S (fun s => s)) as (r & R). exists r. split; exact R.
    + destruct (S (fun s => s)) as (r & R). exists r. split; exact R.
    + destruct (S spaces_to_commas) as (r & R). exists r. split; exact R.
    + now elim (NV o).
    + now elim NO.
  - assert (exists o o', v = VBytes o /\ w = VBytes o') as (o & o' & -> & ->).
    { destruct v as [| | | | | |[[|]|]| | |], w as [| | | | | |[[|]|]| | |]; try contradiction; eauto. }
    destruct (S spaces_to_commas) as (r & R). exists r. split; exact R.
Qed.
End Cells.

Lemma json_moved ip h h' (p p' : ptr) : wf_heap h -> wf_heap h' -> is_nil (tab h p) = false -> no_nested (tab h p) ->
  same_data (tab h p) (tab h' p') -> struct_shape (tab h' p') = struct_shape (tab h p) ->
  GetTableAsJSON ip h' (Some p') = GetTableAsJSON ip h (Some p).
Proof.
  intros WH WH' NN N SD SS. destruct (tab_wf h p WH) as [W _], (tab_wf h' p' WH') as [W' _].
  assert (PR : getTableAsJSON_private ip h' (Some p') = getTableAsJSON_private ip h (Some p)).
  { unfold getTableAsJSON_private. cbn [getTableAsJSON_recursive]. set (wr := getTableAsJSON_recursive (List.length h) ip h). set (wr' := getTableAsJSON_recursive (List.length h') ip h').
    rewrite (sd_name _ _ SD), (sd_names _ _ SD), (sd_types _ _ SD), SS, <- (Forall2_len _ _ _ (sd_rows _ _ SD)).
    destruct (rmap _ _) as [meta| |]; try reflexivity. cbn [rbind].
    destruct (write_each_moved
      (fun ri seen => let! (cells, seen) := write_each (json_cell ip h wr (tab h p) ri) (zseq (List.length (cnames (tab h p)))) seen in Ok (("[" ++ String.concat "," cells ++ "]")%string, seen))
      (fun ri seen => let! (cells, seen) := write_each (json_cell ip h' wr' (tab h' p') ri) (zseq (List.length (cnames (tab h p)))) seen in Ok (("[" ++ String.concat "," cells ++ "]")%string, seen)))
      with (l := zseq (List.length (rows (tab h p)))) as (r & F & G).
    { intros ri. destruct (write_each_moved (json_cell ip h wr (tab h p) ri) (json_cell ip h' wr' (tab h' p') ri)) with (l := zseq (List.length (cnames (tab h p)))) as (r & F & G).
      - intros ci. apply json_cell_moved; assumption.
      - exists (let! cells := r in Ok ("[" ++ String.concat "," cells ++ "]")%string). split; intros seen; [rewrite F|rewrite G]; destruct r; reflexivity. }
    rewrite F, G. destruct r; reflexivity. }
  unfold GetTableAsJSON, AppendTable. cbn [find_table NewTableSet ts_tables ts_name ts_file app].
  unfold GetTableSetAsJSON. cbn [ts_tables ts_name List.length]. change (zseq 1) with [0%Z]. cbn [rmap].
  change (GetTableByTableIndex {| ts_name := ""; ts_file := ""; ts_tables := [Some p] |} 0) with (Ok (Some p)).
  change (GetTableByTableIndex {| ts_name := ""; ts_file := ""; ts_tables := [Some p'] |} 0) with (Ok (Some p')). cbn [rbind]. now rewrite PR.
Qed.
