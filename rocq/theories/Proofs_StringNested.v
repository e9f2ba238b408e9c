(** Proofs_StringNested.v -- printing never panics; StringNested prints and renames the tables below. *)
From Coq Require Import ZArith NArith List String Ascii Bool SpecFloat Lia Relations.
From Verif Require Import Base Model_Names Model_Table Model_Sort Model_Copy Model_Heap Model_Lex Model_Float Model_Time Model_Print Model_Parser Model_Json Model_Query Model_Nest.
From Verif Require Import Spec Spec_Sort Spec_Copy Spec_Heap Spec_Walk Spec_Equals Spec_Tree.
From Verif Require Import Proofs_Lib Proofs_Table Proofs_Cells Proofs_Api Proofs_Api2 Proofs_Pres Proofs_Heap Proofs_Frame Proofs_Nesting Proofs_Lex Proofs_FloatText Proofs_Nest.
From Verif Require Import Props_Walk Props_Equals.
Import ListNotations.
Local Open Scope string_scope.
Local Open Scope list_scope.

(** ---------- printing ---------- *)

Lemma cell_text_total q r h ct v : In ct all_types -> cell_ok ct v -> exists s, cell_text q r h ct v = Some (Ok s).
Proof.
  intros I C. destruct C as [C _]. types I; destruct v as [|b|s|k z|f|f|o|[x|]|tm|x]; try (destruct k); cbn in C; try contradiction;
    repeat (match goal with H : _ \/ _ |- _ => destruct H end); try discriminate; eexists; reflexivity.
Qed.
Lemma cell_text_heap q r h h' ct v : (forall x : ptr, v <> VTable (Some x)) -> cell_text q r h ct v = cell_text q r h' ct v.
Proof.
  intros N. unfold cell_text. destruct v as [|b|s|k z|f|f|o|[x|]|tm|x]; try reflexivity. now destruct (N x).
Qed.

Lemma padded_cells_total ip h : forall cts row, Forall (fun ct => In ct all_types) cts -> Forall2 cell_ok cts row -> exists l, padded_cells ip h cts row = Ok (Some l).
Proof.
  induction cts as [|ct cts IH]; intros row T F; inversion F; subst; [exists []; reflexivity|]. inversion T; subst.
  cbn [padded_cells]. destruct (cell_text_total (Quote ip) (QuoteRune ip) h ct y) as [s ->]; auto.
  destruct (IH l') as [l ->]; auto. now exists (s :: l).
Qed.
Lemma padded_rows_total ip h cts : forall rs, Forall (fun ct => In ct all_types) cts -> Forall (Forall2 cell_ok cts) rs -> exists l, padded_rows ip h cts rs = Ok (Some l).
Proof.
  induction rs as [|row rs IH]; intros T F; [exists []; reflexivity|]. inversion F; subst. cbn [padded_rows].
  destruct (padded_cells_total ip h cts row) as [l ->]; auto. destruct IH as [ls ->]; auto. now exists (l :: ls).
Qed.
Lemma unpadded_cells_total ip h : forall cts row, Forall (fun ct => In ct all_types) cts -> Forall2 cell_ok cts row -> exists o, unpadded_cells ip h cts row = Ok o.
Proof.
  induction cts as [|ct cts IH]; intros row T F; inversion F; subst; [eexists; reflexivity|]. inversion T; subst.
  cbn [unpadded_cells]. destruct (unpadded_unknown ct); [eexists; reflexivity|]. destruct (cell_text_total (Quote ip) (QuoteRune ip) h ct y) as [s ->]; auto.
  destruct (IH l') as [l ->]; auto. eexists; reflexivity.
Qed.
Lemma unpadded_rows_total ip h cts : forall rs, Forall (fun ct => In ct all_types) cts -> Forall (Forall2 cell_ok cts) rs -> exists o, unpadded_rows ip h cts rs = Ok o.
Proof.
  induction rs as [|row rs IH]; intros T F; [eexists; reflexivity|]. inversion F; subst. cbn [unpadded_rows].
  destruct (unpadded_cells_total ip h cts row) as [[l|] ->]; auto; [|eexists; reflexivity]. destruct IH as [ls ->]; auto. eexists; reflexivity.
Qed.
Lemma rmap_total {A B} (f : A -> res B) l : (forall x, In x l -> exists y, f x = Ok y) -> exists ys, rmap f l = Ok ys.
Proof.
  induction l as [|x l IH]; intros T; [eexists; reflexivity|]. cbn [rmap]. destruct (T x (or_introl eq_refl)) as [y ->].
  destruct IH as [ys ->]; [intros; apply T; now right|]. eexists; reflexivity.
Qed.

Lemma printStruct_total h t : wf_table t -> exists s, printStruct h t = Ok s.
Proof.
  intros W. unfold printStruct. match goal with |- context [rmap ?f ?l] => destruct (rmap_total f l) as [ys E] end.
  - intros z I. apply Proofs_Lib.In_zseq in I. assert (exists k, z = Z.of_nat k /\ k < List.length (cnames t)) as (k & -> & L) by (exists (Z.to_nat z); lia). rewrite !znth_of_nat.
    destruct (nth_error (cnames t) k) as [cn|] eqn:N; [|apply nth_error_None in N; lia].
    destruct (nth_error (ctypes t) k) as [ct|] eqn:C; [|apply nth_error_None in C; rewrite (wf_types_len t W) in C; lia].
    destruct (RowCount t >? 0)%Z eqn:R; [|eexists; reflexivity].
    destruct (GetValAsStringByColIndex h t (Z.of_nat k) 0) eqn:G; cbn [rbind]; try (eexists; reflexivity). exfalso.
    unfold GetValAsStringByColIndex in G. destruct (is_nil t); [discriminate|]. change 0%Z with (Z.of_nat 0) in G. rewrite get_at_nat in G by exact W.
    destruct (at_cell t k 0) as [v|] eqn:A; cbn [rbind] in G; [|discriminate]. rewrite znth_of_nat, C in G.
    unfold at_cell in A. destruct (nth_error (rows t) 0) as [row|] eqn:R0; [|discriminate].
    pose proof (wf_cells t W) as F. rewrite Forall_forall in F. specialize (F row (nth_error_In _ _ R0)).
    destruct (cell_text_total (fun s => s) encode h ct v) as [s Q].
    + pose proof (wf_types t W) as T. rewrite Forall_forall in T. apply T. exact (nth_error_In _ _ C).
    + destruct (Forall2_nth _ _ _ _ _ F C) as (v' & A' & K). congruence.
    + rewrite Q in G. discriminate.
  - rewrite E. eexists; reflexivity.
Qed.
Lemma types_firstn t : wf_table t -> firstn (List.length (cnames t)) (ctypes t) = ctypes t.
Proof. intros W. rewrite <- (wf_types_len t W). apply firstn_all. Qed.
Lemma StringPadded_total ip h t : wf_table t -> exists s, StringPadded ip h t = Ok s.
Proof.
  intros W. unfold StringPadded. rewrite types_firstn by exact W. destruct (padded_rows_total ip h (ctypes t) (rows t)) as [l ->]; [apply W|apply W|].
  cbn [rbind]. destruct (struct_shape t && (RowCount t <=? 1)%Z); [now apply printStruct_total|eexists; reflexivity].
Qed.
Lemma StringUnpadded_total ip h t : wf_table t -> exists s, StringUnpadded ip h t = Ok s.
Proof.
  intros W. unfold StringUnpadded. destruct (struct_shape t && (RowCount t <=? 1)%Z); [now apply printStruct_total|].
  rewrite types_firstn by exact W. destruct (unpadded_rows_total ip h (ctypes t) (rows t)) as [l ->]; [apply W|apply W|]. eexists; reflexivity.
Qed.

(** The text of a table without nested tables does not depend on other tables. *)
Definition no_table (v : value) : Prop := forall x : ptr, v <> VTable (Some x).
Lemma no_tables rs : nested_in rs = [] -> Forall (Forall no_table) rs.
Proof.
  intros N. apply Forall_forall. intros row R. apply Forall_forall. intros v V x ->.
  apply In_nth_error in R as [kr R]. apply In_nth_error in V as [kc V].
  assert (I : In x (nested_in rs)) by (apply In_nested_in; eauto). rewrite N in I. exact I.
Qed.
Lemma padded_cells_heap ip h h' : forall cts row, Forall no_table row -> padded_cells ip h cts row = padded_cells ip h' cts row.
Proof.
  induction cts as [|ct cts IH]; intros [|v row] F; try reflexivity. inversion F; subst. cbn [padded_cells].
  rewrite (cell_text_heap _ _ h h') by assumption. now rewrite IH.
Qed.
Lemma padded_rows_heap ip h h' cts : forall rs, Forall (Forall no_table) rs -> padded_rows ip h cts rs = padded_rows ip h' cts rs.
Proof.
  induction rs as [|row rs IH]; intros F; [reflexivity|]. inversion F; subst. cbn [padded_rows]. rewrite (padded_cells_heap ip h h') by assumption. now rewrite IH.
Qed.
Lemma rmap_ext {A B} (f g : A -> res B) l : (forall x, f x = g x) -> rmap f l = rmap g l.
Proof. intros E. induction l as [|x l IH]; [reflexivity|]. cbn [rmap]. now rewrite E, IH. Qed.
Lemma printStruct_heap h h' t : wf_table t -> Forall (Forall no_table) (rows t) -> printStruct h t = printStruct h' t.
Proof.
  intros W F. unfold printStruct. f_equal. apply rmap_ext. intros z. destruct (znth (cnames t) z); [|reflexivity]. destruct (znth (ctypes t) z) as [ct|] eqn:C; [|reflexivity].
  destruct (RowCount t >? 0)%Z; [|reflexivity].
  replace (GetValAsStringByColIndex h t z 0) with (GetValAsStringByColIndex h' t z 0); [reflexivity|].
  unfold GetValAsStringByColIndex. destruct (is_nil t); [reflexivity|]. rewrite get_at by exact W. destruct ((0 <=? z) && (0 <=? 0))%Z; [|reflexivity].
  destruct (at_cell t (Z.to_nat z) (Z.to_nat 0)) as [v|] eqn:A; [|reflexivity]. cbn [rbind]. rewrite C.
  rewrite (cell_text_heap _ _ h' h); [reflexivity|]. unfold at_cell in A. destruct (nth_error (rows t) (Z.to_nat 0)) as [row|] eqn:R; [|discriminate].
  rewrite Forall_forall in F. specialize (F row (nth_error_In _ _ R)). rewrite Forall_forall in F. exact (F v (nth_error_In _ _ A)).
Qed.
Lemma StringPadded_heap ip h h' t : wf_table t -> nested_in (rows t) = [] -> StringPadded ip h t = StringPadded ip h' t.
Proof.
  intros W N. apply no_tables in N. unfold StringPadded. rewrite (padded_rows_heap ip h h') by exact N. now rewrite (printStruct_heap h h') by assumption.
Qed.

(** ---------- names ---------- *)

Lemma name_rest_app a b : name_rest (a ++ b)%string = name_rest a && name_rest b.
Proof.
  induction a as [|c a IH]; [reflexivity|]. cbn [append name_rest]. destruct (negb (isLetter c) && negb (Ascii.eqb c underscore) && negb (isNumber c)); [reflexivity|exact IH].
Qed.
Lemma name_rest_valid n : valid_name n -> name_rest n = true.
Proof.
  intros V. apply IsValidTableName_spec in V. unfold IsValidTableName in V. destruct (Nat.ltb (String.length n) 1); [discriminate|].
  destruct (isValidName n) eqn:I; [|discriminate]. destruct n as [|c n]; [discriminate|]. cbn [isValidName name_rest] in *.
  destruct (isLetter c), (Ascii.eqb c underscore); cbn [negb andb] in *; try discriminate; exact I.
Qed.
Lemma name_rest_dec s : all_c is_dec s = true -> name_rest s = true.
Proof.
  induction s as [|c s IH]; [reflexivity|]. cbn [all_c name_rest]. intros H. apply andb_prop in H as [D A]. rewrite IH by exact A.
  assert (N : isNumber c = true). { revert D. clear. destruct c as [[] [] [] [] [] [] [] []]; vm_compute; intros H; try exact H; discriminate. }
  now rewrite N, andb_false_r.
Qed.
Lemma types_short s : In s all_types -> String.length s <= 9.
Proof. intros I. types I; cbn; lia. Qed.
Lemma tail_rest parent cn ri tail : name_rest parent = true -> valid_name cn -> (0 <= ri)%Z -> name_rest tail = true ->
  name_rest (tail_name parent cn ri tail) = true.
Proof.
  intros P C R T. unfold tail_name. rewrite !name_rest_app, P, T, (name_rest_valid cn C).
  rewrite (name_rest_dec (dec_of ri)); [reflexivity|]. unfold dec_of. destruct (Z.ltb_spec ri 0); [lia|]. now apply dec_of_nonneg_dec.
Qed.
Lemma head_tail_valid t parent cn ri tail : wf_table t -> name_rest (tail_name parent cn ri tail) = true -> valid_name (tname t ++ tail_name parent cn ri tail)%string.
Proof.
  intros W R. apply IsValidTableName_spec. unfold IsValidTableName.
  assert (L : 13 <= String.length (tname t ++ tail_name parent cn ri tail)%string) by (rewrite length_app_str; unfold tail_name; cbn; lia).
  destruct (Nat.ltb_spec (String.length (tname t ++ tail_name parent cn ri tail)%string) 1); [lia|].
  assert (V : isValidName (tname t ++ tail_name parent cn ri tail)%string = true).
  { destruct (tname t) as [|c n] eqn:N; [cbn; exact R|].
    assert (V : valid_name (String c n)) by (destruct (wf_name t W) as [[_ V]|(_ & E & _)]; congruence).
    apply IsValidTableName_spec in V. unfold IsValidTableName in V. destruct (Nat.ltb (String.length (String c n)) 1); [discriminate|].
    destruct (isValidName (String c n)) eqn:I; [|discriminate]. cbn [append isValidName] in *. destruct (negb (isLetter c) && negb (Ascii.eqb c underscore)); [discriminate|].
    now rewrite name_rest_app, I, R. }
  rewrite V. cbn [negb]. destruct (str_in _ all_types) eqn:I; [|reflexivity]. apply str_in_In, types_short in I. lia.
Qed.

(** ---------- renaming ---------- *)

Lemma tab_at h (q : ptr) : q < List.length h -> nth_error h q = Some (tab h q).
Proof. intros L. unfold tab. now apply nth_error_nth'. Qed.

Lemma name_only_refl t : name_only t t.
Proof. now destruct t. Qed.
Lemma name_only_trans a b c : name_only a b -> name_only b c -> name_only a c.
Proof. unfold name_only. intros -> ->. reflexivity. Qed.
Lemma name_only_named n t : name_only t (named n t).
Proof. reflexivity. Qed.
Lemma name_only_rows t t' : name_only t t' -> rows t' = rows t /\ cnames t' = cnames t /\ ctypes t' = ctypes t.
Proof. unfold name_only. intros ->. auto. Qed.
Lemma named_wf n t : wf_table t -> valid_name n -> wf_table (named n t).
Proof. intros W V. destruct W. constructor; auto. Qed.

Lemma rename_run h (q : ptr) n : q < List.length h -> valid_name n -> on_heap q (SetName n) h = (upd h q (named n (tab h q)), Ok tt).
Proof.
  intros L V. unfold on_heap. rewrite (tab_at h q L). rewrite Proofs_Copy.SetName_eq. apply IsValidTableName_spec in V. rewrite V.
  unfold new_nils, on_tab. cbn. rewrite app_nil_r. reflexivity.
Qed.

Record ren (p : ptr) (h h' : heap) : Prop := {
  rn_wf : wf_heap h';
  rn_len : List.length h' = List.length h;
  rn_names : forall z, name_only (tab h z) (tab h' z);
  rn_far : forall z, ~ below h p z -> nth_error h' z = nth_error h z }.
Lemma nests_tab h p q : nests h p q <-> In q (nested_in (rows (tab h p))).
Proof.
  unfold nests. destruct (nth_error h p) as [t|] eqn:E.
  - unfold tab. rewrite (nth_error_nth _ _ _ E). split; [intros (t' & [= <-] & I); exact I|eauto].
  - unfold tab. rewrite nth_overflow by (now apply nth_error_None). split; [intros (t' & Q & _); discriminate|cbn; intros []].
Qed.
Lemma below_same h h' : (forall z, rows (tab h' z) = rows (tab h z)) -> forall p z, below h p z -> below h' p z.
Proof.
  intros R p z B. induction B as [a b N|a b c _ IH1 _ IH2]; [apply t_step; apply nests_tab in N; apply nests_tab; now rewrite R|now apply t_trans with b].
Qed.
Lemma ren_rows p h h' : ren p h h' -> forall z, rows (tab h' z) = rows (tab h z).
Proof. intros R z. now apply name_only_rows, (rn_names _ _ _ R). Qed.
Lemma ren_refl p h : wf_heap h -> ren p h h.
Proof. intros W. constructor; auto. intros; apply name_only_refl. Qed.
Lemma ren_trans p a b c : ren p a b -> ren p b c -> ren p a c.
Proof.
  intros R1 R2. constructor; [apply R2|now rewrite (rn_len _ _ _ R2), (rn_len _ _ _ R1)|intros z; eapply name_only_trans; [apply R1|apply R2]|].
  intros z N. rewrite (rn_far _ _ _ R2); [exact (rn_far _ _ _ R1 z N)|]. intros B. apply N. revert B. apply below_same. intros y. symmetry. now apply (ren_rows p a b).
Qed.
Lemma ren_sub p q h h' : nests h p q -> ren q h h' -> ren p h h'.
Proof.
  intros N R. constructor; try apply R. intros z B. apply R. intros B'. apply B. exact (t_trans _ _ _ _ _ (t_step _ _ _ _ N) B').
Qed.
Lemma ren_one p (q : ptr) h n : wf_heap h -> nests h p q -> valid_name n -> ren p h (upd h q (named n (tab h q))).
Proof.
  intros W N V. assert (L : q < List.length h) by (apply nests_tab in N; eapply Proofs_Nesting.nested_lt; eauto).
  assert (T : forall z : ptr, tab (upd h q (named n (tab h q))) z = if Nat.eqb z q then named n (tab h q) else tab h z).
  { intros z. destruct (Nat.eqb_spec z q) as [->|Z].
    - unfold tab at 1. apply nth_error_nth. now apply nth_error_upd_eq.
    - apply tab_eq. apply nth_error_upd_ne. congruence. }
  constructor.
  - destruct (tab_wf h q W) as [Wt P]. apply wfh_heap. rewrite upd_length. apply wfh_upd; [now apply wfh_heap|now apply named_wf|exact P|].
    intros x X. exact (wh_parent h W q (tab h q) x (tab_at h q L) X).
  - apply upd_length.
  - intros z. rewrite T. destruct (Nat.eqb_spec z q) as [->|]; [apply name_only_named|apply name_only_refl].
  - intros z B. apply nth_error_upd_ne. intros ->. apply B. now apply t_step.
Qed.

(** Nesting of less than [k] levels *)
Fixpoint deep (k : nat) (h : heap) (p : ptr) : Prop :=
  match k with O => False | S k => forall q, In q (nested_in (rows (tab h p))) -> deep k h q end.
Lemma deep_same h h' : (forall z, rows (tab h' z) = rows (tab h z)) -> forall k p, deep k h p -> deep k h' p.
Proof. intros R. induction k as [|k IH]; intros p D; [exact D|]. intros q I. rewrite R in I. apply IH. now apply D. Qed.
Lemma deep_more h : forall k p j, deep k h p -> k <= j -> deep j h p.
Proof. induction k as [|k IH]; intros p j D L; [destruct D|]. destruct j as [|j]; [lia|]. intros q I. apply IH; [now apply D|lia]. Qed.

(** ---------- the cells with nested tables ---------- *)

Lemma nth_combine {A B} (la : list A) (lb : list B) k a b : nth_error (combine la lb) k = Some (a, b) <-> nth_error la k = Some a /\ nth_error lb k = Some b.
Proof.
  rewrite Proofs_Copy.nth_error_combine. destruct (nth_error la k), (nth_error lb k); split; try (intros [? ?]; discriminate); try discriminate.
  - intros [= -> ->]. auto.
  - intros [[= ->] [= ->]]. reflexivity.
Qed.

Lemma table_cells_In t ci cn ri : In (ci, cn, ri) (table_cells t) <->
  exists kc kr, ci = Z.of_nat kc /\ ri = Z.of_nat kr /\ nth_error (cnames t) kc = Some cn /\ nth_error (ctypes t) kc = Some "*Table" /\ kr < List.length (rows t).
Proof.
  unfold table_cells, numbered. rewrite in_concat. split.
  - intros (l & L & I). apply in_map_iff in L as ((z & n & ct) & <- & J). destruct (IsTableColType ct) eqn:C; [|destruct I].
    apply in_map_iff in I as (r & [= <- <- <-] & R). apply Proofs_Lib.In_zseq in R.
    apply In_nth_error in J as [k J]. apply nth_combine in J as [J1 J2]. rewrite nth_error_zseq in J1.
    destruct (Nat.ltb k _); [|discriminate]. injection J1 as <-. apply nth_combine in J2 as [J2 J3].
    exists k, (Z.to_nat r). unfold IsTableColType in C. apply String.eqb_eq in C as ->. repeat split; auto; lia.
  - intros (kc & kr & -> & -> & N & C & R). eexists. split.
    + apply in_map_iff. exists (Z.of_nat kc, (cn, "*Table")). split; [reflexivity|].
      apply (nth_error_In _ kc). apply nth_combine. split.
      * rewrite nth_error_zseq. replace (Nat.ltb kc _) with true; [reflexivity|]. symmetry. apply Nat.ltb_lt. rewrite combine_length.
        apply nth_error_some_lt in N, C. lia.
      * apply nth_combine. auto.
    + cbn. apply in_map_iff. exists (Z.of_nat kr). split; [reflexivity|]. apply Proofs_Lib.In_zseq. lia.
Qed.
Lemma cell_table t ci cn ri : wf_table t -> In (ci, cn, ri) (table_cells t) ->
  exists q : ptr, GetTableByColIndex t ci ri = Ok (Some q) /\ In q (nested_in (rows t)) /\ valid_name cn /\ (0 <= ri)%Z.
Proof.
  intros W I. apply table_cells_In in I as (kc & kr & -> & -> & N & C & R).
  destruct (nth_error (rows t) kr) as [row|] eqn:E; [|apply nth_error_None in E; lia].
  pose proof (wf_cells t W) as F. rewrite Forall_forall in F. specialize (F row (nth_error_In _ _ E)).
  destruct (Forall2_nth _ _ _ _ _ F C) as (v & A & [K _]). destruct (table_value v K) as [q ->].
  exists q. split; [now apply (GetTableByColIndex_at t kc kr row)|]. split; [apply In_nested_in; eauto|]. split; [|lia].
  pose proof (wf_colnames t W) as V. rewrite Forall_forall in V. apply V. exact (nth_error_In _ _ N).
Qed.
Lemma table_cell t (q : ptr) : wf_table t -> In q (nested_in (rows t)) ->
  exists ci cn ri, In (ci, cn, ri) (table_cells t) /\ GetTableByColIndex t ci ri = Ok (Some q).
Proof.
  intros W I. apply In_nested_in in I as (kr & row & kc & R & C).
  pose proof (wf_cells t W) as F. rewrite Forall_forall in F. specialize (F row (nth_error_In _ _ R)).
  destruct (Forall2_nth_r _ _ _ _ _ F C) as (ct & T & [K _]). cbn in K. subst ct.
  destruct (nth_error (cnames t) kc) as [cn|] eqn:N; [|apply nth_error_None in N; apply nth_error_some_lt in T; rewrite (wf_types_len t W) in T; lia].
  exists (Z.of_nat kc), cn, (Z.of_nat kr). split; [|now apply (GetTableByColIndex_at t kc kr row)].
  apply table_cells_In. exists kc, kr. repeat split; auto. now apply nth_error_some_lt in R.
Qed.
Lemma GetTable_same t t' ci ri : wf_table t -> wf_table t' -> name_only t t' -> is_nil t = false \/ is_nil t = is_nil t' -> (exists q, GetTableByColIndex t ci ri = Ok (Some q)) ->
  GetTableByColIndex t' ci ri = GetTableByColIndex t ci ri.
Proof.
  intros W W' N _ [q G]. destruct (name_only_rows _ _ N) as (R & _ & C). destruct (GetTableByColIndex_eq t ci ri W) as [(kc & kr & row & q' & -> & -> & A & B & D & E)|E]; [|congruence].
  rewrite E. apply (GetTableByColIndex_at t' kc kr row); congruence.
Qed.

(** ---------- the two loops ---------- *)

Definition fine (p : ptr) (h : heap) (o : heap * res string) (good : Prop) : Prop :=
  ren p h (fst o) /\ ((exists s, snd o = Ok s) /\ good \/ snd o = Panic /\ ~ good).

Section Loop.
  Variables (ip : Z -> bool) (k : nat) (p : ptr) (parent tail : string) (t0 : table).
  Let rec := stringNested_recursive k ip.
  Hypothesis REC : forall h (q : ptr) pa ta, wf_heap h -> q < List.length h -> name_rest pa = true -> name_rest ta = true ->
    fine q h (rec q pa ta h) (deep k h q).
  Hypothesis PR : name_rest parent = true.
  Hypothesis TR : name_rest tail = true.
  Hypothesis W0 : wf_table t0.

  Lemma loop_fine : forall cells h acc, wf_heap h -> name_only t0 (tab h p) -> incl cells (table_cells t0) ->
    fine p h (nested_texts rec p parent tail cells acc h) (forall ci cn ri q, In (ci, cn, ri) cells -> GetTableByColIndex t0 ci ri = Ok (Some q) -> deep k h q).
  Proof.
    induction cells as [|[[ci cn] ri] cells IH]; intros h acc W NO I.
    - split; [now apply ren_refl|]. left. split; [now exists acc|]. intros ? ? ? ? [].
    - assert (I0 : In (ci, cn, ri) (table_cells t0)) by (apply I; now left).
      destruct (cell_table t0 ci cn ri W0 I0) as (q & G & Q & V & R).
      assert (Wp := proj1 (tab_wf h p W)).
      assert (G' : GetTableByColIndex (tab h p) ci ri = Ok (Some q)).
      { rewrite <- G. apply GetTable_same; auto; [|eauto]. left. destruct (wf_name t0 W0) as [[? _]|(_ & _ & _ & E)]; [assumption|]. rewrite E in Q. destruct Q. }
      assert (N : nests h p q) by (apply nests_tab; destruct (name_only_rows _ _ NO) as (-> & _); exact Q).
      assert (L : q < List.length h) by (apply nests_tab in N; eapply Proofs_Nesting.nested_lt; eauto).
      assert (TT : name_rest (tail_name parent cn ri tail) = true) by (now apply tail_rest).
      assert (VN := head_tail_valid (tab h q) parent cn ri tail (proj1 (tab_wf h q W)) TT).
      cbn [nested_texts]. cbv zeta. rewrite G'. rewrite (rename_run h q _ L VN).
      pose proof (ren_one p q h _ W N VN) as R1. set (h1 := upd h q _) in *.
      assert (HR : name_rest (tname (tab h q)) = true).
      { destruct (wf_name _ (proj1 (tab_wf h q W))) as [[_ X]|(_ & -> & _)]; [now apply name_rest_valid|reflexivity]. }
      assert (L1 : q < List.length h1) by (rewrite (rn_len _ _ _ R1); exact L).
      assert (D1 : forall j z, deep j h z <-> deep j h1 z).
      { intros j z. split; apply deep_same; intros y; [|symmetry]; now apply (ren_rows p). }
      destruct (REC h1 q (tname (tab h q)) (tail_name parent cn ri tail) (rn_wf _ _ _ R1) L1 HR TT) as [R2 O].
      unfold hbind. destruct (rec q (tname (tab h q)) (tail_name parent cn ri tail) h1) as [h2 o] eqn:E. cbn [fst snd] in R2, O.
      assert (N1 : nests h1 p q) by (apply nests_tab; rewrite (ren_rows p h h1 R1); now apply nests_tab).
      assert (R3 : ren p h h2) by (eapply ren_trans; [exact R1|]; now apply (ren_sub p q)).
      destruct O as [[[s ->] D]|[-> D]].
      + assert (NO2 : name_only t0 (tab h2 p)) by (eapply name_only_trans; [exact NO|apply R3]).
        destruct (IH h2 (acc ++ s)%string (rn_wf _ _ _ R3) NO2) as [R4 O4]; [intros x X; apply I; now right|].
        split; [now apply (ren_trans p h h2)|].
        assert (D2 : forall j z, deep j h z <-> deep j h2 z).
        { intros j z. split; apply deep_same; intros y; [|symmetry]; now apply (ren_rows p). }
        destruct O4 as [[X Y]|[X Y]]; [left|right]; (split; [exact X|]).
        * intros ci' cn' ri' q' [[= <- <- <-]|J] G2; [rewrite G in G2; injection G2 as <-; now apply D1|]. apply D2. exact (Y ci' cn' ri' q' J G2).
        * intros F. apply Y. intros ci' cn' ri' q' J G2. apply D2. exact (F ci' cn' ri' q' (or_intror J) G2).
      + split; [exact R3|]. right. split; [reflexivity|]. intros F. apply D. apply D1. exact (F ci cn ri q (or_introl eq_refl) G).
  Qed.
End Loop.

Lemma nested_fine ip : forall k h (p : ptr) parent tail, wf_heap h -> p < List.length h -> name_rest parent = true -> name_rest tail = true ->
  fine p h (stringNested_recursive k ip p parent tail h) (deep k h p).
Proof.
  induction k as [|k IH]; intros h p parent tail W L PR TR.
  - split; [now apply ren_refl|]. right. split; [reflexivity|intros []].
  - cbn [stringNested_recursive]. unfold hbind at 1. unfold asks at 1. destruct (StringPadded_total ip h (tab h p) (proj1 (tab_wf h p W))) as [s ->].
    unfold hbind at 1. unfold asks at 1. assert (Wp := proj1 (tab_wf h p W)).
    destruct (loop_fine ip k p parent tail (tab h p) (fun h q pa ta => IH h q pa ta) PR TR Wp (table_cells (tab h p)) h (s ++ newline)%string W (name_only_refl _) (incl_refl _)) as [R O].
    split; [exact R|]. destruct O as [[X Y]|[X Y]]; [left|right]; (split; [exact X|]).
    + intros q I. destruct (table_cell (tab h p) q Wp I) as (ci & cn & ri & J & G). exact (Y ci cn ri q J G).
    + intros F. apply Y. intros ci cn ri q J G. destruct (cell_table (tab h p) ci cn ri Wp J) as (q' & G' & Q & _). apply F. congruence.
Qed.

(** ---------- depth and cycles ---------- *)

Lemma first_step h a b : clos_trans _ (nests h) a b -> exists c, nests h a c /\ clos_refl_trans _ (nests h) c b.
Proof.
  intros C. induction C as [a b N|a b c _ IH1 _ IH2]; [exists b; split; [exact N|apply rt_refl]|].
  destruct IH1 as (x & N & P). destruct IH2 as (y & N2 & P2). exists x. split; [exact N|].
  apply rt_trans with b; [exact P|]. apply rt_trans with y; [now apply rt_step|exact P2].
Qed.
Lemma circular_step h p : circular h p -> exists r, In r (nested_in (rows (tab h p))) /\ circular h r.
Proof.
  intros (q & P & C). assert (T : clos_trans _ (nests h) p q).
  { apply clos_rt_rtn1 in P. destruct P as [|y z N P]; [exact C|]. apply clos_rtn1_rt in P. revert N C. clear -P. intros N _.
    apply clos_rt_t with y; [exact P|now apply t_step]. }
  destruct (first_step h p q T) as (r & N & P'). exists r. split; [now apply nests_tab|]. now exists q.
Qed.
Lemma deep_no_cycle h : forall k p, deep k h p -> ~ circular h p.
Proof.
  induction k as [|k IH]; intros p D C; [exact D|]. destruct (circular_step h p C) as (r & I & C'). exact (IH r (D r I) C').
Qed.
Lemma no_cycle_deep h : wf_heap h -> forall k (p : ptr) anc, p < List.length h -> (forall a, In a anc -> a < List.length h /\ clos_trans _ (nests h) a p) -> NoDup (p :: anc) ->
  ~ circular h p -> List.length h <= k + List.length anc -> deep k h p.
Proof.
  intros W. induction k as [|k IH]; intros p anc L A ND NC LE.
  - pose proof (NoDup_bounded (p :: anc) (List.length h) ND) as B. cbn [List.length] in B. exfalso.
    assert (S (List.length anc) <= List.length h); [|lia]. apply B. intros q [<-|I]; [exact L|]. exact (proj1 (A q I)).
  - intros q I. assert (N : nests h p q) by (now apply nests_tab). apply (IH q (p :: anc)).
    + eapply Proofs_Nesting.nested_lt; eauto.
    + intros a [<-|J]; [split; [exact L|now apply t_step]|]. destruct (A a J) as [X Y]. split; [exact X|]. apply t_trans with p; [exact Y|now apply t_step].
    + constructor; [|exact ND]. intros [E|J].
      * subst q. apply NC. exists p. split; [apply rt_refl|now apply t_step].
      * apply NC. exists p. split; [apply rt_refl|]. apply t_trans with q; [now apply t_step|]. exact (proj2 (A q J)).
    + intros (z & P & C). apply NC. exists z. split; [|exact C]. apply rt_trans with q; [now apply rt_step|exact P].
    + cbn [List.length]. lia.
Qed.
Lemma heap_deep h (p : ptr) : wf_heap h -> p < List.length h -> ~ circular h p -> deep (List.length h) h p.
Proof. intros W L N. apply (no_cycle_deep h W _ p []); auto; [intros ? []|repeat constructor; intros []|cbn; lia]. Qed.

Lemma root_rest h (p : ptr) : wf_heap h -> name_rest (tname (tab h p)) = true.
Proof. intros W. destruct (wf_name _ (proj1 (tab_wf h p W))) as [[_ X]|(_ & -> & _)]; [now apply name_rest_valid|reflexivity]. Qed.

(** ---------- flat nestings ---------- *)

Lemma dec_digits_nat : forall f1 f2 n acc, n < f2 -> 1 <= f1 -> (Z.of_nat n < 2 ^ Z.of_nat f1)%Z -> dec_digits f1 (Z.of_nat n) acc = (digits f2 n ++ acc)%string.
Proof.
  induction f1 as [|f1 IH]; intros f2 n acc L P B; [lia|]. destruct f2 as [|f2]; [lia|]. cbn [dec_digits digits]. cbv zeta.
  assert (C : chr (48 + Z.of_nat n mod 10) = ascii_of_nat (48 + n mod 10)).
  { unfold chr. change 10%Z with (Z.of_nat 10). rewrite <- (Nat2Z.inj_mod n 10). unfold ascii_of_nat. f_equal. lia. }
  rewrite C. destruct (Z.ltb_spec (Z.of_nat n) 10), (Nat.ltb_spec n 10); try lia.
  - rewrite Nat.mod_small by lia. reflexivity.
  - replace (Z.of_nat n / 10)%Z with (Z.of_nat (n / 10)) by (rewrite Nat2Z.inj_div; reflexivity).
    rewrite (IH f2 (n / 10)).
    + rewrite app_str_assoc. reflexivity.
    + assert (n / 10 < n) by (apply Nat.div_lt; lia). lia.
    + destruct f1; [|lia]. exfalso. change (2 ^ Z.of_nat 1)%Z with 2%Z in B. lia.
    + rewrite Nat2Z.inj_div. apply Z.div_lt_upper_bound; [lia|]. rewrite Nat2Z.inj_succ, Z.pow_succ_r in B by lia.
      assert (0 < 2 ^ Z.of_nat f1)%Z by (apply Z.pow_pos_nonneg; lia). change (Z.of_nat 10) with 10%Z. lia.
Qed.
Lemma dec_decimal n : dec_of (Z.of_nat n) = decimal n.
Proof.
  unfold dec_of, dec_of_nonneg, decimal. destruct (Z.ltb_spec (Z.of_nat n) 0); [lia|].
  rewrite (dec_digits_nat _ (S n)); [now rewrite app_str_nil_r|lia|lia|].
  rewrite Nat2Z.inj_succ, Z2Nat.id by apply Z.log2_nonneg. destruct n as [|n]; [vm_compute; reflexivity|]. apply Z.log2_spec. lia.
Qed.

Lemma table_cells_spec t : wf_table t -> table_cells t = map (fun c => (Z.of_nat (fst c), nth (fst c) (cnames t) "", Z.of_nat (snd c))) (nested_cells t).
Proof.
  intros W. unfold table_cells, nested_cells. rewrite flat_map_concat_map, concat_map, map_map. f_equal.
  assert (E : numbered (combine (cnames t) (ctypes t)) = map (fun c => (Z.of_nat c, (nth c (cnames t) "", nth c (ctypes t) ""))) (seq 0 (List.length (cnames t)))).
  { unfold numbered. apply nth_error_ext. intros i. rewrite Proofs_Copy.nth_error_combine, nth_error_zseq, Proofs_Copy.nth_error_combine, nth_error_map.
    rewrite combine_length, (wf_types_len t W), Nat.min_id. destruct (Nat.ltb_spec i (List.length (cnames t))).
    - rewrite (nth_error_nth' (cnames t) "") by assumption. rewrite (nth_error_nth' (ctypes t) "") by (rewrite (wf_types_len t W); assumption).
      rewrite (nth_error_nth' _ 0) by (rewrite seq_length; assumption). rewrite seq_nth by assumption. reflexivity.
    - replace (nth_error (seq 0 (List.length (cnames t))) i) with (@None nat) by (symmetry; apply nth_error_None; rewrite seq_length; lia). reflexivity. }
  rewrite E, map_map. apply map_ext. intros c. unfold IsTableColType. destruct (string_dec (nth c (ctypes t) "") "*Table") as [->|N].
  - cbn [String.eqb]. unfold zseq. rewrite !map_map. reflexivity.
  - destruct (String.eqb_spec (nth c (ctypes t) "") "*Table"); [contradiction|reflexivity].
Qed.

Lemma concat_cons b l : String.concat "" (b :: l) = (b ++ String.concat "" l)%string.
Proof. destruct l; cbn [String.concat]; [now rewrite app_str_nil_r|reflexivity]. Qed.
Lemma flat_map_once {A B} (f : A -> list B) : forall l i j x y z, NoDup (flat_map f l) -> nth_error l i = Some x -> nth_error l j = Some y -> In z (f x) -> In z (f y) -> i = j.
Proof.
  induction l as [|a l IH]; intros [|i] [|j] x y z N X Y FX FY; try discriminate; auto; cbn [flat_map] in N; cbn [nth_error] in X, Y.
  - injection X as ->. exfalso. destruct (Proofs_Walk.NoDup_app_inv _ _ N) as (_ & _ & D). apply (D z FX). apply in_flat_map. exists y. split; [exact (nth_error_In _ _ Y)|exact FY].
  - injection Y as ->. exfalso. destruct (Proofs_Walk.NoDup_app_inv _ _ N) as (_ & _ & D). apply (D z FY). apply in_flat_map. exists x. split; [exact (nth_error_In _ _ X)|exact FX].
  - f_equal. destruct (Proofs_Walk.NoDup_app_inv _ _ N) as (_ & N' & _). exact (IH i j x y z N' X Y FX FY).
Qed.
Lemma NoDup_flat_map_in {A B} (f : A -> list B) : forall l x, NoDup (flat_map f l) -> In x l -> NoDup (f x).
Proof.
  induction l as [|a l IH]; intros x N I; [destruct I|]. cbn [flat_map] in N. destruct (Proofs_Walk.NoDup_app_inv _ _ N) as (N1 & N2 & _). destruct I as [->|I]; auto.
Qed.
Lemma cell_once t (q : ptr) c r c' r' : NoDup (nested_in (rows t)) -> at_cell t c r = Some (VTable (Some q)) -> at_cell t c' r' = Some (VTable (Some q)) -> c = c' /\ r = r'.
Proof.
  intros N A B. unfold at_cell in A, B. destruct (nth_error (rows t) r) as [x|] eqn:X; [|discriminate]. destruct (nth_error (rows t) r') as [y|] eqn:Y; [|discriminate].
  unfold nested_in in N. assert (E : r = r').
  { apply (flat_map_once _ _ r r' x y q N X Y); apply in_flat_map; eexists; (split; [eapply nth_error_In; eassumption|now left]). }
  subst r'. rewrite X in Y. injection Y as <-. split; [|reflexivity]. apply NoDup_flat_map_in with (x := x) in N; [|exact (nth_error_In _ _ X)].
  exact (flat_map_once _ _ c c' _ _ q N A B (or_introl eq_refl) (or_introl eq_refl)).
Qed.
Lemma nested_cells_In t c r : In (c, r) (nested_cells t) <-> c < List.length (cnames t) /\ r < List.length (rows t) /\ nth c (ctypes t) "" = "*Table".
Proof.
  unfold nested_cells. rewrite in_flat_map. split.
  - intros (x & X & I). apply in_seq in X. destruct (string_dec (nth x (ctypes t) "") "*Table") as [E|]; [|destruct I].
    apply in_map_iff in I as (y & [= <- <-] & Y). apply in_seq in Y. repeat split; auto; lia.
  - intros (C & R & E). exists c. split; [apply in_seq; lia|]. rewrite E. destruct (string_dec "*Table" "*Table"); [|contradiction].
    apply in_map. apply in_seq. lia.
Qed.
Lemma nested_cells_NoDup t : NoDup (nested_cells t).
Proof.
  unfold nested_cells. generalize (seq_NoDup (List.length (cnames t)) 0). induction (seq 0 (List.length (cnames t))) as [|c l IH]; intros N; [constructor|].
  inversion N; subst. cbn [flat_map]. apply Proofs_Walk.NoDup_app_inv_intro; auto.
  - destruct (string_dec _ _); [|constructor]. apply FinFun.Injective_map_NoDup; [intros a b [= E]; exact E|apply seq_NoDup].
  - intros [c' r] I J. destruct (string_dec _ _) as [E|]; [|destruct I]. apply in_map_iff in I as (y & [= <- <-] & _).
    apply in_flat_map in J as (x & X & J). destruct (string_dec (nth x (ctypes t) "") "*Table"); [|destruct J]. apply in_map_iff in J as (z & [= -> <-] & _). contradiction.
Qed.
Lemma nested_cell_at t c r : wf_table t -> In (c, r) (nested_cells t) -> exists q : ptr, at_cell t c r = Some (VTable (Some q)) /\ In q (nested_in (rows t))
  /\ GetTableByColIndex t (Z.of_nat c) (Z.of_nat r) = Ok (Some q) /\ valid_name (nth c (cnames t) "").
Proof.
  intros W I. apply nested_cells_In in I as (C & R & E).
  assert (T : nth_error (ctypes t) c = Some "*Table") by (rewrite <- E; apply nth_error_nth'; rewrite (wf_types_len t W); exact C).
  assert (N : nth_error (cnames t) c = Some (nth c (cnames t) "")) by (apply nth_error_nth'; exact C).
  destruct (nth_error (rows t) r) as [row|] eqn:X; [|apply nth_error_None in X; lia].
  pose proof (wf_cells t W) as F. rewrite Forall_forall in F. specialize (F row (nth_error_In _ _ X)).
  destruct (Forall2_nth _ _ _ _ _ F T) as (v & A & [K _]). destruct (table_value v K) as [q ->].
  exists q. split; [unfold at_cell; now rewrite X|]. split; [apply In_nested_in; eauto|]. split; [now apply (GetTableByColIndex_at t c r row)|].
  pose proof (wf_colnames t W) as V. rewrite Forall_forall in V. apply V. exact (nth_error_In _ _ N).
Qed.
Lemma no_cells t : wf_table t -> nested_in (rows t) = [] -> table_cells t = [].
Proof.
  intros W N. rewrite table_cells_spec by exact W. destruct (nested_cells t) as [|[c r] l] eqn:E; [reflexivity|]. exfalso.
  destruct (nested_cell_at t c r W) as (q & _ & I & _); [rewrite E; now left|]. rewrite N in I. exact I.
Qed.
Lemma nested_none ip k h (p : ptr) parent tail s : wf_heap h -> nested_in (rows (tab h p)) = [] -> StringPadded ip h (tab h p) = Ok s ->
  stringNested_recursive (S k) ip p parent tail h = (h, Ok (s ++ newline)%string).
Proof.
  intros W N S. cbn [stringNested_recursive]. unfold hbind at 1. unfold asks at 1. rewrite S. unfold hbind at 1. unfold asks at 1.
  rewrite no_cells; [reflexivity|exact (proj1 (tab_wf h p W))|exact N].
Qed.

Lemma nested_step ip k h (p : ptr) parent tail s : StringPadded ip h (tab h p) = Ok s ->
  stringNested_recursive (S k) ip p parent tail h = nested_texts (stringNested_recursive k ip) p parent tail (table_cells (tab h p)) (s ++ newline)%string h.
Proof. intros S. cbn [stringNested_recursive]. unfold hbind at 1. unfold asks at 1. rewrite S. reflexivity. Qed.

Section Flat.
  Variables (ip : Z -> bool) (k : nat) (h : heap) (p : ptr).
  Hypothesis W : wf_heap h.
  Hypothesis L : p < List.length h.
  Hypothesis FL : flat_nesting h p.
  Let t := tab h p.
  Let rec := stringNested_recursive (S k) ip.
  Definition block_ok (h' : heap) (c : nat * nat) (b : string) : Prop :=
    exists (q : ptr) s, GetTableByColIndex t (Z.of_nat (fst c)) (Z.of_nat (snd c)) = Ok (Some q)
      /\ StringPadded ip h (named (printed_name t (tname (tab h q)) (fst c) (snd c)) (tab h q)) = Ok s /\ b = (s ++ newline)%string
      /\ tab h' q = named (printed_name t (tname (tab h q)) (fst c) (snd c)) (tab h q).

  Lemma flat_loop : forall cells g acc, ren p h g -> NoDup cells -> incl cells (nested_cells t) -> tab g p = t ->
    (forall c r q, In (c, r) cells -> at_cell t c r = Some (VTable (Some q)) -> tab g q = tab h q) ->
    exists h' blocks, nested_texts rec p (tname t) "" (map (fun c => (Z.of_nat (fst c), nth (fst c) (cnames t) "", Z.of_nat (snd c))) cells) acc g
        = (h', Ok (acc ++ String.concat "" blocks)%string)
      /\ Forall2 (block_ok h') cells blocks
      /\ (forall z, (forall c r, In (c, r) cells -> at_cell t c r <> Some (VTable (Some z))) -> nth_error h' z = nth_error g z).
  Proof.
    assert (Wt : wf_table t) by exact (proj1 (tab_wf h p W)).
    induction cells as [|[c r] cells IH]; intros g acc R ND I TP SAME.
    - exists g, []. split; [cbn; now rewrite app_str_nil_r|]. split; [constructor|auto].
    - inversion ND as [|? ? NI ND']; subst. destruct (nested_cell_at t c r Wt) as (q & A & Q & G & V); [apply I; now left|].
      assert (Lq : q < List.length h) by (eapply Proofs_Nesting.nested_lt; eauto).
      assert (Lg : q < List.length g) by (rewrite (rn_len _ _ _ R); exact Lq).
      assert (PR : name_rest (tname t) = true) by (apply root_rest; exact W).
      assert (TT : name_rest (tail_name (tname t) (nth c (cnames t) "") (Z.of_nat r) "") = true) by (apply tail_rest; auto; lia).
      assert (Tq : tab g q = tab h q) by (apply (SAME c r); [now left|exact A]).
      assert (Wq : wf_table (tab h q)) by exact (proj1 (tab_wf h q W)).
      assert (EN : (tname (tab h q) ++ tail_name (tname t) (nth c (cnames t) "") (Z.of_nat r) "")%string = printed_name t (tname (tab h q)) c r).
      { unfold printed_name, tail_name. rewrite dec_decimal, app_str_nil_r. reflexivity. }
      assert (VN := head_tail_valid (tab h q) _ _ _ _ Wq TT). rewrite EN in VN.
      cbn [map fst snd nested_texts]. cbv zeta. rewrite TP, G, Tq, EN, (rename_run g q _ Lg VN), Tq.
      assert (N : nests g p q) by (apply nests_tab; rewrite TP; exact Q).
      pose proof (ren_one p q g _ (rn_wf _ _ _ R) N VN) as R1. rewrite Tq in R1.
      set (t1 := named (printed_name t (tname (tab h q)) c r) (tab h q)) in *. set (g1 := upd g q t1) in *.
      assert (NQ : nested_in (rows (tab h q)) = []) by (apply FL; exact Q).
      assert (T1 : tab g1 q = t1) by (unfold tab; apply nth_error_nth; now apply nth_error_upd_eq).
      assert (W1 : wf_table t1) by (now apply named_wf).
      destruct (StringPadded_total ip h t1 W1) as [s S0].
      assert (S1 : StringPadded ip g1 (tab g1 q) = Ok s) by (rewrite T1, <- S0; apply StringPadded_heap; [exact W1|exact NQ]).
      unfold hbind. unfold rec at 1. rewrite (nested_none ip k g1 q _ _ s (rn_wf _ _ _ R1)); [|rewrite T1; exact NQ|exact S1].
      assert (PQ : p <> q). { destruct FL as [D _]. inversion D as [|? ? NP _]; subst. intros <-. contradiction. }
      destruct (IH g1 (acc ++ (s ++ newline))%string) as (h' & blocks & E & F & FR).
      + eapply ren_trans; [exact R|exact R1].
      + exact ND'.
      + intros x X. apply I. now right.
      + rewrite <- TP. apply tab_eq. apply nth_error_upd_ne. congruence.
      + intros c' r' q' I' A'. rewrite <- (SAME c' r' q' (or_intror I') A'). apply tab_eq. apply nth_error_upd_ne. intros <-.
        destruct FL as [D _]. inversion D; subst. destruct (cell_once t q c r c' r') as [<- <-]; auto.
      + exists h', ((s ++ newline)%string :: blocks). split; [|split].
        * rewrite E. rewrite concat_cons, !app_str_assoc. reflexivity.
        * constructor; [|exact F]. exists q, s. repeat split; auto. cbn [fst snd]. fold t1. rewrite <- T1. apply tab_eq. apply FR.
          intros c' r' I' A'. destruct FL as [D _]. inversion D; subst. destruct (cell_once t q c r c' r') as [<- <-]; auto.
        * intros z Z. rewrite FR; [|intros c' r' I'; apply Z; now right]. apply nth_error_upd_ne. intros <-. exact (Z c r (or_introl eq_refl) A).
  Qed.
End Flat.
