(** Proofs_Foreign.v -- reading any JSON or YAML document keeps the heap well formed, leaves the
    existing tables alone and nests new tables in new tables only (C50). *)
From Coq Require Import ZArith NArith List String Ascii Bool SpecFloat Lia Relations.
From Verif Require Import Base Model_Names Model_Table Model_Sort Model_Heap Model_TableSet Model_Lex Model_Float Model_Time
  Model_Parser Model_Print Model_Json Model_Yaml Spec Spec_Sort Spec_Heap Spec_Walk Spec_TableSet Spec_Text Spec_Foreign.
From Verif Require Import Proofs_Lib Proofs_Table Proofs_Cells Proofs_Struct Proofs_Api Proofs_Pres Samples Proofs_Heap
  Proofs_Frame Proofs_TableSet Proofs_Lex Proofs_Num Proofs_Float Proofs_Parser Proofs_JsonWrite.
Import ListNotations.
Local Open Scope string_scope.
Local Open Scope list_scope.

(** ---------- pointers above a bound ---------- *)

Definition ptr_gt (g : nat) (v : value) : Prop := match v with VTable (Some p) => g < p | _ => True end.
Definition ptrs_gt (g : nat) (t : table) : Prop := Forall (Forall (ptr_gt g)) (rows t).
Definition above (g : nat) {A} (m : M A) : Prop :=
  forall s, wf_table (s_tab s) -> g < s_base s -> ptrs_gt g (s_tab s) -> ptrs_gt g (s_tab (fst (m s))).

Lemma ptrs_gt_nested g t : ptrs_gt g t <-> forall q, In q (nested_in (rows t)) -> g < q.
Proof.
  unfold ptrs_gt, nested_in. split.
  - intros H q I. apply in_flat_map in I. destruct I as (r & Ir & I). apply in_flat_map in I. destruct I as (v & Iv & I).
    rewrite Forall_forall in H. specialize (H _ Ir). rewrite Forall_forall in H. specialize (H _ Iv).
    destruct v; simpl in I; try easy. destruct o; simpl in *; intuition congruence.
  - intros H. apply Forall_forall. intros r Ir. apply Forall_forall. intros v Iv.
    destruct v; simpl; auto. destruct o; simpl; auto. apply H. apply in_flat_map. exists r. split; auto.
    apply in_flat_map. eexists. split; [exact Iv|]. simpl. auto.
Qed.

Lemma above_written g c r v s : ptr_gt g v -> ptrs_gt g (s_tab s) -> ptrs_gt g (s_tab (Proofs_Cells.written c r v s)).
Proof.
  intros V P. unfold ptrs_gt in *. simpl. unfold put. destruct (nth_error (rows (s_tab s)) r) as [row|] eqn:E; auto.
  apply Forall_upd; auto. apply Forall_upd; auto. eapply (Forall_nth_error _ _ _ _ P); eauto.
Qed.
Lemma above_SetTByColIndex g vt ci ri v : In vt all_types -> arg_of_type vt v = true -> ptr_gt g v ->
  above g (SetTByColIndex vt ci ri v).
Proof.
  intros Hvt Ha V s W B P.
  destruct (not_nil_arg v) eqn:NN.
  2:{ unfold SetTByColIndex. mstep. rewrite NN. auto. }
  destruct (HasColByColIndex (s_tab s) ci) eqn:HC.
  - apply HasCol_iff in HC.
    destruct (SetTByColIndex_eq vt ci ri v s W Hvt Ha HC) as [(ct & _ & _ & H1 & H2 & ->)|[_ ->]]; [|exact P].
    cbn [fst]. now apply above_written.
  - rewrite SetTByColIndex_panic; auto. intros H. apply HasCol_iff in H. congruence.
Qed.
Lemma zeros_gt g cts : Forall (fun ct => In ct all_types) cts -> forall p, g < p -> Forall (ptr_gt g) (Proofs_Table.zeros p cts).
Proof.
  induction 1 as [|ct r H _ IH]; cbn [Proofs_Table.zeros]; intros p L; [constructor|].
  destruct (is_tab ct) eqn:IT.
  - constructor; [exact L|]. apply IH. lia.
  - constructor; [|apply IH; lia]. types H; try discriminate; exact I.
Qed.
Lemma above_AppendRow g : above g AppendRow.
Proof.
  intros s W B P. rewrite AppendRow_eq by auto. destruct (is_nil (s_tab s)); auto.
  unfold row_added, ptrs_gt. cbn [fst s_tab with_rows rows]. apply Forall_app. split; [exact P|].
  constructor; auto. apply zeros_gt; [apply (wf_types _ W)|]. unfold next. lia.
Qed.
Lemma above_AppendCol g cn ct : above g (AppendCol cn ct).
Proof.
  intros s W B P. rewrite AppendCol_eq by auto. destruct (can_append_col (s_tab s) cn ct) eqn:C; auto.
  assert (Hct : In ct all_types).
  { unfold can_append_col in C. rewrite !andb_true_iff in C. now apply IsValidColType_spec. }
  unfold ptrs_gt, col_added. cbn [fst s_tab rows]. apply Forall_forall. intros x Hx. apply In_nth_error in Hx. destruct Hx as [j Hx].
  rewrite nth_error_mapi in Hx. destruct (nth_error (rows (s_tab s)) j) eqn:E; simpl in Hx; [|discriminate].
  injection Hx as <-. apply Forall_app. split; [exact (Forall_nth_error _ _ _ _ P E)|]. constructor; auto.
  unfold zcol. destruct (is_tab ct) eqn:IT; [cbn [ptr_gt]; unfold next; lia|]. types Hct; try discriminate; exact I.
Qed.
Lemma above_SetName g n : above g (SetName n).
Proof. intros s W B P. unfold SetName. mstep. destruct (IsValidTableName n); exact P. Qed.
Lemma above_SetStructShape g b : above g (SetStructShape b).
Proof. intros s W B P. exact P. Qed.
Lemma above_ret g {A} (a : A) : above g (ret a).
Proof. intros s W B P. exact P. Qed.

(** ---------- heaps ---------- *)

(** From address n on, tables nest only tables at higher addresses. *)
Definition upward (n : nat) (h : heap) : Prop := forall z t, n <= z -> nth_error h z = Some t -> ptrs_gt z t.
(** [h] grew out of [h0]: its old tables are unchanged and its new ones nest upwards. *)
Record grown (h0 h : heap) : Prop := {
  gr_wf : wf_heap h;
  gr_len : List.length h0 <= List.length h;
  gr_old : forall z, z < List.length h0 -> nth_error h z = nth_error h0 z;
  gr_up : upward (List.length h0) h }.
Definition safe (h0 : heap) (b : nat) {A} (m : HM A) (Q : nat -> A -> Prop) : Prop :=
  forall h, grown h0 h -> b <= List.length h ->
    grown h0 (fst (m h)) /\ List.length h <= List.length (fst (m h))
    /\ forall a, snd (m h) = Ok a -> Q (List.length (fst (m h))) a.

Lemma grown_refl h : wf_heap h -> grown h h.
Proof.
  intros W. constructor; auto. intros z t L N. apply nth_error_some_lt in N. lia.
Qed.
Lemma grown_trans a b c : grown a b -> grown b c -> grown a c.
Proof.
  intros [W1 L1 O1 U1] [W2 L2 O2 U2]. constructor; auto; [lia|..].
  - intros z L. rewrite O2 by lia. auto.
  - intros z t L N. destruct (Nat.lt_ge_cases z (List.length b)) as [B|B]; [|exact (U2 z t B N)].
    rewrite O2 in N by auto. exact (U1 z t L N).
Qed.

Lemma safe_bind {A B} h0 b (m : HM A) (f : A -> HM B) Q R :
  safe h0 b m Q -> (forall a b', b <= b' -> Q b' a -> safe h0 b' (f a) R) -> safe h0 b (hbind m f) R.
Proof.
  intros M F h G L. destruct (M h G L) as (G1 & L1 & Q1). unfold hbind. destruct (m h) as [h1 [a| |]] eqn:E; cbn [fst snd] in *.
  - destruct (F a (List.length h1) ltac:(lia) (Q1 a eq_refl) h1 G1 (le_n _)) as (G2 & L2 & Q2). split; [exact G2|]. split; [lia|exact Q2].
  - split; [exact G1|]. split; [lia|]. discriminate.
  - split; [exact G1|]. split; [lia|]. discriminate.
Qed.
Lemma safe_ret {A} h0 b (a : A) (Q : nat -> A -> Prop) : (forall l, b <= l -> Q l a) -> safe h0 b (hret a) Q.
Proof. intros H h G L. split; [exact G|]. split; [cbn; lia|]. intros a' [= <-]. now apply H. Qed.
Lemma safe_lift {A} h0 b (r : res A) (Q : nat -> A -> Prop) : (forall a, r = Ok a -> forall l, b <= l -> Q l a) -> safe h0 b (hlift r) Q.
Proof. intros H h G L. split; [exact G|]. split; [cbn; lia|]. cbn. intros a E. now apply H. Qed.
Definition any_res {A} (l : nat) (a : A) : Prop := True.
Lemma safe_err {A} h0 b (Q : nat -> A -> Prop) : safe h0 b (hlift Err) Q.
Proof. apply safe_lift. discriminate. Qed.
Lemma safe_panic {A} h0 b (Q : nat -> A -> Prop) : safe h0 b (hlift Panic) Q.
Proof. apply safe_lift. discriminate. Qed.
Lemma safe_for {A} h0 b (l : list A) (body : A -> HM unit) :
  (forall x b', In x l -> b <= b' -> safe h0 b' (body x) any_res) -> safe h0 b (hfor l body) any_res.
Proof.
  revert b. induction l as [|x l IH]; intros b H; cbn [hfor].
  - apply safe_ret. intros. exact I.
  - apply safe_bind with (Q := any_res); [apply H; [now left|auto]|]. intros a b' L _. apply IH. intros y b'' I' L'. apply H; [now right|lia].
Qed.
Lemma safe_weaken {A} h0 b (m : HM A) (Q R : nat -> A -> Prop) : (forall l a, b <= l -> Q l a -> R l a) -> safe h0 b m Q -> safe h0 b m R.
Proof. intros H M h G L. destruct (M h G L) as (G1 & L1 & Q1). split; [exact G1|]. split; [exact L1|]. intros a E. apply H; auto. lia. Qed.

(** A method of a new table *)
Lemma safe_on_heap {A} h0 b p (m : M A) : List.length h0 <= p < b ->
  (forall l, b <= l -> pres l m) -> above p m -> safe h0 b (on_heap p m) any_res.
Proof.
  intros P PM AM h G L. destruct (on_heap_wf p m h (gr_wf _ _ G) (PM _ L)) as [W1 L1].
  split; [|split; [exact L1|intros; exact I]]. constructor; auto.
  - pose proof (gr_len _ _ G). lia.
  - intros z Lz. pose proof (gr_len _ _ G). rewrite on_heap_frame by lia. apply (gr_old _ _ G); auto.
  - intros z t Lz N. unfold on_heap in N. destruct (nth_error h p) as [tp|] eqn:E; [|exact (gr_up _ _ G z t Lz N)].
    destruct (m _) as [s r] eqn:Em. cbn [fst] in N.
    assert (U : ptrs_gt p (s_tab s)).
    { specialize (AM (mkS tp (List.length h) [])). rewrite Em in AM. cbn [fst s_tab s_base] in AM. apply AM.
      - exact (Forall_nth_error _ _ _ _ (wh_tables _ (gr_wf _ _ G)) E).
      - lia.
      - apply (gr_up _ _ G p tp); [lia|exact E]. }
    destruct (Nat.lt_ge_cases z (List.length h)) as [B|B].
    + rewrite nth_app_old in N by (rewrite upd_length; auto). destruct (Nat.eq_dec z p) as [->|NE].
      * rewrite nth_error_upd_eq in N by auto. injection N as <-. exact U.
      * rewrite nth_upd_other in N by congruence. exact (gr_up _ _ G z t Lz N).
    + rewrite nth_error_app2, upd_length in N by (rewrite upd_length; auto). apply nth_error_In in N.
      unfold new_nils in N. apply in_map_iff in N. destruct N as (x & <- & _). constructor.
Qed.
Lemma safe_new h0 b (m : M unit) :
  (forall l, b <= l -> pres (S l) m) -> (forall g, above g m) ->
  safe h0 b (new_tab m) (fun l p => List.length h0 <= p < l /\ b <= p).
Proof.
  intros PM AM h G L. destruct (new_tab_wf m h (gr_wf _ _ G) (PM _ L)) as [W1 L1]. pose proof (gr_len _ _ G) as GL.
  split; [|split; [exact L1|]].
  2:{ intros p E. destruct (new_tab m h) as [h' r] eqn:N. cbn [fst snd] in *. subst r. destruct (new_tab_ok _ _ _ _ N). lia. }
  constructor; auto; [lia|..].
  - intros z Lz. rewrite new_tab_frame by lia. now apply (gr_old _ _ G).
  - intros z t Lz N. destruct (Nat.lt_ge_cases z (List.length h)) as [B|B].
    + rewrite new_tab_frame in N by auto. exact (gr_up _ _ G z t Lz N).
    + unfold new_tab in N. destruct (m _) as [s r] eqn:Em. destruct r; cbn [fst] in N; try (apply nth_error_some_lt in N; lia).
      rewrite nth_error_app2 in N by auto. destruct (z - List.length h) as [|k] eqn:K; cbn [nth_error] in N.
      * injection N as <-. specialize (AM z (mkS NewNilTable (S (List.length h)) [])). rewrite Em in AM. apply AM; [apply wf_NewNilTable|cbn; lia|constructor].
      * apply nth_error_In in N. unfold new_nils in N. apply in_map_iff in N. destruct N as (x & <- & _). constructor.
Qed.
Lemma safe_SetTable h0 b p q ci ri : List.length h0 <= p < b -> p < q -> q < b -> safe h0 b (SetTableByColIndex p ci ri (Some q)) any_res.
Proof.
  intros P PQ Q h G L. cbn [SetTableByColIndex].
  destruct (set_parent_wf q p h (gr_wf _ _ G) ltac:(lia)) as [W1 L1].
  assert (G1 : grown h0 (set_parent q p h)).
  { constructor; auto.
    - rewrite L1. apply (gr_len _ _ G).
    - intros z Lz. rewrite set_parent_frame by lia. now apply (gr_old _ _ G).
    - intros z t Lz N. destruct (Nat.eq_dec z q) as [->|NE].
      + unfold set_parent in N. rewrite nth_error_upd_eq in N by lia. injection N as <-.
        change (ptrs_gt q (tab h q)). apply (gr_up _ _ G q); [lia|]. apply nth_error_nth'. lia.
      + rewrite set_parent_frame in N by auto. exact (gr_up _ _ G z t Lz N). }
  assert (S : safe h0 b (on_heap p (SetTByColIndex "*Table" ci ri (VTable (Some q)))) any_res).
  { apply safe_on_heap; [exact P|..].
    - intros l Bl. apply pres_SetTByColIndex; [now apply in_types|reflexivity..|]. cbn. lia.
    - apply above_SetTByColIndex; [now apply in_types|reflexivity|exact PQ]. }
  destruct (S _ G1 ltac:(lia)) as (G2 & L2 & _). split; [exact G2|]. split; [rewrite <- L1; exact L2|]. intros; exact I.
Qed.

(** ---------- values ---------- *)

Local Open Scope Z_scope.
Lemma into_range_ok k z : in_range k (into_range k z) = true.
Proof.
  unfold in_range, into_range. pose proof (Z.mod_pos_bound (z - imin k) (2 ^ ibits k) ltac:(destruct k; reflexivity)).
  apply andb_true_iff. split; apply Z.leb_le; [lia|]. assert (imax k = imin k + 2 ^ ibits k - 1) by (destruct k; reflexivity). lia.
Qed.
Lemma float_to_int_ok wild k f : in_range k (float_to_int wild k f) = true.
Proof.
  unfold float_to_int. destruct f; try apply into_range_ok; [destruct k; reflexivity|].
  destruct (ratio m e) as [n d]. destruct (in_range k (if s then - (n / d) else n / d)) eqn:E; [exact E|apply into_range_ok].
Qed.
Lemma nearest_valid F neg n d f : fmt_ok F -> 0 <= n -> 0 < d -> nearest F neg n d = Some f -> valid_binary (f_prec F) (f_emax F) f = true.
Proof.
  intros Fo Hn Hd H. destruct (nearest_canon F neg n d f Fo Hn Hd H) as [->|(m & e & -> & C)]; [reflexivity|]. now apply canon_valid.
Qed.
Lemma ratio_pos m e n d : ratio m e = (n, d) -> 0 <= n /\ 0 < d.
Proof.
  rewrite ratio_eq. intros E. apply pair_equal_spec in E as [<- <-]. pose proof (e_up_pos e). pose proof (e_down_pos e). split; [apply Z.mul_nonneg_nonneg|]; lia.
Qed.
Lemma float32_of_ok f : valid_binary 53 1024 f = true -> valid_binary 24 128 (float32_of f) = true.
Proof.
  destruct f as [s|s| |s m e]; auto. intros _. unfold float32_of. destruct (ratio m e) as [n d] eqn:R. apply ratio_pos in R.
  destruct (nearest F32 s n d) as [g|] eqn:N; [|reflexivity]. apply (nearest_valid F32 s n d); auto; [now left|lia..].
Qed.
Lemma float32_of_int_ok z : valid_binary 24 128 (float32_of_int z) = true.
Proof.
  unfold float32_of_int. destruct (nearest _ _ _ _) as [g|] eqn:N; [|reflexivity].
  apply (nearest_valid F32 (z <? 0) (Z.abs z) 1); auto; [now left|lia..].
Qed.
Lemma digit_bound c v : digit_val c = Some v -> 0 <= v.
Proof.
  unfold digit_val. repeat match goal with |- context [if ?x then _ else _] => destruct x eqn:?B end; try discriminate; intros [= <-]; apply between_iff in B || apply between_iff in B0 || apply between_iff in B1; lia.
Qed.
Lemma dec_val_bound s n : (String.length s <= n)%nat -> 0 <= dec_val s < 10 ^ Z.of_nat n.
Proof.
  assert (G : forall s acc v, 0 <= acc -> digits_val 10 acc s = Some v -> 0 <= v < (acc + 1) * 10 ^ Z.of_nat (String.length s)).
  { clear. induction s as [|c s IH]; intros acc v A E.
    - cbn in E. injection E as <-. cbn. lia.
    - cbn [digits_val] in E. destruct (digit_val c) as [d|] eqn:D; [|discriminate]. apply digit_bound in D.
      destruct (Z.ltb_spec d 10); [|discriminate]. apply IH in E; [|lia]. cbn [String.length].
      rewrite Nat2Z.inj_succ, Z.pow_succ_r by lia. pose proof (Z.pow_pos_nonneg 10 (Z.of_nat (String.length s)) ltac:(lia) ltac:(lia)). nia. }
  intros L. unfold dec_val. pose proof (Z.pow_le_mono_r 10 (Z.of_nat (String.length s)) (Z.of_nat n) ltac:(lia) ltac:(lia)).
  pose proof (Z.pow_pos_nonneg 10 (Z.of_nat n) ltac:(lia) ltac:(lia)).
  destruct (digits_val 10 0 s) as [v|] eqn:E; [apply G in E; lia|lia].
Qed.
Lemma substring_len s : forall n m, (String.length (substring n m s) <= m)%nat.
Proof. induction s as [|c s IH]; intros [|n] [|m]; cbn; try lia. - specialize (IH O m). lia. - apply IH. - apply (IH n (S m)). Qed.
Lemma fraction_ok s z r : fraction s = Some (z, r) -> 0 <= z < 1000000000.
Proof.
  unfold fraction. destruct s as [|c s]; [intros [= <- _]; lia|]. destruct (Ascii.eqb c "."); [|intros [= <- _]; lia].
  destruct (span is_dec s) as [[|d ds] r']; [discriminate|]. intros H. injection H as <- _.
  apply (dec_val_bound _ 9). cbn [String.length]. apply le_n_S, (substring_len _ 0 8).
Qed.
Lemma time_of_text_ok s t : time_of_text s = Some t -> go_value (VTime t) = true.
Proof.
  unfold time_of_text.
  destruct (field 4 "-" s) as [[y s1]|]; [|discriminate]. destruct (field 2 "-" s1) as [[mo s2]|]; [|discriminate].
  destruct (field 2 "T" s2) as [[d s3]|]; [|discriminate]. destruct (field 2 ":" s3) as [[h s4]|]; [|discriminate].
  destruct (field 2 ":" s4) as [[mi s5]|]; [|discriminate]. destruct (field 2 "" s5) as [[se s6]|]; [|discriminate].
  destruct (fraction s6) as [[ns s7]|] eqn:F; [|discriminate]. apply fraction_ok in F.
  destruct (time_zone s7) as [[[[zh zm] zneg] [|c x]]|]; try discriminate. apply parse_time_ok. exact F.
Qed.
Lemma int_kind_type ct k : int_kind ct = Some k -> In ct all_types /\ forall z, arg_of_type ct (VInt k z) = true.
Proof.
  unfold int_kind. intros H.
  repeat match type of H with
         | (if (?x =? ?y)%string then _ else _) = _ => destruct (String.eqb_spec x y) as [->|]; [injection H as <-; split; [now apply in_types|reflexivity]|]
         | (if (?x =? ?y)%string || (?x =? ?z)%string then _ else _) = _ =>
             destruct (String.eqb_spec x y) as [->|]; [injection H as <-; split; [now apply in_types|reflexivity]|];
             destruct (String.eqb_spec x z) as [->|]; [injection H as <-; split; [now apply in_types|reflexivity]|]; cbn [orb] in H
         end. discriminate.
Qed.
Lemma number_ok j f : number_of j = Ok f -> valid_binary 53 1024 f = true.
Proof.
  destruct j as [| |s| | |]; try discriminate. cbn [number_of]. destruct (ParseFloat F64 s) as [g|] eqn:P; [|discriminate]. intros [= <-].
  apply (ParseFloat_valid F64 s); [now right|exact P].
Qed.
Local Open Scope nat_scope.
Local Open Scope string_scope.

(** ---------- cells, rows and tables ---------- *)

Lemma safe_set h0 b p vt ci ri v : List.length h0 <= p < b -> In vt all_types -> arg_of_type vt v = true -> go_value v = true ->
  (forall q, v <> VTable (Some q)) -> safe h0 b (on_heap p (SetTByColIndex vt ci ri v)) any_res.
Proof.
  intros P I A G NT. apply safe_on_heap; [exact P|..].
  - intros l _. apply pres_SetTByColIndex; auto. destruct v; cbn; auto. destruct o; auto. now destruct (NT p0).
  - apply above_SetTByColIndex; auto. destruct v; cbn; auto. destruct o; auto. now destruct (NT p0).
Qed.
Lemma safe_coltype h0 b p ci : safe h0 b (fun h => (h, match znth (ctypes (tab h p)) ci with Some ct => Ok ct | None => Panic end)) any_res.
Proof. intros h G L. split; [exact G|]. split; [cbn; lia|]. intros; exact I. Qed.

(** A reader of tables makes a new table, above all others. *)
Definition reads_new (h0 : heap) {A} (table : A -> HM ptr) : Prop :=
  forall b m, safe h0 b (table m) (fun l q => List.length h0 <= q < l /\ b <= q).

Ltac set1 := apply safe_set; [lia|now apply in_types|reflexivity|auto|discriminate].

Lemma safe_set_json h0 wild table p ci ri j b : List.length h0 <= p < b -> reads_new h0 table -> safe h0 b (set_json wild table p ci ri j) any_res.
Proof.
  intros P T. unfold set_json. apply safe_bind with (Q := any_res); [apply safe_coltype|]. intros ct b1 L1 _.
  destruct j as [|x|x|s|l|m].
  - destruct (ct =? "*Table"); [|apply safe_err].
    eapply safe_bind; [apply safe_new; [intros; apply pres_ret|intros; apply above_ret]|]. intros q b2 L2 [Q1 Q2]. cbn beta in *. apply safe_SetTable; lia.
  - set1.
  - eapply safe_bind; [apply (safe_lift _ _ _ (fun _ f => valid_binary 53 1024 f = true)); intros f E l _; eapply number_ok; exact E|].
    intros f b2 L2 V. cbn beta in V. destruct (int_kind ct) as [k|] eqn:IK.
    + apply int_kind_type in IK. destruct IK as [I A]. apply safe_set; [lia|exact I|apply A|cbn; apply float_to_int_ok|discriminate].
    + destruct (String.eqb_spec ct "float32") as [->|]; [set1; cbn; now apply float32_of_ok|].
      destruct (String.eqb_spec ct "float64") as [->|]; [set1|apply safe_err].
  - destruct (ct =? "rune").
    + destruct (decode s) as [[r w]|] eqn:D; [|apply safe_panic]. set1. apply decode_range in D. cbn. unfold in_range, imin, imax. cbn. lia.
    + destruct (ct =? "time.Time").
      * eapply safe_bind; [apply (safe_lift _ _ _ (fun _ t => go_value (VTime t) = true))|].
        { intros t E l _. destruct (time_of_text s) eqn:TT; [|discriminate]. injection E as <-. eapply time_of_text_ok; eauto. }
        intros t b2 L2 V. set1.
      * destruct (ct =? "string"); [set1|apply safe_err].
  - eapply safe_bind; [apply (safe_lift _ _ _ any_res); intros; exact I|]. intros fs b2 L2 _. set1.
  - destruct (ct =? "*Table"); [|apply safe_err].
    eapply safe_bind; [apply T|]. intros q b2 L2 [Q1 Q2]. cbn beta in *. apply safe_SetTable; lia.
Qed.

Lemma safe_add_column h0 p j b : List.length h0 <= p < b -> safe h0 b (add_column p j) any_res.
Proof.
  intros P. unfold add_column. destruct j as [|x|x|s|l|m]; try apply safe_panic.
  destruct (last m _) as [cn [|x|x|ct|l|m']]; try apply safe_err.
  apply safe_on_heap; [exact P|intros; apply pres_AppendCol|apply above_AppendCol].
Qed.
Lemma safe_AppendRow h0 p b : List.length h0 <= p < b -> safe h0 b (on_heap p AppendRow) any_res.
Proof. intros P. apply safe_on_heap; [exact P|intros; apply pres_AppendRow|apply above_AppendRow]. Qed.
Lemma safe_add_row h0 wild table p ri j b : List.length h0 <= p < b -> reads_new h0 table -> safe h0 b (add_row wild table p ri j) any_res.
Proof.
  intros P T. unfold add_row. apply safe_bind with (Q := any_res); [now apply safe_AppendRow|]. intros _ b1 L1 _.
  destruct j as [|x|x|s|l|m]; try apply safe_panic. apply safe_for. intros [ci c] b2 _ L2. cbn [fst snd].
  destruct c as [|x|x|s|l'|m]; try apply safe_panic. apply safe_for. intros kv b3 _ L3. apply safe_set_json; [lia|exact T].
Qed.
Lemma json_reads_new h0 wild : forall fuel, reads_new h0 (newTableFromJSON_recursive fuel wild).
Proof.
  induction fuel as [|fuel IH]; intros b m; cbn [newTableFromJSON_recursive]; [apply safe_panic|].
  eapply safe_bind with (Q := fun l p => List.length h0 <= p < l /\ b <= p).
  { destruct (jget m "tableName") as [[|x|x|n|l|m']|]; try apply safe_err. apply safe_new; intros; [apply pres_SetName|apply above_SetName]. }
  intros p b1 L1 [P1 P2]. apply safe_bind with (Q := any_res).
  { destruct (jget m "isStructShape") as [[|x|x|n|l|m']|]; try (apply safe_ret; intros; exact I).
    apply safe_on_heap; [lia|intros; apply pres_SetStructShape|apply above_SetStructShape]. }
  intros _ b2 L2 _. apply safe_bind with (Q := any_res); [apply safe_lift; intros; exact I|].
  intros meta b3 L3 _. apply safe_bind with (Q := any_res); [apply safe_for; intros x b' _ Lb; apply safe_add_column; lia|].
  intros _ b4 L4 _. destruct (jget_arr m "data") as [data|]; [|apply safe_ret; intros; lia].
  apply safe_bind with (Q := any_res); [apply safe_for; intros x b' _ Lb; apply safe_add_row; [lia|exact IH]|].
  intros _ b5 L5 _. apply safe_ret. intros. lia.
Qed.

(** ---------- YAML ---------- *)

Lemma go_list l : go_doc (YList l) <-> Forall go_doc l.
Proof. cbn [go_doc]. induction l as [|y l IH]; cbn [fold_right]; split; auto; [intros [A B]; constructor; tauto|inversion 1; tauto]. Qed.
Lemma go_map m : go_doc (YMap m) <-> Forall (fun x => go_doc (snd x)) m.
Proof. cbn [go_doc]. induction m as [|y l IH]; cbn [fold_right]; split; auto; [intros [A B]; constructor; tauto|inversion 1; tauto]. Qed.
Lemma go_get m k y : go_doc (YMap m) -> yget m k = Some y -> go_doc y.
Proof.
  rewrite go_map. induction 1 as [|[k' v] m V F IH]; cbn [yget]; [discriminate|]. destruct (k' =? k); [now intros [= <-]|exact IH].
Qed.

Definition reads_new_doc (h0 : heap) (table : list (string * ydoc) -> HM ptr) : Prop :=
  forall b m, go_doc (YMap m) -> safe h0 b (table m) (fun l q => List.length h0 <= q < l /\ b <= q).

Lemma safe_set_yaml h0 table p ci ri y b : List.length h0 <= p < b -> reads_new_doc h0 table -> go_doc y ->
  safe h0 b (set_yaml table p ci ri y) any_res.
Proof.
  intros P T G. unfold set_yaml.
  destruct y as [|x|z|z|f|s|t|l|m|]; try (set1; fail);
    try (apply safe_bind with (Q := any_res); [apply safe_coltype|]; intros ct b1 L1 _).
  - apply safe_err.
  - destruct (if ct =? "rune" then Some KInt32 else int_kind ct) as [k|] eqn:IK.
    + assert (H : In ct all_types /\ forall z, arg_of_type ct (VInt k z) = true).
      { destruct (String.eqb_spec ct "rune") as [->|]; [injection IK as <-; split; [now apply in_types|reflexivity]|now apply int_kind_type]. }
      destruct H as [I A]. apply safe_set; [lia|exact I|apply A|cbn; apply into_range_ok|discriminate].
    + destruct (String.eqb_spec ct "float32") as [->|]; [set1; cbn; apply float32_of_int_ok|].
      destruct (ct =? "time.Time"); [apply safe_panic|apply safe_err].
  - destruct (String.eqb_spec ct "uint") as [->|]; [set1|]. destruct (String.eqb_spec ct "uint64") as [->|]; [set1|].
    destruct (str_in ct asserted); [apply safe_panic|]. destruct (String.eqb_spec ct "[]byte") as [->|]; [set1|].
    destruct (String.eqb_spec ct "[]uint8") as [->|]; [set1|apply safe_err].
  - destruct (String.eqb_spec ct "float32") as [->|]; [set1; cbn; now apply float32_of_ok|].
    destruct (String.eqb_spec ct "float64") as [->|]; [set1|apply safe_err].
  - destruct (str_in ct asserted); [apply safe_panic|].
    destruct (String.eqb_spec ct "[]byte") as [->|]; cbn [orb];
      [apply safe_bind with (Q := any_res); [apply safe_lift; intros; exact I|]; intros bs b2 L2 _; set1|].
    destruct (String.eqb_spec ct "[]uint8") as [->|];
      [apply safe_bind with (Q := any_res); [apply safe_lift; intros; exact I|]; intros bs b2 L2 _; set1|apply safe_err].
  - destruct (ct =? "*Table").
    { eapply safe_bind; [apply (T _ _ G)|]. intros q b2 L2 [Q1 Q2]. cbn beta in *. apply safe_SetTable; lia. }
    destruct (str_in ct asserted); [apply safe_panic|]. destruct (String.eqb_spec ct "[]byte") as [->|]; [set1|].
    destruct (String.eqb_spec ct "[]uint8") as [->|]; [set1|apply safe_err].
  - destruct (str_in ct asserted); [apply safe_panic|]. destruct (String.eqb_spec ct "[]byte") as [->|]; [set1|].
    destruct (String.eqb_spec ct "[]uint8") as [->|]; [set1|apply safe_err].
Qed.
Lemma safe_add_yaml_column h0 p y b : List.length h0 <= p < b -> safe h0 b (add_yaml_column p y) any_res.
Proof.
  intros P. unfold add_yaml_column. destruct y as [|x|z|z|f|s|t|l|m|]; try apply safe_panic.
  destruct (last m _) as [cn [|x|z|z|f|s|t|l|m'|]]; try apply safe_err.
  apply safe_on_heap; [exact P|intros; apply pres_AppendCol|apply above_AppendCol].
Qed.
Lemma In_numbered {A} (l : list A) x : In x (numbered l) -> In (snd x) l.
Proof. unfold numbered. destruct x as [i a]. apply in_combine_r. Qed.
Lemma yaml_rows_go m data : go_doc (YMap m) -> yaml_rows m = Ok data -> Forall (Forall go_doc) data.
Proof.
  intros G. unfold yaml_rows. destruct (yget m "data") as [[|x|z|z|f|s|t|l|m'|]|] eqn:E; try (intros [= <-]; constructor).
  apply (go_get _ _ _ G) in E. apply go_list in E. revert data. induction E as [|y l Gy F IH]; intros data; cbn [rmap].
  - intros [= <-]. constructor.
  - destruct y as [|x|z|z|f|s|t|l'|m'|]; try discriminate. cbn [rbind].
    destruct (rmap _ l) as [r| |] eqn:R; try discriminate. cbn [rbind]. intros [= <-]. constructor; [now apply go_list|now apply IH].
Qed.
Lemma yaml_reads_new h0 : forall fuel, reads_new_doc h0 (newTableFromYAML_recursive fuel).
Proof.
  induction fuel as [|fuel IH]; intros b m G; cbn [newTableFromYAML_recursive]; [apply safe_panic|].
  destruct (yget m "tableName") as [[|x|z|z|f|n|t|l|m'|]|]; try apply safe_err.
  destruct (n =? ""); [apply safe_new; intros; [apply pres_ret|apply above_ret]|].
  eapply safe_bind; [apply safe_new; intros; [apply pres_SetName|apply above_SetName]|].
  intros p b1 L1 [P1 P2]. cbn beta in *. apply safe_bind with (Q := any_res).
  { destruct (yget m "isStructShape") as [[|x|z|z|f|s|t|l|m'|]|]; try (apply safe_ret; intros; exact I).
    apply safe_on_heap; [lia|intros; apply pres_SetStructShape|apply above_SetStructShape]. }
  intros _ b2 L2 _. apply safe_bind with (Q := any_res); [apply safe_lift; intros; exact I|].
  intros meta b3 L3 _. apply safe_bind with (Q := any_res); [apply safe_for; intros x b' _ Lb; apply safe_add_yaml_column; lia|].
  intros _ b4 L4 _. apply safe_bind with (Q := fun _ data => Forall (Forall go_doc) data);
    [apply safe_lift; intros data E l _; eapply yaml_rows_go; eauto|].
  intros data b5 L5 D. cbn beta in D.
  apply safe_bind with (Q := any_res).
  { apply safe_for. intros r b6 Ir L6. apply In_numbered in Ir. rewrite Forall_forall in D. specialize (D _ Ir).
    unfold add_yaml_row. apply safe_bind with (Q := any_res); [apply safe_AppendRow; lia|]. intros _ b7 L7 _.
    apply safe_for. intros c b8 Ic L8. apply In_numbered in Ic. rewrite Forall_forall in D. apply safe_set_yaml; [lia|exact IH|now apply D]. }
  intros _ b6 L6 _. apply safe_ret. intros. lia.
Qed.

(** ---------- names, columns and rows ---------- *)

Definition shape (h : heap) (p : ptr) := let t := tab h p in (tname t, cnames t, ctypes t, List.length (rows t)).
Definition keeps (h0 : heap) (b : nat) (p : ptr) {A} (m : HM A) : Prop :=
  forall h, grown h0 h -> b <= List.length h -> shape (fst (m h)) p = shape h p.

Lemma keeps_bind {A B} h0 b p (m : HM A) (f : A -> HM B) Q :
  safe h0 b m Q -> keeps h0 b p m -> (forall a b', b <= b' -> Q b' a -> keeps h0 b' p (f a)) -> keeps h0 b p (hbind m f).
Proof.
  intros S K F h G L. destruct (S h G L) as (G1 & L1 & Q1). specialize (K h G L). unfold hbind.
  destruct (m h) as [h1 [a| |]]; cbn [fst snd] in *; auto. rewrite <- K. apply (F a (List.length h1)); auto. lia.
Qed.
Lemma keeps_lift {A} h0 b p (r : res A) : keeps h0 b p (hlift r).
Proof. intros h G L. reflexivity. Qed.
Lemma keeps_for {A} h0 b p (l : list A) (body : A -> HM unit) :
  (forall x b', In x l -> b <= b' -> safe h0 b' (body x) any_res /\ keeps h0 b' p (body x)) -> keeps h0 b p (hfor l body).
Proof.
  revert b. induction l as [|x l IH]; intros b H; cbn [hfor]; [intros h G L; reflexivity|].
  destruct (H x b (or_introl eq_refl) (le_n _)) as [S K]. apply keeps_bind with (Q := any_res); auto.
  intros a b' L _. apply IH. intros y b'' I' L'. apply H; [now right|lia].
Qed.
Lemma on_heap_shape {A} (p : ptr) (m : M A) h t : nth_error h p = Some t -> shape (fst (on_heap p m h)) p
  = let t' := s_tab (fst (m (mkS t (List.length h) []))) in (tname t', cnames t', ctypes t', List.length (rows t')).
Proof.
  intros N. destruct (on_heap_self p m h t N) as [E _]. unfold shape, tab. now rewrite (nth_error_nth _ _ _ E).
Qed.
Lemma shape_nth h p t : nth_error h p = Some t -> shape h p = (tname t, cnames t, ctypes t, List.length (rows t)).
Proof. intros N. unfold shape, tab. now rewrite (nth_error_nth _ _ _ N). Qed.
Lemma grown_shape h h1 p : grown h h1 -> p < List.length h -> shape h1 p = shape h p.
Proof.
  intros G L. unfold shape. replace (tab h1 p) with (tab h p); [reflexivity|]. symmetry. apply tab_eq. now apply (gr_old _ _ G).
Qed.

Lemma SetTByColIndex_shape vt ci ri v s : wf_table (s_tab s) -> In vt all_types -> arg_of_type vt v = true ->
  let t := s_tab s in let t' := s_tab (fst (SetTByColIndex vt ci ri v s)) in
  (tname t', cnames t', ctypes t', List.length (rows t')) = (tname t, cnames t, ctypes t, List.length (rows t)).
Proof.
  intros W Hvt Ha. cbv zeta.
  destruct (not_nil_arg v) eqn:NN.
  2:{ unfold SetTByColIndex. mstep. rewrite NN. auto. }
  destruct (HasColByColIndex (s_tab s) ci) eqn:HC.
  - apply HasCol_iff in HC.
    destruct (SetTByColIndex_eq vt ci ri v s W Hvt Ha HC) as [(ct & _ & _ & H1 & H2 & ->)|[_ ->]]; [|reflexivity].
    cbn. unfold put. destruct (nth_error (rows (s_tab s)) (Z.to_nat ri)); [|reflexivity]. now rewrite upd_length.
  - rewrite SetTByColIndex_panic; auto. intros H. apply HasCol_iff in H. congruence.
Qed.
Lemma keeps_set h0 b p vt ci ri v : p < b -> In vt all_types -> arg_of_type vt v = true -> keeps h0 b p (on_heap p (SetTByColIndex vt ci ri v)).
Proof.
  intros P I A h G L. assert (N : exists t, nth_error h p = Some t) by (destruct (nth_error h p) eqn:E; [eauto|apply nth_error_None in E; lia]).
  destruct N as [t N]. rewrite (on_heap_shape _ _ _ _ N), (shape_nth _ _ _ N).
  apply (SetTByColIndex_shape vt ci ri v (mkS t (List.length h) [])); auto.
  exact (Forall_nth_error _ _ _ _ (wh_tables _ (gr_wf _ _ G)) N).
Qed.
Lemma keeps_SetTable h0 b p q ci ri : List.length h0 <= p < b -> p < q -> q < b -> keeps h0 b p (SetTableByColIndex p ci ri (Some q)).
Proof.
  intros P PQ Q h G L. cbn [SetTableByColIndex].
  destruct (set_parent_wf q p h (gr_wf _ _ G) ltac:(lia)) as [W1 L1].
  assert (K : keeps (set_parent q p h) b p (on_heap p (SetTByColIndex "*Table" ci ri (VTable (Some q))))).
  { apply keeps_set; [lia|now apply in_types|reflexivity]. }
  transitivity (shape (set_parent q p h) p); [exact (K _ (grown_refl _ W1) ltac:(rewrite L1; lia))|].
  unfold shape. replace (tab (set_parent q p h) p) with (tab h p); [reflexivity|]. symmetry. apply tab_eq. apply set_parent_frame. lia.
Qed.
Lemma keeps_table {A} h0 b p (table : A -> HM ptr) (m : A) : p < b ->
  (forall h, safe h 0 (table m) (fun l q => List.length h <= q < l /\ 0 <= q)) -> keeps h0 b p (table m).
Proof.
  intros P T h G L. destruct (T h h (grown_refl _ (gr_wf _ _ G)) ltac:(lia)) as (G1 & _ & _). apply (grown_shape h); [exact G1|lia].
Qed.
Lemma keeps_new h0 b p : p < b -> keeps h0 b p (new_tab (ret tt)).
Proof.
  intros P h G L. destruct (safe_new h 0 (ret tt) ltac:(intros; apply pres_ret) ltac:(intros; apply above_ret) h (grown_refl _ (gr_wf _ _ G)) ltac:(lia)) as (G1 & _ & _).
  apply (grown_shape h); [exact G1|lia].
Qed.
Lemma keeps_coltype h0 b p ci : keeps h0 b p (fun h => (h, match znth (ctypes (tab h p)) ci with Some ct => Ok ct | None => Panic end)).
Proof. intros h G L. reflexivity. Qed.
Ltac keep1 := apply keeps_set; [lia|now apply in_types|reflexivity].

Lemma keeps_set_json h0 wild table p ci ri j b : List.length h0 <= p < b -> (forall h, reads_new h table) ->
  keeps h0 b p (set_json wild table p ci ri j).
Proof.
  intros P T. unfold set_json. apply keeps_bind with (Q := any_res); [apply safe_coltype|apply keeps_coltype|]. intros ct b1 L1 _.
  destruct j as [|x|x|s|l|m].
  - destruct (ct =? "*Table"); [|apply keeps_lift].
    eapply keeps_bind; [apply safe_new; [intros; apply pres_ret|intros; apply above_ret]|apply keeps_new; lia|].
    intros q b2 L2 [Q1 Q2]. cbn beta in *. apply keeps_SetTable; lia.
  - keep1.
  - eapply keeps_bind with (Q := any_res); [apply safe_lift; intros; exact I|apply keeps_lift|].
    intros f b2 L2 _. destruct (int_kind ct) as [k|] eqn:IK.
    + apply int_kind_type in IK. destruct IK as [I A]. apply keeps_set; [lia|exact I|apply A].
    + destruct (String.eqb_spec ct "float32") as [->|]; [keep1|].
      destruct (String.eqb_spec ct "float64") as [->|]; [keep1|apply keeps_lift].
  - destruct (ct =? "rune").
    + destruct (decode s) as [[r w]|]; [keep1|apply keeps_lift].
    + destruct (ct =? "time.Time").
      * eapply keeps_bind with (Q := any_res); [apply safe_lift; intros; exact I|apply keeps_lift|]. intros t b2 L2 V. keep1.
      * destruct (ct =? "string"); [keep1|apply keeps_lift].
  - eapply keeps_bind with (Q := any_res); [apply safe_lift; intros; exact I|apply keeps_lift|]. intros fs b2 L2 _. keep1.
  - destruct (ct =? "*Table"); [|apply keeps_lift].
    eapply keeps_bind; [apply T|apply keeps_table; [lia|intros h; apply T]|]. intros q b2 L2 [Q1 Q2]. cbn beta in *. apply keeps_SetTable; lia.
Qed.
Lemma keeps_set_yaml h0 table p ci ri y b : List.length h0 <= p < b -> (forall h, reads_new_doc h table) -> go_doc y ->
  keeps h0 b p (set_yaml table p ci ri y).
Proof.
  intros P T G. unfold set_yaml.
  destruct y as [|x|z|z|f|s|t|l|m|]; try (keep1; fail);
    try (apply keeps_bind with (Q := any_res); [apply safe_coltype|apply keeps_coltype|]; intros ct b1 L1 _).
  - apply keeps_lift.
  - destruct (if ct =? "rune" then Some KInt32 else int_kind ct) as [k|] eqn:IK.
    + assert (H : In ct all_types /\ forall z, arg_of_type ct (VInt k z) = true).
      { destruct (String.eqb_spec ct "rune") as [->|]; [injection IK as <-; split; [now apply in_types|reflexivity]|now apply int_kind_type]. }
      destruct H as [I A]. apply keeps_set; [lia|exact I|apply A].
    + destruct (String.eqb_spec ct "float32") as [->|]; [keep1|]. destruct (ct =? "time.Time"); apply keeps_lift.
  - destruct (String.eqb_spec ct "uint") as [->|]; [keep1|]. destruct (String.eqb_spec ct "uint64") as [->|]; [keep1|].
    destruct (str_in ct asserted); [apply keeps_lift|]. destruct (String.eqb_spec ct "[]byte") as [->|]; [keep1|].
    destruct (String.eqb_spec ct "[]uint8") as [->|]; [keep1|apply keeps_lift].
  - destruct (String.eqb_spec ct "float32") as [->|]; [keep1|].
    destruct (String.eqb_spec ct "float64") as [->|]; [keep1|apply keeps_lift].
  - destruct (str_in ct asserted); [apply keeps_lift|].
    destruct (String.eqb_spec ct "[]byte") as [->|]; cbn [orb];
      [apply keeps_bind with (Q := any_res); [apply safe_lift; intros; exact I|apply keeps_lift|]; intros bs b2 L2 _; keep1|].
    destruct (String.eqb_spec ct "[]uint8") as [->|];
      [apply keeps_bind with (Q := any_res); [apply safe_lift; intros; exact I|apply keeps_lift|]; intros bs b2 L2 _; keep1|apply keeps_lift].
  - destruct (ct =? "*Table").
    { eapply keeps_bind; [apply (T h0 _ _ G)|apply keeps_table; [lia|intros h; apply (T h _ _ G)]|].
      intros q b2 L2 [Q1 Q2]. cbn beta in *. apply keeps_SetTable; lia. }
    destruct (str_in ct asserted); [apply keeps_lift|]. destruct (String.eqb_spec ct "[]byte") as [->|]; [keep1|].
    destruct (String.eqb_spec ct "[]uint8") as [->|]; [keep1|apply keeps_lift].
  - destruct (str_in ct asserted); [apply keeps_lift|]. destruct (String.eqb_spec ct "[]byte") as [->|]; [keep1|].
    destruct (String.eqb_spec ct "[]uint8") as [->|]; [keep1|apply keeps_lift].
Qed.

Lemma hbind_ok {A B} (m : HM A) (f : A -> HM B) h h' b : hbind m f h = (h', Ok b) -> exists h1 a, m h = (h1, Ok a) /\ f a h1 = (h', Ok b).
Proof. unfold hbind. destruct (m h) as [h1 [a| |]]; try discriminate. intros E. exists h1, a. auto. Qed.

(** Rows are added one by one. *)
Lemma AppendRow_shape h0 h h1 (p : ptr) : grown h0 h -> List.length h0 <= p < List.length h -> on_heap p AppendRow h = (h1, Ok tt) ->
  grown h0 h1 /\ List.length h <= List.length h1 /\ shape h1 p = (let '(n, cs, ts, k) := shape h p in (n, cs, ts, S k)).
Proof.
  intros G P E. destruct (safe_AppendRow h0 p (S p) ltac:(lia) h G ltac:(lia)) as (G1 & L1 & _). rewrite E in G1, L1.
  split; [exact G1|]. split; [exact L1|].
  assert (N : exists t, nth_error h p = Some t) by (destruct (nth_error h p) eqn:N; [eauto|apply nth_error_None in N; lia]).
  destruct N as [t N]. pose proof (on_heap_shape p AppendRow h t N) as S. rewrite E in S. cbn [fst] in S. rewrite S, (shape_nth _ _ _ N).
  pose proof (Forall_nth_error _ _ _ _ (wh_tables _ (gr_wf _ _ G)) N) as W.
  destruct (on_heap_self p AppendRow h t N) as [_ R]. rewrite E in R. cbn [snd] in R.
  rewrite AppendRow_eq in * by exact W. cbn [s_tab] in *. destruct (is_nil t); [discriminate|].
  cbn. rewrite app_length, Nat.add_1_r. reflexivity.
Qed.
Lemma rows_for {A} h0 (p : ptr) (body : A -> HM unit) : forall l,
  (forall x b, In x l -> List.length h0 <= p < b -> safe h0 b (let^ _ := on_heap p AppendRow in body x) any_res /\ keeps h0 b p (body x)) ->
  forall h h', grown h0 h -> List.length h0 <= p < List.length h ->
  hfor l (fun x => let^ _ := on_heap p AppendRow in body x) h = (h', Ok tt) ->
  grown h0 h' /\ List.length h <= List.length h' /\ shape h' p = (let '(n, cs, ts, k) := shape h p in (n, cs, ts, k + List.length l)).
Proof.
  induction l as [|x l IH]; intros H h h' G P E; cbn [hfor] in E.
  - injection E as <-. split; [exact G|]. split; [lia|]. destruct (shape h p) as [[[n cs] ts] k]. cbn. now rewrite Nat.add_0_r.
  - apply hbind_ok in E. destruct E as (h2 & [] & E1 & E2). destruct (H x (S p) (or_introl eq_refl) ltac:(lia)) as [S K].
    destruct (S h G ltac:(lia)) as (G2 & L2 & _). rewrite E1 in G2, L2. cbn [fst] in *.
    apply hbind_ok in E1. destruct E1 as (h1 & [] & A1 & B1).
    destruct (AppendRow_shape h0 h h1 p G P A1) as (G1 & L1 & S1).
    specialize (K h1 G1 ltac:(lia)). rewrite B1 in K. cbn [fst] in K.
    destruct (IH (fun x b I => H x b (or_intror I)) h2 h' G2 ltac:(lia) E2) as (G3 & L3 & S3). split; [exact G3|]. split; [lia|].
    rewrite S3, K, S1. destruct (shape h p) as [[[n cs] ts] k]. cbn [List.length]. now rewrite Nat.add_succ_r.
Qed.
(** Columns are added one by one. *)
Lemma AppendCol_shape h0 h h1 (p : ptr) cn ct : grown h0 h -> List.length h0 <= p < List.length h -> on_heap p (AppendCol cn ct) h = (h1, Ok tt) ->
  grown h0 h1 /\ List.length h <= List.length h1 /\ shape h1 p = (let '(n, cs, ts, k) := shape h p in (n, cs ++ [cn], ts ++ [ct], k))%list.
Proof.
  intros G P E.
  assert (S : safe h0 (S p) (on_heap p (AppendCol cn ct)) any_res) by (apply safe_on_heap; [lia|intros; apply pres_AppendCol|apply above_AppendCol]).
  destruct (S h G ltac:(lia)) as (G1 & L1 & _). rewrite E in G1, L1. clear S.
  split; [exact G1|]. split; [exact L1|].
  assert (N : exists t, nth_error h p = Some t) by (destruct (nth_error h p) eqn:N; [eauto|apply nth_error_None in N; lia]).
  destruct N as [t N]. pose proof (on_heap_shape p (AppendCol cn ct) h t N) as S. rewrite E in S. cbn [fst] in S. rewrite S, (shape_nth _ _ _ N).
  pose proof (Forall_nth_error _ _ _ _ (wh_tables _ (gr_wf _ _ G)) N) as W.
  destruct (on_heap_self p (AppendCol cn ct) h t N) as [_ R]. rewrite E in R. cbn [snd] in R.
  rewrite AppendCol_eq in * by exact W. cbn [s_tab] in *. destruct (can_append_col t cn ct); [|discriminate].
  cbn. now rewrite mapi_length.
Qed.
Lemma cols_for {A} h0 (p : ptr) (add : A -> HM unit) (col : A -> string * string -> Prop) :
  (forall x h h', grown h0 h -> List.length h0 <= p < List.length h -> add x h = (h', Ok tt) ->
     exists cn ct, col x (cn, ct) /\ on_heap p (AppendCol cn ct) h = (h', Ok tt)) ->
  forall l h h', grown h0 h -> List.length h0 <= p < List.length h -> hfor l add h = (h', Ok tt) ->
  grown h0 h' /\ List.length h <= List.length h'
  /\ exists new, Forall2 col l new /\ shape h' p = (let '(n, cs, ts, k) := shape h p in (n, cs ++ map fst new, ts ++ map snd new, k))%list.
Proof.
  intros H. induction l as [|x l IH]; intros h h' G P E; cbn [hfor] in E.
  - injection E as <-. split; [exact G|]. split; [lia|]. exists []. split; [constructor|].
    destruct (shape h p) as [[[n cs] ts] k]. cbn [map]. now rewrite !app_nil_r.
  - apply hbind_ok in E. destruct E as (h1 & [] & E1 & E2). destruct (H x h h1 G P E1) as (cn & ct & C & AC).
    destruct (AppendCol_shape h0 h h1 p cn ct G P AC) as (G1 & L1 & S1).
    destruct (IH h1 h' G1 ltac:(lia) E2) as (G2 & L2 & new & F & S2). split; [exact G2|]. split; [lia|].
    exists ((cn, ct) :: new). split; [now constructor|]. rewrite S2, S1. destruct (shape h p) as [[[n cs] ts] k]. cbn [map fst snd]. now rewrite <- !app_assoc.
Qed.
Lemma new_named h n h1 p : new_tab (SetName n) h = (h1, Ok p) -> shape h1 p = (n, [], [], 0).
Proof.
  intros E. unfold new_tab in E. unfold SetName in E. revert E. mstep. destruct (IsValidTableName n); cbn; [|discriminate].
  intros [= <- <-]. unfold shape, tab. rewrite app_nth2, Nat.sub_diag by lia. reflexivity.
Qed.
Lemma combine_split2 {A B} (l : list (A * B)) : combine (map fst l) (map snd l) = l.
Proof. induction l as [|[a b] l IH]; cbn; congruence. Qed.
Lemma shape_tab h p n cs ts k : shape h p = (n, cs, ts, k) -> tname (tab h p) = n /\ cnames (tab h p) = cs /\ ctypes (tab h p) = ts /\ List.length (rows (tab h p)) = k.
Proof. unfold shape. cbv zeta. now intros [= <- <- <- <-]. Qed.
Lemma struct_shape_kept h0 h h1 (p : ptr) (o : option bool) : grown h0 h -> List.length h0 <= p < List.length h ->
  (match o with Some b => on_heap p (SetStructShape b) | None => hret tt end) h = (h1, Ok tt) ->
  grown h0 h1 /\ List.length h <= List.length h1 /\ shape h1 p = shape h p.
Proof.
  intros G P E. destruct o as [b|]; [|injection E as <-; auto].
  assert (S : safe h0 (S p) (on_heap p (SetStructShape b)) any_res) by (apply safe_on_heap; [lia|intros; apply pres_SetStructShape|apply above_SetStructShape]).
  destruct (S h G ltac:(lia)) as (G1 & L1 & _). rewrite E in G1, L1. split; [exact G1|]. split; [exact L1|].
  assert (N : exists t, nth_error h p = Some t) by (destruct (nth_error h p) eqn:N; [eauto|apply nth_error_None in N; lia]).
  destruct N as [t N]. pose proof (on_heap_shape p (SetStructShape b) h t N) as SH. rewrite E in SH. cbn [fst] in SH. now rewrite SH, (shape_nth _ _ _ N).
Qed.

Lemma json_table_read fuel wild m h h' (p : ptr) : wf_heap h -> newTableFromJSON_recursive fuel wild m h = (h', Ok p) -> json_table h' m p.
Proof.
  intros W. destruct fuel as [|fuel]; cbn [newTableFromJSON_recursive]; [discriminate|]. intros E.
  apply hbind_ok in E. destruct E as (h1 & p1 & E1 & E). unfold json_table.
  destruct (jget m "tableName") as [[|x|x|n|l|m']|]; try discriminate.
  destruct (safe_new h 0 (SetName n) ltac:(intros; apply pres_SetName) ltac:(intros; apply above_SetName) h (grown_refl _ W) ltac:(lia)) as (G1 & L1 & Q1).
  rewrite E1 in G1, L1, Q1. cbn [fst snd] in *. destruct (Q1 p1 eq_refl) as [P1 _]. apply new_named in E1 as S1.
  apply hbind_ok in E. destruct E as (h2 & [] & E2 & E).
  destruct (struct_shape_kept h h1 h2 p1 (match jget m "isStructShape" with Some (JBool b) => Some b | _ => None end) G1 P1) as (G2 & L2 & S2).
  { rewrite <- E2. destruct (jget m "isStructShape") as [[|x|x|y|l|m']|]; reflexivity. }
  apply hbind_ok in E. destruct E as (h3 & meta & E3 & E). unfold hlift in E3. injection E3 as <- E3.
  destruct (jget_arr m "metadata") as [meta'|] eqn:M; [|discriminate]. injection E3 as ->.
  unfold jget_arr in M. destruct (jget m "metadata") as [[|x|x|y|l|m']|]; try discriminate. injection M as ->.
  apply hbind_ok in E. destruct E as (h4 & [] & E4 & E).
  destruct (cols_for h p1 (add_column p1) json_column) with (l := meta) (h := h2) (h' := h4) as (G4 & L4 & new & F & S4); [|exact G2|lia|exact E4|].
  { intros x ha hb _ _ A. unfold add_column in A. destruct x as [|x|x|x|x|mm]; try discriminate.
    destruct (last mm ("", JNull)) as [cn [|x|x|ct|l|m']] eqn:LA; try discriminate. exists cn, ct. split; [exists mm; auto|exact A]. }
  rewrite S2, S1 in S4. cbn [app] in S4.
  assert (K : p = p1 /\ shape h' p1 = (n, map fst new, map snd new, match jget m "data" with Some (JArr l) => List.length l | _ => 0 end)).
  { unfold jget_arr in E. destruct (jget m "data") as [[|x|x|y|data|m']|]; try (injection E as <- <-; auto; fail).
    apply hbind_ok in E. destruct E as (h5 & [] & E5 & E). injection E as <- <-. split; [reflexivity|].
    set (body := fun r : Z * json => match snd r with
         | JArr cells => hfor (numbered cells) (fun c => match snd c with
             | JObj m0 => hfor m0 (fun kv => set_json wild (newTableFromJSON_recursive fuel wild) p1 (fst c) (fst r) (snd kv)) | _ => hlift Panic end)
         | _ => hlift Panic end).
    destruct (rows_for h p1 body) with (l := numbered data) (h := h4) (h' := h5) as (G5 & L5 & S5); [|exact G4|lia|exact E5|].
    - intros [ri j] b _ P. split; [apply (safe_add_row h wild (newTableFromJSON_recursive fuel wild) p1 ri j b P); apply json_reads_new|].
      unfold body. cbn [fst snd]. destruct j as [|x|x|s|cells|m']; try apply keeps_lift. apply keeps_for. intros [ci c] b2 _ L. cbn [fst snd].
      destruct c as [|x|x|s|l'|mm]; try (split; [apply safe_panic|apply keeps_lift]). split.
      + apply safe_for. intros kv b3 _ L3. apply safe_set_json; [lia|apply json_reads_new].
      + apply keeps_for. intros kv b3 _ L3. split; [apply safe_set_json; [lia|apply json_reads_new]|apply keeps_set_json; [lia|intros; apply json_reads_new]].
    - rewrite S5, S4. unfold numbered. rewrite combine_length, Proofs_Lib.zseq_length, Nat.min_id. reflexivity. }
  destruct K as [-> K]. apply shape_tab in K. destruct K as (-> & -> & -> & ->).
  split; [reflexivity|]. split; [|reflexivity]. exists meta. split; [reflexivity|]. now rewrite combine_split2.
Qed.
Lemma yaml_table_read fuel m h h' (p : ptr) : wf_heap h -> go_doc (YMap m) -> newTableFromYAML_recursive fuel m h = (h', Ok p) -> yaml_table h' m p.
Proof.
  intros W GD. destruct fuel as [|fuel]; cbn [newTableFromYAML_recursive]; [discriminate|]. intros E. unfold yaml_table.
  destruct (yget m "tableName") as [[|x|z|z|f|n|t|l|m'|]|]; try discriminate.
  destruct (n =? "") eqn:NE.
  { apply String.eqb_eq in NE. subst n. injection E as <- <-. cbn [List.length new_nils map s_news s_tab]. unfold tab. rewrite app_nth2, Nat.sub_diag by lia. cbn. split; [reflexivity|congruence]. }
  apply hbind_ok in E. destruct E as (h1 & p1 & E1 & E).
  destruct (safe_new h 0 (SetName n) ltac:(intros; apply pres_SetName) ltac:(intros; apply above_SetName) h (grown_refl _ W) ltac:(lia)) as (G1 & L1 & Q1).
  rewrite E1 in G1, L1, Q1. cbn [fst snd] in *. destruct (Q1 p1 eq_refl) as [P1 _]. apply new_named in E1 as S1.
  apply hbind_ok in E. destruct E as (h2 & [] & E2 & E).
  destruct (struct_shape_kept h h1 h2 p1 (match yget m "isStructShape" with Some (YBool b) => Some b | _ => None end) G1 P1) as (G2 & L2 & S2).
  { rewrite <- E2. destruct (yget m "isStructShape") as [[|x|z|z|f|s|t|l|m'|]|]; reflexivity. }
  apply hbind_ok in E. destruct E as (h3 & meta & E3 & E). unfold hlift in E3. injection E3 as <- E3.
  destruct (yget m "metadata") as [[|x|z|z|f|s|t|l|m'|]|]; try discriminate. injection E3 as ->.
  apply hbind_ok in E. destruct E as (h4 & [] & E4 & E).
  destruct (cols_for h p1 (add_yaml_column p1) yaml_column) with (l := meta) (h := h2) (h' := h4) as (G4 & L4 & new & F & S4); [|exact G2|lia|exact E4|].
  { intros x ha hb _ _ A. unfold add_yaml_column in A. destruct x as [|x|z|z|f|s|t|l|mm|]; try discriminate.
    destruct (last mm ("", YNull)) as [cn [|x|z|z|f|ct|t|l|m'|]] eqn:LA; try discriminate. exists cn, (trimQuote ct). split; [exists mm, ct; auto|exact A]. }
  rewrite S2, S1 in S4. cbn [app] in S4.
  apply hbind_ok in E. destruct E as (h5 & data & E5 & E). unfold hlift in E5. injection E5 as <- E5.
  assert (D : List.length data = match yget m "data" with Some (YList l) => List.length l | _ => 0 end).
  { unfold yaml_rows in E5. destruct (yget m "data") as [[|x|z|z|f|s|t|l|m'|]|]; try (injection E5 as <-; reflexivity).
    apply rmap_inv in E5. symmetry. eapply Forall2_len. exact E5. }
  pose proof (yaml_rows_go _ _ GD E5) as GR.
  apply hbind_ok in E. destruct E as (h6 & [] & E6 & E). injection E as <- <-.
  assert (K : shape h6 p1 = (n, map fst new, map snd new, List.length data)).
  { set (body := fun r : Z * list ydoc => hfor (numbered (snd r)) (fun c => set_yaml (newTableFromYAML_recursive fuel) p1 (fst c) (fst r) (snd c))).
    destruct (rows_for h p1 body (numbered data)) with (h := h4) (h' := h6) as (G5 & L5 & S5); [|exact G4|lia|exact E6|].
    - intros [ri cells] b I P. apply In_numbered in I. cbn [snd] in I. rewrite Forall_forall in GR. specialize (GR _ I). rewrite Forall_forall in GR. split.
      + apply safe_bind with (Q := any_res); [now apply safe_AppendRow|]. intros _ b1 Lb _. unfold body. cbn [fst snd].
        apply safe_for. intros c b2 Ic L5. apply In_numbered in Ic. apply safe_set_yaml; [lia|apply yaml_reads_new|now apply GR].
      + unfold body. cbn [fst snd]. apply keeps_for. intros c b2 Ic L5. apply In_numbered in Ic.
        split; [apply safe_set_yaml; [lia|apply yaml_reads_new|now apply GR]|apply keeps_set_yaml; [lia|intros; apply yaml_reads_new|now apply GR]].
    - rewrite S5, S4. unfold numbered. rewrite combine_length, Proofs_Lib.zseq_length, Nat.min_id. reflexivity. }
  apply shape_tab in K. destruct K as (-> & -> & -> & ->).
  split; [reflexivity|]. intros _. split; [|exact D]. exists meta. split; [reflexivity|]. now rewrite combine_split2.
Qed.

(** ---------- table sets ---------- *)

Definition new_set_in (h0 h : heap) (s : tset) : Prop :=
  set_ok h s /\ Forall (fun o => exists p : ptr, o = Some p /\ List.length h0 <= p) (ts_tables s).

Lemma new_set_step h0 h h1 s (q : ptr) s' : grown h0 h -> grown h h1 -> new_set_in h0 h s -> List.length h <= q < List.length h1 ->
  (let '(s', x) := AppendTable h1 s (Some q) in let! _ := x in Ok s') = Ok s' -> new_set_in h0 h1 s'.
Proof.
  intros G G1 [K N] Q E. pose proof (gr_len _ _ G) as L0.
  assert (K1 : set_ok h1 s).
  { apply (set_ok_names h); [exact K|apply (gr_len _ _ G1)|]. intros p _ Lp. f_equal. apply tab_eq. now apply (gr_old _ _ G1). }
  pose proof (AppendTable_ok h1 s (Some q) K1 ltac:(apply ref_in_lt; lia)) as K2.
  unfold AppendTable in *. destruct (find_table _ _ _); cbn [rbind] in E; [discriminate|]. injection E as <-. cbn [fst] in K2.
  split; [exact K2|]. cbn [ts_tables]. apply Forall_app. split; [exact N|]. constructor; [|constructor]. exists q. split; [reflexivity|lia].
Qed.

Lemma tables_from_json_new h0 wild : forall l s h, grown h0 h -> new_set_in h0 h s ->
  grown h0 (fst (tables_from_json wild l s h))
  /\ forall s', snd (tables_from_json wild l s h) = Ok s' -> new_set_in h0 (fst (tables_from_json wild l s h)) s'.
Proof.
  induction l as [|j l IH]; intros s h G N; cbn [tables_from_json].
  - split; [exact G|]. cbn. now intros s' [= <-].
  - destruct j as [|x|x|x|x|m]; try (split; [exact G|discriminate]).
    unfold hbind. destruct (json_reads_new h wild max_depth 0 m h (grown_refl h (gr_wf _ _ G)) ltac:(lia)) as (G1 & L1 & Q1).
    destruct (newTableFromJSON_recursive max_depth wild m h) as [h1 [q| |]]; cbn [fst snd] in *;
      [|split; [now apply (grown_trans _ h)|discriminate]..].
    destruct (Q1 q eq_refl) as [Q2 _]. destruct (AppendTable h1 s (Some q)) as [s1 x1] eqn:A.
    destruct (let! _ := x1 in Ok s1) as [s2| |] eqn:X; [|split; [now apply (grown_trans _ h)|discriminate]..].
    apply IH; [now apply (grown_trans _ h)|]. apply (new_set_step h0 h h1 s q s2); auto. now rewrite A.
Qed.
Lemma tables_from_yaml_new h0 : forall l s h, go_doc (YList l) -> grown h0 h -> new_set_in h0 h s ->
  grown h0 (fst (tables_from_yaml l s h))
  /\ forall s', snd (tables_from_yaml l s h) = Ok s' -> new_set_in h0 (fst (tables_from_yaml l s h)) s'.
Proof.
  induction l as [|j l IH]; intros s h GD G N; cbn [tables_from_yaml].
  - split; [exact G|]. cbn. now intros s' [= <-].
  - apply go_list in GD. apply Forall_cons_iff in GD as [Gj Gl]. apply go_list in Gl.
    destruct j as [|x|z|z|f|x|t|l'|m|]; try (split; [exact G|discriminate]).
    unfold hbind. destruct (yaml_reads_new h (S (ydepth (YMap m))) 0 m Gj h (grown_refl h (gr_wf _ _ G)) ltac:(lia)) as (G1 & L1 & Q1).
    destruct (newTableFromYAML_recursive (S (ydepth (YMap m))) m h) as [h1 [q| |]]; cbn [fst snd] in *;
      [|split; [now apply (grown_trans _ h)|discriminate]..].
    destruct (Q1 q eq_refl) as [Q2 _]. destruct (AppendTable h1 s (Some q)) as [s1 x1] eqn:A.
    destruct (let! _ := x1 in Ok s1) as [s2| |] eqn:X; [|split; [now apply (grown_trans _ h)|discriminate]..].
    apply IH; [exact Gl|now apply (grown_trans _ h)|]. apply (new_set_step h0 h h1 s q s2); auto. now rewrite A.
Qed.
Lemma new_set_empty h0 h n : new_set_in h0 h (NewTableSet n).
Proof. split; [split; [constructor|constructor]|constructor]. Qed.

Lemma json_set_new wild x h : wf_heap h -> grown h (fst (NewTableSetFromJSON wild x h))
  /\ forall s, snd (NewTableSetFromJSON wild x h) = Ok s -> new_set_in h (fst (NewTableSetFromJSON wild x h)) s.
Proof.
  intros W. pose proof (grown_refl h W) as G. unfold NewTableSetFromJSON. destruct (x =? ""); [split; [exact G|discriminate]|].
  unfold hbind, hlift. destruct (json_decode x) as [m|]; cbn [of_opt]; [|split; [exact G|discriminate]].
  destruct (jget m "tableSetName") as [[|y|y|n|l|m']|]; try (split; [exact G|discriminate]).
  destruct (jget_arr m "tables") as [l|]; [|split; [exact G|discriminate]].
  apply tables_from_json_new; [exact G|apply new_set_empty].
Qed.
Lemma yaml_set_new Y x h : wf_heap h -> (forall m, unmarshal Y x = Ok m -> go_doc (YMap m)) -> grown h (fst (NewTableSetFromYAML Y x h))
  /\ forall s, snd (NewTableSetFromYAML Y x h) = Ok s -> new_set_in h (fst (NewTableSetFromYAML Y x h)) s.
Proof.
  intros W GY. pose proof (grown_refl h W) as G. unfold NewTableSetFromYAML. destruct (is_no_text Y x); [split; [exact G|discriminate]|].
  unfold hbind, hlift. destruct (unmarshal Y x) as [m| |]; [|split; [exact G|discriminate]..]. specialize (GY m eq_refl).
  destruct (yget m "tableSetName") as [[|y|z|z|f|n|t|l|m'|]|]; try (split; [exact G|discriminate]).
  destruct (yget m "tables") as [[|y|z|z|f|y|t|l|m'|]|] eqn:E; try (split; [exact G|discriminate]).
  apply tables_from_yaml_new; [exact (go_get _ _ _ GY E)|exact G|apply new_set_empty].
Qed.

(** ---------- the tables of the document ---------- *)

Local Open Scope list_scope.

Lemma json_table_grown h h1 m (p : ptr) : grown h h1 -> p < List.length h -> json_table h m p -> json_table h1 m p.
Proof. intros G L. unfold json_table. replace (tab h1 p) with (tab h p); [auto|]. symmetry. apply tab_eq. now apply (gr_old _ _ G). Qed.
Lemma yaml_table_grown h h1 m (p : ptr) : grown h h1 -> p < List.length h -> yaml_table h m p -> yaml_table h1 m p.
Proof. intros G L. unfold yaml_table. replace (tab h1 p) with (tab h p); [auto|]. symmetry. apply tab_eq. now apply (gr_old _ _ G). Qed.
Lemma AppendTable_all h s o s' : (let '(s', x) := AppendTable h s o in let! _ := x in Ok s') = Ok s' ->
  ts_tables s' = ts_tables s ++ [o] /\ ts_name s' = ts_name s.
Proof. unfold AppendTable. destruct (find_table _ _ _); [destruct o; discriminate|]. cbn. intros [= <-]. auto. Qed.

Lemma tables_from_json_docs wild : forall l s h h' s', wf_heap h -> tables_from_json wild l s h = (h', Ok s') ->
  grown h h' /\ ts_name s' = ts_name s /\ exists ps, ts_tables s' = ts_tables s ++ map Some ps
    /\ Forall2 (fun j (p : ptr) => exists m, j = JObj m /\ p < List.length h' /\ json_table h' m p) l ps.
Proof.
  induction l as [|j l IH]; intros s h h' s' W E; cbn [tables_from_json] in E.
  - injection E as <- <-. split; [now apply grown_refl|]. split; [reflexivity|]. exists []. rewrite app_nil_r. auto.
  - destruct j as [|x|x|x|x|m]; try discriminate. apply hbind_ok in E. destruct E as (h1 & q & E1 & E).
    destruct (json_reads_new h wild max_depth 0 m h (grown_refl h W) ltac:(lia)) as (G1 & L1 & Q1). rewrite E1 in G1, L1, Q1. cbn [fst snd] in *.
    destruct (Q1 q eq_refl) as [Q2 _]. apply json_table_read in E1; [|exact W].
    apply hbind_ok in E. destruct E as (h2 & s2 & E2 & E).
    pose proof (AppendTable_all h1 s (Some q) s2) as AA. destruct (AppendTable h1 s (Some q)) as [s1 x1]. injection E2 as <- X. destruct (AA X) as [T N].
    destruct (IH s2 h1 h' s' (gr_wf _ _ G1) E) as (G2 & N2 & ps & T2 & F). split; [now apply (grown_trans _ h1)|]. split; [congruence|].
    exists (q :: ps). split; [rewrite T2, T, <- app_assoc; reflexivity|]. constructor; [|exact F].
    exists m. split; [reflexivity|]. pose proof (gr_len _ _ G2). split; [lia|]. apply (json_table_grown h1); [exact G2|lia|exact E1].
Qed.
Lemma tables_from_yaml_docs : forall l s h h' s', wf_heap h -> go_doc (YList l) -> tables_from_yaml l s h = (h', Ok s') ->
  grown h h' /\ ts_name s' = ts_name s /\ exists ps, ts_tables s' = ts_tables s ++ map Some ps
    /\ Forall2 (fun y (p : ptr) => exists m, y = YMap m /\ p < List.length h' /\ yaml_table h' m p) l ps.
Proof.
  induction l as [|j l IH]; intros s h h' s' W GD E; cbn [tables_from_yaml] in E.
  - injection E as <- <-. split; [now apply grown_refl|]. split; [reflexivity|]. exists []. rewrite app_nil_r. auto.
  - apply go_list in GD. apply Forall_cons_iff in GD as [Gj Gl]. apply go_list in Gl.
    destruct j as [|x|z|z|f|x|t|x|m|]; try discriminate. apply hbind_ok in E. destruct E as (h1 & q & E1 & E).
    destruct (yaml_reads_new h (S (ydepth (YMap m))) 0 m Gj h (grown_refl h W) ltac:(lia)) as (G1 & L1 & Q1). rewrite E1 in G1, L1, Q1. cbn [fst snd] in *.
    destruct (Q1 q eq_refl) as [Q2 _]. apply yaml_table_read in E1; [|exact W|exact Gj].
    apply hbind_ok in E. destruct E as (h2 & s2 & E2 & E).
    pose proof (AppendTable_all h1 s (Some q) s2) as AA. destruct (AppendTable h1 s (Some q)) as [s1 x1]. injection E2 as <- X. destruct (AA X) as [T N].
    destruct (IH s2 h1 h' s' (gr_wf _ _ G1) Gl E) as (G2 & N2 & ps & T2 & F). split; [now apply (grown_trans _ h1)|]. split; [congruence|].
    exists (q :: ps). split; [rewrite T2, T, <- app_assoc; reflexivity|]. constructor; [|exact F].
    exists m. split; [reflexivity|]. pose proof (gr_len _ _ G2). split; [lia|]. apply (yaml_table_grown h1); [exact G2|lia|exact E1].
Qed.
