(** Proofs_Forest.v -- the tables read from a JSON or YAML document are nested once each (C67). *)
From Coq Require Import ZArith NArith List String Ascii Bool SpecFloat Lia Relations.
From Verif Require Import Base Model_Names Model_Table Model_Sort Model_Heap Model_TableSet Model_Lex Model_Float Model_Time
  Model_Parser Model_Print Model_Json Model_Yaml Spec Spec_Sort Spec_Heap Spec_Walk Spec_TableSet Spec_Text Spec_Json Spec_Foreign.
From Verif Require Import Proofs_Lib Proofs_Table Proofs_Cells Proofs_Struct Proofs_Api Proofs_Pres Samples Proofs_Heap
  Proofs_Frame Proofs_TableSet Proofs_Lex Proofs_Num Proofs_Float Proofs_Parser Proofs_JsonWrite Proofs_Nesting Proofs_Foreign.
Import ListNotations.
Local Open Scope string_scope.
Local Open Scope list_scope.

(** ---------- places of nested tables ---------- *)

Definition spot (t : table) (r c : nat) (q : ptr) : Prop :=
  exists row, nth_error (rows t) r = Some row /\ nth_error row c = Some (VTable (Some q)).
(** [m] nests only tables that it makes, each in one place. *)
Definition fresh_spots {A} (m : M A) : Prop := forall s, wf_table (s_tab s) -> (forall r c q, spot (s_tab s) r c q -> q < next s) ->
  (forall r c q, spot (s_tab (fst (m s))) r c q -> q < next s -> spot (s_tab s) r c q)
  /\ (forall q r c r' c', next s <= q -> spot (s_tab (fst (m s))) r c q -> spot (s_tab (fst (m s))) r' c' q -> r = r' /\ c = c').

Lemma same_spots (s : st) {A} (m : M A) : (forall r c q, spot (s_tab s) r c q -> q < next s) -> rows (s_tab (fst (m s))) = rows (s_tab s) ->
  (forall r c q, spot (s_tab (fst (m s))) r c q -> q < next s -> spot (s_tab s) r c q)
  /\ (forall q r c r' c', next s <= q -> spot (s_tab (fst (m s))) r c q -> spot (s_tab (fst (m s))) r' c' q -> r = r' /\ c = c').
Proof.
  intros B E. unfold spot in *. rewrite E. split; [auto|]. intros q r c r' c' L S. exfalso. specialize (B r c q S). lia.
Qed.
Lemma fresh_SetName n : fresh_spots (SetName n).
Proof. intros s W B. apply same_spots; auto. unfold SetName. mstep. destruct (IsValidTableName n); reflexivity. Qed.
Lemma fresh_SetStructShape b : fresh_spots (SetStructShape b).
Proof. intros s W B. apply same_spots; auto. Qed.
Lemma fresh_ret {A} (a : A) : fresh_spots (ret a).
Proof. intros s W B. apply same_spots; auto. Qed.

Lemma spot_put t t' ri ci v r c q : rows t' = put ci ri v (rows t) -> spot t' r c q -> spot t r c q \/ (r = ri /\ c = ci /\ v = VTable (Some q)).
Proof.
  intros E (row & R & C). rewrite E in R. unfold put in R. destruct (nth_error (rows t) ri) as [row0|] eqn:N; [|left; exists row; auto].
  destruct (Nat.eq_dec r ri) as [->|NE].
  - rewrite nth_error_upd_eq in R by (apply nth_error_some_lt in N; exact N). injection R as <-.
    destruct (Nat.eq_dec c ci) as [->|NC].
    + right. assert (L : ci < List.length row0) by (apply nth_error_some_lt in C; now rewrite upd_length in C). rewrite nth_error_upd_eq in C by auto. injection C as ->. auto.
    + left. rewrite nth_upd_other in C by congruence. exists row0. auto.
  - left. rewrite nth_upd_other in R by congruence. exists row. auto.
Qed.
Lemma set_spots vt ci ri v s : In vt all_types -> arg_of_type vt v = true -> wf_table (s_tab s) ->
  forall r c q, spot (s_tab (fst (SetTByColIndex vt ci ri v s))) r c q -> spot (s_tab s) r c q \/ (r = Z.to_nat ri /\ c = Z.to_nat ci /\ v = VTable (Some q)).
Proof.
  intros Hvt Ha W r c q S. destruct (not_nil_arg v) eqn:NN.
  2:{ left. revert S. unfold SetTByColIndex. mstep. rewrite NN. auto. }
  destruct (HasColByColIndex (s_tab s) ci) eqn:HC.
  - apply HasCol_iff in HC. destruct (SetTByColIndex_eq vt ci ri v s W Hvt Ha HC) as [(ct & _ & _ & H1 & H2 & E)|[_ E]]; rewrite E in S; [|now left].
    cbn [fst] in S. eapply spot_put; [|exact S]. reflexivity.
  - rewrite SetTByColIndex_panic in S; auto. intros H. apply HasCol_iff in H. congruence.
Qed.
Lemma fresh_set vt ci ri v : In vt all_types -> arg_of_type vt v = true -> (forall q, v <> VTable (Some q)) -> fresh_spots (SetTByColIndex vt ci ri v).
Proof.
  intros Hvt Ha NT s W B.
  assert (X : forall r c q, spot (s_tab (fst (SetTByColIndex vt ci ri v s))) r c q -> spot (s_tab s) r c q).
  { intros r c q S. destruct (set_spots vt ci ri v s Hvt Ha W r c q S) as [K|(_ & _ & K)]; [exact K|now destruct (NT q)]. }
  split; [intros; now apply X|]. intros q r c r' c' L S. apply X in S. apply B in S. lia.
Qed.
Lemma zeros_spot cts : Forall (fun ct => In ct all_types) cts -> forall p c q, nth_error (Proofs_Table.zeros p cts) c = Some (VTable (Some q)) -> p <= q /\ forall c', nth_error (Proofs_Table.zeros p cts) c' = Some (VTable (Some q)) -> c = c'.
Proof.
  induction 1 as [|ct r H _ IH]; intros p c q E; cbn [Proofs_Table.zeros] in *; [destruct c; discriminate|].
  destruct (is_tab ct) eqn:IT.
  - destruct c as [|c]; cbn [nth_error] in E.
    + injection E as <-. split; [lia|]. intros [|c'] E'; [reflexivity|]. cbn [nth_error] in E'. apply IH in E' as [L _]. lia.
    + destruct (IH _ _ _ E) as [L U]. split; [lia|]. intros [|c'] E'; cbn [nth_error] in E'; [injection E' as ->; lia|]. f_equal. now apply U.
  - destruct c as [|c]; cbn [nth_error] in E; [types H; try discriminate|].
    destruct (IH _ _ _ E) as [L U]. split; [lia|]. intros [|c'] E'; cbn [nth_error] in E'; [types H; try discriminate|]. f_equal. now apply U.
Qed.
Lemma fresh_AppendRow : fresh_spots AppendRow.
Proof.
  intros s W B. rewrite AppendRow_eq by auto. destruct (is_nil (s_tab s)); [apply (same_spots s (fun s => (s, Err (A := unit)))); auto|].
  unfold row_added. cbn [fst s_tab].
  assert (X : forall r c q, spot (with_rows (rows (s_tab s) ++ [Proofs_Table.zeros (next s) (ctypes (s_tab s))]) (s_tab s)) r c q ->
     spot (s_tab s) r c q \/ (r = List.length (rows (s_tab s)) /\ nth_error (Proofs_Table.zeros (next s) (ctypes (s_tab s))) c = Some (VTable (Some q)))).
  { intros r c q (row & R & C). cbn [with_rows rows] in R. destruct (Nat.lt_ge_cases r (List.length (rows (s_tab s)))) as [L|L].
    - left. rewrite nth_error_app1 in R by auto. exists row. auto.
    - right. rewrite nth_error_app2 in R by auto. destruct (r - List.length (rows (s_tab s))) as [|k] eqn:K; cbn [nth_error] in R; [|destruct k; discriminate].
      injection R as <-. split; [lia|exact C]. }
  pose proof (zeros_spot _ (wf_types _ W) (next s)) as Z. split.
  - intros r c q S L. apply X in S as [S|[_ S]]; [exact S|]. apply Z in S as [S _]. lia.
  - intros q r c r' c' L S S'. apply X in S as [S|[-> S]]; [apply B in S; lia|]. apply X in S' as [S'|[-> S']]; [apply B in S'; lia|].
    split; [reflexivity|]. now apply (Z c q S).
Qed.
Lemma fresh_AppendCol cn ct : fresh_spots (AppendCol cn ct).
Proof.
  intros s W B. rewrite AppendCol_eq by auto. destruct (can_append_col (s_tab s) cn ct) eqn:C; [|apply (same_spots s (fun s => (s, Err (A := unit)))); auto].
  assert (Hct : In ct all_types).
  { unfold can_append_col in C. rewrite !andb_true_iff in C. now apply IsValidColType_spec. }
  cbn [fst].
  assert (X : forall r c q, spot (s_tab (col_added cn ct s)) r c q -> spot (s_tab s) r c q \/ (c = List.length (cnames (s_tab s)) /\ q = next s + r)).
  { intros r c q (row & R & K). unfold col_added in R. cbn [s_tab rows] in R. rewrite nth_error_mapi in R. destruct (nth_error (rows (s_tab s)) r) as [row0|] eqn:N; [|discriminate].
    cbn [option_map] in R. injection R as <-. assert (LR : List.length row0 = List.length (cnames (s_tab s))) by (rewrite <- (wf_types_len _ W); symmetry; eapply Forall2_len; exact (Forall_nth_error _ _ _ _ (wf_cells _ W) N)). destruct (Nat.lt_ge_cases c (List.length row0)) as [L|L].
    - left. rewrite nth_error_app1 in K by auto. exists row0. auto.
    - right. rewrite nth_error_app2 in K by auto. destruct (c - List.length row0) as [|k] eqn:D; cbn [nth_error] in K; [|destruct k; discriminate].
      injection K as K. split; [lia|]. unfold zcol in K. destruct (is_tab ct) eqn:IT; [injection K as <-; lia|]. types Hct; discriminate. }
  split.
  - intros r c q S L. apply X in S as [S|[_ S]]; [exact S|lia].
  - intros q r c r' c' L S S'. apply X in S as [S|[-> ->]]; [apply B in S; lia|]. apply X in S' as [S'|[-> S']]; [apply B in S'; lia|]. split; [lia|reflexivity].
Qed.

(** ---------- heaps ---------- *)

Definition place (h : heap) (z r c : nat) (q : ptr) : Prop := spot (tab h z) r c q.
(** Each table is nested in one place at most, of the tables from address n on. *)
Definition once (n : nat) (h : heap) : Prop := forall q z r c z' r' c', n <= z -> n <= z' -> place h z r c q -> place h z' r' c' q -> z = z' /\ r = r' /\ c = c'.
Definition root (n : nat) (h : heap) (q : ptr) : Prop := forall z r c, n <= z -> ~ place h z r c q.
(** The tables below address b are nested nowhere anew. *)
Definition less (n b : nat) (h h' : heap) : Prop := forall x z r c, x < b -> n <= z -> place h' z r c x -> place h z r c x.

Definition tidy (h0 : heap) (b : nat) (P : heap -> Prop) {A} (m : HM A) (Q : A -> heap -> Prop) : Prop :=
  forall h, grown h0 h -> once (List.length h0) h -> b <= List.length h -> P h ->
    grown h0 (fst (m h)) /\ List.length h <= List.length (fst (m h)) /\ once (List.length h0) (fst (m h)) /\ less (List.length h0) b h (fst (m h))
    /\ forall a, snd (m h) = Ok a -> Q a (fst (m h)).

Lemma less_refl n b h : less n b h h.
Proof. intros x z r c _ _ H. exact H. Qed.
Lemma less_trans n b h1 h2 h3 : less n b h1 h2 -> less n b h2 h3 -> less n b h1 h3.
Proof. intros A B x z r c L Z H. apply A; auto. Qed.
Lemma place_lt h z r c q : wf_heap h -> place h z r c q -> z < List.length h /\ q < List.length h.
Proof.
  intros W (row & R & C). assert (L : z < List.length h).
  { destruct (Nat.lt_ge_cases z (List.length h)) as [L|L]; [exact L|]. unfold tab in R. rewrite nth_overflow in R by auto. destruct r; discriminate. }
  split; [exact L|]. eapply nested_lt; [exact W|]. apply In_nested_in. exists r, row, c. eauto.
Qed.

Lemma tidy_bind {A B} h0 b P (m : HM A) (f : A -> HM B) Q R :
  tidy h0 b P m Q -> (forall a, tidy h0 b (Q a) (f a) R) -> tidy h0 b P (hbind m f) R.
Proof.
  intros M F h G O L Ph. destruct (M h G O L Ph) as (G1 & L1 & O1 & S1 & Q1). unfold hbind. destruct (m h) as [h1 [a| |]] eqn:E; cbn [fst snd] in *.
  - destruct (F a h1 G1 O1 ltac:(lia) (Q1 a eq_refl)) as (G2 & L2 & O2 & S2 & Q2). repeat (split; [eauto using less_trans; lia|]). exact Q2.
  - repeat (split; [auto; lia|]). discriminate.
  - repeat (split; [auto; lia|]). discriminate.
Qed.
Lemma tidy_lift {A} h0 b (P : heap -> Prop) (r : res A) (Q : A -> heap -> Prop) : (forall a h, r = Ok a -> P h -> Q a h) -> tidy h0 b P (hlift r) Q.
Proof. intros H h G O L Ph. split; [exact G|]. split; [cbn; lia|]. split; [exact O|]. split; [apply less_refl|]. cbn. intros a E. now apply H. Qed.
Lemma tidy_ret {A} h0 b (P : heap -> Prop) (a : A) (Q : A -> heap -> Prop) : (forall h, P h -> Q a h) -> tidy h0 b P (hret a) Q.
Proof. intros H. apply (tidy_lift h0 b P (Ok a)). intros a' h [= <-]. apply H. Qed.
Lemma tidy_err {A} h0 b P (Q : A -> heap -> Prop) : tidy h0 b P (hlift Err) Q.
Proof. apply tidy_lift. discriminate. Qed.
Lemma tidy_panic {A} h0 b P (Q : A -> heap -> Prop) : tidy h0 b P (hlift Panic) Q.
Proof. apply tidy_lift. discriminate. Qed.
Lemma tidy_for {A} h0 b P (l : list A) (body : A -> HM unit) :
  (forall x, In x l -> tidy h0 b P (body x) (fun _ => P)) -> tidy h0 b P (hfor l body) (fun _ => P).
Proof.
  induction l as [|x l IH]; intros H; cbn [hfor]; [apply tidy_ret; auto|].
  eapply tidy_bind; [apply H; now left|]. intros a. apply IH. intros y I. apply H. now right.
Qed.
Lemma tidy_pre {A} h0 b (P P' : heap -> Prop) (m : HM A) Q : (forall h, P h -> P' h) -> tidy h0 b P' m Q -> tidy h0 b P m Q.
Proof. intros H M h G O L Ph. apply M; auto. Qed.
Lemma tidy_use {A} h0 b (C : Prop) (P : heap -> Prop) (m : HM A) Q : (forall h, P h -> C) -> (C -> tidy h0 b P m Q) -> tidy h0 b P m Q.
Proof. intros H M h G O L Ph. exact (M (H h Ph) h G O L Ph). Qed.
Lemma tidy_know {A} h0 b (C : Prop) (P : heap -> Prop) (m : HM A) Q : (C -> tidy h0 b P m Q) -> tidy h0 b (fun h => P h /\ C) m Q.
Proof. intros M h G O L [Ph K]. exact (M K h G O L Ph). Qed.
(** The table p exists. *)
Definition has (p : ptr) (h : heap) : Prop := p < List.length h.

Lemma tab_upd_other (h : heap) (p z : ptr) t : z <> p -> tab (upd h p t) z = tab h z.
Proof.
  intros N. unfold tab. destruct (nth_error h z) as [x|] eqn:E.
  - rewrite (nth_error_nth h z _ E). apply nth_error_nth. now rewrite nth_upd_other by congruence.
  - rewrite !nth_overflow; auto; [now apply nth_error_None|]. rewrite upd_length. now apply nth_error_None.
Qed.
Lemma tab_upd_same (h : heap) (p : ptr) t : p < List.length h -> tab (upd h p t) p = t.
Proof. intros L. unfold tab. apply nth_error_nth. now apply nth_error_upd_eq. Qed.
Lemma tab_left (h l : heap) z : z < List.length h -> tab (h ++ l) z = tab h z.
Proof. intros L. unfold tab. now apply app_nth1. Qed.
Lemma no_spot_nils h p (bs : list bool) z r c q : List.length h <= z -> ~ place (h ++ new_nils p bs) z r c q.
Proof.
  intros L (row & R & _). unfold tab in R. rewrite app_nth2 in R by auto. destruct (nth_in_or_default (z - List.length h) (new_nils p bs) NewNilTable) as [I|E].
  - unfold new_nils in I at 2. apply in_map_iff in I as (x & E & _). rewrite <- E in R. destruct r; discriminate.
  - rewrite E in R. destruct r; discriminate.
Qed.
Lemma tidy_on_heap {A} h0 b p (m : M A) : List.length h0 <= p -> (forall l, p < l -> pres l m) -> above p m -> fresh_spots m ->
  tidy h0 b (has p) (on_heap p m) (fun _ => has p).
Proof.
  intros P PM AM FM h G O L Hp. unfold has in *.
  destruct (safe_on_heap h0 (List.length h) p m ltac:(lia) ltac:(intros; apply PM; lia) AM h G (le_n _)) as (G1 & L1 & _).
  split; [exact G1|]. split; [exact L1|]. clear PM AM.
  pose proof (gr_wf _ _ G) as W. unfold on_heap in *. destruct (nth_error h p) as [t|] eqn:E; [|split; [exact O|split; [apply less_refl|auto]]].
  assert (TP : tab h p = t) by (unfold tab; now apply nth_error_nth).
  destruct (FM (mkS t (List.length h) [])) as [F1 F2].
  { exact (Forall_nth_error _ _ _ _ (wh_tables _ W) E). }
  { intros r c q S. unfold next. cbn [s_base s_news List.length]. rewrite Nat.add_0_r. cbn [s_tab] in S. rewrite <- TP in S. eapply place_lt; eauto. }
  destruct (m _) as [s res] eqn:Em. cbn [fst snd s_tab] in *. unfold next in *. cbn [s_base s_news List.length] in *. rewrite Nat.add_0_r in *.
  assert (X : forall z r c q, place (upd h p (s_tab s) ++ new_nils p (s_news s)) z r c q -> (z <> p /\ place h z r c q) \/ (z = p /\ spot (s_tab s) r c q)).
  { intros z r c q S. destruct (Nat.lt_ge_cases z (List.length h)) as [B|B].
    - unfold place in *. rewrite tab_left in S by (rewrite upd_length; auto). destruct (Nat.eq_dec z p) as [->|NE].
      + right. rewrite tab_upd_same in S by auto. auto.
      + left. rewrite tab_upd_other in S by auto. auto.
    - exfalso. eapply no_spot_nils; [|exact S]. now rewrite upd_length. }
  split; [|split].
  - intros q z r c z' r' c' Lz Lz' S S'. apply X in S. apply X in S'. destruct (Nat.lt_ge_cases q (List.length h)) as [B|B].
    + assert (Y : forall z r c, (z <> p /\ place h z r c q) \/ (z = p /\ spot (s_tab s) r c q) -> place h z r c q).
      { intros z1 r1 c1 [[_ K]|[-> K]]; [exact K|]. unfold place. rewrite TP. now apply F1. }
      apply (O q); auto.
    + destruct S as [[_ S]|[-> S]]; [apply place_lt in S; auto; lia|]. destruct S' as [[_ S']|[-> S']]; [apply place_lt in S'; auto; lia|]. split; [reflexivity|]. eapply F2; eauto.
  - intros x z r c Lx Lz S. apply X in S as [[_ K]|[-> K]]; [exact K|]. unfold place. rewrite TP. apply F1; auto. lia.
  - intros; lia.
Qed.
Lemma tidy_new h0 b (m : M unit) : (forall l, b <= l -> pres (S l) m) -> (forall g, above g m) -> (forall s, rows (s_tab s) = [] -> rows (s_tab (fst (m s))) = []) ->
  tidy h0 b (fun _ => True) (new_tab m) (fun q h => has q h /\ List.length h0 <= q /\ b <= q /\ root (List.length h0) h q).
Proof.
  intros PM AM FM h G O L _. destruct (safe_new h0 b m PM AM h G L) as (G1 & L1 & Q1). split; [exact G1|]. split; [exact L1|].
  pose proof (gr_wf _ _ G) as W. unfold new_tab in *. specialize (FM (mkS NewNilTable (S (List.length h)) []) eq_refl).
  destruct (m _) as [s res] eqn:Em. cbn [fst] in FM.
  destruct res as [u| |]; cbn [fst snd] in *; [|split; [exact O|split; [apply less_refl|discriminate]]..].
  assert (X : forall z r c q, place (h ++ s_tab s :: new_nils (List.length h) (s_news s)) z r c q -> place h z r c q).
  { intros z r c q S. destruct (Nat.lt_ge_cases z (List.length h)) as [B|B].
    - unfold place in *. now rewrite tab_left in S by auto.
    - exfalso. change (s_tab s :: new_nils (List.length h) (s_news s)) with ([s_tab s] ++ new_nils (List.length h) (s_news s)) in S. rewrite app_assoc in S.
      destruct (Nat.eq_dec z (List.length h)) as [->|NE].
      + unfold place in S. rewrite tab_left in S by (rewrite app_length; cbn; lia). destruct S as (row & R & _). unfold tab in R. rewrite nth_middle in R. rewrite FM in R. destruct r; discriminate.
      + eapply no_spot_nils; [|exact S]. rewrite app_length. cbn. lia. }
  split; [intros q z r c z' r' c' Lz Lz' S S'; apply (O q); auto|]. split; [intros x z r c _ _ S; auto|].
  intros a [= <-]. destruct (Q1 _ eq_refl) as [B1 B2]. split; [unfold has; lia|]. split; [lia|]. split; [lia|].
  intros z r c Lz S. apply X in S. apply place_lt in S; auto. lia.
Qed.
Lemma place_parent h (q p : ptr) z r c x : place (set_parent q p h) z r c x <-> place h z r c x.
Proof.
  unfold place, set_parent. destruct (Nat.eq_dec z q) as [->|NE]; [|now rewrite tab_upd_other by auto].
  destruct (Nat.lt_ge_cases q (List.length h)) as [B|B].
  - rewrite tab_upd_same by auto. reflexivity.
  - unfold tab. rewrite !nth_overflow by (try rewrite upd_length; auto). reflexivity.
Qed.
Lemma tidy_SetTable h0 b p q ci ri : List.length h0 <= p -> p < q -> b <= q ->
  tidy h0 b (fun h => has q h /\ root (List.length h0) h q) (SetTableByColIndex p ci ri (Some q)) (fun _ => has p).
Proof.
  intros P PQ BQ h G O L [Hq R]. unfold has in *.
  destruct (safe_SetTable h0 (List.length h) p q ci ri ltac:(lia) PQ Hq h G (le_n _)) as (G1 & L1 & _).
  split; [exact G1|]. split; [exact L1|]. pose proof (gr_wf _ _ G) as W. cbn [SetTableByColIndex] in *.
  destruct (set_parent_wf q p h W ltac:(lia)) as [W1 LS]. set (h1 := set_parent q p h) in *.
  assert (X : forall z r c x, place (fst (on_heap p (SetTByColIndex "*Table" ci ri (VTable (Some q))) h1)) z r c x -> place h z r c x \/ (z = p /\ r = Z.to_nat ri /\ c = Z.to_nat ci /\ x = q)).
  { intros z r c x S. unfold on_heap in S. destruct (nth_error h1 p) as [t|] eqn:E; [|left; apply (place_parent h q p); exact S].
    assert (TP : tab h1 p = t) by (unfold tab; now apply nth_error_nth).
    pose proof (set_spots "*Table" ci ri (VTable (Some q)) (mkS t (List.length h1) []) ltac:(now apply in_types) eq_refl (Forall_nth_error _ _ _ _ (wh_tables _ W1) E)) as SP.
    destruct (SetTByColIndex _ _ _ _ _) as [s res]. cbn [fst s_tab] in *.
    destruct (Nat.lt_ge_cases z (List.length h1)) as [B|B].
    - unfold place in S. rewrite tab_left in S by (rewrite upd_length; auto). destruct (Nat.eq_dec z p) as [->|NE].
      + rewrite tab_upd_same in S by auto. apply SP in S as [S|(R1 & R2 & V)]; [|right; injection V as V; auto]. left. apply (place_parent h q p). unfold place. fold h1. now rewrite TP.
      + rewrite tab_upd_other in S by auto. left. now apply (place_parent h q p).
    - exfalso. eapply no_spot_nils; [|exact S]. now rewrite upd_length. }
  split; [|split].
  - intros x z r c z' r' c' Lz Lz' S S'. apply X in S. apply X in S'.
    destruct S as [S|(Z1 & R1 & C1 & X1)]; destruct S' as [S'|(Z2 & R2 & C2 & X2)]; subst; [now apply (O x)|elim (R _ _ _ Lz S)|elim (R _ _ _ Lz' S')|auto].
  - intros x z r c Lx Lz S. apply X in S as [S|(_ & _ & _ & X1)]; [exact S|unfold ptr in *; lia].
  - intros; lia.
Qed.

(** ---------- cells, rows and tables ---------- *)

(** The new table p, which is nested nowhere *)
Definition own (h0 : heap) (b : nat) (p : ptr) (h : heap) : Prop := has p h /\ List.length h0 <= p /\ b <= p /\ root (List.length h0) h p.
Definition reads_root (h0 : heap) {A} (table : A -> HM ptr) : Prop :=
  forall b m, tidy h0 b (fun _ => True) (table m) (own h0 b).

Lemma tidy_set h0 b p vt ci ri v : List.length h0 <= p -> In vt all_types -> arg_of_type vt v = true -> go_value v = true ->
  (forall q, v <> VTable (Some q)) -> tidy h0 b (has p) (on_heap p (SetTByColIndex vt ci ri v)) (fun _ => has p).
Proof.
  intros P I A G NT. apply tidy_on_heap; [exact P|..].
  - intros l _. apply pres_SetTByColIndex; auto. destruct v; cbn; auto. destruct o; auto. now destruct (NT p0).
  - apply above_SetTByColIndex; auto. destruct v; cbn; auto. destruct o; auto. now destruct (NT p0).
  - now apply fresh_set.
Qed.
Lemma tidy_coltype h0 b P p ci : tidy h0 b P (fun h => (h, match znth (ctypes (tab h p)) ci with Some ct => Ok ct | None => Panic end)) (fun _ => P).
Proof. intros h G O L Ph. split; [exact G|]. split; [cbn; lia|]. split; [exact O|]. split; [apply less_refl|]. intros; exact Ph. Qed.
Lemma tidy_then_set h0 p ci ri (m : HM ptr) : List.length h0 <= p ->
  tidy h0 (S p) (fun _ => True) m (own h0 (S p)) ->
  tidy h0 (S p) (has p) (hbind m (fun q => SetTableByColIndex p ci ri (Some q))) (fun _ => has p).
Proof.
  intros P M. eapply tidy_bind; [eapply tidy_pre; [intros; exact I|exact M]|]. intros q h G O L Q. destruct Q as (A & B & C & D).
  exact (tidy_SetTable h0 (S p) p q ci ri P ltac:(lia) C h G O L (conj A D)).
Qed.
Ltac tset1 := apply tidy_set; [lia|now apply in_types|reflexivity|auto|discriminate].

Lemma tidy_set_json h0 wild table p ci ri j : List.length h0 <= p -> reads_root h0 table -> tidy h0 (S p) (has p) (set_json wild table p ci ri j) (fun _ => has p).
Proof.
  intros P T. unfold set_json. eapply tidy_bind; [apply tidy_coltype|]. intros ct.
  destruct j as [|x|x|s|l|m].
  - destruct (ct =? "*Table"); [|apply tidy_err].
    apply tidy_then_set; [exact P|]. apply tidy_new; [intros; apply pres_ret|intros; apply above_ret|auto].
  - tset1.
  - eapply tidy_bind; [apply (tidy_lift _ _ _ _ (fun f h => has p h /\ valid_binary 53 1024 f = true)); intros f h E H; split; [exact H|eapply number_ok; exact E]|].
    intros f. apply tidy_know. intros V.
    destruct (int_kind ct) as [k|] eqn:IK.
    + apply int_kind_type in IK. destruct IK as [I A]. apply tidy_set; [lia|exact I|apply A|cbn; apply float_to_int_ok|discriminate].
    + destruct (String.eqb_spec ct "float32") as [->|]; [tset1; cbn; now apply float32_of_ok|].
      destruct (String.eqb_spec ct "float64") as [->|]; [tset1|apply tidy_err].
  - destruct (ct =? "rune").
    + destruct (decode s) as [[r w]|] eqn:D; [|apply tidy_panic]. tset1. apply decode_range in D. cbn. unfold in_range, imin, imax. cbn. lia.
    + destruct (ct =? "time.Time").
      * eapply tidy_bind; [apply (tidy_lift _ _ _ _ (fun t h => has p h /\ go_value (VTime t) = true))|].
        { intros t h E H. split; [exact H|]. destruct (time_of_text s) eqn:TT; [|discriminate]. injection E as <-. eapply time_of_text_ok; eauto. }
        intros t. apply tidy_know. intros V. tset1.
      * destruct (ct =? "string"); [tset1|apply tidy_err].
  - eapply tidy_bind; [apply (tidy_lift _ _ _ _ (fun _ => has p)); auto|]. intros fs. tset1.
  - destruct (ct =? "*Table"); [|apply tidy_err]. apply tidy_then_set; [exact P|apply T].
Qed.
Lemma tidy_add_column h0 p b j : List.length h0 <= p -> tidy h0 b (has p) (add_column p j) (fun _ => has p).
Proof.
  intros P. unfold add_column. destruct j as [|x|x|s|l|m]; try apply tidy_panic.
  destruct (last m _) as [cn [|x|x|ct|l|m']]; try apply tidy_err.
  apply tidy_on_heap; [exact P|intros; apply pres_AppendCol|apply above_AppendCol|apply fresh_AppendCol].
Qed.
Lemma tidy_AppendRow h0 b p : List.length h0 <= p -> tidy h0 b (has p) (on_heap p AppendRow) (fun _ => has p).
Proof. intros P. apply tidy_on_heap; [exact P|intros; apply pres_AppendRow|apply above_AppendRow|apply fresh_AppendRow]. Qed.
Lemma tidy_add_row h0 wild table p ri j : List.length h0 <= p -> reads_root h0 table -> tidy h0 (S p) (has p) (add_row wild table p ri j) (fun _ => has p).
Proof.
  intros P T. unfold add_row. eapply tidy_bind; [now apply tidy_AppendRow|]. cbn beta; intros _.
  destruct j as [|x|x|s|l|m]; try apply tidy_panic. apply tidy_for. intros [ci c] _. cbn [fst snd].
  destruct c as [|x|x|s|l'|m]; try apply tidy_panic. apply tidy_for. intros kv _. apply tidy_set_json; auto.
Qed.
(** After making its table, a reader goes on with that table and the ones it makes later. *)
Lemma tidy_rest h0 b p {A} (m : HM A) : tidy h0 (S p) (has p) m (fun _ => has p) -> List.length h0 <= p -> b <= p ->
  tidy h0 b (own h0 b p) m (fun _ => own h0 b p).
Proof.
  intros M P B h G O L (H & _ & _ & R). unfold has in *. destruct (M h G O H H) as (G1 & L1 & O1 & S1 & Q1).
  split; [exact G1|]. split; [exact L1|]. split; [exact O1|]. split; [intros x z r c Lx; apply S1; lia|].
  intros a E. split; [eapply Q1; exact E|]. split; [exact P|]. split; [exact B|]. intros z r c Lz S. apply (R z r c Lz). apply S1; auto.
Qed.
Lemma SetName_rows n s : rows (s_tab s) = [] -> rows (s_tab (fst (SetName n s))) = [].
Proof. unfold SetName. mstep. destruct (IsValidTableName n); auto. Qed.

Lemma json_reads_root h0 wild : forall fuel, reads_root h0 (newTableFromJSON_recursive fuel wild).
Proof.
  induction fuel as [|fuel IH]; intros b m; cbn [newTableFromJSON_recursive]; [apply tidy_panic|].
  eapply tidy_bind.
  { instantiate (1 := own h0 b).
    destruct (jget m "tableName") as [[|x|x|n|l|m']|]; try apply tidy_err. apply tidy_new; intros; [apply pres_SetName|apply above_SetName|now apply SetName_rows]. }
  intros p. cbn beta. apply (tidy_use _ _ (List.length h0 <= p /\ b <= p)); [unfold own; tauto|]. intros [P1 P2].
  apply tidy_bind with (Q := fun _ => own h0 b p).
  { destruct (jget m "isStructShape") as [[|x|x|n|l|m']|]; try (apply tidy_ret; intros h H; exact H).
    apply tidy_rest; auto. apply tidy_on_heap; [lia|intros; apply pres_SetStructShape|apply above_SetStructShape|apply fresh_SetStructShape]. }
  cbn beta; intros _. apply tidy_bind with (Q := fun _ => own h0 b p); [apply tidy_lift; intros a h _ H; exact H|].
  intros meta. cbn beta. apply tidy_bind with (Q := fun _ => own h0 b p); [apply tidy_rest; auto; apply tidy_for; intros x _; now apply tidy_add_column|].
  cbn beta; intros _. destruct (jget_arr m "data") as [data|]; [|apply tidy_ret; intros h H; exact H].
  apply tidy_bind with (Q := fun _ => own h0 b p); [apply tidy_rest; auto; apply tidy_for; intros x _; apply tidy_add_row; auto|].
  cbn beta; intros _. apply tidy_ret. intros h H; exact H.
Qed.

(** ---------- YAML ---------- *)

Definition reads_root_doc (h0 : heap) (table : list (string * ydoc) -> HM ptr) : Prop :=
  forall b m, go_doc (YMap m) -> tidy h0 b (fun _ => True) (table m) (own h0 b).
Lemma tidy_set_yaml h0 table p ci ri y : List.length h0 <= p -> reads_root_doc h0 table -> go_doc y ->
  tidy h0 (S p) (has p) (set_yaml table p ci ri y) (fun _ => has p).
Proof.
  intros P T G. unfold set_yaml.
  destruct y as [|x|z|z|f|s|t|l|m|]; try (tset1; fail);
    try (apply tidy_bind with (Q := fun _ => has p); [apply tidy_coltype|]; intros ct).
  - apply tidy_err.
  - destruct (if ct =? "rune" then Some KInt32 else int_kind ct) as [k|] eqn:IK.
    + assert (H : In ct all_types /\ forall z, arg_of_type ct (VInt k z) = true).
      { destruct (String.eqb_spec ct "rune") as [->|]; [injection IK as <-; split; [now apply in_types|reflexivity]|now apply int_kind_type]. }
      destruct H as [I A]. apply tidy_set; [lia|exact I|apply A|cbn; apply into_range_ok|discriminate].
    + destruct (String.eqb_spec ct "float32") as [->|]; [tset1; cbn; apply float32_of_int_ok|].
      destruct (ct =? "time.Time"); [apply tidy_panic|apply tidy_err].
  - destruct (String.eqb_spec ct "uint") as [->|]; [tset1|]. destruct (String.eqb_spec ct "uint64") as [->|]; [tset1|].
    destruct (str_in ct asserted); [apply tidy_panic|]. destruct (String.eqb_spec ct "[]byte") as [->|]; [tset1|].
    destruct (String.eqb_spec ct "[]uint8") as [->|]; [tset1|apply tidy_err].
  - destruct (String.eqb_spec ct "float32") as [->|]; [tset1; cbn; now apply float32_of_ok|].
    destruct (String.eqb_spec ct "float64") as [->|]; [tset1|apply tidy_err].
  - destruct (str_in ct asserted); [apply tidy_panic|].
    destruct (String.eqb_spec ct "[]byte") as [->|]; cbn [orb];
      [apply tidy_bind with (Q := fun _ => has p); [apply tidy_lift; auto|]; intros bs; tset1|].
    destruct (String.eqb_spec ct "[]uint8") as [->|];
      [apply tidy_bind with (Q := fun _ => has p); [apply tidy_lift; auto|]; intros bs; tset1|apply tidy_err].
  - destruct (ct =? "*Table").
    { apply tidy_then_set; [exact P|now apply T]. }
    destruct (str_in ct asserted); [apply tidy_panic|]. destruct (String.eqb_spec ct "[]byte") as [->|]; [tset1|].
    destruct (String.eqb_spec ct "[]uint8") as [->|]; [tset1|apply tidy_err].
  - destruct (str_in ct asserted); [apply tidy_panic|]. destruct (String.eqb_spec ct "[]byte") as [->|]; [tset1|].
    destruct (String.eqb_spec ct "[]uint8") as [->|]; [tset1|apply tidy_err].
Qed.
Lemma tidy_add_yaml_column h0 b p y : List.length h0 <= p -> tidy h0 b (has p) (add_yaml_column p y) (fun _ => has p).
Proof.
  intros P. unfold add_yaml_column. destruct y as [|x|z|z|f|s|t|l|m|]; try apply tidy_panic.
  destruct (last m _) as [cn [|x|z|z|f|s|t|l|m'|]]; try apply tidy_err.
  apply tidy_on_heap; [exact P|intros; apply pres_AppendCol|apply above_AppendCol|apply fresh_AppendCol].
Qed.
Lemma yaml_reads_root h0 : forall fuel, reads_root_doc h0 (newTableFromYAML_recursive fuel).
Proof.
  induction fuel as [|fuel IH]; intros b m G; cbn [newTableFromYAML_recursive]; [apply tidy_panic|].
  destruct (yget m "tableName") as [[|x|z|z|f|n|t|l|m'|]|]; try apply tidy_err.
  destruct (n =? ""); [apply tidy_new; intros; [apply pres_ret|apply above_ret|auto]|].
  apply tidy_bind with (Q := own h0 b); [apply tidy_new; intros; [apply pres_SetName|apply above_SetName|now apply SetName_rows]|].
  intros p. apply (tidy_use _ _ (List.length h0 <= p /\ b <= p)); [unfold own; tauto|]. intros [P1 P2].
  apply tidy_bind with (Q := fun _ => own h0 b p).
  { destruct (yget m "isStructShape") as [[|x|z|z|f|s|t|l|m'|]|]; try (apply tidy_ret; intros h H; exact H).
    apply tidy_rest; auto. apply tidy_on_heap; [lia|intros; apply pres_SetStructShape|apply above_SetStructShape|apply fresh_SetStructShape]. }
  cbn beta; intros _. apply tidy_bind with (Q := fun _ => own h0 b p); [apply tidy_lift; intros a h _ H; exact H|].
  intros meta. cbn beta. apply tidy_bind with (Q := fun _ => own h0 b p); [apply tidy_rest; auto; apply tidy_for; intros x _; now apply tidy_add_yaml_column|].
  cbn beta; intros _. apply tidy_bind with (Q := fun data h => own h0 b p h /\ Forall (Forall go_doc) data);
    [apply tidy_lift; intros data h E H; split; [exact H|eapply yaml_rows_go; eauto]|].
  intros data. apply tidy_know. intros D.
  apply tidy_bind with (Q := fun _ => own h0 b p).
  { apply tidy_rest; auto. apply tidy_for. intros r Ir. apply In_numbered in Ir. rewrite Forall_forall in D. specialize (D _ Ir).
    unfold add_yaml_row. apply tidy_bind with (Q := fun _ => has p); [now apply tidy_AppendRow|]. cbn beta; intros _.
    apply tidy_for. intros c Ic. apply In_numbered in Ic. rewrite Forall_forall in D. apply tidy_set_yaml; [lia|exact IH|now apply D]. }
  cbn beta; intros _. apply tidy_ret. intros h H; exact H.
Qed.

(** ---------- trees ---------- *)

Lemma NoDup_flat {A B} (f : A -> list B) l : (forall x, In x l -> NoDup (f x)) ->
  (forall i j x y a, nth_error l i = Some x -> nth_error l j = Some y -> In a (f x) -> In a (f y) -> i = j) -> NoDup (flat_map f l).
Proof.
  induction l as [|x l IH]; intros N D; cbn [flat_map]; [constructor|].
  assert (N2 : NoDup (flat_map f l)).
  { apply IH; [intros y I; apply N; now right|]. intros i j y z a Hi Hj Ia Ja. assert (S i = S j) by (eapply D; eauto). lia. }
  assert (X : forall a, In a (f x) -> ~ In a (flat_map f l)).
  { intros a I J. apply in_flat_map in J as (y & J & K). apply In_nth_error in J as [j J]. specialize (D 0 (S j) x y a eq_refl J I K). discriminate. }
  assert (N1 := N x (or_introl eq_refl)). clear - N1 N2 X. induction (f x) as [|a r IH]; [exact N2|]. inversion N1 as [|? ? N3 N4]; subst. cbn [app]. constructor.
  - rewrite in_app_iff. intros [I|I]; [contradiction|]. exact (X a (or_introl eq_refl) I).
  - apply IH; auto. intros b I. apply X. now right.
Qed.
Lemma NoDup_nested t : (forall r c r' c' q, spot t r c q -> spot t r' c' q -> r = r' /\ c = c') -> NoDup (nested_in (rows t)).
Proof.
  intros U. unfold nested_in.
  assert (K : forall v q, In q (match v with VTable (Some p) => [p] | _ => [] end) -> v = VTable (Some q)).
  { intros v q I. destruct v as [| | | | | | |[z|]| |]; try contradiction. destruct I as [->|[]]. reflexivity. }
  apply NoDup_flat.
  - intros row I. apply In_nth_error in I as [r R]. apply NoDup_flat.
    + intros v _. destruct v as [| | | | | | |[z|]| |]; try constructor; [intros []|constructor].
    + intros i j x y a Hi Hj Ia Ja. apply K in Ia. apply K in Ja. subst. apply (U r i r j a); exists row; auto.
  - intros i j x y a Hi Hj Ia Ja. apply in_flat_map in Ia as (v & Iv & Ia). apply in_flat_map in Ja as (w & Jw & Ja). apply K in Ia. apply K in Ja. subst.
    apply In_nth_error in Iv as [c Iv]. apply In_nth_error in Jw as [d Jw]. apply (U i c j d a); [exists x|exists y]; auto.
Qed.
Lemma NoDup_filt {A} (f : A -> bool) l : NoDup l -> NoDup (filter f l).
Proof. induction 1 as [|x l N _ IH]; cbn [filter]; [constructor|]. destruct (f x); [constructor; auto; intros I; apply filter_In in I; tauto|auto]. Qed.

Section Forest.
Variables (n : nat) (h : heap).
Hypothesis W : wf_heap h.
Hypothesis UP : upward n h.
Hypothesis ON : once n h.
Definition under (a b : ptr) : Prop := n <= a /\ exists r c, place h a r c b.
Lemma under_lt a b : under a b -> a < b /\ b < List.length h.
Proof.
  intros (A & r & c & P). destruct (place_lt _ _ _ _ _ W P) as [L1 L2]. split; [|exact L2].
  destruct (nth_error h a) as [t|] eqn:E; [|apply nth_error_None in E; lia]. specialize (UP a t A E). apply ptrs_gt_nested with (t := t); [exact UP|].
  destruct P as (row & R & C). apply In_nested_in. unfold tab in R. rewrite (nth_error_nth h a _ E) in R. eauto.
Qed.
Lemma under_one a a' b : under a b -> under a' b -> a = a'.
Proof. intros (A & r & c & P) (A' & r' & c' & P'). now destruct (ON b a r c a' r' c' A A' P P'). Qed.
Definition desc (a b : ptr) : Prop := clos_refl_trans_n1 _ under a b.
Lemma desc_le a b : desc a b -> a <= b.
Proof. induction 1 as [|b c U _ IH]; [lia|]. apply under_lt in U. unfold ptr in *. lia. Qed.
Lemma desc_line a b x : desc a x -> desc b x -> desc a b \/ desc b a.
Proof.
  intros A. revert b. induction A as [|y z U A IH]; intros b B; [now right|].
  inversion B as [|y' ? U' B']; subst; [left; econstructor; eauto|].
  rewrite (under_one _ _ _ U' U) in B'. now apply IH.
Qed.
Lemma desc_step a b c : under a b -> desc b c -> desc a c.
Proof. intros U. induction 1 as [|x y U2 _ IH]; [econstructor; [exact U|constructor]|econstructor; eauto]. Qed.
Lemma siblings p q q' x : under p q -> under p q' -> desc q x -> desc q' x -> q = q'.
Proof.
  intros U U' D D'.
  assert (X : forall a b, under p a -> under p b -> desc a b -> a = b).
  { intros a b Ua Ub K. inversion K as [|y ? Uy Ky]; subst; [reflexivity|]. rewrite (under_one _ _ _ Uy Ub) in Ky. apply desc_le in Ky. apply under_lt in Ua. unfold ptr in *. lia. }
  destruct (desc_line q q' x D D') as [K|K]; [now apply X|symmetry; now apply X].
Qed.
Lemma forest_tree : forall k p, List.length h - p <= k -> n <= p -> exists l, unfolds h p l /\ NoDup l /\ Forall (desc p) l.
Proof.
  induction k as [|k IH]; intros p K P.
  - assert (E : rows (tab h p) = []) by (unfold tab; rewrite nth_overflow by lia; reflexivity).
    exists [p]. split; [|split; [repeat constructor; auto|repeat constructor]]. change [p] with (p :: List.concat []). constructor. rewrite E. constructor.
  - set (qs := filter (fun q => negb (is_nil (tab h q))) (nested_in (rows (tab h p)))).
    assert (Q : Forall (under p) qs).
    { apply Forall_forall. intros q I. apply filter_In in I as [I _]. apply In_nested_in in I as (r & row & c & R & C). split; [exact P|]. exists r, c, row. auto. }
    assert (N : NoDup qs).
    { apply NoDup_filt, NoDup_nested. intros r c r' c' q S S'. now destruct (ON q p r c p r' c' P P S S'). }
    assert (X : exists ls, Forall2 (fun q l => unfolds h q l /\ NoDup l /\ Forall (desc q) l) qs ls).
    { clear N. induction Q as [|q qs' U _ IHq]; [exists []; constructor|]. destruct IHq as [ls F]. pose proof (under_lt _ _ U) as [L1 L2].
      destruct (IH q) as (l & H); [unfold ptr in *; lia|unfold ptr in *; lia|]. exists (l :: ls). constructor; auto. }
    destruct X as [ls F]. exists (p :: List.concat ls).
    assert (F1 : Forall2 (unfolds h) qs ls) by (clear - F; induction F as [|q l qs' ls' (A & _) _ IHF]; constructor; auto).
    assert (AT : forall i l, nth_error ls i = Some l -> exists q, nth_error qs i = Some q /\ under p q /\ NoDup l /\ Forall (desc q) l).
    { clear - F Q. induction F as [|q l qs' ls' (_ & A & B) _ IHF]; intros [|i] l0 E; try discriminate E; inversion Q; subst.
      - injection E as <-. exists q. auto.
      - now apply IHF. }
    assert (IN : forall x, In x (List.concat ls) -> exists q, under p q /\ desc q x).
    { intros x I. apply in_concat in I as (l & Il & I). apply In_nth_error in Il as [i Il]. destruct (AT i l Il) as (q & _ & U & _ & D). rewrite Forall_forall in D. eauto. }
    split; [now constructor|]. split.
    + constructor.
      * intros I. apply IN in I as (q & U & D). apply desc_le in D. apply under_lt in U. unfold ptr in *. lia.
      * rewrite <- (map_id ls), <- flat_map_concat_map. apply NoDup_flat.
        -- intros l I. apply In_nth_error in I as [i I]. destruct (AT i l I) as (q & _ & _ & Nl & _). exact Nl.
        -- intros i j l l' x Hi Hj I J. destruct (AT i l Hi) as (q & Qi & U & _ & D). destruct (AT j l' Hj) as (q' & Qj & U' & _ & D'). rewrite Forall_forall in D, D'.
           assert (q = q') as <- by (eapply siblings; eauto). apply (proj1 (NoDup_nth_error qs) N); [now apply nth_error_some_lt in Qi|congruence].
    + constructor; [constructor|]. apply Forall_forall. intros x I. apply IN in I as (q & U & D). eapply desc_step; eauto.
Qed.
End Forest.
Lemma grown_tree h0 h p : grown h0 h -> once (List.length h0) h -> List.length h0 <= p -> is_tree h p.
Proof.
  intros G O P. destruct (forest_tree (List.length h0) h (gr_wf _ _ G) (gr_up _ _ G) O (List.length h) p) as (l & U & N & _); [lia|exact P|]. now exists l.
Qed.
Lemma once_start h : once (List.length h) h.
Proof. intros q z r c z' r' c' L _ (row & R & _). exfalso. unfold tab in R. rewrite nth_overflow in R by auto. destruct r; discriminate. Qed.

(** ---------- table sets ---------- *)

Lemma tidy_pure {A} h0 b P (f : heap -> res A) : tidy h0 b P (fun h => (h, f h)) (fun _ => P).
Proof. intros h G O L Ph. split; [exact G|]. split; [cbn; lia|]. split; [exact O|]. split; [apply less_refl|]. intros; exact Ph. Qed.
Definition anything (h : heap) : Prop := True.
Lemma tidy_append h0 b s (p : ptr) : tidy h0 b anything (fun h => let '(s', x) := AppendTable h s (Some p) in (h, let! _ := x in Ok s')) (fun _ => anything).
Proof.
  intros h G O L Ph. pose proof (tidy_pure h0 b anything (fun h => let '(s', x) := AppendTable h s (Some p) in let! _ := x in Ok s') h G O L Ph) as T. cbn beta in T.
  destruct (AppendTable h s (Some p)) as [s' x]. exact T.
Qed.
Lemma tidy_any {A} h0 b (m : HM A) Q : tidy h0 b (fun _ => True) m Q -> tidy h0 b anything m (fun _ => anything).
Proof. intros M h G O L _. destruct (M h G O L I) as (A1 & A2 & A3 & A4 & _). split; [exact A1|]. split; [exact A2|]. split; [exact A3|]. split; [exact A4|]. intros; exact I. Qed.
Lemma tidy_tables_json h0 b wild : forall l s, tidy h0 b anything (tables_from_json wild l s) (fun _ => anything).
Proof.
  induction l as [|j l IH]; intros s; cbn [tables_from_json]; [apply tidy_ret; auto|]. destruct j as [|x|x|x|x|m]; try apply tidy_panic.
  apply tidy_bind with (Q := fun _ => anything); [eapply tidy_any; apply json_reads_root|]. intros p. cbn beta.
  apply tidy_bind with (Q := fun _ => anything); [apply tidy_append|]. intros s'. apply IH.
Qed.
Lemma tidy_tables_yaml h0 b : forall l s, go_doc (YList l) -> tidy h0 b anything (tables_from_yaml l s) (fun _ => anything).
Proof.
  induction l as [|j l IH]; intros s GD; cbn [tables_from_yaml]; [apply tidy_ret; auto|].
  apply go_list in GD. apply Forall_cons_iff in GD as [Gj Gl]. apply go_list in Gl. destruct j as [|x|z|z|f|x|t|l'|m|]; try apply tidy_panic.
  apply tidy_bind with (Q := fun _ => anything); [eapply tidy_any; now apply yaml_reads_root|]. intros p. cbn beta.
  apply tidy_bind with (Q := fun _ => anything); [apply tidy_append|]. intros s'. now apply IH.
Qed.
Lemma json_once wild x h h' s : wf_heap h -> NewTableSetFromJSON wild x h = (h', Ok s) -> once (List.length h) h'.
Proof.
  intros W E. pose proof (grown_refl h W) as G. unfold NewTableSetFromJSON in E. destruct (x =? ""); [discriminate E|].
  generalize dependent (json_decode x). intros [m|] E; [|discriminate E]. unfold hbind, hlift in E. cbn [of_opt] in E.
  destruct (jget m "tableSetName") as [[|y|y|n|l|m']|]; try discriminate E. destruct (jget_arr m "tables") as [l|]; [|discriminate E].
  destruct (tidy_tables_json h 0 wild l (NewTableSet n) h G (once_start h) ltac:(lia) I) as (_ & _ & O & _). now rewrite E in O.
Qed.
Lemma yaml_once Y x h h' s : wf_heap h -> (forall m, unmarshal Y x = Ok m -> go_doc (YMap m)) -> NewTableSetFromYAML Y x h = (h', Ok s) -> once (List.length h) h'.
Proof.
  intros W GY E. pose proof (grown_refl h W) as G. unfold NewTableSetFromYAML in E. destruct (is_no_text Y x); [discriminate E|].
  unfold hbind, hlift in E. destruct (unmarshal Y x) as [m| |]; [|discriminate E..]. specialize (GY m eq_refl).
  destruct (yget m "tableSetName") as [[|y|z|z|f|n|t|l|m'|]|]; try discriminate E. destruct (yget m "tables") as [[|y|z|z|f|y|t|l|m'|]|] eqn:T; try discriminate E.
  destruct (tidy_tables_yaml h 0 l (NewTableSet n) (go_get _ _ _ GY T) h G (once_start h) ltac:(lia) I) as (_ & _ & O & _). now rewrite E in O.
Qed.
Lemma new_set_trees h0 h s : grown h0 h -> once (List.length h0) h -> new_set_in h0 h s ->
  Forall (fun o => exists p, o = Some p /\ is_tree h p) (ts_tables s).
Proof.
  intros G O [_ F]. eapply Forall_impl; [|exact F]. intros o (p & -> & L). exists p. split; [reflexivity|]. eapply grown_tree; eauto.
Qed.
Lemma json_trees wild x h h' s : wf_heap h -> NewTableSetFromJSON wild x h = (h', Ok s) -> Forall (fun o => exists p, o = Some p /\ is_tree h' p) (ts_tables s).
Proof.
  intros W E. pose proof (json_once _ _ _ _ _ W E) as O. destruct (json_set_new wild x h W) as [G N]. rewrite E in G, N. cbn [fst snd] in *. eapply new_set_trees; eauto.
Qed.
Lemma yaml_trees Y x h h' s : wf_heap h -> (forall m, unmarshal Y x = Ok m -> go_doc (YMap m)) -> NewTableSetFromYAML Y x h = (h', Ok s) ->
  Forall (fun o => exists p, o = Some p /\ is_tree h' p) (ts_tables s).
Proof.
  intros W GY E. pose proof (yaml_once _ _ _ _ _ W GY E) as O. destruct (yaml_set_new Y x h W GY) as [G N]. rewrite E in G, N. cbn [fst snd] in *. eapply new_set_trees; eauto.
Qed.
