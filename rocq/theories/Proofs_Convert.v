(** Proofs_Convert.v -- one conversion keeps the data, and what keeps a table keeps its copies. *)
From Coq Require Import ZArith NArith List String Ascii Bool SpecFloat Lia Relations.
From Verif Require Import Base Model_Names Model_Table Model_Sort Model_Ops Model_Heap Model_TableSet Model_Lex Model_Float Model_Time
  Model_Parser Model_Print Model_Json Model_Yaml Model_Gob Spec Spec_Sort Spec_Heap Spec_Walk Spec_Equals Spec_TableSet Spec_Text Spec_Json Spec_Yaml Spec_Gob Spec_Convert
  Proofs_Lib Proofs_Table Proofs_Cells Proofs_Heap Proofs_Walk Proofs_Equals Proofs_TableSet Proofs_Block Proofs_Unpadded Proofs_Padded Proofs_JsonTree
  Props_Heap Props_Equals Props_Parser Props_Text Props_Json Props_Yaml Props_Gob.
Import ListNotations.
Local Open Scope string_scope.
Local Open Scope list_scope.

(** ---------- cells ---------- *)

Lemma gob_cell_refl v : gob_cell v v.
Proof. now left. Qed.
Lemma gob_cell_sym v w : gob_cell v w -> gob_cell w v.
Proof. intros [->|G]; [now left|]. right. destruct v as [| | | | | |[[|]|]| | |], w as [| | | | | |[[|]|]| | |]; try contradiction; exact I. Qed.
Lemma gob_cell_trans u v w : gob_cell u v -> gob_cell v w -> gob_cell u w.
Proof.
  intros [->|A] [->|B]; [now left|now right|now right|].
  destruct u as [| | | | | |[[|]|]| | |], v as [| | | | | |[[|]|]| | |]; try contradiction; destruct w as [| | | | | |[[|]|]| | |]; try contradiction; now left.
Qed.
Lemma gob_cell_read_back v : gob_cell v (read_back v).
Proof. destruct v as [| | | | | |[l|]| | |]; try (now left). now right. Qed.

Lemma Forall2_refl_on {A} (R : A -> A -> Prop) l : (forall a, R a a) -> Forall2 R l l.
Proof. intros X. induction l; constructor; auto. Qed.
Lemma Forall2_sym_on {A} (R : A -> A -> Prop) : (forall a b, R a b -> R b a) -> forall l l', Forall2 R l l' -> Forall2 R l' l.
Proof. intros X l l'. induction 1; constructor; auto. Qed.
Lemma Forall2_trans_on {A} (R : A -> A -> Prop) : (forall a b c, R a b -> R b c -> R a c) -> forall l l' l'', Forall2 R l l' -> Forall2 R l' l'' -> Forall2 R l l''.
Proof. intros X l l' l'' F. revert l''. induction F; intros l'' G; inversion G; subst; constructor; eauto. Qed.

Lemma same_data_refl t : same_data t t.
Proof. split; try reflexivity. apply Forall2_refl_on. intros r. apply Forall2_refl_on. apply gob_cell_refl. Qed.
Lemma same_data_sym t t' : same_data t t' -> same_data t' t.
Proof. intros [A B C D E]. split; auto. revert D. apply Forall2_sym_on. apply Forall2_sym_on. apply gob_cell_sym. Qed.
Lemma same_data_trans t t' t'' : same_data t t' -> same_data t' t'' -> same_data t t''.
Proof.
  intros [A B C D E] [A' B' C' D' E']. split; try congruence. revert D D'. apply Forall2_trans_on. apply Forall2_trans_on. apply gob_cell_trans.
Qed.

(** A property of values that does not tell a nil slice from an empty one *)
Lemma rows_moved (P : value -> Prop) rs rs' : (forall v w, gob_cell v w -> P v -> P w) ->
  Forall2 (Forall2 gob_cell) rs rs' -> Forall (Forall P) rs -> Forall (Forall P) rs'.
Proof.
  intros X. induction 1 as [|row row' rs rs' G _ IH]; intros F; inversion F as [|? ? F1 F2]; subst; constructor; [|now apply IH]. clear - X G F1.
  induction G as [|v w vs ws VW _ IH]; inversion F1; subst; constructor; [eapply X; eauto|now apply IH].
Qed.
Lemma rows_moved2 (P : string -> value -> Prop) cts rs rs' : (forall ct v w, gob_cell v w -> P ct v -> P ct w) ->
  Forall2 (Forall2 gob_cell) rs rs' -> Forall (Forall2 P cts) rs -> Forall (Forall2 P cts) rs'.
Proof.
  intros X. induction 1 as [|row row' rs rs' G _ IH]; intros F; inversion F as [|? ? F1 F2]; subst; constructor; [|now apply IH]. clear - X G F1.
  revert cts F1. induction G as [|v w vs ws VW _ IH]; intros cts F1; inversion F1; subst; constructor; [eapply X; eauto|now apply IH].
Qed.

Lemma plain_cell_moved ct v w : gob_cell v w -> plain_cell ct v -> plain_cell ct w.
Proof. intros [<-|G]; [auto|]. destruct v as [| | | | | |[[|]|]| | |], w as [| | | | | |[[|]|]| | |]; try contradiction; auto. Qed.
Lemma padded_cell_moved ct v w : gob_cell v w -> padded_cell ct v -> padded_cell ct w.
Proof. intros [<-|G]; [auto|]. destruct v as [| | | | | |[[|]|]| | |], w as [| | | | | |[[|]|]| | |]; try contradiction; auto. Qed.
Lemma json_value_moved ip ct v w : gob_cell v w -> json_value_ok ip ct v -> json_value_ok ip ct w.
Proof. intros [<-|G]; [auto|]. destruct v as [| | | | | |[[|]|]| | |], w as [| | | | | |[[|]|]| | |]; try contradiction; auto. Qed.
Lemma yaml_value_moved text v w : gob_cell v w -> yaml_value_ok text v -> yaml_value_ok text w.
Proof. intros [<-|G]; [auto|]. destruct v as [| | | | | |[[|]|]| | |], w as [| | | | | |[[|]|]| | |]; try contradiction; auto. Qed.

Lemma nested_moved rs rs' : Forall2 (Forall2 gob_cell) rs rs' -> nested_in rs = [] -> nested_in rs' = [].
Proof.
  unfold nested_in. induction 1 as [|row row' rs rs' G _ IH]; [reflexivity|]. cbn [flat_map]. intros E. apply app_eq_nil in E as [E1 E2]. rewrite (IH E2), app_nil_r. clear - G E1.
  induction G as [|v w vs ws VW _ IH]; [reflexivity|]. cbn [flat_map] in *. apply app_eq_nil in E1 as [E1 E2]. rewrite (IH E2), app_nil_r.
  destruct VW as [<-|VW]; [exact E1|]. destruct v as [| | | | | |[[|]|]| | |], w as [| | | | | |[[|]|]| | |]; try contradiction; reflexivity.
Qed.

(** What keeps a table keeps what has the same data. *)
Lemma text_moved ok (cell : string -> value -> Prop) t t' : (forall ct v w, gob_cell v w -> cell ct v -> cell ct w) -> same_data t t' -> wf_table t' ->
  (struct_shape t' = true -> struct_shape t = true) -> text_table ok cell t -> text_table ok cell t'.
Proof.
  intros X [A B C D E] W' SH (_ & N & AN & S & NC & TO & RO). split; [exact W'|]. split; [congruence|]. split; [now rewrite A|]. split; [|split; [|split]].
  - destruct (struct_shape t') eqn:Q; [|now left]. right. destruct S as [S|S]; [rewrite SH in S by reflexivity; discriminate|]. now rewrite <- (Forall2_len _ _ _ D).
  - rewrite B. intros Q. specialize (NC Q). rewrite NC in D. now inversion D.
  - now rewrite C.
  - rewrite C. eapply rows_moved2; eauto.
Qed.
Lemma keeps_moved X text f t t' : same_data t t' -> wf_table t' -> skeys t' = [] -> (struct_shape t' = true -> struct_shape t = true) ->
  keeps_table X text f t -> keeps_table X text f t'.
Proof.
  intros SD W' K SH. pose proof SD as [A B C D E]. destruct f; cbn [keeps_table].
  - apply text_moved; auto. apply plain_cell_moved.
  - apply text_moved; auto. apply padded_cell_moved.
  - intros (J1 & J2 & J3). rewrite A, B, C. split; [exact J1|]. split; [exact J2|]. eapply rows_moved2; eauto. apply json_value_moved.
  - intros (J1 & J2 & J3). rewrite A, B. split; [exact J1|]. split; [exact J2|]. eapply rows_moved; eauto. apply yaml_value_moved.
  - intros (_ & J). split; [exact K|]. eapply rows_moved; eauto. intros v w. apply gob_cell_plain.
Qed.

(** ---------- tables without nested tables ---------- *)

Lemma nests_none h (p q : ptr) : no_nested (tab h p) -> ~ nests h p q.
Proof. intros N (t & E & I). unfold no_nested, tab in N. rewrite (nth_error_nth _ _ _ E) in N. now rewrite N in I. Qed.
Lemma below_none h (p q : ptr) : no_nested (tab h p) -> clos_refl_trans _ (nests h) p q -> q = p.
Proof.
  intros N C. apply clos_rt_rt1n in C. destruct C as [|a b S _]; [reflexivity|]. elim (nests_none h p a N S).
Qed.
Lemma flat_tree h (p : ptr) : no_nested (tab h p) -> is_tree h p.
Proof.
  intros N. exists (p :: List.concat []). split; [|repeat constructor; intros []]. constructor. unfold no_nested in N. rewrite N. constructor.
Qed.
Lemma flat_depth h (p : ptr) : no_nested (tab h p) -> depth_at_most 1 h p.
Proof. intros N q S. elim (nests_none h p q N S). Qed.

Lemma deep_copy_data h h' (p p' : ptr) : is_nil (tab h p) = false -> no_nested (tab h p) -> deep_copy h h' p p' ->
  same_data (tab h p) (tab h' p') /\ struct_shape (tab h' p') = struct_shape (tab h p) /\ skeys (tab h' p') = [].
Proof.
  intros NN N D. inversion D as [a b D1 D2 D3 D4 D5 D6 D7]; subst. split; [|auto]. split; auto; [|congruence].
  unfold no_nested, nested_in in N. revert N D7. generalize (rows (tab h' p')). induction (rows (tab h p)) as [|row rs IH]; intros rs' N F; inversion F as [|? row' ? rs2 F1 F2]; subst; constructor.
  - cbn [flat_map] in N. apply app_eq_nil in N as [N _]. clear - N F1. revert N. induction F1 as [|v w vs ws VW _ IH]; intros N; constructor; cbn [flat_map] in N; apply app_eq_nil in N as [N1 N2].
    + inversion VW; subst; [apply gob_cell_read_back|discriminate N1|discriminate N1].
    + now apply IH.
  - cbn [flat_map] in N. apply app_eq_nil in N as [_ N]. now apply IH.
Qed.
Lemma fresh_data f t t' : is_nil t = false -> (forall v, gob_cell v (f v)) -> fresh_table (tname t) (cnames t) (ctypes t) (map (map f) (rows t)) t' ->
  same_data t t'.
Proof.
  intros N X F. split; [apply (ft_name _ _ _ _ _ F)|apply (ft_names _ _ _ _ _ F)|apply (ft_types _ _ _ _ _ F)| |rewrite N; apply (ft_notnil _ _ _ _ _ F)].
  rewrite (ft_rows _ _ _ _ _ F). clear - X. induction (rows t) as [|row rs IH]; [constructor|]. cbn [map]. constructor; [|exact IH]. clear - X. induction row; cbn [map]; constructor; auto.
Qed.

(** The round trip of one table as JSON, from a heap that is well formed *)
Lemma json_table_trip ip wild h (p : ptr) : wf_heap h -> json_ready ip h p ->
  exists x, GetTableAsJSON ip h (Some p) = Ok x
    /\ forall h2, wf_heap h2 -> exists h3 p', NewTableFromJSON wild x h2 = (h3, Ok (Some p'))
         /\ NewTableFromJSONByTableName wild x (tname (tab h p)) h2 = (h3, Ok (Some p'))
         /\ deep_copy h h3 p p' /\ wf_heap h3 /\ List.length h2 <= p' < List.length h3
         /\ (forall a, a < List.length h2 -> nth_error h3 a = nth_error h2 a).
Proof.
  intros WH RD. set (s := mkTS "" "" [Some p]).
  destruct (set_written h ip s WH) as [[x X] _].
  { intros o [<-|[]]. exists p. split; [reflexivity|apply RD]. }
  { repeat constructor. exists p. split; [reflexivity|apply RD]. }
  exists x. split; [exact X|]. intros h2 WH2.
  destruct (set_read ip wild h s x WH) with (h2 := h2) as (h3 & s' & N & [S1 S2] & _ & WH3 & _ & OLD & NEW); try assumption.
  { exists []. split; [constructor|reflexivity]. } { repeat constructor. intros []. } { repeat constructor. eauto. }
  unfold s in S2. cbn [ts_tables] in S2. inversion S2 as [|? o' ? l' (a & p' & EA & -> & DC) F2 EQ1 EQ2]; subst. inversion F2; subst.
  injection EA as <-. rewrite <- EQ2 in NEW. inversion NEW as [|? ? (b & EB & LB) _]; subst. injection EB as <-.
  assert (NE : (x =? "")%string = false). { destruct (String.eqb_spec x ""); [subst x|reflexivity]. cbn in N. discriminate. }
  exists h3, p'. split; [|split; [|auto]].
  + unfold NewTableFromJSON. rewrite NE. unfold hbind. rewrite N. unfold TableCount, GetTableByTableIndex, TableCount. rewrite <- EQ2. reflexivity.
  + unfold NewTableFromJSONByTableName, hbind. rewrite N. unfold GetTable. rewrite <- EQ2. cbn [find_table ref_name].
    inversion DC as [? ? _ TN]; subst. rewrite TN, String.eqb_refl. reflexivity.
Qed.

(** ---------- one conversion ---------- *)

Section Step.
Variables (X : outside) (text : string -> Prop) (limit : nat).
Hypothesis YO : yaml_ok (o_yaml X) text limit.
Hypothesis LIM : 7 <= limit.
Hypothesis GO : gob_ok (o_gob X).

Lemma one_conversion f h (p : ptr) : wf_heap h -> p < List.length h -> is_nil (tab h p) = false -> no_nested (tab h p) -> keeps_table X text f (tab h p) ->
  exists h' (p' : ptr), through X f p h = (h', Ok (Some p')) /\ wf_heap h' /\ List.length h <= p' < List.length h'
    /\ (forall a, a < List.length h -> nth_error h' a = nth_error h a)
    /\ same_data (tab h p) (tab h' p') /\ skeys (tab h' p') = []
    /\ struct_shape (tab h' p') = (struct_shape (tab h p) && negb (is_text f))%bool.
Proof.
  intros WH L NN N K. set (t := tab h p) in *. destruct (tab_wf h p WH) as [W _]. fold t in W.
  assert (OLD : forall t', forall a, a < List.length h -> nth_error (h ++ [t']) a = nth_error h a) by (intros; now apply nth_error_app1).
  assert (LEN : forall t' : table, List.length h <= List.length h < List.length (h ++ [t'])) by (intros; rewrite app_length; cbn [List.length]; lia).
  destruct f; cbn [through is_text negb]; fold t; cbn [keeps_table] in K.
  - destruct (unpadded_roundtrip (o_ip X) h t h K) as (s & t' & E & R & F). rewrite E. cbn [then_read]. rewrite R.
    destruct (C26_NewTableFromString s h _ _ WH R) as (WH' & _ & _). exists (h ++ [t']), (List.length h). rewrite tab_snoc.
    split; [reflexivity|]. split; [exact WH'|]. split; [apply LEN|]. split; [apply OLD|]. split; [|split; [apply (ft_keys _ _ _ _ _ F)|rewrite andb_false_r; apply (ft_shape _ _ _ _ _ F)]].
    apply (fresh_data (fun v => v)); [exact NN|apply gob_cell_refl|]. now rewrite map_map_id.
  - destruct (padded_roundtrip (o_ip X) h t h K) as (s & t' & E & R & F). rewrite E. cbn [then_read]. rewrite R.
    destruct (C26_NewTableFromString s h _ _ WH R) as (WH' & _ & _). exists (h ++ [t']), (List.length h). rewrite tab_snoc.
    split; [reflexivity|]. split; [exact WH'|]. split; [apply LEN|]. split; [apply OLD|]. split; [|split; [apply (ft_keys _ _ _ _ _ F)|rewrite andb_false_r; apply (ft_shape _ _ _ _ _ F)]].
    apply (fresh_data read_back); [exact NN|apply gob_cell_read_back|exact F].
  - destruct (json_table_trip (o_ip X) (o_wild X) h p WH) as (x & E & RT).
    { split; [exact L|]. split; [exact NN|]. split; [now apply flat_tree|]. split; [|exists 1; split; [lia|now apply flat_depth]].
      intros q C _. apply (below_none h p q N) in C. subst q. exact K. }
    rewrite E. cbn [then_read]. destruct (RT h WH) as (h' & p' & R & _ & DC & WH' & LP & OL). rewrite R. exists h', p'.
    destruct (deep_copy_data h h' p p' NN N DC) as (SD & SS & SK). rewrite andb_true_r. auto 10.
  - destruct (yaml_set_trip (o_yaml X) text limit h (mkTS "" "" [Some p]) 1 YO WH) as (x & E & RT).
    { apply (yaml_printable _ _ _ YO). constructor. } { repeat constructor. intros []. }
    { repeat constructor. exists p. split; [reflexivity|]. split; [exact L|]. split; [exact NN|]. split; [|now apply flat_depth].
      intros q C _. apply (below_none h p q N) in C. subst q. exact K. }
    { lia. }
    rewrite (E _ (le_n _)). cbn [then_read]. destruct (RT h WH) as (h' & s' & R & [_ SC] & WH' & LP & OL). unfold hbind. rewrite R.
    cbn [ts_tables] in SC. inversion SC as [|? o' ? l' (a & p' & EA & -> & DC) F2 EQ1 EQ2]; subst. inversion F2; subst. injection EA as <-.
    rewrite <- EQ2 in LP. inversion LP as [|? ? (b & EB & LB) _]; subst. injection EB as <-.
    exists h', p'. destruct (deep_copy_data h h' p p' NN N DC) as (SD & SS & SK). rewrite andb_true_r.
    split; [|auto 10]. unfold hlift, GetTableByTableIndex, TableCount. rewrite <- EQ2. reflexivity.
  - destruct K as [SK PL]. destruct (gob_trip _ GO (export_of t)) as (b & e' & EN & DE & G); [exact PL|].
    unfold GobEncode. fold t. rewrite (exportTable_eq t W NN SK). cbn [rbind]. rewrite EN. cbn [then_read]. unfold GobDecodeTable. rewrite DE.
    destruct (importTable_eq t e' h W NN G WH PL) as [R WH']. rewrite R. exists (h ++ [imported e']), (List.length h). rewrite tab_snoc.
    split; [reflexivity|]. split; [exact WH'|]. split; [apply LEN|]. split; [apply OLD|]. split; [|split; [reflexivity|]].
    + split; [apply (gl_name _ _ G)|apply (gl_names _ _ G)|apply (gl_types _ _ G)|apply (gl_rows _ _ G)|now rewrite NN].
    + rewrite andb_true_r. apply (gl_shape _ _ G).
Qed.
End Step.
