(** Proofs_Padded.v -- NewTableFromString(StringPadded()). *)
From Coq Require Import ZArith NArith List String Ascii Bool SpecFloat Lia.
From Verif Require Import Base Model_Names Model_Table Model_Heap Model_TableSet Spec Spec_Text Model_Lex Model_Float Model_Time Model_Parser Model_Print
  Proofs_Lib Proofs_Table Proofs_Lex Proofs_Num Proofs_Float Proofs_Parser Proofs_FloatText Proofs_TimeText Proofs_Lines Proofs_Block Proofs_CellText Proofs_Unpadded.
Import ListNotations.
Local Open Scope string_scope.
Local Open Scope list_scope.

(** ---------- items ---------- *)

Definition inked (u : string) : Prop := exists a c, u = (a ++ String c "")%string /\ Ascii.eqb " " c = false.
(** Whatever the width, the item is [u] with spaces around it. *)
Definition item (is_cell : bool) (ct : string) (precis : Z) (s u : string) : Prop :=
  inked u /\ forall rm width, exists k j, matrix_item ct width rm is_cell precis s = Some (spaces k ++ u ++ spaces j)%string.

Lemma trim_left_spaces' k c s : Ascii.eqb " " c = false -> trim_left (Ascii.eqb " ") (spaces k ++ String c s) = String c s.
Proof. intros C. induction k; cbn [spaces append trim_left]; [now rewrite C|]. exact IHk. Qed.
Lemma trim_right_item sep k u j : inked u -> trim_right_spaces (sep ++ spaces k ++ u ++ spaces j) = (sep ++ spaces k ++ u)%string.
Proof.
  intros (a & c & -> & C). unfold trim_right_spaces.
  assert (E : (sep ++ spaces k ++ (a ++ String c "") ++ spaces j = ((sep ++ spaces k ++ a) ++ String c "") ++ spaces j)%string) by now rewrite !app_str_assoc.
  rewrite E, srev_app_str, srev_spaces, srev_app_str. change (srev (String c "")) with (String c ""). cbn [append].
  rewrite trim_left_spaces' by exact C.
  assert (X : String c (srev (sep ++ spaces k ++ a)) = srev ((sep ++ spaces k ++ a) ++ String c "")) by (rewrite (srev_app_str (sep ++ spaces k ++ a) (String c "")); reflexivity).
  rewrite X, srev_srev. now rewrite !app_str_assoc.
Qed.

Lemma matrix_line_spread is_cell items us :
  Forall2 (fun it u => item is_cell (fst (fst it)) (w_precis (snd (fst it))) (snd it) u) items us -> items <> [] ->
  forall sep, exists l, matrix_line is_cell sep items = Some (sep ++ l)%string /\ spread us l.
Proof.
  induction 1 as [|[[ct w] s] u items us [I H] F IH]; intros N sep; [congruence|]. cbn [fst snd] in *. cbn [matrix_line].
  destruct items as [|it items].
  - inversion F; subst. destruct (H true (w_width w)) as (k & j & E). rewrite E. cbn [matrix_line]. rewrite app_str_nil_r.
    destruct (IsNumericColType ct); cbn [andb].
    + rewrite trim_right_item by exact I. eexists. split; [reflexivity|]. pose proof (spread_one k u 0) as S0. change (spaces 0) with "" in S0. rewrite app_str_nil_r in S0. exact S0.
    + eexists. split; [reflexivity|]. apply spread_one.
  - destruct (H false (w_width w)) as (k & j & E). rewrite E. cbn [andb]. destruct (IH ltac:(discriminate) " ") as (l & El & S). rewrite El.
    eexists. split; [rewrite app_str_assoc; reflexivity|]. now apply spread_cons.
Qed.

Lemma item_plain is_cell ct precis s : IsNumericColType ct = false -> inked s -> item is_cell ct precis s s.
Proof.
  intros N I. split; [exact I|]. intros rm width. unfold matrix_item. rewrite N. destruct rm.
  - exists 0, 0. cbn. now rewrite app_str_nil_r.
  - exists 0, (Z.to_nat (width - Z.of_nat (rune_count s))). reflexivity.
Qed.
Lemma item_numeric (is_cell : bool) ct precis s s' u j : IsNumericColType ct = true -> (if is_cell then numeric_text ct precis s else Some s) = Some s' ->
  (if is_float_type ct then padTrailingZeros s' else s') = (u ++ spaces j)%string -> inked u -> item is_cell ct precis s u.
Proof.
  intros N E P I. split; [exact I|]. intros rm width. unfold matrix_item. rewrite N.
  rewrite E, P.
  eexists _, j. reflexivity.
Qed.

(** ---------- the heading lines ---------- *)

Lemma inked_bytes f u : (forall c, f c = true -> Ascii.eqb " " c = false) -> all_c f u = true -> u <> "" -> inked u.
Proof. intros F A N. destruct (all_c_last _ _ A N) as (a & c & E & C). exists a, c. auto. Qed.
Lemma name_byte_ink c : name_byte c = true -> Ascii.eqb " " c = false.
Proof. intros H. destruct (Ascii.eqb_spec " " c); [subst; discriminate|reflexivity]. Qed.
Lemma graphic_ink c : graphic c = true -> Ascii.eqb " " c = false.
Proof. intros H. destruct (Ascii.eqb_spec " " c); [subst; discriminate|reflexivity]. Qed.
Lemma all_c_has f c s : f c = false -> all_c f s = true -> has c s = false.
Proof.
  intros F. induction s as [|d s IH]; [reflexivity|]. cbn [all_c]. rewrite andb_true_iff. intros [D A].
  unfold has in *. cbn [existsb list_ascii_of_string]. destruct (Ascii.eqb_spec c d); [subst; congruence|]. now apply IH.
Qed.
Lemma item_head ct precis s : inked s -> (is_float_type ct = true -> has "." s = false) -> item false ct precis s s.
Proof.
  intros I P. destruct (IsNumericColType ct) eqn:N; [|now apply item_plain]. apply (item_numeric false ct precis s s s 0); auto.
  cbn [spaces]. rewrite app_str_nil_r. destruct (is_float_type ct); [|reflexivity].
  unfold padTrailingZeros, at_point. rewrite until_none by auto. reflexivity.
Qed.
Lemma item_name ct precis n : valid_name n -> item false ct precis n n.
Proof.
  intros V. destruct (valid_name_bytes n V) as [N B]. apply item_head; [exact (inked_bytes _ _ name_byte_ink B N)|]. intros _. now apply (all_c_has name_byte).
Qed.
Lemma item_type ct precis : In ct all_types -> item false ct precis ct ct.
Proof.
  intros T. destruct (type_graphic ct T) as [N B]. apply item_head; [exact (inked_bytes _ _ graphic_ink B N)|]. intros F.
  unfold is_float_type in F. apply orb_true_iff in F as [F|F]; apply String.eqb_eq in F; subst; reflexivity.
Qed.

(** ---------- widths ---------- *)

Lemma precis_fold (ct : string) (cells : list string) : forall w, Z.le (w_precis w) (w_precis (fold_left (fun w s =>
      widen s (if (ct =? "rune") || (ct =? "float32") || (ct =? "float64") then setWidths s w else w)) cells w)).
Proof.
  induction cells as [|s cells IH]; intros w; cbn [fold_left]; [lia|]. eapply Z.le_trans; [|apply IH]. unfold widen.
  destruct (_ || _); cbn [w_precis setWidths]; unfold setWidths; cbn [w_precis]; lia.
Qed.
Lemma precis_nonneg cn ct cells : (0 <= w_precis (col_widths cn ct cells))%Z.
Proof. unfold col_widths. eapply Z.le_trans; [|apply precis_fold]. cbn. lia. Qed.
Lemma precis_float cn ct cells s : is_float_type ct = true -> In s cells -> (precisionOf s <= w_precis (col_widths cn ct cells))%Z.
Proof.
  intros F. unfold col_widths. generalize (widen ct (widen cn (mkWd 0 0 0 0))). unfold is_float_type in F.
  assert (E : (ct =? "rune") || (ct =? "float32") || (ct =? "float64") = true) by (rewrite <- orb_assoc, F; apply orb_true_r).
  induction cells as [|s' cells IH]; intros w []; cbn [fold_left]; auto. subst s'. eapply Z.le_trans; [|apply precis_fold]. rewrite E. unfold widen, setWidths. cbn [w_precis]. lia.
Qed.
Lemma precis_other cn ct cells : (ct =? "rune") || is_float_type ct = false -> w_precis (col_widths cn ct cells) = 0%Z.
Proof.
  unfold is_float_type. rewrite orb_assoc. intros E. unfold col_widths. rewrite E. assert (X : w_precis (widen ct (widen cn (mkWd 0 0 0 0))) = 0%Z) by reflexivity. revert X.
  generalize (widen ct (widen cn (mkWd 0 0 0 0))). induction cells as [|s cells IH]; intros w X; cbn [fold_left]; [exact X|]. apply IH. exact X.
Qed.

(** ---------- cells ---------- *)

Lemma cell_word_inked ct v u : cell_word ct v u -> inked u.
Proof. intros W. destruct (cw_last _ _ _ W) as (a & c & E & G). exists a, c. auto using graphic_ink. Qed.

(** [s] is the text of the cell, and as an item of its column it is a word [u] that is read as [v]. *)
Definition cell_item (ip : Z -> bool) (h : heap) (ct : string) (v : value) (s : string) : Prop :=
  cell_text (Quote ip) (QuoteRune ip) h ct v = Some (Ok s) /\
  forall cn cells, In s cells -> exists u, cell_word ct (read_back v) u /\ item true ct (w_precis (col_widths cn ct cells)) s u.

Lemma plain_item ip h ct v s : cell_text (Quote ip) (QuoteRune ip) h ct v = Some (Ok s) -> IsNumericColType ct = false -> cell_word ct (read_back v) s -> cell_item ip h ct v s.
Proof. intros E N W. split; [exact E|]. intros cn cells _. exists s. split; [exact W|]. apply item_plain; [exact N|]. eapply cell_word_inked, W. Qed.

Lemma int_item ip h ct k z : int_kind ct = Some k -> in_range k z = true -> (Z.abs z <= 2 ^ 53)%Z -> cell_item ip h ct (VInt k z) (dec_of z).
Proof.
  intros K R B. split. { unfold cell_text. rewrite K. unfold int_of. destruct k; reflexivity. }
  intros cn cells _. exists (dec_of z). pose proof (int_cell ct k z K R) as W. split; [exact W|].
  destruct (int_fixed z B) as (f & P & Q).
  assert (T : IsNumericColType ct = true /\ is_float_type ct = false /\ (ct =? "rune") = false /\ (ct =? "float32") = false).
  { clear - K. unfold int_kind in K. repeat (destruct (ct =? _) eqn:? in K; [match goal with H : _ = true |- _ => apply String.eqb_eq in H; subst ct; repeat split; reflexivity end|]). discriminate. }
  destruct T as (T1 & T2 & T3 & T4). apply (item_numeric true ct _ _ (dec_of z) _ 0 T1).
  - unfold numeric_text. rewrite T4, P, precis_other by now rewrite T2, T3. now rewrite Q.
  - rewrite T2. cbn [spaces]. now rewrite app_str_nil_r.
  - eapply cell_word_inked, W.
Qed.
Lemma float_item ip h F f : fmt_ok F -> valid_binary (f_prec F) (f_emax F) f = true -> no_inf f -> ~ small_power F f ->
  cell_item ip h (float_type F) (float_value F f) (format_short F f).
Proof.
  intros FO V NI SP. assert (T : is_float_type (float_type F) = true /\ IsNumericColType (float_type F) = true /\ (if float_type F =? "float32" then F32 else F64) = F).
  { destruct FO as [->| ->]; repeat split; reflexivity. }
  destruct T as (T1 & T2 & T3). split. { destruct FO as [->| ->]; reflexivity. }
  intros cn cells I. pose proof (precis_float cn _ cells _ T1 I) as L. pose proof (precis_nonneg cn (float_type F) cells) as N.
  rewrite precisionOf_short in L by assumption. set (P := w_precis (col_widths cn (float_type F) cells)) in *. clearbody P.
  destruct (get_float_fixed F f P FO V (fixed_ok_power F f P FO V NI SP N L) N L) as (u & k & E & U & R).
  assert (W : cell_word (float_type F) (float_value F f) u) by now apply float_reads.
  exists u. split. { destruct FO as [->| ->]; exact W. }
  apply (item_numeric true _ P _ (format_fixed P f) u k T2).
  - unfold numeric_text. rewrite T3, ParseFloat_short by assumption. reflexivity.
  - now rewrite T1.
  - eapply cell_word_inked, W.
Qed.

Lemma padded_cell_item ip h ct v : cell_ok ct v -> padded_cell ct v -> ct <> "*Table" -> exists s, cell_item ip h ct v s.
Proof.
  intros [T G] (P & SP & X) NT. destruct v as [|b|s|k z|f|f|o|o|t|s]; cbn [has_type go_value] in T, G; try contradiction.
  - subst. eexists. apply plain_item; [reflexivity|reflexivity|apply bool_cell].
  - subst. eexists. apply plain_item; [reflexivity|reflexivity|apply string_cell].
  - destruct (ct =? "rune") eqn:R.
    + apply String.eqb_eq in R. subst ct. destruct k; try discriminate T; try (destruct T; discriminate). eexists. apply plain_item; [reflexivity|reflexivity|]. apply rune_cell, unicode_valid, P. reflexivity.
    + exists (dec_of z). apply int_item; [|exact G|]. 2:{ apply X. intros ->. discriminate. }
      destruct k; try (subst; reflexivity); destruct T as [->| ->]; first [reflexivity|discriminate].
  - subst. eexists. apply (float_item ip h F32 f fmt32 G); [now apply (plain_no_inf "float32"); left|]. intros S. apply SP. destruct f; contradiction.
  - subst. eexists. apply (float_item ip h F64 f fmt64 G); [now apply (plain_no_inf "float64"); right|]. intros S. apply SP. destruct f; contradiction.
  - exists (slice_text o). assert (E : slice_text o = slice_text (Some match o with Some l => l | None => [] end)) by (destruct o; reflexivity).
    assert (E1 : cell_text (Quote ip) (QuoteRune ip) h ct (VBytes o) = Some (Ok (slice_text o))) by (destruct T as [->| ->]; reflexivity).
    assert (E2 : IsNumericColType ct = false) by (destruct T as [->| ->]; reflexivity).
    apply (plain_item ip h ct _ _ E1 E2). rewrite E. destruct o; apply slice_cell; tauto.
  - destruct o; [|contradiction]. congruence.
  - subst. eexists. apply plain_item; [reflexivity|reflexivity|]. apply time_cell. destruct X as (A & B & C & D). repeat split; try tauto.
    destruct D as [D|D]; [now left|]. right. split; [|exact D]. assert (tm_nsec t <> 0)%Z by (intros Z; rewrite Z in D; now apply D).
    apply andb_true_iff in G as [G1 G2]. apply Z.leb_le in G1. apply Z.ltb_lt in G2. lia.
Qed.

(** ---------- rows ---------- *)

Inductive cell_items (ip : Z -> bool) (h : heap) : list string -> list value -> list string -> Prop :=
  | cis_nil : cell_items ip h [] [] []
  | cis_cons ct v s cts vs ss : cell_item ip h ct v s -> cell_items ip h cts vs ss -> cell_items ip h (ct :: cts) (v :: vs) (s :: ss).

Lemma padded_cells_items ip h cts : forall row, Forall2 cell_ok cts row -> Forall2 padded_cell cts row -> Forall (fun ct => ct <> "*Table") cts ->
  exists ss, padded_cells ip h cts row = Ok (Some ss) /\ cell_items ip h cts row ss.
Proof.
  induction cts as [|ct cts IH]; intros row C P U; inversion C as [|? v ? row' C1 C2]; subst.
  - exists []. split; [reflexivity|constructor].
  - inversion P; subst. inversion U; subst. destruct (padded_cell_item ip h ct v) as (s & I); auto.
    destruct (IH row') as (ss & E & W); auto. exists (s :: ss). cbn [padded_cells]. rewrite (proj1 I). cbn [rbind]. rewrite E. split; [reflexivity|now constructor].
Qed.
Lemma padded_rows_items ip h cts : forall rs, Forall (Forall2 cell_ok cts) rs -> Forall (Forall2 padded_cell cts) rs -> Forall (fun ct => ct <> "*Table") cts ->
  exists tx, padded_rows ip h cts rs = Ok (Some tx) /\ Forall2 (cell_items ip h cts) rs tx.
Proof.
  induction rs as [|row rs IH]; intros C P U.
  - exists []. split; [reflexivity|constructor].
  - destruct (padded_cells_items ip h cts row (Forall_inv C) (Forall_inv P) U) as (ss & E & W).
    destruct (IH (Forall_inv_tail C) (Forall_inv_tail P) U) as (tx & E' & F). exists (ss :: tx).
    cbn [padded_rows]. rewrite E. cbn [rbind]. rewrite E'. split; [reflexivity|now constructor].
Qed.

Definition mcols (cns cts : list string) (tx : list (list string)) (k n : nat) : list (string * widths) :=
  map (fun i => (nth i cts "", col_widths (nth i cns "") (nth i cts "") (map (fun row => nth i row "") tx))) (seq k n).

Lemma row_items ip h cns cts tx ctl vs ss : cell_items ip h ctl vs ss -> forall k,
  (forall i, nth (k + i) cts "" = nth i ctl "") -> (forall i, i < List.length ss -> In (nth i ss "") (map (fun row => nth (k + i) row "") tx)) ->
  exists us, cell_words ctl (map read_back vs) us /\
    Forall2 (fun it u => item true (fst (fst it)) (w_precis (snd (fst it))) (snd it) u) (combine (mcols cns cts tx k (List.length ctl)) ss) us.
Proof.
  induction 1 as [|ct v s ctl vs ss [_ I] IS IH]; intros k N C.
  - exists []. split; constructor.
  - destruct (IH (S k)) as (us & W & F).
    + intros i. specialize (N (S i)). rewrite <- plus_n_Sm in N. exact N.
    + intros i Hi. specialize (C (S i) ltac:(cbn; lia)). rewrite <- plus_n_Sm in C. exact C.
    + pose proof (N 0) as N0. rewrite Nat.add_0_r in N0. cbn [nth] in N0. pose proof (C 0 ltac:(cbn; lia)) as C0. rewrite Nat.add_0_r in C0. cbn [nth] in C0.
      destruct (I (nth k cns "") _ C0) as (u & CW & IT). exists (u :: us). split; [now constructor|].
      cbn [List.length mcols seq map combine]. constructor; [|exact F]. cbn [fst snd]. rewrite N0. exact IT.
Qed.
Lemma cell_items_len ip h cts vs ss : cell_items ip h cts vs ss -> List.length vs = List.length cts /\ List.length ss = List.length cts.
Proof. induction 1 as [|? ? ? ? ? ? _ _ [A B]]; cbn; auto. Qed.

Lemma head_items (G : string -> string -> Prop) cns cts tx ctl ws : (forall ct w, G ct w -> forall p, item false ct p w w) -> Forall2 G ctl ws -> forall k,
  (forall i, nth (k + i) cts "" = nth i ctl "") ->
  Forall2 (fun it u => item false (fst (fst it)) (w_precis (snd (fst it))) (snd it) u) (combine (mcols cns cts tx k (List.length ctl)) ws) ws.
Proof.
  intros HG. induction 1 as [|ct w ctl ws H F IH]; intros k N; [constructor|].
  cbn [List.length mcols seq map combine]. constructor.
  - cbn [fst snd]. pose proof (N 0) as N0. rewrite Nat.add_0_r in N0. rewrite N0. now apply HG.
  - apply IH. intros i. specialize (N (S i)). rewrite <- plus_n_Sm in N. exact N.
Qed.

Lemma matrix_rows ip h cns cts : cts <> [] -> forall all rs tx, (forall ss, In ss tx -> In ss all) -> Forall2 (cell_items ip h cts) rs tx ->
  exists ls, matrix_lines (mcols cns cts all 0 (List.length cts)) tx = Some (text_of ls) /\
    Forall2 (fun row line => List.length row = List.length cts /\ row_line cts row line) (map (map read_back) rs) ls.
Proof.
  intros N all rs tx A F. induction F as [|row ss rs tx I F IH].
  - exists []. split; [reflexivity|constructor].
  - destruct (row_items ip h cns cts all cts row ss I 0) as (us & W & FI); [reflexivity| |].
    { intros i Hi. apply (in_map (fun row => nth i row "")). apply A. now left. }
    destruct (matrix_line_spread true _ _ FI) with (sep := "") as (l & E & S).
    { destruct I; [congruence|]. discriminate. }
    destruct IH as (ls & E' & F'); [intros x Hx; apply A; now right|].
    exists (l :: ls). cbn [matrix_lines]. rewrite E, E'. split; [reflexivity|]. cbn [map]. constructor; [|exact F'].
    split; [rewrite map_length; apply (cell_items_len _ _ _ _ _ I)|]. exact (row_spread _ _ _ _ W S).
Qed.

Lemma Forall2_right {A B} (P : B -> Prop) (l : list A) : forall m, List.length l = List.length m -> Forall P m -> Forall2 (fun _ y => P y) l m.
Proof. induction l as [|x l IH]; intros [|y m] L F; try discriminate; constructor; inversion F; subst; auto. Qed.
Lemma Forall2_diag {A} (P : A -> Prop) (l : list A) : Forall P l -> Forall2 (fun x y => x = y /\ P y) l l.
Proof. induction 1; constructor; auto. Qed.

Lemma padded_block ip h t : padded_table t ->
  exists ls, StringPadded ip h t = Ok (text_of ls) /\ block (tname t) (cnames t) (ctypes t) (map (map read_back) (rows t)) ls.
Proof.
  intros (W & NN & AN & SH & Z & U & P).
  assert (E0 : struct_shape t && (RowCount t <=? 1)%Z = false).
  { destruct SH as [->|H]; [reflexivity|]. unfold RowCount. apply andb_false_iff. right. apply Z.leb_gt. lia. }
  destruct (padded_rows_items ip h (ctypes t) (rows t) (wf_cells _ W) P U) as (tx & E & F).
  unfold StringPadded. rewrite <- (wf_types_len _ W), firstn_all, E. cbn [rbind]. rewrite E0.
  destruct (cnames t) as [|cn0 cns0] eqn:CN.
  - specialize (Z eq_refl). pose proof (wf_types_len _ W) as L. rewrite CN in L. destruct (ctypes t) eqn:CT; [|discriminate].
    rewrite Z. cbn [printMatrix map]. eexists. split; [|constructor]. cbn [text_of]. unfold name_line. now rewrite !app_str_assoc.
  - assert (NC : cnames t <> []) by (rewrite CN; discriminate). rewrite <- CN.
    assert (L : List.length (ctypes t) = List.length (cnames t)) by apply W.
    assert (NT : ctypes t <> []) by (intros H; rewrite H, CN in L; discriminate).
    unfold printMatrix. rewrite CN. rewrite <- CN. fold (mcols (cnames t) (ctypes t) tx 0 (List.length (cnames t))). rewrite <- L.
    destruct (matrix_rows ip h (cnames t) (ctypes t) NT tx (rows t) tx (fun _ H => H) F) as (ls & E3 & FL). rewrite E3.
    assert (F1 : Forall2 (fun ct n => valid_name n) (ctypes t) (cnames t)).
    { apply Forall2_right; [exact L|apply W]. }
    assert (F2 : Forall2 (fun ct n => ct = n /\ In n all_types) (ctypes t) (ctypes t)).
    { apply Forall2_diag. apply W. }
    pose proof (head_items _ (cnames t) (ctypes t) tx _ _ (fun ct w G p => item_name ct p w G) F1 0 (fun i => eq_refl)) as I1.
    assert (G2 : forall ct w, ct = w /\ In w all_types -> forall p, item false ct p w w) by (intros ct w [-> G] p; now apply item_type).
    pose proof (head_items _ (cnames t) (ctypes t) tx _ _ G2 F2 0 (fun i => eq_refl)) as I2.
    destruct (matrix_line_spread false _ _ I1) with (sep := "") as (l1 & E1 & S1).
    { destruct (ctypes t), (cnames t); try discriminate; congruence. }
    destruct (matrix_line_spread false _ _ I2) with (sep := "") as (l2 & E2 & S2).
    { destruct (ctypes t); [congruence|discriminate]. }
    rewrite E1, E2. cbn [append].
    eexists. split; [|apply (bl_cols _ (cnames t) (ctypes t) _ _ _ ls S1 S2 NC); auto; try apply W; symmetry; apply W].
    cbn [text_of]. unfold name_line. now rewrite !app_str_assoc.
Qed.
Theorem padded_roundtrip ip h t h1 : padded_table t ->
  exists s t', StringPadded ip h t = Ok s /\ NewTableFromString s h1 = (h1 ++ [t'], Ok (Some (List.length h1))) /\
    fresh_table (tname t) (cnames t) (ctypes t) (map (map read_back) (rows t)) t'.
Proof.
  intros U. destruct (padded_block ip h t U) as (ls & E & B). destruct U as (W & NN & AN & _).
  destruct (wf_name _ W) as [[_ V]|[X _]]; [|congruence]. destruct (read_table _ _ _ _ _ h1 (ascii_name_valid _ V AN) V B) as (t' & FT & R). eauto.
Qed.
