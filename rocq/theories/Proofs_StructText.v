(** Proofs_StructText.v -- NewTableFromString of the text of a table in struct shape. *)
From Coq Require Import ZArith NArith List String Ascii Bool SpecFloat Lia.
From Verif Require Import Base Model_Names Model_Table Model_Ops Model_Heap Model_TableSet Spec Spec_Text Model_Lex Model_Float Model_Time Model_Parser Model_Print
  Spec_StructText Proofs_Lib Proofs_Table Proofs_Cells Proofs_Lex Proofs_Num Proofs_Float Proofs_Parser Proofs_FloatText Proofs_TimeText Proofs_Lines Proofs_Block Proofs_CellText
  Proofs_Copy Proofs_Api2 Proofs_Unpadded Proofs_Padded Proofs_Document Proofs_StringNested.
Import ListNotations.
Local Open Scope string_scope.
Local Open Scope list_scope.

(** ---------- code points between quotes ---------- *)

Lemma bare_valid q r : bare q r -> valid_rune r = true.
Proof. intros [U _]. now apply unicode_valid. Qed.
(** The bytes of a bare code point *)
Lemma bare_bytes q r : (0 <= q < 128)%Z -> bare q r ->
  all_c (fun c => negb (Z.eqb (code c) q) && negb (Z.eqb (code c) 92) && negb (Z.eqb (code c) 10)) (encode r) = true.
Proof.
  intros Q B. pose proof (bare_valid _ _ B) as V. destruct B as (U & N1 & N2 & N3). destruct (Z_lt_le_dec r 128) as [L|G].
  - assert (0 <= r)%Z by (destruct U; lia). rewrite encode_ascii by lia. cbn [all_c]. rewrite code_chr by lia.
    rewrite !(proj2 (Z.eqb_neq _ _)) by assumption. reflexivity.
  - eapply all_c_impl; [|apply (encode_high r G V)]. intros c H. apply Z.leb_le in H. rewrite !(proj2 (Z.eqb_neq _ _)) by lia. reflexivity.
Qed.
Lemma bare_none q c r : (0 <= q < 128)%Z -> code c = q \/ code c = 92%Z \/ code c = 10%Z -> bare q r -> has c (encode r) = false.
Proof.
  intros Q C B. rewrite has_all_c. apply negb_false_iff. eapply all_c_impl; [|apply (bare_bytes q r Q B)]. intros d D.
  rewrite !andb_true_iff, !negb_true_iff, !Z.eqb_neq in D. rewrite eqb_code. apply negb_true_iff, Z.eqb_neq. intros E. lia.
Qed.
Lemma UnquoteChar_bare q r t : quote_char q -> bare (code q) r ->
  exists mb, UnquoteChar q (encode r ++ t) = Some (r, mb, t) /\ rune_text r mb = encode r.
Proof.
  intros Q B. assert (QR : code q = 34%Z \/ code q = 39%Z) by (destruct Q as [-> | ->]; auto).
  pose proof (bare_valid _ _ B) as V. destruct B as (U & N1 & N2 & N3). destruct (Z_lt_le_dec r 128) as [L|G].
  - assert (0 <= r)%Z by (destruct U; lia). exists false. rewrite encode_ascii by lia. cbn [append UnquoteChar]. rewrite !eqb_code, !code_chr, code_bslash by lia.
    rewrite !(proj2 (Z.eqb_neq _ _)) by assumption. rewrite (proj2 (Z.leb_gt _ _)) by lia. cbn [negb]. split; [reflexivity|].
    unfold rune_text. rewrite orb_true_r. reflexivity.
  - apply UnquoteChar_written; [exact Q|exact V|now apply w_high].
Qed.

Lemma concat_nil_sep ws w : String.concat "" (w :: ws) = (w ++ String.concat "" ws)%string.
Proof. destruct ws; cbn; [now rewrite app_str_nil_r|reflexivity]. Qed.
Lemma bare_text_none q c s : (0 <= q < 128)%Z -> code c = q \/ code c = 92%Z \/ code c = 10%Z -> bare_text q s -> has c s = false.
Proof.
  intros Q C (rs & F & ->). induction F as [|r rs B F IH]; [reflexivity|]. cbn [map]. rewrite concat_nil_sep, has_app, IH, (bare_none q c r Q C B). reflexivity.
Qed.
Lemma unquote_bare q rs : quote_char q -> Forall (bare (code q)) rs -> forall fuel, (String.length (String.concat "" (map encode rs)) <= fuel)%nat ->
  unquote_from fuel q (String.concat "" (map encode rs)) = Some (String.concat "" (map encode rs)).
Proof.
  intros Q F. induction F as [|r rs B F IH]; intros fuel L; [destruct fuel; reflexivity|]. cbn [map] in *. rewrite concat_nil_sep in *.
  set (t := String.concat "" (map encode rs)) in *. rewrite length_app_str in L. pose proof (encode_len r) as EL.
  destruct fuel as [|k]; [lia|]. destruct (UnquoteChar_bare q r t Q B) as (mb & E & T).
  assert (N : encode r <> "") by apply encode_nonempty. cbn [unquote_from]. rewrite E. rewrite (IH k) by lia.
  unfold rune_text in T. rewrite T. destruct (encode r ++ t)%string eqn:X; [|reflexivity].
  destruct (encode r); [congruence|discriminate].
Qed.

Lemma bare_string_cell s : bare_text 34 s -> cell_word "string" (VString s) (String dquote (s ++ String dquote "")).
Proof.
  intros B. assert (Q : (0 <= 34 < 128)%Z) by lia.
  pose proof (bare_text_none 34 nl s Q ltac:(auto) B) as H1. pose proof (bare_text_none 34 dquote s Q ltac:(auto) B) as H2.
  pose proof (bare_text_none 34 bslash s Q ltac:(auto) B) as H3. constructor.
  - eexists _, _. split; [reflexivity|]. split; reflexivity.
  - exists (String dquote s), dquote. split; reflexivity.
  - change (String dquote (s ++ String dquote "")) with (String dquote "" ++ s ++ String dquote "")%string. rewrite !has_app, H1. reflexivity.
  - intros p h rest _.
    change (get_value p "string" (String dquote (s ++ String dquote "") ++ rest) h)
      with (pure h (let! (text, rest) := of_opt (scan_string (String dquote ((s ++ String dquote "") ++ rest))) in let! v := of_opt (Unquote text) in Ok (v, rest)) VString).
    assert (SB : string_body ((s ++ String dquote "") ++ rest) = Some (s ++ String dquote "", rest)%string).
    { rewrite app_str_assoc. apply string_body_plain; [|reflexivity]. rewrite has_all_c in H2, H3. apply negb_false_iff in H2, H3.
      clear -H2 H3. induction s as [|c s IH]; [reflexivity|]. cbn [all_c] in *. apply andb_true_iff in H2 as [A2 B2]. apply andb_true_iff in H3 as [A3 B3].
      rewrite IH, (Ascii.eqb_sym c dquote), (Ascii.eqb_sym c bslash), A2, A3 by assumption. reflexivity. }
    unfold scan_string. change (Ascii.eqb dquote dquote) with true. cbn match. rewrite SB. cbn [of_opt rbind].
    assert (UQ : Unquote (String dquote (s ++ String dquote "")) = Some s).
    { unfold Unquote. change (Ascii.eqb dquote dquote) with true. cbn match. rewrite Proofs_Lex.split_last_app. change (Ascii.eqb dquote dquote) with true. cbn match.
      rewrite H1. destruct B as (rs & F & ->). apply unquote_bare; [now left|exact F|lia]. }
    rewrite UQ. reflexivity.
Qed.
Lemma bare_rune_cell r : bare 39 r -> cell_word "rune" (VInt KInt32 r) ("'" ++ encode r ++ "'").
Proof.
  intros B. assert (Q : (0 <= 39 < 128)%Z) by lia. pose proof (bare_valid _ _ B) as V.
  pose proof (bare_none 39 nl r Q ltac:(auto) B) as H1. pose proof (bare_none 39 squote r Q ltac:(auto) B) as H2.
  pose proof (bare_none 39 bslash r Q ltac:(auto) B) as H3. constructor.
  - eexists _, _. split; [reflexivity|]. split; reflexivity.
  - exists ("'" ++ encode r)%string, squote. split; [now rewrite app_str_assoc|reflexivity].
  - rewrite !has_app, H1. reflexivity.
  - intros p h rest _.
    change (get_value p "rune" (("'" ++ encode r ++ "'") ++ rest) h)
      with (pure h (let! (text, rest) := of_opt (scan_rune (String squote ((encode r ++ "'") ++ rest))) in
                    if Nat.ltb (String.length text) 1 then Err else let! r := of_opt (parseRune text) in Ok (r, rest)) (VInt KInt32)).
    rewrite app_str_assoc. change ("'" ++ rest)%string with (String squote rest).
    assert (NB : forall x s, String.prefix (String bslash x) (encode r ++ s) = false).
    { intros x s. pose proof (encode_nonempty r). destruct (encode r) as [|c t]; [congruence|]. rewrite has_all_c in H3. apply negb_false_iff in H3. cbn [all_c] in H3.
      apply andb_true_iff in H3 as [H3 _]. cbn [append]. apply prefix_false. intros u E. injection E as E _. subst c. discriminate H3. }
    assert (SR : scan_rune (String squote (encode r ++ String squote rest)) = Some (encode r, rest)).
    { unfold scan_rune. cbn [until]. change (Ascii.eqb squote squote) with true. cbn match. unfold escaped_newline, escaped_quote. rewrite !NB.
      assert (HX : scan_rune_hex (encode r ++ String squote rest) = None).
      { unfold scan_rune_hex. rewrite decode_encode by exact V. rewrite code_squote, (proj2 (Z.eqb_neq _ _)) by apply B. rewrite drop_app. destruct rest; reflexivity. }
      rewrite HX. now apply until_plain. }
    rewrite SR. cbn [of_opt rbind]. assert (LN : Nat.ltb (String.length (encode r)) 1 = false) by (apply Nat.ltb_ge; apply encode_len). rewrite LN.
    destruct (UnquoteChar_bare squote r "" (or_intror eq_refl) B) as (mb & E & _). rewrite app_str_nil_r in E. unfold parseRune. rewrite E. reflexivity.
Qed.

(** ---------- cells ---------- *)

(** What printStruct writes for a cell *)
Definition struct_text (h : heap) (ct : string) (v : value) : res string :=
  let! s := match (match cell_text (fun s => s) encode h ct v with Some r => r | None => Err end) with Ok s => Ok s | Err => Ok "" | Panic => Panic end in
  Ok (if ct =? "string" then String dquote (s ++ String dquote "") else if ct =? "rune" then "'" ++ s ++ "'" else s)%string.

Lemma struct_cell_word h ct v : cell_ok ct v -> struct_cell ct v -> ct <> "*Table" ->
  exists u, struct_text h ct v = Ok u /\ cell_word ct (read_back v) u.
Proof.
  intros [T G] P NT.
  assert (B : forall ct k z, int_kind ct = Some k -> ct <> "rune" -> in_range k z = true -> exists u, struct_text h ct (VInt k z) = Ok u /\ cell_word ct (VInt k z) u).
  { clear. intros ct k z K NR R. exists (dec_of z). split; [|now apply int_cell]. unfold struct_text, cell_text. rewrite K. unfold int_of.
    assert (NS : (ct =? "string") = false) by (destruct (String.eqb_spec ct "string"); [subst; discriminate|reflexivity]).
    rewrite NS. apply String.eqb_neq in NR. rewrite NR. destruct k; reflexivity. }
  destruct v as [|b|s|k z|f|f|o|o|t|s]; cbn [has_type go_value read_back] in *; try contradiction.
  - subst. eexists. split; [reflexivity|apply bool_cell].
  - subst. eexists. split; [reflexivity|now apply bare_string_cell].
  - destruct k; try (subst; apply B; [reflexivity|discriminate|exact G]).
    + destruct T as [->| ->]; [apply B; [reflexivity|discriminate|exact G]|]. eexists. split; [reflexivity|]. apply bare_rune_cell, P. reflexivity.
    + destruct T as [->| ->]; (apply B; [reflexivity|discriminate|exact G]).
  - subst. eexists. split; [reflexivity|]. apply (float_cell F32 f fmt32 G). destruct f; cbn in *; auto.
  - subst. eexists. split; [reflexivity|]. apply (float_cell F64 f fmt64 G). destruct f; cbn in *; auto.
  - assert (E : struct_text h ct (VBytes o) = Ok (slice_text (Some match o with Some l => l | None => [] end))) by (destruct T as [->| ->], o; reflexivity).
    eexists. split; [exact E|]. destruct o; cbn [read_back]; now apply slice_cell.
  - destruct o; [congruence|contradiction].
  - subst. eexists. split; [reflexivity|]. apply time_cell. destruct P as (P1 & P2 & P3 & P4). split; [exact P1|]. split; [exact P2|]. split; [exact P3|].
    destruct P4 as [P4|P4]; [now left|]. right. split; [|exact P4]. assert (tm_nsec t <> 0)%Z by (intros Z; rewrite Z in P4; now apply P4).
    apply andb_true_iff in G as [G1 G2]. apply Z.leb_le in G1. apply Z.ltb_lt in G2. lia.
Qed.

(** ---------- one line ---------- *)

Lemma split_white_nonempty s : split_white s <> [].
Proof.
  induction s as [|c s IH]; cbn [split_white]; [discriminate|]. destruct (is_white c).
  - destruct s as [|d s]; [discriminate|]. destruct (is_white d); [exact IH|discriminate].
  - destruct (split_white s); discriminate.
Qed.
Lemma split_white_next w c s : word w -> is_white c = false -> split_white (w ++ " " ++ String c s) = w :: split_white (String c s).
Proof.
  intros [_ W] C. rewrite split_white_word by exact W. change (" " ++ String c s)%string with (spaces 1 ++ String c s)%string.
  rewrite split_white_spaces by exact C. now rewrite app_str_nil_r.
Qed.
Lemma hard_starts cn x y : hard_first cn -> strip_space space_encodings ((cn ++ String " " x) ++ y) = None.
Proof. intros [_ H]. rewrite app_str_assoc. apply H. reflexivity. Qed.
Lemma TrimSpace_line cn x : hard_first cn -> hard_last x -> TrimSpace (cn ++ String " " x) = (cn ++ String " " x)%string.
Proof.
  intros F L. assert (N : (cn ++ String " " x)%string <> "") by (destruct F as [N _]; destruct cn; [congruence|discriminate]).
  pose proof (TrimSpace_core 0 (cn ++ String " " x)%string 0 N) as T. cbn [spaces append] in T. rewrite app_str_nil_r in T. apply T.
  - intros r. now apply hard_starts.
  - apply hard_last_app. change (String " " x) with (" " ++ x)%string. now apply hard_last_app.
Qed.

Lemma type_word ct : In ct all_types -> word ct /\ hard_last ct /\ has nl ct = false /\ exists c r, ct = String c r /\ is_white c = false.
Proof.
  intros T. apply type_graphic in T as [N G]. destruct (graphic_word ct N G) as (W & _ & L & NL). split; [exact W|]. split; [exact L|]. split; [exact NL|].
  now apply word_first.
Qed.
Lemma name_facts cn : valid_name cn -> word cn /\ hard_first cn /\ has nl cn = false /\ (exists c r, cn = String c r /\ Ascii.eqb c "#" = false).
Proof.
  intros V. apply valid_name_bytes in V as [N B]. destruct (name_word cn N B) as (W & F & _ & NL). split; [exact W|]. split; [exact F|]. split; [exact NL|].
  destruct cn as [|c r]; [congruence|]. exists c, r. split; [reflexivity|]. cbn in B. apply andb_true_iff in B as [B _]. destruct (Ascii.eqb_spec c "#"); [subst; discriminate|reflexivity].
Qed.

(** The two forms of a line of a struct *)
Definition decl_line (cn ct : string) : string := (cn ++ " " ++ ct)%string.
Definition value_line (cn ct u : string) : string := (cn ++ " " ++ ct ++ " = " ++ u)%string.

Lemma decl_facts cn ct : valid_name cn -> In ct all_types ->
  TrimSpace (decl_line cn ct) = decl_line cn ct /\ split_white (decl_line cn ct) = [cn; ct] /\ has nl (decl_line cn ct) = false /\
  exists c r, decl_line cn ct = String c r /\ Ascii.eqb c "#" = false.
Proof.
  intros V T. destruct (name_facts cn V) as (W & F & NL & c & r & E & H). destruct (type_word ct T) as (W' & L' & NL' & c' & r' & E' & H').
  unfold decl_line. split; [now apply TrimSpace_line|]. split; [|split].
  - rewrite E' at 1. rewrite split_white_next by assumption. rewrite <- E'. f_equal. pose proof (split_white_word ct "" (proj2 W')) as S. rewrite app_str_nil_r in S. rewrite S. cbn. now rewrite app_str_nil_r.
  - rewrite !has_app, NL, NL'. reflexivity.
  - rewrite E. cbn [append]. eauto.
Qed.
Lemma value_facts cn ct v u : valid_name cn -> In ct all_types -> cell_word ct v u ->
  TrimSpace (value_line cn ct u) = value_line cn ct u /\ (exists w ws, split_white (value_line cn ct u) = cn :: ct :: "=" :: w :: ws) /\ has nl (value_line cn ct u) = false /\
  (exists c r, value_line cn ct u = String c r /\ Ascii.eqb c "#" = false) /\
  until "=" (value_line cn ct u) = Some ((cn ++ " " ++ ct ++ " ")%string, (" " ++ u)%string) /\ trim_left is_space4 (" " ++ u) = u.
Proof.
  intros V T CW. destruct (name_facts cn V) as (W & F & NL & c & r & E & H). destruct (type_word ct T) as (W' & L' & NL' & c' & r' & E' & H').
  destruct (cw_first _ _ _ CW) as (c2 & r2 & E2 & G2 & _). destruct (cw_last _ _ _ CW) as (a3 & c3 & E3 & G3). pose proof (cw_nl _ _ _ CW) as NL2.
  destruct (graphic_facts c2 G2) as (R2 & W2 & _). unfold value_line. split; [|split; [|split; [|split; [|split]]]].
  - apply TrimSpace_line; [exact F|]. apply hard_last_app. change (" = " ++ u)%string with (" = " ++ u)%string. apply hard_last_app. exists a3, c3. auto.
  - assert (X : (cn ++ " " ++ ct ++ " = " ++ u = cn ++ " " ++ String c' (r' ++ String " " (String "=" (String " " u))))%string) by (rewrite E'; reflexivity).
    rewrite X. rewrite (split_white_next cn c' (r' ++ String " " (String "=" (String " " u)))) by assumption.
    change (String c' (r' ++ String " " (String "=" (String " " u)))) with (String c' r' ++ " " ++ String "=" (String " " u))%string. rewrite <- E'.
    rewrite split_white_next by (exact W' || reflexivity). change (String "=" (String " " u)) with ("=" ++ " " ++ u)%string. rewrite E2.
    rewrite split_white_next; [|split; [discriminate|reflexivity]|exact W2].
    pose proof (split_white_nonempty (String c2 r2)). destruct (split_white (String c2 r2)) as [|w ws]; [congruence|]. eauto.
  - rewrite !has_app, NL, NL', NL2. reflexivity.
  - rewrite E. cbn [append]. eauto.
  - rewrite until_skip by now apply name_no_eq. rewrite (until_skip "=" " ") by reflexivity. rewrite until_skip by now apply type_no_eq. reflexivity.
  - rewrite E2. cbn [append trim_left]. change (is_space4 " ") with true. cbn match.
    assert (NS : is_space4 c2 = false).
    { clear -G2. revert c2 G2. apply (all_ascii (fun c2 => graphic c2 = true -> is_space4 c2 = false)). intros k Hk.
      assert (Q : forallb (fun n => let d := ascii_of_nat n in negb (graphic d) || negb (is_space4 d)) (seq 0 256) = true) by (vm_compute; reflexivity).
      rewrite forallb_forall in Q. specialize (Q k ltac:(apply in_seq; lia)). cbv zeta in Q. intros G. rewrite G in Q. now apply negb_true_iff in Q. }
    rewrite NS. reflexivity.
Qed.


(** ---------- the steps of the parser ---------- *)

(** A table in struct shape that is being read *)
Record fresh_struct (n : string) (cns cts : list string) (rs : list (list value)) (t : table) : Prop := {
  fs_name : tname t = n; fs_names : cnames t = cns; fs_types : ctypes t = cts; fs_rows : rows t = rs;
  fs_keys : skeys t = []; fs_notnil : is_nil t = false; fs_parent : parent t = None; fs_wf : wf_table t }.

Lemma on_current_last {A} (m : M A) h ts e sh d ns cts named t t' b a : b = Datatypes.S (List.length h) ->
  m (mkS t b []) = (mkS t' b [], Ok a) ->
  on_current (List.length h) m (block_state h ts e sh d ns cts named t) = Ok (block_state h ts e sh d ns cts named t').
Proof.
  intros -> E. unfold on_current, block_state. cbn [ps_heap]. rewrite on_heap_last, E. cbn [s_tab s_news rbind]. unfold new_nils. cbn [map]. rewrite app_nil_r. reflexivity.
Qed.
Lemma wf_shape b t : wf_table t -> wf_table (with_shape b t).
Proof. intros [A B C D E F G]. constructor; cbn; auto. Qed.
Lemma not_tab ct : ct <> "*Table" -> is_tab ct = false.
Proof. intros N. unfold is_tab. now apply String.eqb_neq. Qed.
Lemma ntab_none cts : Forall (fun ct => ct <> "*Table") cts -> ntab cts = 0.
Proof. induction 1 as [|ct cts N F IH]; [reflexivity|]. unfold ntab in *. cbn [filter]. rewrite (not_tab ct N). exact IH. Qed.

Definition add_col (cn ct : string) (b : ptr) (t : table) : table := s_tab (col_added cn ct (mkS (with_shape true t) b [])).
Lemma add_col_fresh n cns cts rs t cn ct b : fresh_struct n cns cts rs t -> valid_name cn -> In ct all_types -> ct <> "*Table" -> ~ In cn cns ->
  can_append_col (with_shape true t) cn ct = true /\
  col_added cn ct (mkS (with_shape true t) b []) = mkS (add_col cn ct b t) b [] /\
  struct_shape (add_col cn ct b t) = true /\
  exists rs', fresh_struct n (cns ++ [cn]) (cts ++ [ct]) rs' (add_col cn ct b t) /\ (rs = [] -> rs' = []) /\ (forall r0, rs = [r0] -> exists z, rs' = [r0 ++ [z]]).
Proof.
  intros [F1 F2 F3 F4 F5 F6 F7 F8] V T NT NI.
  assert (C : can_append_col (with_shape true t) cn ct = true).
  { unfold can_append_col. cbn [is_nil with_shape cmap]. rewrite F6, (proj2 (IsValidColName_spec cn) V), (proj2 (IsValidColType_spec ct) T). cbn [negb andb].
    destruct (mget (cmap t) cn) as [i|] eqn:G; [|reflexivity]. apply (wf_map _ F8) in G. exfalso. apply NI. rewrite <- F2. now apply nth_error_In in G. }
  split; [exact C|]. split; [|split].
  - unfold add_col, col_added. cbv zeta. cbn [s_tab s_base s_news]. rewrite (not_tab ct NT). reflexivity.
  - reflexivity.
  - eexists. split; [constructor|]; try reflexivity.
    + exact F1.
    + cbn. now rewrite F2.
    + cbn. now rewrite F3.
    + exact F5.
    + exact F6.
    + exact F7.
    + apply col_added_wf; [now apply wf_shape|exact C].
    + cbn. rewrite F4. split; [intros ->; reflexivity|]. intros r0 ->. cbn. eauto.
Qed.

Definition shape_known (sh : shape) (d0 d : bool) (ws : list string) : Prop :=
  sh = UNDEFINED_SHAPE /\ getTableShape ws = Ok (STRUCT_SHAPE, d) \/ sh = STRUCT_SHAPE /\ d0 = d.

Lemma parse_struct_line h ts sh d0 d ns cts0 named n cns cts rs t line cn ct ws c r : fresh_struct n cns cts rs t ->
  TrimSpace line = line -> line = String c r -> Ascii.eqb c "#" = false -> split_white line = cn :: ct :: ws -> shape_known sh d0 d (cn :: ct :: ws) ->
  valid_name cn -> In ct all_types -> ct <> "*Table" -> ~ In cn cns ->
  parse_line line (block_state h ts COL_NAMES sh d0 ns cts0 named t) =
  let! g := (if d then struct_value (List.length h) line (cn :: ct :: ws) cn ct (block_state h ts COL_NAMES STRUCT_SHAPE d ns cts0 named (add_col cn ct (Datatypes.S (List.length h)) t))
             else Ok (block_state h ts COL_NAMES STRUCT_SHAPE d ns cts0 named (add_col cn ct (Datatypes.S (List.length h)) t))) in
  Ok (false, g).
Proof.
  intros FS TR LE H SW SK V T NT NI. destruct (add_col_fresh _ _ _ _ _ cn ct (Datatypes.S (List.length h)) FS V T NT NI) as (C & E & _).
  unfold parse_line. rewrite TR. rewrite LE at 1. rewrite H. cbn [block_state ps_expecting]. unfold col_names_line. cbv zeta. rewrite SW.
  assert (K : match ps_shape (block_state h ts COL_NAMES sh d0 ns cts0 named t) with
              | UNDEFINED_SHAPE => let! (sh', d') := getTableShape (cn :: ct :: ws) in Ok (with_shape_data sh' d' (block_state h ts COL_NAMES sh d0 ns cts0 named t))
              | _ => Ok (block_state h ts COL_NAMES sh d0 ns cts0 named t) end = Ok (block_state h ts COL_NAMES STRUCT_SHAPE d ns cts0 named t)).
  { destruct SK as [[-> G]|[-> ->]]; [|reflexivity]. cbn [block_state ps_shape]. rewrite G. reflexivity. }
  fold (block_state h ts COL_NAMES sh d0 ns cts0 named t). rewrite K. cbn [rbind]. change (ps_shape (block_state h ts COL_NAMES STRUCT_SHAPE d ns cts0 named t)) with STRUCT_SHAPE. cbn match.
  change (current (block_state h ts COL_NAMES STRUCT_SHAPE d ns cts0 named t)) with (@Ok ptr (List.length h)). cbn [rbind].
  rewrite (on_current_last (SetStructShape true) h ts COL_NAMES STRUCT_SHAPE d ns cts0 named t (with_shape true t) _ tt eq_refl) by reflexivity. cbn [rbind].
  change (Nat.ltb (List.length (cn :: ct :: ws)) 2) with false. cbn match. cbn [at_ nth_error rbind].
  rewrite (proj2 (IsValidColName_spec cn) V), (proj2 (IsValidColType_spec ct) T). cbn [negb].
  rewrite (on_current_last (AppendCol cn ct) h ts COL_NAMES STRUCT_SHAPE d ns cts0 named (with_shape true t) (add_col cn ct (Datatypes.S (List.length h)) t) _ tt eq_refl).
  2:{ rewrite AppendCol_eq by (apply wf_shape, FS). cbn [s_tab]. rewrite C, E. reflexivity. }
  cbn [rbind]. change (ps_has_data (block_state h ts COL_NAMES STRUCT_SHAPE d ns cts0 named ?x)) with d. reflexivity.
Qed.

(** A line without a value *)
Lemma parse_decl_line h ts sh d0 ns cts0 named n cns cts t cn ct : fresh_struct n cns cts [] t ->
  sh = UNDEFINED_SHAPE \/ sh = STRUCT_SHAPE /\ d0 = false ->
  valid_name cn -> In ct all_types -> ct <> "*Table" -> ~ In cn cns ->
  exists t', fresh_struct n (cns ++ [cn]) (cts ++ [ct]) [] t' /\ struct_shape t' = true /\
    parse_line (decl_line cn ct) (block_state h ts COL_NAMES sh d0 ns cts0 named t) = Ok (false, block_state h ts COL_NAMES STRUCT_SHAPE false ns cts0 named t').
Proof.
  intros FS SK V T NT NI. destruct (add_col_fresh _ _ _ _ _ cn ct (Datatypes.S (List.length h)) FS V T NT NI) as (_ & _ & SH & rs' & FS' & R0 & _).
  rewrite R0 in FS' by reflexivity. exists (add_col cn ct (Datatypes.S (List.length h)) t). split; [exact FS'|]. split; [exact SH|].
  destruct (decl_facts cn ct V T) as (TR & SW & _ & c & r & LE & H).
  assert (SK' : shape_known sh d0 false [cn; ct]).
  { destruct SK as [->|[-> ->]]; [left|right; auto]. split; [reflexivity|]. unfold getTableShape. cbn [List.length at_ nth_error rbind].
    rewrite (proj2 (IsValidColName_spec cn) V), (proj2 (IsValidColType_spec ct) T). reflexivity. }
  rewrite (parse_struct_line h ts sh d0 false ns cts0 named n cns cts [] t _ cn ct [] c r FS TR LE H SW SK' V T NT NI). reflexivity.
Qed.

Lemma get_values_one ct v u p h : cell_word ct v u -> get_values p [ct] u h = Ok (h, [v]).
Proof.
  intros CW. destruct (cw_first _ _ _ CW) as (c & r & E & _). cbn [get_values].
  assert (NE : (u =? "") = false) by (rewrite E; reflexivity). rewrite NE.
  pose proof (cw_reads _ _ _ CW p h "" I) as R. rewrite app_str_nil_r in R. rewrite R. reflexivity.
Qed.
Lemma upd_last {A} (l : list A) z v : upd (l ++ [z]) (List.length l) v = l ++ [v].
Proof. induction l as [|x l IH]; [reflexivity|]. cbn. now rewrite IH. Qed.

(** A line with a value *)
Lemma struct_value_line h ts ns cts0 named n cns cts rs t ct cn v u ws z r0 : 
  fresh_struct n (cns ++ [cn]) (cts ++ [ct]) rs t -> (rs = [] /\ cts = [] /\ r0 = []) \/ rs = [r0 ++ [z]] ->
  valid_name cn -> In ct all_types -> ct <> "*Table" -> cell_ok ct v -> cell_word ct v u ->
  struct_shape t = true ->
  exists t', fresh_struct n (cns ++ [cn]) (cts ++ [ct]) [r0 ++ [v]] t' /\ struct_shape t' = true /\
    struct_value (List.length h) (value_line cn ct u) (cn :: ct :: "=" :: ws) cn ct (block_state h ts COL_NAMES STRUCT_SHAPE true ns cts0 named t) =
      (if Nat.ltb (List.length (cn :: ct :: "=" :: ws)) 4 then Err else Ok (block_state h ts COL_NAMES STRUCT_SHAPE true ns cts0 named t')).
Proof.
  intros FS RS V T NT CO CW SH. destruct (value_facts cn ct v u V T CW) as (_ & _ & _ & _ & UN & TL).
  set (b := Datatypes.S (List.length h)).
  (* the row is there *)
  assert (ST : exists t1 z1, fresh_struct n (cns ++ [cn]) (cts ++ [ct]) [r0 ++ [z1]] t1 /\ struct_shape t1 = true /\
     (if (RowCount t =? 0)%Z then let! g := on_current (List.length h) AppendRow (block_state h ts COL_NAMES STRUCT_SHAPE true ns cts0 named t) in on_current (List.length h) (SetStructShape true) g
      else Ok (block_state h ts COL_NAMES STRUCT_SHAPE true ns cts0 named t)) = Ok (block_state h ts COL_NAMES STRUCT_SHAPE true ns cts0 named t1)).
  { pose proof FS as [F1 F2 F3 F4 F5 F6 F7 F8]. destruct RS as [(-> & -> & ->)|RS].
    - unfold RowCount. rewrite F4. change (Z.of_nat (List.length (@nil (list value))) =? 0)%Z with true. cbn match.
      set (t2 := s_tab (row_added (mkS t b []))).
      assert (E : AppendRow (mkS t b []) = (mkS t2 b [], Ok tt)).
      { rewrite AppendRow_eq by exact F8. cbn [s_tab]. rewrite F6. unfold t2, row_added. cbn [s_tab s_base s_news]. rewrite F3. cbn [app].
        rewrite ntab_none by (constructor; [exact NT|constructor]). reflexivity. }
      rewrite (on_current_last AppendRow h ts COL_NAMES STRUCT_SHAPE true ns cts0 named t t2 b tt eq_refl E). cbn [rbind].
      rewrite (on_current_last (SetStructShape true) h ts COL_NAMES STRUCT_SHAPE true ns cts0 named t2 (with_shape true t2) b tt eq_refl) by reflexivity.
      assert (Z : exists z1, Proofs_Table.zeros b (ctypes t) = [z1]).
      { rewrite F3. cbn [app]. pose proof (Proofs_Table.zeros_length b [ct]) as L. destruct (Proofs_Table.zeros b [ct]) as [|z1 [|]]; [discriminate L|eauto|discriminate L]. }
      destruct Z as [z1 Z]. exists (with_shape true t2), z1. split; [|split; reflexivity]. constructor; try assumption.
      + change (rows (with_shape true t2)) with (rows t ++ [Proofs_Table.zeros (next (mkS t b [])) (ctypes t)]). 
        assert (NX : next (mkS t b []) = b) by (unfold next, ptr; cbn [s_base s_news List.length]; lia). rewrite NX, F4, Z. reflexivity.
      + apply wf_shape. now apply row_added_wf.
    - exists t, z. split; [rewrite <- RS; exact FS|]. split; [exact SH|]. unfold RowCount. rewrite F4, RS. reflexivity. }
  destruct ST as (t1 & z1 & FS1 & SH1 & E1). pose proof FS1 as [F1 F2 F3 F4 F5 F6 F7 F8].
  assert (LR : List.length r0 = List.length cts).
  { pose proof (wf_cells _ F8) as WC. rewrite F3, F4 in WC. apply Forall_inv in WC. apply Forall2_len in WC. rewrite !app_length in WC. cbn in WC. lia. }
  set (t' := s_tab (Proofs_Cells.written (List.length r0) 0 v (mkS t1 b []))).
  assert (NE : nth_error (ctypes t1) (List.length r0) = Some ct) by (rewrite F3, LR, nth_error_app2, Nat.sub_diag by auto; reflexivity).
  assert (R' : rows t' = [r0 ++ [v]]).
  { unfold t', Proofs_Cells.written, put. cbn [s_tab on_tab with_rows rows]. rewrite F4. cbn. now rewrite upd_last. }
  exists t'. split; [|split].
  - constructor; try assumption. apply (written_wf (List.length r0) 0 v (mkS t1 b []) ct); [exact F8|exact NE|apply CO|apply CO].
  - exact SH1.
  - unfold struct_value. rewrite UN. destruct (Nat.ltb _ 4); [reflexivity|]. cbv zeta. rewrite TL.
    change (ps_heap (block_state h ts COL_NAMES STRUCT_SHAPE true ns cts0 named t)) with (h ++ [t]). rewrite tab_last, E1. cbn [rbind].
    change (ps_heap (block_state h ts COL_NAMES STRUCT_SHAPE true ns cts0 named t1)) with (h ++ [t1]).
    unfold getRowSlice. rewrite (get_values_one ct v u _ _ CW). cbn [rbind List.length]. change (Nat.ltb 1 1) with false. cbn match. cbn [Nat.sub repeat rbind app].
    change (with_heap (h ++ [t1]) (block_state h ts COL_NAMES STRUCT_SHAPE true ns cts0 named t1)) with (block_state h ts COL_NAMES STRUCT_SHAPE true ns cts0 named t1).
    change (ps_heap (block_state h ts COL_NAMES STRUCT_SHAPE true ns cts0 named t1)) with (h ++ [t1]). rewrite tab_last, F4.
    apply (on_current_last _ h ts COL_NAMES STRUCT_SHAPE true ns cts0 named t1 t' b tt eq_refl).
    rewrite app_length. cbn [List.length]. replace (Z.of_nat (List.length r0 + 1) - 1)%Z with (Z.of_nat (List.length r0)) by lia.
    destruct (SetValByColIndex_eq (Z.of_nat (List.length r0)) 0 v (mkS t1 b [])) as [[_ E]|[N _]]; [exact F8| |].
    + rewrite E, Nat2Z.id. reflexivity.
    + exfalso. apply N. cbn [s_tab]. rewrite Nat2Z.id. split; [destruct CO as [CT _]; destruct v as [|?|?|? ?|?|?|?|[?|]|?|?]; cbn in *; auto; contradiction|]. unfold RowCount. rewrite F4. cbn [List.length].
      split; [lia|]. exists ct. split; [lia|]. split; [exact NE|apply CO].
Qed.
Lemma parse_value_line h ts sh d0 ns cts0 named n cns cts rs t cn ct v u r0 : fresh_struct n cns cts rs t ->
  sh = UNDEFINED_SHAPE \/ sh = STRUCT_SHAPE /\ d0 = true -> (rs = [] /\ cts = [] /\ r0 = []) \/ rs = [r0] ->
  valid_name cn -> In ct all_types -> ct <> "*Table" -> ~ In cn cns -> cell_ok ct v -> cell_word ct v u ->
  exists t', fresh_struct n (cns ++ [cn]) (cts ++ [ct]) [r0 ++ [v]] t' /\ struct_shape t' = true /\
    parse_line (value_line cn ct u) (block_state h ts COL_NAMES sh d0 ns cts0 named t) = Ok (false, block_state h ts COL_NAMES STRUCT_SHAPE true ns cts0 named t').
Proof.
  intros FS SK RS V T NT NI CO CW. destruct (add_col_fresh _ _ _ _ _ cn ct (Datatypes.S (List.length h)) FS V T NT NI) as (_ & _ & SH & rs' & FS' & R0 & R1).
  destruct (value_facts cn ct v u V T CW) as (TR & (w & ws & SW) & _ & (c & r & LE & H) & _).
  assert (SK' : shape_known sh d0 true (cn :: ct :: "=" :: w :: ws)).
  { destruct SK as [->|[-> ->]]; [left|right; auto]. split; [reflexivity|]. unfold getTableShape. cbn [List.length at_ nth_error rbind].
    rewrite (proj2 (IsValidColName_spec cn) V), (proj2 (IsValidColType_spec ct) T). reflexivity. }
  assert (RS' : exists z, (rs' = [] /\ cts = [] /\ r0 = []) \/ rs' = [r0 ++ [z]]).
  { destruct RS as [(-> & -> & ->)|RS]; [exists VNil; left; auto|]. destruct (R1 r0 RS) as [z Z]. eauto. }
  destruct RS' as [z RS'].
  destruct (struct_value_line h ts ns cts0 named n cns cts rs' _ ct cn v u (w :: ws) z r0 FS' RS' V T NT CO CW SH) as (t' & FT & SH' & E).
  exists t'. split; [exact FT|]. split; [exact SH'|].
  rewrite (parse_struct_line h ts sh d0 true ns cts0 named n cns cts rs t _ cn ct ("=" :: w :: ws) c r FS TR LE H SW SK' V T NT NI).
  rewrite E. reflexivity.
Qed.

(** ---------- the lines of a struct ---------- *)

Lemma parse_decl_lines h ts ns cts0 named n : forall cns cts sh d0 cns0 cts1 t, fresh_struct n cns0 cts1 [] t ->
  sh = UNDEFINED_SHAPE \/ sh = STRUCT_SHAPE /\ d0 = false -> List.length cns = List.length cts -> cns <> [] \/ sh = STRUCT_SHAPE /\ struct_shape t = true ->
  NoDup (cns0 ++ cns) -> Forall valid_name cns -> Forall (fun ct => In ct all_types) cts -> Forall (fun ct => ct <> "*Table") cts ->
  exists t', fresh_struct n (cns0 ++ cns) (cts1 ++ cts) [] t' /\ struct_shape t' = true /\ exists d1, forall ls,
    parse_rest (map (fun p => decl_line (fst p) (snd p)) (combine cns cts) ++ ls) (block_state h ts COL_NAMES sh d0 ns cts0 named t) =
    parse_rest ls (block_state h ts COL_NAMES STRUCT_SHAPE d1 ns cts0 named t').
Proof.
  induction cns as [|cn cns IH]; intros [|ct cts] sh d0 cns0 cts1 t FS SK L NE D V T NT; try discriminate.
  - destruct NE as [NE|[-> SH]]; [congruence|]. exists t. rewrite !app_nil_r. split; [exact FS|]. split; [exact SH|]. exists d0. reflexivity.
  - apply NoDup_remove in D as D'. destruct D' as [_ D'].
    destruct (parse_decl_line h ts sh d0 ns cts0 named n cns0 cts1 t cn ct FS SK (Forall_inv V) (Forall_inv T) (Forall_inv NT)) as (t1 & FS1 & SH1 & E1).
    { intros I. apply D'. apply in_or_app. now left. }
    destruct (IH cts STRUCT_SHAPE false (cns0 ++ [cn]) (cts1 ++ [ct]) t1) as (t' & FS' & SH' & d1 & E'); auto.
    + now rewrite <- app_assoc.
    + now apply Forall_inv_tail in V.
    + now apply Forall_inv_tail in T.
    + now apply Forall_inv_tail in NT.
    + rewrite <- !app_assoc in FS'. exists t'. split; [exact FS'|]. split; [exact SH'|]. exists d1. intros ls. cbn [combine map fst snd app].
      rewrite (parse_rest_cons _ _ _ _ E1). apply E'.
Qed.

Fixpoint value_lines (cns cts us : list string) : list string :=
  match cns, cts, us with cn :: cns, ct :: cts, u :: us => value_line cn ct u :: value_lines cns cts us | _, _, _ => [] end.

Lemma parse_value_lines h ts ns cts0 named n : forall cns cts vs us sh d0 cns0 cts1 rs r0 t, fresh_struct n cns0 cts1 rs t ->
  sh = UNDEFINED_SHAPE \/ sh = STRUCT_SHAPE /\ d0 = true -> (rs = [] /\ cts1 = [] /\ r0 = [] /\ cns <> []) \/ rs = [r0] /\ struct_shape t = true /\ sh = STRUCT_SHAPE ->
  List.length cns = List.length cts -> cell_words cts vs us -> Forall2 cell_ok cts vs ->
  NoDup (cns0 ++ cns) -> Forall valid_name cns -> Forall (fun ct => In ct all_types) cts -> Forall (fun ct => ct <> "*Table") cts ->
  exists t', fresh_struct n (cns0 ++ cns) (cts1 ++ cts) [r0 ++ vs] t' /\ struct_shape t' = true /\ exists d1, forall ls,
    parse_rest (value_lines cns cts us ++ ls) (block_state h ts COL_NAMES sh d0 ns cts0 named t) =
    parse_rest ls (block_state h ts COL_NAMES STRUCT_SHAPE d1 ns cts0 named t').
Proof.
  induction cns as [|cn cns IH]; intros [|ct cts] vs us sh d0 cns0 cts1 rs r0 t FS SK RS L CW CO D V T NT; try discriminate.
  - inversion CW; subst. destruct RS as [(_ & _ & _ & N)|(-> & SH & ->)]; [congruence|]. exists t. rewrite !app_nil_r. split; [exact FS|]. split; [exact SH|]. exists d0. reflexivity.
  - inversion CW as [|? v u ? vs' us' W1 W2]; subst. inversion CO as [|? ? ? ? C1 C2]; subst. apply NoDup_remove in D as D'. destruct D' as [_ D'].
    destruct (parse_value_line h ts sh d0 ns cts0 named n cns0 cts1 rs t cn ct v u r0 FS SK) as (t1 & FS1 & SH1 & E1); auto.
    { destruct RS as [(A & B & C & _)|[A _]]; auto. }
    { now apply Forall_inv in V. } { now apply Forall_inv in T. } { now apply Forall_inv in NT. }
    { intros I. apply D'. apply in_or_app. now left. }
    destruct (IH cts vs' us' STRUCT_SHAPE true (cns0 ++ [cn]) (cts1 ++ [ct]) [r0 ++ [v]] (r0 ++ [v]) t1) as (t' & FS' & SH' & d1 & E'); auto.
    + now rewrite <- app_assoc.
    + now apply Forall_inv_tail in V.
    + now apply Forall_inv_tail in T.
    + now apply Forall_inv_tail in NT.
    + rewrite <- !app_assoc in FS'. exists t'. split; [exact FS'|]. split; [exact SH'|]. exists d1. intros ls. cbn [value_lines app].
      rewrite (parse_rest_cons _ _ _ _ E1). apply E'.
Qed.

(** ---------- a table as a piece of text ---------- *)

(** [ls] are lines that a reader takes for a new table named [n] for which [P] holds. *)
Record reads_table (n : string) (P : table -> Prop) (ls : list string) : Prop := {
  rt_nl : Forall (fun l => has nl l = false) ls;
  rt_name : forall t, P t -> tname t = n;
  rt_read : forall g, ps_expecting g = TABLE_NAME -> find_table (ps_heap g ++ [with_nil false (with_name n NewNilTable)]) n (ts_tables (ps_set g)) = None ->
    exists t g', P t /\ (forall rest, parse_rest (ls ++ "" :: rest) g = parse_rest rest g') /\
      ps_expecting g' = TABLE_NAME /\ ps_heap g' = ps_heap g ++ [t] /\
      ps_set g' = mkTS (ts_name (ps_set g)) (ts_file (ps_set g)) (ts_tables (ps_set g) ++ [Some (List.length (ps_heap g))]) }.

Lemma block_reads n cns cts rws ls : ascii_name n -> valid_name n -> block n cns cts rws ls -> reads_table n (fresh_table n cns cts rws) ls.
Proof.
  intros A V B. constructor.
  - eapply block_no_nl; eauto.
  - intros t F. apply F.
  - intros g X N. now apply read_block.
Qed.

Definition struct_lines (t : table) (us : list string) : list string :=
  match rows t with [] => map (fun p => decl_line (fst p) (snd p)) (combine (cnames t) (ctypes t)) | _ => value_lines (cnames t) (ctypes t) us end.
Definition struct_words (t : table) (us : list string) : Prop :=
  rows t = [] \/ exists row, rows t = [row] /\ cell_words (ctypes t) (map read_back row) us.
Definition read_struct (t t' : table) : Prop :=
  fresh_struct (tname t) (cnames t) (ctypes t) (map (map read_back) (rows t)) t' /\ struct_shape t' = true.

Lemma read_back_ok ct v : cell_ok ct v -> cell_ok ct (read_back v).
Proof. intros [T G]. destruct v as [|?|?|? ?|?|?|[?|]|?|?|?]; split; cbn in *; auto. Qed.
Lemma value_lines_no_nl : forall cns cts vs us, cell_words cts vs us -> Forall valid_name cns -> Forall (fun ct => In ct all_types) cts ->
  Forall (fun l => has nl l = false) (value_lines cns cts us).
Proof.
  induction cns as [|cn cns IH]; intros cts vs us CW V T; [constructor|]. destruct CW as [|ct v u cts vs us W CW]; [constructor|]. cbn [value_lines]. constructor.
  - apply (value_facts cn ct v u (Forall_inv V) (Forall_inv T) W).
  - eapply IH; eauto using Forall_inv_tail.
Qed.
Lemma new_struct n : valid_name n -> fresh_struct n [] [] [] (with_nil false (with_name n NewNilTable)).
Proof.
  intros V. assert (NT : NewTable n = Ok (with_nil false (with_name n NewNilTable))) by (rewrite NewTable_spec; now rewrite (proj2 (IsValidTableName_spec n) V)).
  apply NewTable_wf in NT as (W & _). constructor; try reflexivity. exact W.
Qed.

Lemma struct_reads t us : struct_table t -> struct_words t us ->
  reads_table (tname t) (read_struct t) (("[" ++ tname t ++ "]")%string :: struct_lines t us).
Proof.
  intros (W & NN & AN & SS & L1 & NC & NT & SC) SW.
  destruct (wf_name _ W) as [[_ V]|[X _]]; [|congruence]. pose proof (ascii_name_valid _ V AN) as A. constructor.
  - constructor; [apply graphic_word; [discriminate|now apply name_line_graphic]|]. unfold struct_lines. destruct SW as [->|(row & -> & CW)].
    + apply Forall_forall. intros l I. apply in_map_iff in I as ([cn ct] & <- & I). pose proof (in_combine_l _ _ _ _ I) as I1. pose proof (in_combine_r _ _ _ _ I) as I2.
      pose proof (wf_colnames _ W) as VN. pose proof (wf_types _ W) as VT. rewrite Forall_forall in VN, VT. cbn [fst snd]. apply decl_facts; auto.
    + apply (value_lines_no_nl _ _ _ _ CW); apply W.
  - intros t' [F _]. apply F.
  - intros g X N. pose proof (parse_name_line (tname t) g A V X N) as E0. pose proof (new_struct _ V) as F0.
    assert (K : exists t' d1, read_struct t t' /\ forall ls,
       parse_rest (struct_lines t us ++ ls) (block_state (ps_heap g) (ps_set g) COL_NAMES UNDEFINED_SHAPE (ps_has_data g) (ps_names g) (ps_types g) (ps_named g) (with_nil false (with_name (tname t) NewNilTable)))
       = parse_rest ls (block_state (ps_heap g) (ps_set g) COL_NAMES STRUCT_SHAPE d1 (ps_names g) (ps_types g) (ps_named g) t')).
    { unfold struct_lines, read_struct. destruct SW as [R|(row & R & CW)]; rewrite R.
      - destruct (parse_decl_lines (ps_heap g) (ps_set g) (ps_names g) (ps_types g) (ps_named g) (tname t) (cnames t) (ctypes t) UNDEFINED_SHAPE (ps_has_data g) [] [] _ F0) as (t' & F' & SH & d1 & E).
        + now left.
        + symmetry. apply W.
        + now left.
        + apply W.
        + apply W.
        + apply W.
        + exact NT.
        + exists t', d1. split; [|exact E]. split; [exact F'|exact SH].
      - destruct (parse_value_lines (ps_heap g) (ps_set g) (ps_names g) (ps_types g) (ps_named g) (tname t) (cnames t) (ctypes t) (map read_back row) us UNDEFINED_SHAPE (ps_has_data g) [] [] [] [] _ F0) as (t' & F' & SH & d1 & E).
        + now left.
        + left. auto.
        + symmetry. apply W.
        + exact CW.
        + pose proof (wf_cells _ W) as WC. rewrite R in WC. apply Forall_inv in WC. clear -WC. induction WC; constructor; auto using read_back_ok.
        + apply W.
        + apply W.
        + apply W.
        + exact NT.
        + exists t', d1. split; [|exact E]. split; [exact F'|exact SH]. }
    destruct K as (t' & d1 & RS & E). eexists t', _. split; [exact RS|]. split.
    + intros rest. cbn [app]. rewrite (parse_rest_cons _ _ _ _ E0), E. apply parse_rest_cons. reflexivity.
    + cbn. auto.
Qed.

(** ---------- the text that is printed ---------- *)

Lemma nth_value_lines : forall cns cts us i cn ct u, nth_error cns i = Some cn -> nth_error cts i = Some ct -> nth_error us i = Some u ->
  nth_error (value_lines cns cts us) i = Some (value_line cn ct u).
Proof.
  induction cns as [|a cns IH]; intros [|b cts] [|c us] [|i] cn ct u E1 E2 E3; try discriminate; cbn in *; [congruence|]. now apply IH.
Qed.
Lemma value_lines_length : forall cns cts us, List.length cns = List.length cts -> List.length us = List.length cts -> List.length (value_lines cns cts us) = List.length cns.
Proof. induction cns as [|a cns IH]; intros [|b cts] [|c us] H1 H2; try discriminate; cbn in *; [reflexivity|]. f_equal. apply IH; lia. Qed.
Lemma rmap_lines (f : Z -> res string) n ls : List.length ls = n -> (forall i l, nth_error ls i = Some l -> f (Z.of_nat i) = Ok (l ++ newline)%string) ->
  exists xs, rmap f (zseq n) = Ok xs /\ String.concat "" xs = text_of ls.
Proof.
  intros <- H. unfold zseq. assert (K : forall k, (forall i l, nth_error ls i = Some l -> f (Z.of_nat (k + i)) = Ok (l ++ newline)%string) ->
    exists xs, rmap f (map Z.of_nat (seq k (List.length ls))) = Ok xs /\ String.concat "" xs = text_of ls).
  { clear H. induction ls as [|l ls IH]; intros k H; [exists []; auto|]. cbn [List.length seq map rmap].
    assert (E : f (Z.of_nat k) = Ok (l ++ newline)%string) by (rewrite <- (Nat.add_0_r k); apply H; reflexivity).
    rewrite E. cbn [rbind]. destruct (IH (Datatypes.S k)) as (xs & R & C). { intros i m N. rewrite Nat.add_succ_comm. now apply H. }
    rewrite R. cbn [rbind]. eexists. split; [reflexivity|]. rewrite concat_nil_sep, C, app_str_assoc. reflexivity. }
  apply K. exact H.
Qed.
Lemma struct_words_exist h t : struct_table t -> exists us, struct_words t us /\ printStruct h t = Ok (text_of (("[" ++ tname t ++ "]")%string :: struct_lines t us)).
Proof.
  intros (W & NN & AN & SS & L1 & NC & NT & SC).
  assert (N : name_line (tname t) = (("[" ++ tname t ++ "]") ++ newline)%string) by (unfold name_line; now rewrite !app_str_assoc).
  assert (K : exists us, struct_words t us /\ List.length (struct_lines t us) = List.length (cnames t) /\
    forall i l, nth_error (struct_lines t us) i = Some l -> 
      match znth (cnames t) (Z.of_nat i), znth (ctypes t) (Z.of_nat i) with
      | Some cn, Some ct =>
          if (RowCount t >? 0)%Z then
            let! s := match GetValAsStringByColIndex h t (Z.of_nat i) 0 with Ok s => Ok s | Err => Ok "" | Panic => Panic end in
            let s := if ct =? "string" then String dquote (s ++ String dquote "")
                     else if ct =? "rune" then "'" ++ s ++ "'" else s in
            Ok (cn ++ " " ++ ct ++ " = " ++ s ++ newline)
          else Ok (cn ++ " " ++ ct ++ newline)
      | _, _ => Panic
      end%string = Ok (l ++ newline)%string).
  { pose proof (wf_types_len _ W) as TL. destruct (rows t) as [|row [|row2 rs]] eqn:R; [| |cbn in L1; lia].
    - exists []. split; [now left|]. unfold struct_lines. rewrite R. split; [rewrite map_length, combine_length, TL; lia|].
      intros i l E. rewrite !znth_of_nat. rewrite nth_error_map in E. destruct (nth_error (combine (cnames t) (ctypes t)) i) as [[cn ct]|] eqn:C; [|discriminate].
      rewrite Proofs_Copy.nth_error_combine in C. destruct (nth_error (cnames t) i); [|discriminate]. destruct (nth_error (ctypes t) i); [|discriminate]. injection C as -> ->. unfold RowCount. rewrite R. cbn in E. injection E as <-. unfold decl_line. change (Z.of_nat (List.length (@nil (list value))) >? 0)%Z with false. cbn match.
      now rewrite !app_str_assoc.
    - pose proof (wf_cells _ W) as WC. rewrite R in WC. apply Forall_inv in WC. apply Forall_inv in SC.
      assert (U : exists us, cell_words (ctypes t) (map read_back row) us /\ Forall2 (fun p u => struct_text h (fst p) (snd p) = Ok u) (combine (ctypes t) row) us).
      { clear -WC SC NT. revert row WC SC. induction (ctypes t) as [|ct cts IH]; intros row WC SC; inversion WC as [|? v ? row' C1 C2]; subst; [exists []; split; constructor|].
        inversion SC; subst. destruct (struct_cell_word h ct v) as (u & E & CW); auto. { now apply Forall_inv in NT. }
        destruct (IH (Forall_inv_tail NT) row') as (us & CWS & F); auto. exists (u :: us). split; [now constructor|]. cbn [combine]. now constructor. }
      destruct U as (us & CW & F). exists us. destruct (cell_words_len _ _ _ CW) as [_ LU]. pose proof (Forall2_len _ _ _ WC) as LR.
      split; [right; eauto|]. unfold struct_lines. rewrite R. split; [apply value_lines_length; lia|].
      intros i l E. assert (LI : i < List.length (cnames t)).
      { apply nth_error_some_lt in E. rewrite value_lines_length in E by lia. exact E. }
      rewrite !znth_of_nat. destruct (nth_error (cnames t) i) as [cn|] eqn:E1; [|apply nth_error_None in E1; lia].
      destruct (nth_error (ctypes t) i) as [ct|] eqn:E2; [|apply nth_error_None in E2; lia].
      destruct (nth_error us i) as [u|] eqn:E3; [|apply nth_error_None in E3; lia].
      destruct (nth_error row i) as [v|] eqn:E4; [|apply nth_error_None in E4; lia].
      rewrite (nth_value_lines _ _ _ i cn ct u E1 E2 E3) in E. injection E as <-.
      unfold RowCount. rewrite R. change (Z.of_nat (List.length [row]) >? 0)%Z with true. cbn match.
      assert (EP : nth_error (combine (ctypes t) row) i = Some (ct, v)) by (rewrite Proofs_Copy.nth_error_combine, E2, E4; reflexivity).
      destruct (Forall2_nth _ _ _ _ _ F EP) as (u' & E5 & ST). rewrite E3 in E5. injection E5 as <-. cbn [fst snd] in ST.
      assert (G : GetValAsStringByColIndex h t (Z.of_nat i) 0 = match cell_text (fun s => s) encode h ct v with Some r => r | None => Err end).
      { unfold GetValAsStringByColIndex. rewrite NN. change 0%Z with (Z.of_nat 0). rewrite (Proofs_Api2.get_at_nat t i 0 W). unfold at_cell. rewrite R. cbn [nth_error]. rewrite E4. cbn [rbind].
        rewrite znth_of_nat, E2. reflexivity. }
      rewrite G. unfold struct_text in ST. destruct (match (match cell_text (fun s => s) encode h ct v with Some r => r | None => Err end) with Ok s => Ok s | Err => Ok "" | Panic => Panic end) as [s| |]; cbn [rbind] in *; try discriminate.
      apply (f_equal (fun r => match r with Ok x => x | _ => "" end)) in ST. cbv beta iota in ST. cbv zeta. rewrite <- ST. unfold value_line. now rewrite !app_str_assoc. }
  destruct K as (us & SW & LL & K). exists us. split; [exact SW|]. unfold printStruct.
  match goal with |- context [rmap ?f _] => destruct (rmap_lines f _ _ LL) as (xs & E & C); [exact K|] end. rewrite E. cbn [rbind]. rewrite C, N. cbn [text_of]. now rewrite !app_str_assoc.
Qed.

Lemma struct_print ip h t : struct_table t -> StringPadded ip h t = printStruct h t /\ StringUnpadded ip h t = printStruct h t.
Proof.
  intros (W & NN & AN & SS & L1 & _). assert (E0 : struct_shape t && (RowCount t <=? 1)%Z = true).
  { rewrite SS. unfold RowCount. apply Z.leb_le. lia. }
  split; [|unfold StringUnpadded; now rewrite E0]. unfold StringPadded. rewrite types_firstn by exact W.
  destruct (padded_rows_total ip h (ctypes t) (rows t)) as [l ->]; [apply W|apply W|]. cbn [rbind]. now rewrite E0.
Qed.

Lemma read_one n P ls h : reads_table n P ls ->
  exists t, P t /\ NewTableFromString (text_of ls) h = (h ++ [t], Ok (Some (List.length h))).
Proof.
  intros [NL _ RD]. destruct (RD (mkPS h (NewTableSet "") TABLE_NAME UNDEFINED_SHAPE false [] [] false None) eq_refl eq_refl) as (t & g & FT & E & X & H & S).
  exists t. split; [exact FT|]. unfold NewTableFromString, NewTableSetFromString.
  rewrite <- (app_str_nil_r (text_of _)). rewrite lines_text by exact NL. change (lines "") with [""].
  specialize (E []). assert (PR : parse_rest (ls ++ [""]) = parse_lines (ls ++ [""])) by (destruct ls; reflexivity).
  rewrite PR in E. rewrite E. cbn [parse_rest]. rewrite H, S. reflexivity.
Qed.
Theorem struct_roundtrip ip h t h1 : struct_table t ->
  exists s t', StringPadded ip h t = Ok s /\ StringUnpadded ip h t = Ok s /\ NewTableFromString s h1 = (h1 ++ [t'], Ok (Some (List.length h1))) /\ read_struct t t'.
Proof.
  intros T. destruct (struct_words_exist h t T) as (us & SW & E). destruct (struct_print ip h t T) as [E1 E2].
  destruct (read_one _ _ _ h1 (struct_reads t us T SW)) as (t' & RS & R). rewrite E1, E2, E. eauto 8.
Qed.
