(** Proofs_Refuse.v -- a text with a mistake is not accepted. *)
From Coq Require Import ZArith NArith List String Ascii Bool SpecFloat Lia.
From Verif Require Import Base Model_Names Model_Table Model_Ops Model_Heap Spec Spec_Text Model_Lex Model_Float Model_Time Model_TableSet Model_Parser
  Proofs_Lib Proofs_Table Proofs_Cells Proofs_Struct Proofs_Api Proofs_Api2 Proofs_Pres Proofs_Heap Proofs_Frame Proofs_TableSet Proofs_Lex Proofs_Num Proofs_Float Proofs_Parser Proofs_FloatText Proofs_Lines Proofs_Block Proofs_Unpadded Proofs_SetText
  Spec_Decimal Spec_Time Proofs_Closest Proofs_Decimal Proofs_Time Spec_Document Spec_TableSet Spec_Heap Proofs_Document Spec_Grammar Proofs_Token Proofs_Grammar Spec_Refuse Props_Lex.
Import ListNotations.
Local Open Scope string_scope.
Local Open Scope list_scope.

Definition fails {A} (r : res A) : Prop := forall x, r <> Ok x.
Lemma fails_err {A} : fails (@Err A). Proof. intros x. discriminate. Qed.
Lemma fails_bind {A B} (r : res A) (k : A -> res B) : (forall x, r = Ok x -> fails (k x)) -> fails (let! x := r in k x).
Proof. intros H. destruct r as [x| |]; cbn [rbind]; [now apply H|intros y; discriminate..]. Qed.
Lemma fails_now {A B} (r : res A) (k : A -> res B) : fails r -> fails (let! x := r in k x).
Proof. intros H. apply fails_bind. intros x E. now apply H in E. Qed.
Lemma fails_pure {A B} h (r : res (A * B)) f : fails r -> fails (pure h r f).
Proof. intros H. unfold pure. apply fails_now, H. Qed.

(** ---------- cells ---------- *)

Lemma gapped_rest rest : rest = "" \/ (exists c r, rest = String c r /\ is_blank c = true) -> gapped rest.
Proof. intros [->|(c & r & -> & B)]; [exact I|exact B]. Qed.
Lemma word_prefix w : forall tok rest, all_c is_word w = true -> gapped rest -> String.prefix w (tok ++ rest) = true -> exists t, tok = (w ++ t)%string.
Proof.
  induction w as [|c w IH]; intros tok rest W G P; [now exists tok|]. cbn in W. apply andb_true_iff in W as [C W].
  destruct tok as [|d tok]; cbn [append] in P.
  - destruct rest as [|d r]; [discriminate|]. cbn [String.prefix] in P. destruct (ascii_dec c d) as [->|]; [|discriminate]. cbn in G.
    destruct (blank_cases d G) as [-> | ->]; discriminate C.
  - cbn [String.prefix] in P. destruct (ascii_dec c d) as [->|]; [|discriminate]. destruct (IH tok rest W G P) as (t & ->). now exists t.
Qed.
Lemma scan_bool_wrong tok rest : tok <> "" -> every is_word tok -> tok <> "true" -> tok <> "false" -> gapped rest -> scan_bool (tok ++ rest) = None.
Proof.
  intros N E T F G. apply every_all in E. unfold scan_bool.
  assert (K : forall w, all_c is_word w = true -> tok <> w -> String.prefix w (tok ++ rest) && word_ends (drop (String.length w) (tok ++ rest)) = false).
  { intros w W NW. destruct (String.prefix w (tok ++ rest)) eqn:P; [|reflexivity]. destruct (word_prefix w tok rest W G P) as (t & ->). cbn [andb].
    rewrite app_str_assoc, drop_app. destruct t as [|c t]; [now rewrite app_str_nil_r in NW|]. cbn [append word_ends]. rewrite all_c_app in E. apply andb_true_iff in E as [_ E].
    cbn in E. apply andb_true_iff in E as [C _]. now rewrite C. }
  pose proof (K "true" eq_refl T) as K1. pose proof (K "false" eq_refl F) as K2. cbn [String.length] in K1, K2. now rewrite K1, K2.
Qed.
Lemma one_of_no2 a b c : c <> a -> c <> b -> one_of (String a (String b "")) c = false.
Proof. intros A B. destruct (one_of _ c) eqn:O; [|reflexivity]. apply one_of_two in O as [O|O]; congruence. Qed.
Lemma one_of_no1 a c : c <> a -> one_of (String a "") c = false.
Proof. intros A. unfold one_of. cbn [list_ascii_of_string existsb]. rewrite orb_false_r. now apply Ascii.eqb_neq. Qed.
Lemma scan_num_wrong signs c r : is_dec c = false -> one_of signs c = false -> scan_num signs (String c r) = None.
Proof.
  intros D O. unfold scan_num. assert (R : scan_radix (String c r) = None).
  { unfold scan_radix. destruct r as [|c2 r]; [reflexivity|]. destruct (Ascii.eqb_spec c "0") as [->|]; [discriminate|reflexivity]. }
  rewrite R. unfold scan_dec. rewrite O. unfold some_digits. cbn [span]. now rewrite D.
Qed.

Lemma get_value_wrong p ct tok rest h : cell_wrong ct tok -> gapped rest -> fails (get_value p ct (tok ++ rest) h).
Proof.
  intros W G. destruct W as [ct k tok z K L F|tok neg n d N B|tok neg n d N B|ct k c r K D P M|c r Q|tok N E T F|ct c r T Q|tok TS NT|c r Q].
  - rewrite (proj2 (C27_literal_exact p ct k tok z rest h K L (gapped_separated rest G)) F). apply fails_err.
  - change (get_value p "float32" ?s h) with (pure h (get_float F32 s) VFloat32). apply fails_pure. unfold get_float.
    destruct (ParseFloat_number_text F32 tok neg n d (or_introl eq_refl) N) as (E & N0 & D0). destruct N as (x & k & y & D & _).
    rewrite (scan_decimal_app' tok rest (decimal_of_decimal tok neg x k y D) G). cbn [of_opt rbind]. rewrite E, (proj2 (nearest_none F32 (or_introl eq_refl) n d neg N0 D0) B). apply fails_err.
  - change (get_value p "float64" ?s h) with (pure h (get_float F64 s) VFloat64). apply fails_pure. unfold get_float.
    destruct (ParseFloat_number_text F64 tok neg n d (or_intror eq_refl) N) as (E & N0 & D0). destruct N as (x & k & y & D & _).
    rewrite (scan_decimal_app' tok rest (decimal_of_decimal tok neg x k y D) G). cbn [of_opt rbind]. rewrite E, (proj2 (nearest_none F64 (or_intror eq_refl) n d neg N0 D0) B). apply fails_err.
  - unfold get_value. rewrite K. apply fails_pure. unfold get_int. cbn [append]. destruct (isigned k).
    + unfold scan_int. rewrite scan_num_wrong; [apply fails_err|exact D|]. apply one_of_no2; auto.
    + unfold scan_uint. rewrite scan_num_wrong; [apply fails_err|exact D|]. now apply one_of_no1.
  - change (get_value p "string" ?s h) with (pure h (let! (text, rest) := of_opt (scan_string s) in let! v := of_opt (Unquote text) in Ok (v, rest)) VString).
    apply fails_pure. cbn [append]. unfold scan_string. rewrite (proj2 (Ascii.eqb_neq c dquote) Q). apply fails_err.
  - change (get_value p "bool" ?s h) with (pure h (of_opt (scan_bool s)) (fun text => VBool (text =? "true"))). apply fails_pure. rewrite scan_bool_wrong by auto. apply fails_err.
  - rewrite slice_value by exact T. apply fails_pure. unfold get_slice, scan_slice. cbn [append]. rewrite (proj2 (Ascii.eqb_neq c "[") Q). apply fails_err.
  - change (get_value p "time.Time" ?s h) with (pure h (let! (f, rest) := of_opt (scan_time s) in let! t := of_opt (parse_time f) in Ok (t, rest)) VTime).
    apply fails_pure. apply time_shaped_spec in TS as (f & T). rewrite (time_token tok f rest T). cbn [of_opt rbind]. destruct (parse_time f) as [t|] eqn:P; [|apply fails_err].
    exfalso. apply (NT t). apply time_written_spec. eauto.
  - change (get_value p "*Table" ?s h) with (get_table p s h). unfold get_table. cbn [append]. apply fails_now. unfold scan_bracketed, scan_empty_brackets.
    assert (S : match r ++ rest with EmptyString => @None (string * string) | String c0 r0 => if Ascii.eqb c "[" && is_alpha_ c0 then match span is_word r0 with (w, String e r1) => if Ascii.eqb e "]" then Some (String c0 w, r1) else None | _ => None end else None end%string = None).
    { destruct (r ++ rest)%string; [reflexivity|]. now rewrite (proj2 (Ascii.eqb_neq c "[") Q). }
    destruct (r ++ rest)%string as [|c0 r0].
    + cbn [String.prefix]. destruct (ascii_dec "[" c) as [X|]; [congruence|]. apply fails_err.
    + rewrite (proj2 (Ascii.eqb_neq c "[") Q). cbn [andb]. cbn [String.prefix]. destruct (ascii_dec "[" c) as [X|]; [congruence|]. apply fails_err.
Qed.

Lemma get_values_wrong p : forall cts line, row_wrong cts line -> forall h, p < List.length h -> fails (get_values p cts line h).
Proof.
  assert (WR : forall ct tok c rest h, cell_written ct tok c -> gapped rest -> p < List.length h -> exists h' v, get_value p ct (tok ++ rest) h = Ok (h', v, rest) /\ p < List.length h').
  { intros ct tok c rest h W G P. destruct (get_value_written h p ct tok c h rest W G (le_n _) P) as (h' & v & E & Gr & _). exists h', v. split; [exact E|]. pose proof (grew_len _ _ Gr). unfold ptr in *. lia. }
  induction 1 as [ct tok cts rest W G|ct tok c ct2 cts W|ct tok c gap d more W B N D|ct tok c gap cts d more W B N D _ IH]; intros h P; cbn [get_values].
  - destruct (_ =? _); [apply fails_err|]. apply fails_now. apply get_value_wrong; [exact W|now apply gapped_rest].
  - destruct (_ =? _); [apply fails_err|]. destruct (WR ct tok c "" h W I P) as (h' & v & E & _). rewrite app_str_nil_r in E. rewrite E. cbn [rbind trim_left]. apply fails_now. apply fails_err.
  - destruct (_ =? _); [apply fails_err|]. destruct (WR ct tok c (gap ++ String d more)%string h W (gap_gapped gap _ B N) P) as (h' & v & E & _). rewrite E. cbn [rbind].
    rewrite (trim_gap is_blank gap (String d more) B blank_white) by (exists d, more; auto). apply fails_now. apply fails_err.
  - destruct (_ =? _); [apply fails_err|]. destruct (WR ct tok c (gap ++ String d more)%string h W (gap_gapped gap _ B N) P) as (h' & v & E & P'). rewrite E. cbn [rbind].
    rewrite (trim_gap is_blank gap (String d more) B blank_white) by (exists d, more; auto). apply fails_now. apply IH, P'.
Qed.

(** ---------- rows ---------- *)

Lemma rows_run' h0 p cts ls css : Forall2 (row_written cts) ls css -> Forall (fun l => comment l = false) ls ->
  forall g, reading h0 g p -> ps_expecting g = COL_ROWS -> ps_types g = cts -> cnames (tab (ps_heap g) p) = ps_names g -> ctypes (tab (ps_heap g) p) = cts ->
  exists h', run_t ls g = Ok (with_heap h' g) /\ reading h0 (with_heap h' g) p.
Proof.
  induction 1 as [|l cs ls css Rl F IH]; intros C g Rd X T Cn Ct.
  - exists (ps_heap g). cbn [run_t]. destruct g. auto.
  - inversion C; subst. destruct (rows_do h0 l g p cs Rd Cn Ct X Rl) as (h1 & row & E1 & Rd1 & K1 & (F1 & F2 & F3 & F4) & R1 & C1).
    destruct (IH ltac:(assumption) (with_heap h1 g)) as (h' & E' & Rd'); auto; [exact (eq_trans F2 Cn)|exact (eq_trans F3 Ct)|].
    exists h'. cbn [run_t]. rewrite parse_hard by (auto; eapply row_start; eauto). rewrite X, E1. cbn [rbind]. auto.
Qed.
Lemma parse_line_at l g : l <> "" -> comment l = false -> parse_t l g =
  match ps_expecting g with
  | TABLE_NAME => table_name_line l g
  | COL_NAMES => let! g := col_names_line l g in Ok (false, g)
  | COL_TYPES => let! g := col_types_line l g in Ok (false, g)
  | COL_ROWS => let! g := col_rows_line l g in Ok (false, g)
  end.
Proof. destruct l as [|c r]; [congruence|]. intros _ C. unfold comment in C. unfold parse_t. now rewrite C. Qed.
Lemma cell_wrong_ne ct tok : cell_wrong ct tok -> tok <> "".
Proof.
  intros [ct' k tok' z K L F|tok' neg n d (x & k & y & D & _) B|tok' neg n d (x & k & y & D & _) B|ct' k c r K D P M|c r Q|tok' N E T F|ct' c r T Q|tok' TS NT|c r Q]; try discriminate.
  - destruct (literal_start k tok' z L) as (c & r & -> & _). discriminate.
  - apply decimal_of_decimal in D as (s & m & e & S & M & _ & ->). destruct (decimal_first s m e S M) as (c & r & -> & _). discriminate.
  - apply decimal_of_decimal in D as (s & m & e & S & M & _ & ->). destruct (decimal_first s m e S M) as (c & r & -> & _). discriminate.
  - exact N.
  - apply time_shaped_spec in TS as (f & T). destruct tok'; [discriminate T|discriminate].
Qed.
Lemma app_ne a b : a <> "" -> (a ++ b)%string <> "".
Proof. destruct a; [congruence|discriminate]. Qed.
Lemma row_wrong_ne cts line : row_wrong cts line -> line <> "".
Proof.
  assert (WN : forall ct tok c, cell_written ct tok c -> tok <> "") by (intros ct tok c W; destruct (cell_written_start ct tok c W) as [(x & r & -> & _) _]; discriminate).
  intros [ct tok cts' rest W G|ct tok c ct2 cts' W|ct tok c gap d more W B N D|ct tok c gap cts' d more W B N D _]; try apply app_ne; eauto using cell_wrong_ne.
Qed.

(** ---------- tables ---------- *)

Lemma shape_no_type ws : (forall w, nth_error ws 1 = Some w -> ~ In w all_types) -> forall x, getTableShape ws = Ok x -> x = (TABLE_SHAPE, false).
Proof.
  intros N x. unfold getTableShape, at_.
  assert (T : forall a b, nth_error ws 1 = Some b -> IsValidColName a && IsValidColType b = false).
  { intros a b E. destruct (IsValidColType b) eqn:V; [|now rewrite andb_false_r]. apply IsValidColType_spec in V. now apply N in E. }
  destruct ws as [|a [|b [|c [|d ws]]]]; cbn [List.length nth_error rbind] in *; [discriminate|now intros [= <-]|..].
  - rewrite (T a b eq_refl). now intros [= <-].
  - destruct (c =? "="); [discriminate|]. now intros [= <-].
  - rewrite (T a b eq_refl). cbn [andb]. now intros [= <-].
Qed.
Lemma forallb_exists {A} (f : A -> bool) (P : A -> Prop) l : (forall x, f x = true -> P x) -> Exists (fun x => ~ P x) l -> forallb f l = false.
Proof.
  intros H E. induction E as [x l N|x l _ IH]; cbn [forallb].
  - destruct (f x) eqn:F; [exfalso; apply N, H, F|reflexivity].
  - rewrite IH. apply andb_false_r.
Qed.

Lemma body_wrong_run h0 p body ls g : body_wrong body -> Forall (fun l => comment l = false) body -> reading h0 g p -> ps_expecting g = COL_NAMES -> ps_shape g = UNDEFINED_SHAPE ->
  cnames (tab (ps_heap g) p) = [] -> rows (tab (ps_heap g) p) = [] -> fails (run_t (body ++ ls) g).
Proof.
  intros W C Rd X Sh Cn Rw.
  assert (HD : forall cns names rest, words cns names -> Forall valid_name cns -> comment names = false ->
    run_t (names :: rest) g = run_t rest (with_expecting COL_TYPES (with_names cns (with_shape_data TABLE_SHAPE false g)))).
  { intros cns names rest Wn V Cm. cbn [run_t]. rewrite (parse_hard names) by (auto; eapply words_split; eauto). rewrite X, (names_do cns names g) by assumption. reflexivity. }
  destruct W as [ws names Wn Ex NT|cns names Wn V|cns names ws types Wn V Wt Ex|cns names cts types Wn V Wt Le|cns names cts types Wn V Wt ND|cns names cts types rs css bad Wn V ND Wt Ty Le Rs Bad];
    inversion C as [|? ? C1 C2]; subst.
  - cbn [app run_t]. apply fails_now. rewrite (parse_hard names) by (auto; eapply words_split; eauto). rewrite X. apply fails_now. unfold col_names_line. cbv zeta.
    rewrite Sh, (proj1 (words_split _ _ Wn)). apply fails_bind. intros g1 E. destruct (getTableShape ws) as [[sh d]| |] eqn:GS; try discriminate. cbn [rbind] in E. injection E as <-.
    apply (shape_no_type ws NT) in GS as [= -> ->]. cbn [ps_shape with_shape_data]. apply fails_now. unfold getColNames. rewrite (forallb_exists IsValidColName valid_name ws); [apply fails_err| |exact Ex].
    intros x Q. now apply IsValidColName_spec.
  - cbn [app]. rewrite (HD cns names) by assumption. cbn [run_t]. apply fails_now. apply fails_err.
  - inversion C2 as [|? ? C3 C4]; subst. cbn [app]. rewrite (HD cns names) by assumption. cbn [run_t]. apply fails_now. rewrite (parse_hard types) by (auto; eapply words_split; eauto).
    cbn [ps_expecting with_expecting]. apply fails_now. unfold col_types_line. apply fails_now. unfold getColTypes. cbv zeta. rewrite (proj1 (words_split _ _ Wt)).
    rewrite (forallb_exists IsValidColType (fun w => In w all_types) ws); [apply fails_err| |exact Ex]. intros x Q. now apply IsValidColType_spec.
  - inversion C2 as [|? ? C3 C4]; subst. cbn [app]. rewrite (HD cns names) by assumption. cbn [run_t]. apply fails_now. rewrite (parse_hard types) by (auto; eapply words_split; eauto).
    cbn [ps_expecting with_expecting]. apply fails_now. unfold col_types_line. apply fails_bind. intros cts' E. unfold getColTypes in E. cbv zeta in E. rewrite (proj1 (words_split _ _ Wt)) in E.
    destruct (forallb _ cts); [|discriminate]. injection E as <-. cbv zeta. change (ps_names (with_types cts _)) with cns. rewrite (proj2 (Nat.eqb_neq _ _) Le). apply fails_err.
  - inversion C2 as [|? ? C3 C4]; subst. cbn [app]. rewrite (HD cns names) by assumption. cbn [run_t]. apply fails_now. rewrite (parse_hard types) by (auto; eapply words_split; eauto).
    cbn [ps_expecting with_expecting]. apply fails_bind. intros g' E. exfalso. set (g1 := with_expecting COL_TYPES _) in E.
    destruct (types_step h0 types g1 g' p Rd Cn E) as (h' & -> & Rd' & _ & _ & _ & Cn' & _). apply ND. change (ps_names g1) with cns in Cn'. rewrite <- Cn'.
    destruct Rd' as (B & _). change (ps_heap (with_expecting COL_ROWS (with_heap h' ?x))) with h' in B. apply (wf_nodup (tab h' p)). apply tab_wf, B.
  - inversion C2 as [|? ? C3 C4]; subst. apply Forall_app in C4 as [C4 C5]. inversion C5; subst. cbn [app]. rewrite (HD cns names) by assumption. set (g1 := with_expecting COL_TYPES _).
    destruct (types_do h0 types g1 p cts Rd Cn Rw Wt Le ND V Ty) as (h2 & E2 & Rd2 & K2 & Nm2 & Cn2 & Ct2 & S2 & R2).
    cbn [run_t]. rewrite (parse_hard types) by (auto; eapply words_split; eauto). change (ps_expecting g1) with COL_TYPES. cbn match. rewrite E2. cbn [rbind].
    set (g2 := with_expecting COL_ROWS (with_heap h2 (with_types cts g1))) in *.
    destruct (rows_run' h0 p cts rs css Rs C4 g2 Rd2 eq_refl eq_refl Cn2 Ct2) as (h3 & E3 & Rd3). rewrite <- app_assoc, run_t_app, E3. cbn [rbind app run_t]. apply fails_now.
    rewrite (parse_line_at bad) by (auto; eapply row_wrong_ne; eauto). change (ps_expecting (with_heap h3 g2)) with COL_ROWS. cbn match. apply fails_now.
    unfold col_rows_line, current. destruct Rd3 as (_ & Tb & P & _). rewrite Tb. cbn [rbind]. apply fails_now. unfold getRowSlice. apply fails_now.
    change (ps_types (with_heap h3 g2)) with cts. apply get_values_wrong; [exact Bad|apply P].
Qed.

(** ---------- table sets ---------- *)

Lemma header_run h0 n g : plain_name n -> binv h0 (ps_heap g) (ps_set g) -> ps_expecting g = TABLE_NAME -> ~ In n (set_names (ps_heap g) (ps_set g)) ->
  let p := List.length (ps_heap g) in let t0 := with_nil false (with_name n NewNilTable) in
  let g1 := block_state (ps_heap g) (ps_set g) COL_NAMES UNDEFINED_SHAPE (ps_has_data g) (ps_names g) (ps_types g) (ps_named g) t0 in
  parse_t ("[" ++ n ++ "]") g = Ok (false, g1) /\ reading h0 g1 p /\ tab (ps_heap g1) p = t0 /\ ps_set g1 = mkTS (ts_name (ps_set g)) (ts_file (ps_set g)) (ts_tables (ps_set g) ++ [Some p]).
Proof.
  intros Pn B X NI p t0 g1. pose proof (plain_ascii _ Pn) as A.
  assert (FT : find_table (ps_heap g ++ [t0]) n (ts_tables (ps_set g)) = None).
  { pose proof (find_table_spec (ps_heap g ++ [t0]) n (ts_tables (ps_set g))) as Q.
    destruct (find_table _ _ _) as [o|]; [|reflexivity]. exfalso. destruct Q as (i & NE & R & _). apply NI. rewrite <- R. apply nth_error_In in NE.
    rewrite ref_name_app. { unfold set_names. now apply in_map. }
    pose proof (bi_refs _ _ _ B) as Rf. rewrite Forall_forall in Rf. destruct (Rf o NE) as (q & -> & Q). exists q. split; [reflexivity|lia]. }
  assert (E : parse_t ("[" ++ n ++ "]") g = Ok (false, g1)) by (exact (name_t n g A (proj1 Pn) X FT)).
  assert (I1 : inv h0 g1).
  { pose proof (parse_line_ok h0 ("[" ++ n ++ "]") g) as Q. rewrite (parse_name_line n g A (proj1 Pn) X FT) in Q. apply Q. split; [exact B|]. unfold section_inv. rewrite X. exact I. }
  assert (Tp : tab (ps_heap g1) p = t0) by (apply tab_last).
  assert (Lp : List.length (ps_heap g1) = Datatypes.S p) by (cbn; rewrite app_length; cbn; unfold p; lia).
  split; [exact E|]. split; [|split; [exact Tp|reflexivity]].
  split; [apply I1|]. split; [reflexivity|]. pose proof (bi_len _ _ _ B). split; [split; [exact H|unfold ptr in *; rewrite Lp; lia]|]. rewrite Tp. cbn. destruct n; [inversion A|discriminate].
Qed.

Lemma table_run h0 d body g : tdoc_ok d -> body_written d body -> Forall (fun l => comment l = false) body -> binv h0 (ps_heap g) (ps_set g) -> ps_expecting g = TABLE_NAME ->
  ~ In (td_name d) (set_names (ps_heap g) (ps_set g)) ->
  exists g2, run_t (("[" ++ td_name d ++ "]")%string :: body) g = Ok g2 /\ binv h0 (ps_heap g2) (ps_set g2) /\ ps_expecting g2 <> COL_TYPES /\ ps_named g2 = ps_named g /\
    set_names (ps_heap g2) (ps_set g2) = set_names (ps_heap g) (ps_set g) ++ [td_name d].
Proof.
  intros Ok_ Bw Cb B X NI. pose proof Ok_ as (Pn & _). destruct (header_run h0 (td_name d) g Pn B X NI) as (E & Rd & Tp & Se).
  set (p := List.length (ps_heap g)) in *. set (t0 := with_nil false (with_name (td_name d) NewNilTable)) in *. set (g1 := block_state _ _ _ _ _ _ _ _ _) in *.
  destruct (body_run h0 p d body g1 Ok_ Bw Cb Rd) as (g2 & E2 & (Rd2 & K2 & S2 & Nd2 & X2 & Nm2) & Cn & Ct & Ss & Rw); try reflexivity; try (rewrite Tp; reflexivity).
  exists g2. cbn [run_t]. rewrite E. cbn [rbind]. split; [exact E2|]. split; [apply Rd2|]. split; [exact X2|]. split; [exact Nd2|].
  rewrite Tp in Nm2. cbn in Nm2. rewrite S2, Se. unfold set_names. cbn [ts_tables]. rewrite map_app. cbn [map ref_name]. rewrite Nm2. f_equal.
  apply map_ext_in. intros o I. pose proof (bi_refs _ _ _ B) as Rf. rewrite Forall_forall in Rf. destruct (Rf o I) as (q & -> & Q). cbn. f_equal. apply tab_eq.
  destruct K2 as [L2 K2]. rewrite K2; [cbn; apply nth_error_app1; lia|cbn [ps_heap]; unfold g1, block_state; cbn [ps_heap]; rewrite app_length; cbn [List.length]; unfold ptr in *; lia|unfold p, ptr in *; lia].
Qed.

Lemma wrong_start c r l0 g : TrimSpace l0 = String c r -> c <> "["%char -> comment (String c r) = false -> ps_expecting g = TABLE_NAME -> fails (parse_t (String c r) g).
Proof.
  intros T Q C X. rewrite parse_line_at by (auto; discriminate). rewrite X. unfold table_name_line.
  assert (F : forall w, Fields (String c r) = [w] -> scan_set_name w = None /\ scan_bracketed w = None).
  { intros w F. rewrite <- T in F. apply Fields_one in F. rewrite T in F. subst w. unfold scan_set_name, scan_bracketed. rewrite (proj2 (Ascii.eqb_neq c "[") Q). cbn [andb]. split; [reflexivity|now destruct r]. }
  assert (S1 : fails (getTableSetName (String c r))).
  { unfold getTableSetName. destruct (Fields (String c r)) as [|w [|]] eqn:E; [intros x; discriminate| |apply fails_err]. destruct (F w eq_refl) as [-> _]. apply fails_err. }
  assert (S2 : fails (getTableName (String c r))).
  { unfold getTableName. destruct (Fields (String c r)) as [|w [|]] eqn:E; [intros x; discriminate| |apply fails_err]. destruct (F w eq_refl) as [_ ->]. apply fails_err. }
  destruct (if ps_named g then Err else getTableSetName (String c r)) as [n| |] eqn:E; [|now apply fails_now|intros x; discriminate].
  destruct (ps_named g); [discriminate|]. now apply S1 in E.
Qed.
Lemma twice_fails h0 n g : plain_name n -> binv h0 (ps_heap g) (ps_set g) -> ps_expecting g = TABLE_NAME -> In n (set_names (ps_heap g) (ps_set g)) -> fails (parse_t ("[" ++ n ++ "]") g).
Proof.
  intros Pn B X I. pose proof (plain_ascii _ Pn) as A. rewrite parse_line_at by (auto; discriminate). rewrite X. unfold table_name_line.
  assert (S : (if ps_named g then Err else getTableSetName ("[" ++ n ++ "]")) = Err) by (destruct (ps_named g); [reflexivity|now apply getTableSetName_table]).
  rewrite S, getTableName_line by exact A. cbn [rbind]. rewrite NewTable_spec, (proj2 (IsValidTableName_spec n) (proj1 Pn)). cbn [rbind].
  unfold AppendTable. unfold ref_name. rewrite tab_last. cbn [tname with_nil with_name].
  destruct (find_table _ _ _) as [o|] eqn:FT; [cbn [rbind]; apply fails_err|]. exfalso.
  match type of FT with find_table ?hh _ _ = _ => pose proof (find_table_spec hh n (ts_tables (ps_set g))) as Q end. rewrite FT in Q. 
  unfold set_names in I. apply in_map_iff in I as (o & O & I). apply Q. apply in_map_iff. exists o. split; [|exact I]. rewrite <- O at 2. apply ref_name_app.
  pose proof (bi_refs _ _ _ B) as Rf. rewrite Forall_forall in Rf. destruct (Rf o I) as (q & -> & Z). exists q. split; [reflexivity|lia].
Qed.

Lemma two_names_fails x g : plain_name x -> ps_expecting g = TABLE_NAME -> ps_named g = true -> fails (parse_t ("[[" ++ x ++ "]]") g).
Proof.
  intros P X Nm. rewrite parse_line_at by (auto; discriminate). rewrite X. unfold table_name_line. rewrite Nm. apply fails_now. unfold getTableName.
  destruct (Fields _) as [|w [|]] eqn:F; [intros y; discriminate| |apply fails_err].
  assert (w = ("[[" ++ x ++ "]]")%string) as ->.
  { rewrite Fields_word in F; [now injection F| |discriminate]. pose proof (name_line_graphic x (plain_ascii _ P)) as G. rewrite !all_c_app in *. apply andb_true_iff in G as [_ G]. apply andb_true_iff in G as [G _]. now rewrite G. }
  cbn. apply fails_err.
Qed.

Theorem set_wrong_run h0 used named L : set_wrong used named L -> Forall (fun l => comment l = false) L -> Forall (fun l => exists l0, l = TrimSpace l0) L ->
  forall g, binv h0 (ps_heap g) (ps_set g) -> ps_expecting g = TABLE_NAME -> ps_named g = named -> (forall n, In n used <-> In n (set_names (ps_heap g) (ps_set g))) ->
  fails (run_t L g).
Proof.
  induction 1 as [used named ls W IH|used x ls P W IH|used named d body ls Ok_ Bw NI W IH|used named c r ls Q|used named n ls P I|used x ls P|used named n body ls P NI W];
    intros C T g B X Nm U; inversion C as [|? ? C1 C2]; inversion T as [|? ? T1 T2]; subst.
  - cbn [run_t parse_t]. rewrite X. cbn [rbind]. apply IH; auto.
  - cbn [run_t]. rewrite set_t by auto using plain_ascii. cbn [rbind]. apply IH; auto. cbn [ps_heap ps_set]. destruct B. now constructor.
  - apply Forall_app in C2 as [Cb Cl]. inversion Cl; subst. apply Forall_app in T2 as [_ Tl]. inversion Tl; subst.
    destruct (table_run h0 d body g Ok_ Bw Cb B X) as (g2 & E & B2 & X2 & N2 & S2); [now rewrite <- U|].
    rewrite app_comm_cons, run_t_app, E. cbn [rbind run_t parse_t].
    apply fails_bind. intros [b g3] E3. assert (b = false /\ g3 = with_expecting TABLE_NAME g2) as [-> ->] by (destruct (ps_expecting g2); try congruence; injection E3 as <- <-; auto).
    apply IH; auto. cbn [ps_heap ps_set with_expecting]. intros n. rewrite S2, in_app_iff, <- U. cbn. tauto.
  - destruct T1 as (l0 & T1). cbn [run_t]. apply fails_now. eapply wrong_start; eauto.
  - cbn [run_t]. apply fails_now. eapply twice_fails; eauto. now apply U.
  - cbn [run_t]. apply fails_now. now apply two_names_fails.
  - apply Forall_app in C2 as [Cb _]. destruct (header_run h0 n g P B X) as (E & Rd & Tp & Se); [now rewrite <- U|]. cbn [run_t]. rewrite E. cbn [rbind].
    eapply body_wrong_run; eauto; rewrite Tp; reflexivity.
Qed.

Lemma new_state_binv h : wf_heap h -> binv h h (NewTableSet "").
Proof. intros W. constructor; auto; try constructor. Qed.
Theorem refuses s h : wf_heap h -> set_wrong [] false (significant (lines s)) -> fails (snd (NewTableSetFromString s h)).
Proof.
  intros W X. unfold NewTableSetFromString. rewrite parse_run, run_t_eq, no_comments_significant. set (g := mkPS _ _ _ _ _ _ _ _ _).
  assert (F : fails (run_t (significant (lines s)) g)).
  { apply (set_wrong_run h [] false); try reflexivity; try exact X.
    - rewrite <- no_comments_significant. apply Forall_map. apply no_comments_ok.
    - rewrite <- no_comments_significant. apply Forall_map. apply Forall_forall. intros l _. now exists l.
    - now apply new_state_binv. }
  destruct (run_t _ g) as [g'| |]; [now specialize (F g')|intros x; discriminate..].
Qed.
