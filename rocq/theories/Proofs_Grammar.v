(** Proofs_Grammar.v -- every text that the grammar allows is accepted. *)
From Coq Require Import ZArith NArith List String Ascii Bool SpecFloat Lia.
From Verif Require Import Base Model_Names Model_Table Model_Ops Model_Heap Spec Spec_Text Model_Lex Model_Float Model_Time Model_TableSet Model_Parser
  Proofs_Lib Proofs_Table Proofs_Cells Proofs_Struct Proofs_Api Proofs_Api2 Proofs_Pres Proofs_Heap Proofs_Frame Proofs_TableSet Proofs_Lex Proofs_Num Proofs_Float Proofs_Parser Proofs_FloatText Proofs_Lines Proofs_Block Proofs_Unpadded Proofs_SetText
  Spec_Time Proofs_Time Spec_Document Spec_TableSet Proofs_Document Spec_Grammar Proofs_Token Props_Lex.
Import ListNotations.
Local Open Scope string_scope.
Local Open Scope list_scope.

(** ---------- cells ---------- *)

Lemma plain_ascii n : plain_name n -> ascii_name n.
Proof. intros [V A]. now apply ascii_name_valid. Qed.

(** The first byte of a cell *)
Definition hard_start (s : string) : Prop := exists c r, s = String c r /\ is_white c = false.
Lemma literal_start k tok z : literal k tok z -> hard_start tok.
Proof.
  assert (U : forall s v, unsigned_literal s v -> hard_start s).
  { intros s v L. destruct (literal_word s v L) as [N A]. destruct s as [|c r]; [congruence|]. cbn in A. apply andb_true_iff in A as [A _]. exists c, r. split; [reflexivity|now apply word_not_white]. }
  unfold literal. destruct (isigned k); [|apply U]. intros [s v L|s v L|s v L]; [eapply U, L|eexists; eexists; split; reflexivity..].
Qed.
Lemma int_type ct k : int_kind ct = Some k -> In ct all_types.
Proof.
  unfold int_kind. intros H. apply str_in_In.
  repeat match type of H with (if ?b then _ else _) = _ => let E := fresh in destruct b eqn:E; [try (apply String.eqb_eq in E; subst ct; reflexivity)|] end; try discriminate.
  apply orb_true_iff in H6 as [E|E]; apply String.eqb_eq in E; subst ct; reflexivity.
Qed.
Lemma cell_written_start ct tok c : cell_written ct tok c -> hard_start tok /\ In ct all_types.
Proof.
  intros W.
  assert (HS : forall c r, is_white c = false -> hard_start (String c r)) by (intros; eexists; eexists; split; [reflexivity|assumption]).
  assert (ST : forall ct, str_in ct all_types = true -> In ct all_types) by (intros; now apply str_in_In).
  destruct W as [ct k tok z K L F|x s C| | |ct [-> | ->]|ct tok zs [-> | ->] B|x v b C|tok neg n d f D P|tok neg n d f D P| | |tok t T|n N|];
    try (split; [apply HS; reflexivity|apply ST; reflexivity]).
  - split; [eapply literal_start, L|eapply int_type, K].
  - split; [|apply ST; reflexivity]. destruct D as (x0 & k0 & y0 & D & _). apply decimal_of_decimal in D as (s & m & e & S & M & _ & ->). destruct (decimal_first s m e S M) as (c & r & -> & C & _). apply HS.
    destruct C as [C|[-> |[-> | ->]]]; try reflexivity. apply word_not_white. unfold is_word. now rewrite C, orb_true_r.
  - split; [|apply ST; reflexivity]. destruct D as (x0 & k0 & y0 & D & _). apply decimal_of_decimal in D as (s & m & e & S & M & _ & ->). destruct (decimal_first s m e S M) as (c & r & -> & C & _). apply HS.
    destruct C as [C|[-> |[-> | ->]]]; try reflexivity. apply word_not_white. unfold is_word. now rewrite C, orb_true_r.
  - split; [|apply ST; reflexivity]. apply time_written_spec in T as (f & T & _). unfold time_literal, time_at in T. destruct (field 4 "-" tok) as [[y r1]|] eqn:F1; [|discriminate].
    unfold field in F1. destruct tok as [|c r]; [discriminate|]. apply HS. destruct (is_white c) eqn:Wc; [|reflexivity]. exfalso.
    assert (D : is_dec c = false) by (destruct (is_dec c) eqn:D; [|reflexivity]; assert (X : is_word c = true) by (unfold is_word; now rewrite D, orb_true_r); rewrite (word_not_white c X) in Wc; discriminate).
    cbn [digits_n] in F1. rewrite D in F1. discriminate.
Qed.

Lemma grew_all h h' : grew h h' -> kept_all h h'.
Proof. intros G. split; [now apply grew_len|]. intros q L. now apply grew_nth. Qed.
Lemma get_value_written h0 p ct tok c h rest : cell_written ct tok c -> gapped rest -> List.length h0 <= List.length h -> p < List.length h ->
  exists h' v, get_value p ct (tok ++ rest) h = Ok (h', v, rest) /\ grew h h' /\ cell_read h0 h' p c v.
Proof.
  intros W G L P.
  assert (PU : forall v, get_value p ct (tok ++ rest) h = Ok (h, v, rest) -> c = Value v -> exists h' v, get_value p ct (tok ++ rest) h = Ok (h', v, rest) /\ grew h h' /\ cell_read h0 h' p c v).
  { intros v E ->. exists h, v. split; [exact E|]. split; [apply grew_refl|reflexivity]. }
  destruct W as [ct k tok z K Li F|x s C| | |ct T|ct tok zs T B|x v b C|tok neg n d f D Pf|tok neg n d f D Pf| | |tok t T|n N|].
  - eapply PU; [|reflexivity]. apply (proj1 (C27_literal_exact p ct k tok z rest h K Li (gapped_separated rest G)) F).
  - eapply PU; [|reflexivity]. now apply string_token.
  - eapply PU; [|reflexivity]. exact (bool_token true p h rest G).
  - eapply PU; [|reflexivity]. exact (bool_token false p h rest G).
  - eapply PU; [|reflexivity]. now apply empty_slice_token.
  - eapply PU; [|reflexivity]. now apply slice_token.
  - eapply PU; [|reflexivity]. now apply (rune_token x v b).
  - eapply PU; [|reflexivity]. change (get_value p "float32" ?s h) with (pure h (get_float F32 s) VFloat32). now rewrite (number_token F32 tok neg n d f rest (or_introl eq_refl) D Pf G).
  - eapply PU; [|reflexivity]. change (get_value p "float64" ?s h) with (pure h (get_float F64 s) VFloat64). now rewrite (number_token F64 tok neg n d f rest (or_intror eq_refl) D Pf G).
  - eapply PU; reflexivity.
  - eapply PU; reflexivity.
  - eapply PU; [|reflexivity].
    change (get_value p "time.Time" ?s h) with (pure h (let! (f, rest) := of_opt (scan_time s) in let! t := of_opt (parse_time f) in Ok (t, rest)) VTime).
    apply time_written_spec in T as (f & T & Pt). rewrite (time_token tok f rest T). cbn [of_opt rbind]. now rewrite Pt.
  - change (get_value p "*Table" ?s h) with (get_table p s h). unfold get_table. rewrite !app_str_assoc, (scan_bracketed_name n rest) by now apply plain_ascii.
    rewrite NewTable_spec, (proj2 (IsValidTableName_spec n)) by apply N. cbn [rbind].
    eexists. eexists. split; [reflexivity|]. split; [eexists; reflexivity|]. cbn [cell_read]. exists (List.length h). eexists. split; [reflexivity|].
    split; [exact L|]. split; [unfold ptr in *; lia|]. rewrite nth_error_app2, Nat.sub_diag by lia. split; [reflexivity|]. cbn. auto 8.
  - change (get_value p "*Table" ?s h) with (get_table p s h). unfold get_table. change (scan_bracketed ("[]" ++ rest)) with (@None (string * string)).
    unfold scan_empty_brackets. change (String.prefix "[]" ("[]" ++ rest)) with (String.prefix "" rest). assert (E : String.prefix "" rest = true) by now destruct rest.
    rewrite E. change (drop 2 ("[]" ++ rest)) with rest. cbn [of_opt rbind].
    eexists. eexists. split; [reflexivity|]. split; [eexists; reflexivity|]. cbn [cell_read]. exists (List.length h). eexists. split; [reflexivity|].
    split; [exact L|]. split; [unfold ptr in *; lia|]. rewrite nth_error_app2, Nat.sub_diag by lia. split; [reflexivity|]. cbn. auto 8.
Qed.
Lemma cell_read_kept h0 p h h' c v : kept p h h' -> cell_read h0 h p c v -> cell_read h0 h' p c v.
Proof.
  intros [_ K] R. destruct c as [x|o]; [exact R|]. destruct R as (q & t & -> & L & N & E & X). exists q, t. split; [reflexivity|]. split; [exact L|]. split; [exact N|].
  split; [|exact X]. rewrite K; auto. apply nth_error_Some. congruence.
Qed.
Lemma cells_read_kept h0 p h h' cs vs : kept p h h' -> Forall2 (cell_read h0 h p) cs vs -> Forall2 (cell_read h0 h' p) cs vs.
Proof. intros K. apply Forall2_impl. intros a b. now apply cell_read_kept. Qed.

(** ---------- rows ---------- *)

Lemma trim_gap f gap s : every f gap -> (forall c, f c = true -> is_white c = true) -> hard_start s -> trim_left f (gap ++ s) = s.
Proof.
  intros E I (c & r & -> & W). apply every_all in E. revert E. induction gap as [|d gap IH]; cbn [all_c append trim_left].
  - intros _. destruct (f c) eqn:F; [|reflexivity]. rewrite (I c F) in W. discriminate.
  - intros E. apply andb_true_iff in E as [-> E]. now apply IH.
Qed.
Lemma blank_white c : is_blank c = true -> is_white c = true.
Proof. intros B. destruct (blank_cases c B) as [-> | ->]; reflexivity. Qed.
Lemma blanks_white gap : blanks gap -> white gap.
Proof. apply Forall_impl. apply blank_white. Qed.
Lemma gap_gapped gap s : blanks gap -> gap <> "" -> gapped (gap ++ s).
Proof. destruct gap as [|c gap]; [congruence|]. intros B _. cbn. now inversion B. Qed.
Lemma row_start cts line cs : row_written cts line cs -> hard_start line.
Proof.
  assert (A : forall a b, hard_start a -> hard_start (a ++ b)) by (intros a b (c & r & -> & W); exists c, (r ++ b)%string; auto).
  intros [ct tok c W|ct tok c gap cts' rest cs' W _ _ _]; [|apply A]; now apply cell_written_start in W.
Qed.
Lemma get_values_written h0 p cts line cs : row_written cts line cs -> forall h, List.length h0 <= List.length h -> p < List.length h ->
  exists h' vs, get_values p cts line h = Ok (h', vs) /\ grew h h' /\ Forall2 (cell_read h0 h' p) cs vs.
Proof.
  assert (NE : forall s, hard_start s -> (s =? "") = false) by (intros s (c & r & -> & _); reflexivity).
  induction 1 as [ct tok c W|ct tok c gap cts rest cs W B N Rw IH]; intros h L P; cbn [get_values].
  - rewrite NE by apply (cell_written_start _ _ _ W). destruct (get_value_written h0 p ct tok c h "" W I L P) as (h' & v & E & G & R). rewrite app_str_nil_r in E.
    rewrite E. cbn [rbind trim_left]. change ("" =? "") with true. cbn match. cbn [rbind]. eexists. eexists. split; [reflexivity|]. split; [exact G|]. constructor; [exact R|constructor].
  - rewrite NE by (apply (row_start (ct :: cts) _ (c :: cs)); now constructor).
    destruct (get_value_written h0 p ct tok c h (gap ++ rest) W (gap_gapped gap rest B N) L P) as (h1 & v & E & G & R). rewrite E. cbn [rbind].
    rewrite (trim_gap is_blank gap rest B blank_white (row_start _ _ _ Rw)). pose proof (grew_len _ _ G) as L1.
    destruct (IH h1) as (h2 & vs & E2 & G2 & R2); [lia|unfold ptr in *; lia|]. rewrite E2. cbn [rbind]. eexists. eexists. split; [reflexivity|].
    split; [eapply grew_trans; eauto|]. constructor; [|exact R2]. eapply cell_read_kept; [|exact R]. now apply grew_kept.
Qed.
Lemma row_lengths cts line cs : row_written cts line cs -> List.length cs = List.length cts.
Proof. induction 1; cbn; congruence. Qed.
Lemma getRowSlice_written h0 p cns cts line cs h : row_written cts line cs -> List.length cns = List.length cts -> List.length h0 <= List.length h -> p < List.length h ->
  exists h' vs, getRowSlice p line cns cts h = Ok (h', vs) /\ grew h h' /\ Forall2 (cell_read h0 h' p) cs vs.
Proof.
  intros W E L P. destruct (get_values_written h0 p cts line cs W h L P) as (h' & vs & G & Gr & R). exists h', vs. split; [|auto].
  unfold getRowSlice. rewrite G. cbn [rbind]. rewrite E. rewrite (proj2 (Nat.ltb_ge _ _)) by lia. rewrite Nat.sub_diag. cbn [repeat]. now rewrite app_nil_r.
Qed.

(** ---------- words ---------- *)

Lemma split_word w s : a_word w -> (s = "" \/ starts_white s) ->
  split_white (w ++ s) = w :: match s with EmptyString => [] | _ => split_white (trim_left is_white s) end.
Proof.
  intros [_ A] S. apply every_all in A. induction w as [|c w IH]; cbn [append].
  - destruct S as [->|(c & r & -> & W)]; [reflexivity|]. now rewrite lead_white.
  - cbn [all_c] in A. apply andb_true_iff in A as [A1 A2]. apply negb_true_iff in A1. cbn [split_white]. rewrite A1, (IH A2). reflexivity.
Qed.
Lemma word_start w s : a_word w -> hard_start (w ++ s).
Proof. intros [N A]. destruct w as [|c w]; [congruence|]. inversion A as [|? ? C _]. apply negb_true_iff in C. exists c, (w ++ s)%string. auto. Qed.
Lemma gap_white gap s : white gap -> gap <> "" -> starts_white (gap ++ s).
Proof. destruct gap as [|c gap]; [congruence|]. intros W _. inversion W. exists c, (gap ++ s)%string. auto. Qed.
Lemma split_gap w gap s : a_word w -> white gap -> gap <> "" -> hard_start s -> split_white (w ++ gap ++ s) = w :: split_white s.
Proof.
  intros A G N H. rewrite split_word by (auto using gap_white). rewrite (trim_gap is_white gap s G (fun _ x => x) H). destruct gap; [congruence|reflexivity].
Qed.
Lemma words_split ws s : words ws s -> split_white s = ws /\ hard_start s.
Proof.
  induction 1 as [w A|w gap ws s A G N _ [IH H]].
  - split; [|rewrite <- (app_str_nil_r w); now apply word_start]. rewrite <- (app_str_nil_r w) at 1. now rewrite split_word by auto.
  - split; [|now apply word_start]. rewrite split_gap by assumption. now rewrite IH.
Qed.
Lemma name_a_word n : valid_name n -> a_word n.
Proof.
  intros V. apply valid_name_bytes in V as [N B]. split; [exact N|]. apply every_all. revert B. apply all_c_impl. intros c C.
  destruct (is_white c) eqn:W; [|reflexivity]. exfalso. unfold is_white, one_of in W. cbn [list_ascii_of_string existsb] in W.
  rewrite !orb_true_iff in W. repeat destruct W as [W|W]; try discriminate W; apply Ascii.eqb_eq in W; subst c; discriminate C.
Qed.
Lemma type_a_word ct : In ct all_types -> a_word ct.
Proof.
  intros I. assert (Q : forallb (fun w => negb (w =? "") && all_c (fun c => negb (is_white c)) w) all_types = true) by (vm_compute; reflexivity).
  rewrite forallb_forall in Q. specialize (Q ct I). apply andb_true_iff in Q as [A B]. split; [|now apply every_all].
  intros ->. discriminate A.
Qed.

(** ---------- steps ---------- *)

(** Calling a method that succeeds *)
Lemma on_current_do h0 p (m : M unit) g : binv h0 (ps_heap g) (ps_set g) -> List.length h0 <= p < List.length (ps_heap g) ->
  pres (List.length (ps_heap g)) m -> kn m -> snd (m (mkS (tab (ps_heap g) p) (List.length (ps_heap g)) [])) = Ok tt ->
  exists h', on_current p m g = Ok (with_heap h' g) /\ binv h0 h' (ps_set g) /\ kept p (ps_heap g) h' /\
    tab h' p = s_tab (fst (m (mkS (tab (ps_heap g) p) (List.length (ps_heap g)) []))) /\ tname (tab h' p) = tname (tab (ps_heap g) p).
Proof.
  intros B P Pm K E. destruct (on_heap_tab p m (ps_heap g) ltac:(lia)) as [_ R]. rewrite E in R.
  assert (O : exists g', on_current p m g = Ok g').
  { unfold on_current. destruct (on_heap p m (ps_heap g)) as [h r]. cbn [snd] in R. subst r. cbn. eauto. }
  destruct O as [g' O]. pose proof O as O'. apply (on_current_full h0) in O' as (h' & -> & B' & K' & _ & T & N); auto. exists h'. auto.
Qed.

(** Declaring a column of a struct *)
Lemma column_do h0 g p cn ct ws line : reading h0 g p -> ps_shape g = STRUCT_SHAPE -> split_white line = cn :: ct :: ws -> valid_name cn -> In ct all_types ->
  ~ In cn (cnames (tab (ps_heap g) p)) ->
  exists h', col_names_line line g = (if ps_has_data g then struct_value p line (cn :: ct :: ws) cn ct (with_heap h' g) else Ok (with_heap h' g)) /\
    reading h0 (with_heap h' g) p /\ kept p (ps_heap g) h' /\ struct_shape (tab h' p) = true /\
    ctypes (tab h' p) = ctypes (tab (ps_heap g) p) ++ [ct] /\
    (rows (tab (ps_heap g) p) = [] -> rows (tab h' p) = []) /\ (forall r0, rows (tab (ps_heap g) p) = [r0] -> exists z, rows (tab h' p) = [r0 ++ [z]]).
Proof.
  intros (B & Tb & P & N) Sh Sp V T NI. unfold col_names_line. cbv zeta. rewrite Sh. cbn [rbind]. rewrite Sh. unfold current. rewrite Tb. cbn [rbind].
  destruct (on_current_do h0 p (SetStructShape true) g B P) as (h1 & E1 & B1 & K1 & T1 & N1); auto using pres_SetStructShape, kn_SetStructShape. rewrite E1. cbn [rbind]. cbn in T1.
  rewrite Sp. change (Nat.ltb (List.length (cn :: ct :: ws)) 2) with false. cbn match. cbn [at_ nth_error rbind].
  rewrite (proj2 (IsValidColName_spec cn) V), (proj2 (IsValidColType_spec ct) T). cbn [negb].
  assert (W1 : wf_table (tab h1 p)) by (apply tab_wf, B1).
  assert (Nn : is_nil (tab h1 p) = false) by (apply name_not_nil; [exact W1|congruence]).
  assert (C : can_append_col (tab h1 p) cn ct = true).
  { unfold can_append_col. rewrite Nn, (proj2 (IsValidColName_spec cn) V), (proj2 (IsValidColType_spec ct) T). cbn [negb andb].
    destruct (mget (cmap (tab h1 p)) cn) as [i|] eqn:G; [|reflexivity]. apply (wf_map _ W1) in G. exfalso. apply NI. apply nth_error_In in G. now rewrite T1 in G. }
  destruct (on_current_do h0 p (AppendCol cn ct) (with_heap h1 g)) as (h2 & E2 & B2 & K2 & T2 & N2); auto using pres_AppendCol, kn_AppendCol.
  { rewrite with_heap_heap. destruct K1. lia. }
  { rewrite with_heap_heap, AppendCol_eq by exact W1. cbn [s_tab]. now rewrite C. }
  rewrite with_heap_heap in *. rewrite E2. cbn [rbind]. change (ps_has_data (with_heap h2 (with_heap h1 g))) with (ps_has_data g).
  rewrite AppendCol_eq in T2 by exact W1. cbn [s_tab] in T2. rewrite C in T2. cbn [fst] in T2.
  assert (K : kept p (ps_heap g) h2) by (eapply kept_trans; eauto).
  exists h2. split; [reflexivity|]. split; [apply (reading_heap h0 g p h2); [split; auto|exact B2|exact K|congruence]|]. split; [exact K|].
  rewrite T2. unfold col_added. cbn [s_tab struct_shape ctypes rows]. rewrite T1. cbn [with_shape struct_shape ctypes rows]. split; [reflexivity|]. split; [reflexivity|].
  split; [intros ->; reflexivity|]. intros r0 ->. cbn [mapi]. eauto.
Qed.

Lemma decl_do h0 g p cn ct ws line : reading h0 g p -> ps_shape g = STRUCT_SHAPE -> ps_has_data g = false -> split_white line = cn :: ct :: ws -> valid_name cn -> In ct all_types ->
  ~ In cn (cnames (tab (ps_heap g) p)) -> rows (tab (ps_heap g) p) = [] ->
  exists h', col_names_line line g = Ok (with_heap h' g) /\ reading h0 (with_heap h' g) p /\ kept p (ps_heap g) h' /\
    tname (tab h' p) = tname (tab (ps_heap g) p) /\ struct_shape (tab h' p) = true /\
    cnames (tab h' p) = cnames (tab (ps_heap g) p) ++ [cn] /\ ctypes (tab h' p) = ctypes (tab (ps_heap g) p) ++ [ct] /\ rows (tab h' p) = [].
Proof.
  intros Rd Sh D Sp V T NI R. destruct (column_do h0 g p cn ct ws line Rd Sh Sp V T NI) as (h' & E & _). rewrite D in E.
  destruct (struct_step h0 line g _ p Rd Sh E) as (h2 & cn' & ct' & ws' & Q & Rd' & K & Sp' & _ & _ & Nm & Ss & Cn & Ct & Rw & _).
  assert (h2 = h') as -> by (destruct g; cbn in Q; now injection Q). rewrite Sp in Sp'. injection Sp' as <- <- <-. exists h'. auto 10.
Qed.

Lemma value_do h0 g p cn ct ws line pre after c r0 : reading h0 g p -> ps_shape g = STRUCT_SHAPE -> ps_has_data g = true -> split_white line = cn :: ct :: ws ->
  2 <= List.length ws -> valid_name cn -> In ct all_types ->
  ~ In cn (cnames (tab (ps_heap g) p)) -> until "=" line = Some (pre, after) -> row_written [ct] (trim_left is_space4 after) [c] ->
  (rows (tab (ps_heap g) p) = [] /\ ctypes (tab (ps_heap g) p) = [] /\ r0 = []) \/ rows (tab (ps_heap g) p) = [r0] ->
  exists h' v, col_names_line line g = Ok (with_heap h' g) /\ reading h0 (with_heap h' g) p /\ kept p (ps_heap g) h' /\
    tname (tab h' p) = tname (tab (ps_heap g) p) /\ struct_shape (tab h' p) = true /\
    cnames (tab h' p) = cnames (tab (ps_heap g) p) ++ [cn] /\ ctypes (tab h' p) = ctypes (tab (ps_heap g) p) ++ [ct] /\ rows (tab h' p) = [r0 ++ [v]] /\ cell_read h0 h' p c v.
Proof.
  intros Rd Sh D Sp Lw V T NI U W R0.
  destruct (column_do h0 g p cn ct ws line Rd Sh Sp V T NI) as (h1 & E & Rd1 & K1 & S1 & Ct1 & Ra & Rb). rewrite D in E.
  destruct Rd1 as (B1 & Tb & P1 & N1). rewrite with_heap_heap in *.
  assert (Q : exists h', struct_value p line (cn :: ct :: ws) cn ct (with_heap h1 g) = Ok (with_heap h' g) /\ exists v, rows (tab h' p) = [r0 ++ [v]] /\ cell_read h0 h' p c v).
  { clear E. unfold struct_value. rewrite U. rewrite (proj2 (Nat.ltb_ge _ _)) by (cbn; lia). cbv zeta. rewrite with_heap_heap. set (t := tab h1 p) in *.
    assert (Wt : wf_table t) by (apply tab_wf, B1). assert (Nn : is_nil t = false) by (now apply name_not_nil).
    assert (S2 : exists h2 z, (if (RowCount t =? 0)%Z then let! g := on_current p AppendRow (with_heap h1 g) in on_current p (SetStructShape true) g else Ok (with_heap h1 g)) = Ok (with_heap h2 g) /\
       binv h0 h2 (ps_set g) /\ kept p h1 h2 /\ rows (tab h2 p) = [r0 ++ [z]] /\ ctypes (tab h2 p) = ctypes t).
    { destruct R0 as [(R0 & C0 & ->)|R0].
      - specialize (Ra R0). unfold RowCount. rewrite Ra. cbn [List.length]. change (Z.of_nat 0 =? 0)%Z with true. cbn match.
        destruct (on_current_do h0 p AppendRow (with_heap h1 g)) as (h2 & E2 & B2 & K2 & T2 & _); auto using pres_AppendRow, kn_AppendRow.
        { rewrite with_heap_heap, AppendRow_eq by exact Wt. cbn [s_tab]. fold t. now rewrite Nn. }
        rewrite with_heap_heap in *. rewrite E2. cbn [rbind]. rewrite AppendRow_eq in T2 by exact Wt. cbn [s_tab] in T2. fold t in T2. rewrite Nn in T2.
        destruct (on_current_do h0 p (SetStructShape true) (with_heap h2 (with_heap h1 g))) as (h3 & E3 & B3 & K3 & T3 & _); auto using pres_SetStructShape, kn_SetStructShape.
        { rewrite with_heap_heap. destruct K2. lia. }
        rewrite with_heap_heap in *. cbn in T3. rewrite T2 in T3. cbn in T3.
        assert (Lz : List.length (Proofs_Table.zeros (List.length h1 + List.length (@nil ref)) (ctypes t)) = 1) by (rewrite Proofs_Table.zeros_length, Ct1, C0; reflexivity).
        destruct (Proofs_Table.zeros (List.length h1 + List.length (@nil ref)) (ctypes t)) as [|z [|]] eqn:Z; try discriminate Lz.
        exists h3, z. split; [exact E3|]. split; [exact B3|]. split; [eapply kept_trans; eauto|]. rewrite T3. cbn. rewrite Ra. split; [|reflexivity]. cbn in Z |- *. rewrite Z. reflexivity.
      - destruct (Rb r0 R0) as [z Z]. unfold RowCount. rewrite Z. change (Z.of_nat (List.length [r0 ++ [z]]) =? 0)%Z with false. cbn match.
        exists h1, z. split; [reflexivity|]. split; [exact B1|]. split; [apply kept_refl|]. auto. }
    destruct S2 as (h2 & z & E2 & B2 & K2 & R2 & C2). rewrite E2. cbn [rbind]. rewrite with_heap_heap.
    assert (L2 : List.length h1 <= List.length h2) by apply K2.
    destruct (getRowSlice_written h0 p [cn] [ct] _ [c] h2 W eq_refl) as (h3 & vs & G & Gr & Rd3); [apply B2|unfold ptr in *; lia|].
    pose proof (getRowSlice_ok p (trim_left is_space4 after) [cn] [ct] h2 ltac:(apply Forall_cons; [exact T|apply Forall_nil]) eq_refl (bi_wf _ _ _ B2) ltac:(lia)) as GO.
    rewrite G in GO |- *. cbn [rbind]. destruct GO as (Co & Pt & W3 & _). inversion Co as [|? v ? vs' Cv Cvs]; subst. inversion Cvs; subst. inversion Rd3 as [|? ? ? ? Rv _]; subst. clear Co Cvs Rd3.
    rewrite with_heap_heap, (grew_tab h2 h3 p Gr) by lia. rewrite R2.
    assert (B3 : binv h0 h3 (ps_set g)) by (eapply binv_grew; eauto). pose proof (grew_len _ _ Gr) as L3.
    assert (Pv : ptr_lt (List.length h3) v) by (inversion Pt; auto).
    assert (W2 : wf_table (tab h2 p)) by (apply tab_wf, B2).
    assert (SV : forall base, SetValByColIndex (Z.of_nat (List.length (r0 ++ [z])) - 1) 0 v (mkS (tab h2 p) base []) =
       (Proofs_Cells.written (List.length r0) 0 v (mkS (tab h2 p) base []), Ok tt)).
    { intros base. assert (E : Z.to_nat (Z.of_nat (List.length (r0 ++ [z])) - 1) = List.length r0) by (rewrite app_length; cbn; lia).
      destruct (SetValByColIndex_eq (Z.of_nat (List.length (r0 ++ [z])) - 1) 0 v (mkS (tab h2 p) base []) W2) as [[_ X]|[X _]].
      - rewrite E in X. exact X.
      - exfalso. apply X. cbn [s_tab]. split; [destruct Cv as [Cv _]; destruct v as [| | | | | | |[]| |]; try reflexivity; destruct Cv|]. split; [unfold RowCount; rewrite R2; cbn; lia|].
        exists ct. rewrite E. split; [rewrite app_length; cbn; lia|]. split; [|apply Cv].
        pose proof (wf_cells _ W2) as WC. rewrite R2 in WC. apply Forall_inv in WC. apply Forall2_len in WC. rewrite C2, Ct1, !app_length in WC. cbn in WC.
        rewrite C2, Ct1. rewrite nth_error_app2 by lia. replace (List.length r0 - List.length (ctypes (tab (ps_heap g) p))) with 0 by lia. reflexivity. }
    destruct (on_current_do h0 p (SetValByColIndex (Z.of_nat (List.length (r0 ++ [z])) - 1) 0 v) (with_heap h3 (with_heap h2 g))) as (h4 & E4 & B4 & K4 & T4 & _); auto using kn_SetValByColIndex.
    { rewrite with_heap_heap. lia. }
    { rewrite with_heap_heap. apply pres_SetValByColIndex; [apply Cv|exact Pv]. }
    { rewrite with_heap_heap, (grew_tab h2 h3 p Gr), SV by lia. reflexivity. }
    rewrite with_heap_heap in *. rewrite (grew_tab h2 h3 p Gr), SV in T4 by lia. cbn [fst] in T4.
    exists h4. split; [exact E4|]. exists v. split; [|eapply cell_read_kept; [exact K4|exact Rv]].
    rewrite T4. unfold Proofs_Cells.written, put. cbn [s_tab on_tab with_rows rows]. rewrite R2. cbn. f_equal.
    clear. induction r0 as [|x a IH]; cbn; [reflexivity|]. now rewrite IH. }
  destruct Q as (h' & Q & v & Rv & Cv). rewrite Q in E.
  destruct (struct_step h0 line g _ p Rd Sh E) as (h2 & cn' & ct' & ws' & Q' & Rd' & K & Sp' & _ & _ & Nm & Ss & Cn & Ct & _ & _).
  assert (h2 = h') as -> by (destruct g; cbn in Q'; now injection Q'). rewrite Sp in Sp'. injection Sp' as <- <- <-. exists h', v. auto 12.
Qed.

(** ---------- the lines of a table ---------- *)

Lemma name_col cn : valid_name cn -> IsValidColName cn = true.
Proof. apply IsValidColName_spec. Qed.

Lemma names_do cns line g : ps_shape g = UNDEFINED_SHAPE -> words cns line -> Forall valid_name cns ->
  col_names_line line g = Ok (with_expecting COL_TYPES (with_names cns (with_shape_data TABLE_SHAPE false g))).
Proof.
  intros Sh W V. unfold col_names_line. cbv zeta. rewrite Sh, (proj1 (words_split _ _ W)). rewrite shape_of_names by (auto; intros ->; inversion W). cbn [rbind ps_shape with_shape_data].
  unfold getColNames. rewrite (proj2 (forallb_forall IsValidColName cns)); [reflexivity|]. rewrite Forall_forall in V. intros x I. apply name_col; auto.
Qed.

Lemma appendCols_do cns : forall cts s, wf_table (s_tab s) -> is_nil (s_tab s) = false -> List.length cns = List.length cts -> NoDup (cnames (s_tab s) ++ cns) ->
  Forall valid_name cns -> Forall (fun ct => In ct all_types) cts ->
  snd (mfor (combine cns cts) (fun p => AppendCol (fst p) (snd p)) s) = Ok tt.
Proof.
  induction cns as [|cn cns IH]; intros [|ct cts] s W N L D V T; try discriminate; [reflexivity|]. cbn [combine mfor]. unfold bind. cbn [fst snd]. rewrite AppendCol_eq by exact W.
  inversion V; subst. inversion T; subst.
  assert (C : can_append_col (s_tab s) cn ct = true).
  { unfold can_append_col. rewrite N, (name_col cn), (proj2 (IsValidColType_spec ct)) by assumption. cbn [negb andb].
    destruct (mget (cmap (s_tab s)) cn) as [i|] eqn:G; [|reflexivity]. apply (wf_map _ W) in G. exfalso. apply (NoDup_remove_2 _ _ _ D). apply in_or_app. left. now apply nth_error_In in G. }
  rewrite C. apply IH; auto.
  - now apply col_added_wf.
  - unfold col_added. cbn [s_tab cnames]. rewrite <- app_assoc. exact D.
Qed.

Lemma types_do h0 line g p cts : reading h0 g p -> cnames (tab (ps_heap g) p) = [] -> rows (tab (ps_heap g) p) = [] ->
  words cts line -> List.length (ps_names g) = List.length cts -> NoDup (ps_names g) -> Forall valid_name (ps_names g) -> Forall (fun ct => In ct all_types) cts ->
  exists h', col_types_line line g = Ok (with_expecting COL_ROWS (with_heap h' (with_types cts g))) /\
    reading h0 (with_expecting COL_ROWS (with_heap h' (with_types cts g))) p /\ kept p (ps_heap g) h' /\
    tname (tab h' p) = tname (tab (ps_heap g) p) /\ cnames (tab h' p) = ps_names g /\ ctypes (tab h' p) = cts /\
    struct_shape (tab h' p) = struct_shape (tab (ps_heap g) p) /\ rows (tab h' p) = [].
Proof.
  intros Rd Cn Rw W L D V T. pose proof Rd as (B & Tb & P & N). assert (Wp : wf_table (tab (ps_heap g) p)) by (apply tab_wf, B).
  assert (E : exists g', col_types_line line g = Ok g').
  { unfold col_types_line, getColTypes. cbv zeta. rewrite (proj1 (words_split _ _ W)). rewrite (proj2 (forallb_forall IsValidColType cts)).
    2:{ rewrite Forall_forall in T. intros x I. apply IsValidColType_spec. auto. }
    cbn [rbind]. change (ps_names (with_types cts g)) with (ps_names g). rewrite <- L, Nat.eqb_refl. cbn [negb]. unfold current. change (ps_table (with_types cts g)) with (ps_table g). rewrite Tb. cbn [rbind].
    destruct (on_current_do h0 p (appendCols (ps_names g) cts) (with_types cts g)) as (h1 & E1 & _); auto using pres_appendCols, kn_appendCols.
    - change (ps_heap (with_types cts g)) with (ps_heap g). unfold appendCols, bind, check. rewrite L, Nat.eqb_refl.
      apply (appendCols_do (ps_names g) cts (mkS (tab (ps_heap g) p) (List.length (ps_heap g)) [])); auto; cbn [s_tab]; [now apply name_not_nil|now rewrite Cn].
    - rewrite E1. cbn [rbind]. eauto. }
  destruct E as [g' E]. destruct (types_step h0 line g g' p Rd Cn E) as (h' & -> & Rd' & K & Wd & Nm & Cn' & Z).
  destruct (Z Rw) as [Z1 Z2]. assert (Ct : ctypes (tab h' p) = cts) by (rewrite <- (proj1 (words_split _ _ Wd)); apply words_split, W).
  rewrite Ct in *. exists h'. auto 10.
Qed.

Lemma rows_do h0 line g p cs : reading h0 g p -> cnames (tab (ps_heap g) p) = ps_names g -> ctypes (tab (ps_heap g) p) = ps_types g ->
  ps_expecting g = COL_ROWS -> row_written (ps_types g) line cs ->
  exists h' row, col_rows_line line g = Ok (with_heap h' g) /\ reading h0 (with_heap h' g) p /\ kept p (ps_heap g) h' /\
    same_frame (tab (ps_heap g) p) (tab h' p) /\ rows (tab h' p) = rows (tab (ps_heap g) p) ++ [row] /\ Forall2 (cell_read h0 h' p) cs row.
Proof.
  intros Rd Cn Ct X W. pose proof Rd as (B & Tb & P & N). assert (Wp : wf_table (tab (ps_heap g) p)) by (apply tab_wf, B).
  assert (G2 : List.length (ps_names g) = List.length (ps_types g)) by (rewrite <- Ct, <- Cn; symmetry; apply Wp).
  assert (E : exists h' row, col_rows_line line g = Ok (with_heap h' g) /\ rows (tab h' p) = rows (tab (ps_heap g) p) ++ [row] /\ Forall2 (cell_read h0 h' p) cs row).
  { unfold col_rows_line, current. rewrite Tb. cbn [rbind].
    destruct (getRowSlice_written h0 p (ps_names g) (ps_types g) line cs (ps_heap g) W G2) as (h1 & row & G & Gr & Rd1); [apply B|lia|].
    pose proof (getRowSlice_ok p line (ps_names g) (ps_types g) (ps_heap g) ltac:(rewrite <- Ct; apply Wp) G2 (bi_wf _ _ _ B) ltac:(lia)) as GO.
    rewrite G in GO |- *. cbn [rbind]. destruct GO as (C & _). apply Forall2_len in C. pose proof (grew_len _ _ Gr) as L1.
    unfold on_current. rewrite with_heap_heap. pose proof (on_heap_kept p (appendRowSlice row) h1) as K.
    destruct (on_heap_tab p (appendRowSlice row) h1 ltac:(lia)) as [T2 R2].
    destruct (on_heap p (appendRowSlice row) h1) as [h2 r]. cbn [fst snd] in *. change (snd (appendRowSlice row (mkS (tab h1 p) (List.length h1) []))) with (@Ok unit tt) in R2. subst r.
    cbn [rbind]. change (ps_types (with_heap h2 (with_heap h1 g))) with (ps_types g). rewrite C, Nat.eqb_refl. cbn [negb].
    exists h2, row. split; [reflexivity|]. assert (T3 : tab h2 p = with_rows (rows (tab h1 p) ++ [row]) (tab h1 p)) by exact T2.
    rewrite T3, (grew_tab _ _ p Gr) by lia. split; [reflexivity|]. eapply cells_read_kept; [exact K|exact Rd1]. }
  destruct E as (h' & row & E & Rw & Cr). destruct (rows_step h0 line g _ p Rd Cn Ct X E) as (h2 & row2 & Q & Rd' & K & _ & F & _).
  assert (h2 = h') as -> by (destruct g; cbn in Q; now injection Q). exists h', row. auto 8.
Qed.

(** ---------- all lines ---------- *)

Definition parse_t (line : string) (g : parse_state) : res (bool * parse_state) :=
  match line with
  | EmptyString => match ps_expecting g with COL_TYPES => Err | _ => Ok (false, with_expecting TABLE_NAME g) end
  | String c _ =>
      if Ascii.eqb c "#" then Ok (true, g)
      else
        match ps_expecting g with
        | TABLE_NAME => table_name_line line g
        | COL_NAMES => let! g := col_names_line line g in Ok (false, g)
        | COL_TYPES => let! g := col_types_line line g in Ok (false, g)
        | COL_ROWS => let! g := col_rows_line line g in Ok (false, g)
        end
  end.
Lemma parse_t_eq l g : parse_line l g = parse_t (TrimSpace l) g.
Proof. reflexivity. Qed.
Fixpoint run_t (ls : list string) (g : parse_state) : res parse_state :=
  match ls with [] => Ok g | l :: r => let! (_, g) := parse_t l g in run_t r g end.
Lemma run_t_eq ls : forall g, run_lines ls g = run_t (map TrimSpace ls) g.
Proof. induction ls as [|l ls IH]; intros g; [reflexivity|]. cbn [run_lines map run_t]. rewrite parse_t_eq. destruct (parse_t _ g) as [[b g1]| |]; cbn [rbind]; auto. Qed.
Lemma run_t_app a b : forall g, run_t (a ++ b) g = let! g := run_t a g in run_t b g.
Proof. induction a as [|l a IH]; intros g; [reflexivity|]. cbn [app run_t]. destruct (parse_t l g) as [[x g1]| |]; cbn [rbind]; auto. Qed.

Lemma parse_hard l g : hard_start l -> comment l = false -> parse_t l g = 
  match ps_expecting g with
  | TABLE_NAME => table_name_line l g
  | COL_NAMES => let! g := col_names_line l g in Ok (false, g)
  | COL_TYPES => let! g := col_types_line l g in Ok (false, g)
  | COL_ROWS => let! g := col_rows_line l g in Ok (false, g)
  end.
Proof. intros (c & r & -> & _) C. unfold comment in C. unfold parse_t. now rewrite C. Qed.

(** The lines of a table in struct shape *)
Lemma decl_line cn ct gap : valid_name cn -> In ct all_types -> blanks gap -> gap <> "" -> split_white (cn ++ gap ++ ct) = [cn; ct] /\ hard_start (cn ++ gap ++ ct).
Proof.
  intros V T G N. apply words_split. apply words_more; [now apply name_a_word|now apply blanks_white|exact N|]. apply words_one. now apply type_a_word.
Qed.
Lemma space4_white c : is_space4 c = true -> is_white c = true.
Proof.
  unfold is_space4, one_of. cbn [list_ascii_of_string existsb]. rewrite !orb_true_iff. intros W.
  repeat destruct W as [W|W]; try discriminate W; apply Ascii.eqb_eq in W; subst c; reflexivity.
Qed.
Lemma value_line cn ct gap1 gap2 gap3 tok c : valid_name cn -> blanks gap1 -> gap1 <> "" -> blanks gap2 -> gap2 <> "" -> blanks gap3 -> gap3 <> "" -> cell_written ct tok c ->
  let line := (cn ++ gap1 ++ ct ++ gap2 ++ "=" ++ gap3 ++ tok)%string in
  hard_start line /\ (exists w ws, split_white line = cn :: ct :: "=" :: w :: ws) /\ exists pre after, until "=" line = Some (pre, after) /\ trim_left is_space4 after = tok.
Proof.
  intros V G1 N1 G2 N2 G3 N3 C line. destruct (cell_written_start ct tok c C) as [H T]. subst line.
  assert (Q : a_word "=") by (split; [discriminate|]; apply every_all; reflexivity).
  split; [apply word_start; now apply name_a_word|]. split.
  - rewrite split_gap by (auto using name_a_word, blanks_white; apply word_start; now apply type_a_word).
    rewrite split_gap by (auto using type_a_word, blanks_white; now apply word_start).
    rewrite split_gap by (auto using blanks_white). destruct (split_white tok) as [|w ws] eqn:E; [now apply split_white_nonempty in E|]. eauto.
  - rewrite !until_skip by (auto using name_no_eq, type_no_eq, white_no_eq, blanks_white). cbn [until append]. change (Ascii.eqb "=" "=") with true. cbn match.
    eexists _, _. split; [reflexivity|]. apply trim_gap; [|exact space4_white|exact H].
    apply every_all. apply every_all in G3. revert G3. apply all_c_impl. intros x X. destruct (blank_cases x X) as [-> | ->]; reflexivity.
Qed.

(** What reading keeps *)
Definition reads_on (h0 : heap) (p : ptr) (g g' : parse_state) : Prop :=
  reading h0 g' p /\ kept p (ps_heap g) (ps_heap g') /\ ps_set g' = ps_set g /\ ps_named g' = ps_named g /\ ps_expecting g' <> COL_TYPES /\
  tname (tab (ps_heap g') p) = tname (tab (ps_heap g) p).

Lemma columns_run h0 p cns cts ls : columns_written cns cts ls -> Forall (fun l => comment l = false) ls -> Forall valid_name cns -> Forall (fun ct => In ct all_types) cts ->
  forall g, reading h0 g p -> ps_expecting g = COL_NAMES -> ps_shape g = STRUCT_SHAPE -> ps_has_data g = false -> NoDup (cnames (tab (ps_heap g) p) ++ cns) ->
  rows (tab (ps_heap g) p) = [] -> struct_shape (tab (ps_heap g) p) = true \/ ls <> [] ->
  exists g', run_t ls g = Ok g' /\ reads_on h0 p g g' /\ struct_shape (tab (ps_heap g') p) = true /\
    cnames (tab (ps_heap g') p) = cnames (tab (ps_heap g) p) ++ cns /\ ctypes (tab (ps_heap g') p) = ctypes (tab (ps_heap g) p) ++ cts /\ rows (tab (ps_heap g') p) = [].
Proof.
  induction 1 as [|cn ct gap cns cts ls G N W IH]; intros C V T g Rd X Sh D ND R St.
  - exists g. rewrite !app_nil_r. split; [reflexivity|]. split; [split; [exact Rd|]; split; [apply kept_refl|]; split; [reflexivity|]; split; [reflexivity|]; split; [congruence|reflexivity]|]. destruct St; [auto|congruence].
  - inversion C; subst. inversion V; subst. inversion T; subst. destruct (decl_line cn ct gap) as [Sp H]; auto.
    destruct (decl_do h0 g p cn ct [] (cn ++ gap ++ ct)) as (h1 & E1 & Rd1 & K1 & Nm1 & S1 & Cn1 & Ct1 & R1); auto.
    { intros I. apply (NoDup_remove_2 _ _ _ ND). apply in_or_app. now left. }
    destruct (IH ltac:(assumption) ltac:(assumption) ltac:(assumption) (with_heap h1 g)) as (g' & E' & (A1 & A2 & A3 & A4 & A5 & A6) & B1 & B2 & B3 & B4); auto.
    { rewrite with_heap_heap, Cn1, <- app_assoc. exact ND. }
    rewrite with_heap_heap in *. exists g'. cbn [run_t]. rewrite parse_hard by assumption. rewrite X, E1. cbn [rbind]. split; [exact E'|].
    split; [split; [exact A1|]; split; [eapply kept_trans; eauto|]; split; [exact A3|]; split; [exact A4|]; split; [exact A5|congruence]|].
    split; [exact B1|]. rewrite B2, B3, Cn1, Ct1, <- !app_assoc. auto.
Qed.

Lemma values_run h0 p cns cts cs ls : values_written cns cts cs ls -> Forall (fun l => comment l = false) ls -> Forall valid_name cns -> Forall (fun ct => In ct all_types) cts ->
  forall g r0, reading h0 g p -> ps_expecting g = COL_NAMES -> ps_shape g = STRUCT_SHAPE -> ps_has_data g = true -> NoDup (cnames (tab (ps_heap g) p) ++ cns) ->
  (rows (tab (ps_heap g) p) = [r0] /\ struct_shape (tab (ps_heap g) p) = true) \/ (rows (tab (ps_heap g) p) = [] /\ ctypes (tab (ps_heap g) p) = [] /\ r0 = [] /\ ls <> []) ->
  exists g' vs, run_t ls g = Ok g' /\ reads_on h0 p g g' /\ struct_shape (tab (ps_heap g') p) = true /\
    cnames (tab (ps_heap g') p) = cnames (tab (ps_heap g) p) ++ cns /\ ctypes (tab (ps_heap g') p) = ctypes (tab (ps_heap g) p) ++ cts /\
    rows (tab (ps_heap g') p) = [r0 ++ vs] /\ Forall2 (cell_read h0 (ps_heap g') p) cs vs.
Proof.
  induction 1 as [|cn ct c gap1 gap2 gap3 tok cns cts cs ls G1 N1 G2 N2 G3 N3 Cw W IH]; intros C V T g r0 Rd X Sh D ND St.
  - exists g, []. rewrite !app_nil_r. destruct St as [[St1 St2]|St]; [|exfalso; now apply (proj2 (proj2 (proj2 St)))].
    split; [reflexivity|]. split; [split; [exact Rd|]; split; [apply kept_refl|]; split; [reflexivity|]; split; [reflexivity|]; split; [congruence|reflexivity]|]. auto 6.
  - inversion C; subst. inversion V; subst. inversion T; subst. destruct (value_line cn ct gap1 gap2 gap3 tok c) as (H & (w & ws & Sp) & pre & after & U & Tr); auto.
    destruct (value_do h0 g p cn ct ("=" :: w :: ws) _ pre after c r0 Rd Sh D Sp) as (h1 & v & E1 & Rd1 & K1 & Nm1 & S1 & Cn1 & Ct1 & R1 & Cv); auto.
    { cbn. lia. }
    { intros I. apply (NoDup_remove_2 _ _ _ ND). apply in_or_app. now left. }
    { rewrite Tr. now constructor. }
    { destruct St as [[St _]|(St1 & St2 & St3 & _)]; auto. }
    destruct (IH ltac:(assumption) ltac:(assumption) ltac:(assumption) (with_heap h1 g) (r0 ++ [v])) as (g' & vs & E' & (A1 & A2 & A3 & A4 & A5 & A6) & B1 & B2 & B3 & B4 & B5); auto.
    { rewrite with_heap_heap, Cn1, <- app_assoc. exact ND. }
    rewrite with_heap_heap in *. exists g', (v :: vs). cbn [run_t]. rewrite parse_hard by assumption. rewrite X, E1. cbn [rbind]. split; [exact E'|].
    split; [split; [exact A1|]; split; [eapply kept_trans; eauto|]; split; [exact A3|]; split; [exact A4|]; split; [exact A5|congruence]|].
    split; [exact B1|]. rewrite B2, B3, B4, Cn1, Ct1, <- !app_assoc. split; [reflexivity|]. split; [reflexivity|]. split; [reflexivity|].
    constructor; [exact (cell_read_kept h0 p _ _ c v A2 Cv)|exact B5].
Qed.

Lemma rows_run h0 p cts ls css : Forall2 (row_written cts) ls css -> Forall (fun l => comment l = false) ls ->
  forall g, reading h0 g p -> ps_expecting g = COL_ROWS -> ps_types g = cts -> cnames (tab (ps_heap g) p) = ps_names g -> ctypes (tab (ps_heap g) p) = cts ->
  exists g' rs, run_t ls g = Ok g' /\ reads_on h0 p g g' /\ same_frame (tab (ps_heap g) p) (tab (ps_heap g') p) /\
    rows (tab (ps_heap g') p) = rows (tab (ps_heap g) p) ++ rs /\ Forall2 (Forall2 (cell_read h0 (ps_heap g') p)) css rs.
Proof.
  induction 1 as [|l cs ls css Rl F IH]; intros C g Rd X T Cn Ct.
  - exists g, []. rewrite app_nil_r. split; [reflexivity|]. split; [split; [exact Rd|]; split; [apply kept_refl|]; split; [reflexivity|]; split; [reflexivity|]; split; [congruence|reflexivity]|].
    split; [unfold same_frame; auto|]. split; [reflexivity|constructor].
  - inversion C; subst. destruct (rows_do h0 l g p cs Rd Cn Ct X Rl) as (h1 & row & E1 & Rd1 & K1 & (F1 & F2 & F3 & F4) & R1 & C1).
    destruct (IH ltac:(assumption) (with_heap h1 g)) as (g' & rs & E' & (A1 & A2 & A3 & A4 & A5 & A6) & (B1 & B2 & B3 & B4) & B5 & B6); auto; [exact (eq_trans F2 Cn)|exact (eq_trans F3 Ct)|].
    rewrite with_heap_heap in *. exists g', (row :: rs). cbn [run_t]. rewrite parse_hard by (auto; eapply row_start; eauto). rewrite X, E1. cbn [rbind]. split; [exact E'|].
    split; [split; [exact A1|]; split; [eapply kept_trans; eauto|]; split; [exact A3|]; split; [exact A4|]; split; [exact A5|congruence]|].
    split; [unfold same_frame; repeat split; congruence|]. rewrite B5, R1, <- app_assoc. split; [reflexivity|].
    constructor; [exact (cells_read_kept h0 p _ _ cs row A2 C1)|exact B6].
Qed.

Lemma first_line l d ls g : hard_start l -> comment l = false -> ps_expecting g = COL_NAMES -> ps_shape g = UNDEFINED_SHAPE -> getTableShape (split_white l) = Ok (STRUCT_SHAPE, d) ->
  run_t (l :: ls) g = run_t (l :: ls) (with_shape_data STRUCT_SHAPE d g).
Proof.
  intros H C X Sh G. cbn [run_t]. rewrite !parse_hard by assumption. change (ps_expecting (with_shape_data STRUCT_SHAPE d g)) with (ps_expecting g). rewrite X.
  unfold col_names_line. cbv zeta. rewrite Sh, G. reflexivity.
Qed.

Lemma shape_two cn ct : valid_name cn -> In ct all_types -> getTableShape [cn; ct] = Ok (STRUCT_SHAPE, false).
Proof. intros V T. unfold getTableShape, at_. cbn [List.length nth_error rbind]. rewrite (name_col cn V), (proj2 (IsValidColType_spec ct) T). reflexivity. Qed.
Lemma shape_four cn ct w ws : valid_name cn -> In ct all_types -> getTableShape (cn :: ct :: "=" :: w :: ws) = Ok (STRUCT_SHAPE, true).
Proof. intros V T. unfold getTableShape, at_. cbn [List.length nth_error rbind]. rewrite (name_col cn V), (proj2 (IsValidColType_spec ct) T). reflexivity. Qed.
Lemma body_run h0 p d body g : tdoc_ok d -> body_written d body -> Forall (fun l => comment l = false) body -> reading h0 g p -> ps_expecting g = COL_NAMES -> ps_shape g = UNDEFINED_SHAPE ->
  cnames (tab (ps_heap g) p) = [] -> ctypes (tab (ps_heap g) p) = [] -> rows (tab (ps_heap g) p) = [] -> struct_shape (tab (ps_heap g) p) = false ->
  exists g', run_t body g = Ok g' /\ reads_on h0 p g g' /\ cnames (tab (ps_heap g') p) = td_names d /\ ctypes (tab (ps_heap g') p) = td_types d /\
    struct_shape (tab (ps_heap g') p) = td_struct d /\ Forall2 (Forall2 (cell_read h0 (ps_heap g') p)) (td_rows d) (rows (tab (ps_heap g') p)).
Proof.
  intros (Pn & Vn & ND & Ty & Le) Bw C Rd X Sh Cn Ct Rw Ss. destruct Bw as [E1 E2 E3|names types ls E1 W1 W2 W3|ls E1 E2 E3 W|row ls E1 E2 E3 W].
  - exists g. split; [reflexivity|]. split; [split; [exact Rd|]; split; [apply kept_refl|]; split; [reflexivity|]; split; [reflexivity|]; split; [congruence|reflexivity]|].
    rewrite Cn, Ct, Ss, Rw, E1, E2, E3. rewrite E1 in Le. destruct (td_types d); [|discriminate]. repeat split. constructor.
  - inversion C as [|? ? C1 C']; subst. inversion C' as [|? ? C2 C3]; subst. clear C C'.
    assert (E : run_t (names :: types :: ls) g = run_t (types :: ls) (with_expecting COL_TYPES (with_names (td_names d) (with_shape_data TABLE_SHAPE false g)))).
    { cbn [run_t]. rewrite (parse_hard names) by (auto; eapply words_split; eauto). rewrite X, (names_do (td_names d) names g) by assumption. reflexivity. }
    rewrite E. clear E. set (g1 := with_expecting COL_TYPES _). assert (Rd1 : reading h0 g1 p) by exact Rd.
    destruct (types_do h0 types g1 p (td_types d) Rd1 Cn Rw W2 Le ND Vn Ty) as (h2 & E2 & Rd2 & K2 & Nm2 & Cn2 & Ct2 & S2 & R2).
    set (g2 := with_expecting COL_ROWS (with_heap h2 (with_types (td_types d) g1))) in *.
    destruct (rows_run h0 p (td_types d) ls (td_rows d) W3 C3 g2 Rd2 eq_refl eq_refl Cn2 Ct2) as (g' & rs & E' & (A1 & A2 & A3 & A4 & A5 & A6) & (B1 & B2 & B3 & B4) & B5 & B6).
    exists g'. cbn [run_t]. rewrite (parse_hard types) by (auto; eapply words_split; eauto). change (ps_expecting g1) with COL_TYPES. cbn match. rewrite E2. cbn [rbind]. split; [exact E'|].
    change (ps_heap g2) with h2 in *. change (ps_heap g1) with (ps_heap g) in *.
    split; [split; [exact A1|]; split; [eapply kept_trans; eauto|]; split; [exact A3|]; split; [exact A4|]; split; [exact A5|congruence]|].
    rewrite B2, B3, B4, B5, R2, S2, Ss. cbn [app]. rewrite <- E1 in *. auto.
  - remember (td_names d) as CN. remember (td_types d) as CT. destruct W as [|cn ct gap cns cts ls G N W]; [congruence|]. inversion C as [|? ? C1 C']; subst. inversion Vn; subst. inversion Ty; subst.
    destruct (decl_line cn ct gap) as [Sp H]; auto.
    rewrite (first_line _ false) by (auto; rewrite Sp; now apply shape_two).
    set (g1 := with_shape_data STRUCT_SHAPE false g).
    destruct (columns_run h0 p (cn :: cns) (ct :: cts) ((cn ++ gap ++ ct)%string :: ls)) with (g := g1) as (g' & E' & A & B1 & B2 & B3 & B4); auto.
    + now constructor.
    + change (ps_heap g1) with (ps_heap g). now rewrite Cn.
    + right. discriminate.
    + change (ps_heap g1) with (ps_heap g) in *. exists g'. split; [exact E'|]. split; [exact A|]. rewrite B2, B3, Cn, Ct, B4, E2. cbn [app]. repeat split; auto. congruence.
  - remember (td_names d) as CN. remember (td_types d) as CT. destruct W as [|cn ct c gap1 gap2 gap3 tok cns cts cs ls G1 N1 G2 N2 G3 N3 Cw W]; [congruence|]. inversion C as [|? ? C1 C']; subst. inversion Vn; subst. inversion Ty; subst.
    destruct (value_line cn ct gap1 gap2 gap3 tok c) as (H & (w & ws & Sp) & _); auto.
    rewrite (first_line _ true) by (auto; rewrite Sp; now apply shape_four).
    set (g1 := with_shape_data STRUCT_SHAPE true g).
    destruct (values_run h0 p (cn :: cns) (ct :: cts) (c :: cs) ((cn ++ gap1 ++ ct ++ gap2 ++ "=" ++ gap3 ++ tok)%string :: ls)) with (g := g1) (r0 := @nil value) as (g' & vs & E' & A & B1 & B2 & B3 & B4 & B5); auto.
    + now constructor.
    + change (ps_heap g1) with (ps_heap g). now rewrite Cn.
    + right. change (ps_heap g1) with (ps_heap g). split; [exact Rw|]. split; [exact Ct|]. split; [reflexivity|discriminate].
    + change (ps_heap g1) with (ps_heap g) in *. exists g'. split; [exact E'|]. split; [exact A|]. rewrite B2, B3, Cn, Ct, B4, E2. cbn [app]. repeat split; auto. congruence.
Qed.

(** ---------- the table set ---------- *)

Lemma name_t n g : ascii_name n -> valid_name n -> ps_expecting g = TABLE_NAME -> find_table (ps_heap g ++ [with_nil false (with_name n NewNilTable)]) n (ts_tables (ps_set g)) = None ->
  parse_t ("[" ++ n ++ "]") g = Ok (false, block_state (ps_heap g) (ps_set g) COL_NAMES UNDEFINED_SHAPE (ps_has_data g) (ps_names g) (ps_types g) (ps_named g) (with_nil false (with_name n NewNilTable))).
Proof.
  intros A V X F. rewrite <- (parse_name_line n g A V X F), parse_t_eq. rewrite TrimSpace_graphic; [reflexivity|discriminate|now apply name_line_graphic].
Qed.
Lemma set_line_graphic n : ascii_name n -> all_c graphic ("[[" ++ n ++ "]]")%string = true.
Proof.
  intros A. destruct (ascii_name_words n A) as [_ W]. assert (G : all_c graphic n = true) by (revert W; apply all_c_impl; intros c C; now apply word_graphic).
  rewrite !all_c_app, G. reflexivity.
Qed.
Lemma set_t n g : ascii_name n -> ps_expecting g = TABLE_NAME -> ps_named g = false ->
  parse_t ("[[" ++ n ++ "]]") g = Ok (true, mkPS (ps_heap g) (TS_SetName n (ps_set g)) (ps_expecting g) (ps_shape g) (ps_has_data g)
                           (ps_names g) (ps_types g) true (ps_table g)).
Proof.
  intros A X N. rewrite <- (parse_set_name n g A X N), parse_t_eq. rewrite TrimSpace_graphic; [reflexivity|discriminate|now apply set_line_graphic].
Qed.
Lemma table_read_kept h0 h h' d o : kept_all h h' -> table_read h0 h d o -> table_read h0 h' d o.
Proof.
  intros K (p & t & -> & L & N & A & B & C & D & E & F). exists p, t. split; [reflexivity|]. split; [exact L|].
  split; [rewrite (proj2 K); [exact N|]; apply nth_error_Some; congruence|]. repeat (split; [assumption|]).
  eapply Forall2_impl; [|exact F]. intros a b. apply cells_read_kept. now apply kept_all_kept.
Qed.
Lemma kept_all_trans a b c : kept_all a b -> kept_all b c -> kept_all a c.
Proof. intros [L1 K1] [L2 K2]. split; [lia|]. intros q Q. rewrite K2, K1 by lia. reflexivity. Qed.

Theorem set_run h0 L n ds : set_written L n ds -> Forall (fun l => comment l = false) L ->
  forall g, binv h0 (ps_heap g) (ps_set g) -> ps_expecting g = TABLE_NAME -> (n <> None -> ps_named g = false) -> NoDup (set_names (ps_heap g) (ps_set g) ++ map td_name ds) ->
  exists g' os, run_t L g = Ok g' /\ binv h0 (ps_heap g') (ps_set g') /\ kept_all (ps_heap g) (ps_heap g') /\ ts_tables (ps_set g') = ts_tables (ps_set g) ++ os /\
    Forall2 (table_read h0 (ps_heap g')) ds os /\ ts_name (ps_set g') = match n with Some x => x | None => ts_name (ps_set g) end.
Proof.
  induction 1 as [|ls n ds W IH|x ls ds P W IH|d body ls n ds Ok_ Bw End W IH]; intros C g B X Nm ND.
  - exists g, []. rewrite app_nil_r. split; [reflexivity|]. split; [exact B|]. split; [split; auto|]. split; [reflexivity|]. split; [constructor|reflexivity].
  - inversion C; subst. destruct (IH ltac:(assumption) g B X Nm ND) as (g' & os & E & Z). exists g', os. split; [|exact Z].
    cbn [run_t parse_t]. rewrite X. cbn [rbind]. replace (with_expecting TABLE_NAME g) with g; [exact E|]. destruct g; cbn in *. now subst.
  - inversion C; subst. cbn [run_t]. rewrite set_t by (auto using plain_ascii; apply Nm; discriminate). cbn [rbind]. set (g1 := mkPS _ _ _ _ _ _ _ _ _).
    destruct (IH ltac:(assumption) g1) as (g' & os & E & B' & K & T & F & N').
    + destruct B. now constructor.
    + exact X.
    + congruence.
    + exact ND.
    + exists g', os. split; [exact E|]. split; [exact B'|]. split; [exact K|]. split; [exact T|]. split; [exact F|]. rewrite N'. reflexivity.
  - inversion C as [|? ? _ C']; subst. apply Forall_app in C' as [Cb Cl]. pose proof Ok_ as (Pn & _). pose proof (plain_ascii _ Pn) as A.
    set (p := List.length (ps_heap g)). set (t0 := with_nil false (with_name (td_name d) NewNilTable)).
    assert (FT : find_table (ps_heap g ++ [t0]) (td_name d) (ts_tables (ps_set g)) = None).
    { pose proof (find_table_spec (ps_heap g ++ [t0]) (td_name d) (ts_tables (ps_set g))) as Q.
      destruct (find_table _ _ _) as [o|]; [|reflexivity]. exfalso. destruct Q as (i & NE & R & _). cbn [map] in ND.
      apply (NoDup_remove_2 _ _ _ ND). apply in_or_app. left. rewrite <- R. apply nth_error_In in NE.
      rewrite ref_name_app. { unfold set_names. now apply in_map. }
      pose proof (bi_refs _ _ _ B) as Rf. rewrite Forall_forall in Rf. destruct (Rf o NE) as (q & -> & Q). exists q. split; [reflexivity|lia]. }
    cbn [run_t]. rewrite (name_t (td_name d) g A (proj1 Pn) X FT). cbn [rbind]. fold t0. set (g1 := block_state _ _ _ _ _ _ _ _ _).
    assert (I1 : inv h0 g1).
    { pose proof (parse_line_ok h0 ("[" ++ td_name d ++ "]") g) as Q. rewrite (parse_name_line (td_name d) g A (proj1 Pn) X FT) in Q. apply Q. split; [exact B|]. unfold section_inv. rewrite X. exact I. }
    assert (Tp : tab (ps_heap g1) p = t0) by (apply tab_last).
    assert (Lp : List.length (ps_heap g1) = Datatypes.S p) by (cbn; rewrite app_length; cbn; unfold p; lia).
    assert (Rd : reading h0 g1 p).
    { split; [apply I1|]. split; [reflexivity|]. pose proof (bi_len _ _ _ B). split; [unfold p in *; lia|]. rewrite Tp. cbn. destruct (td_name d); [inversion A|discriminate]. }
    destruct (body_run h0 p d body g1 Ok_ Bw Cb Rd) as (g2 & E2 & (Rd2 & K2 & S2 & Nd2 & X2 & Nm2) & Cn & Ct & Ss & Rw); try reflexivity; try (rewrite Tp; reflexivity).
    rewrite run_t_app, E2. cbn [rbind]. rewrite Tp in Nm2. cbn in Nm2.
    assert (KA : kept_all (ps_heap g) (ps_heap g2)).
    { destruct K2 as [L2 K2]. split; [unfold p in *; lia|]. intros q Q. rewrite K2 by (unfold p in *; lia). cbn. now apply nth_error_app1. }
    destruct (IH Cl (with_expecting TABLE_NAME g2)) as (g' & os & E & B' & K & T & F & N').
    + apply Rd2.
    + reflexivity.
    + intros Q. change (ps_named (with_expecting TABLE_NAME g2)) with (ps_named g2). rewrite Nd2. apply Nm, Q.
    + change (ps_heap (with_expecting TABLE_NAME g2)) with (ps_heap g2). change (ps_set (with_expecting TABLE_NAME g2)) with (ps_set g2). rewrite S2. unfold set_names. cbn [ts_tables g1 block_state ps_set].
      rewrite map_app. cbn [map ref_name]. fold p. rewrite Nm2, <- app_assoc. cbn [app].
      replace (map (ref_name (ps_heap g2)) (ts_tables (ps_set g))) with (set_names (ps_heap g) (ps_set g)); [exact ND|].
      unfold set_names. apply map_ext_in. intros o I. pose proof (bi_refs _ _ _ B) as Rf. rewrite Forall_forall in Rf. destruct (Rf o I) as (q & -> & Q). cbn. f_equal. symmetry. apply tab_eq, KA. lia.
    + change (ps_heap (with_expecting TABLE_NAME g2)) with (ps_heap g2) in *. change (ps_set (with_expecting TABLE_NAME g2)) with (ps_set g2) in *.
      assert (Q : exists g'', run_t ls g2 = Ok g'' /\ ps_heap g'' = ps_heap g' /\ ps_set g'' = ps_set g').
      { destruct End as [->|(ls' & ->)].
        - cbn in E. injection E as <-. exists g2. auto.
        - exists g'. split; [|auto]. rewrite <- E. cbn [run_t parse_t]. change (ps_expecting (with_expecting TABLE_NAME g2)) with TABLE_NAME. cbn match. cbn [rbind].
          destruct (ps_expecting g2); try congruence; reflexivity. }
      destruct Q as (g'' & Er & Eh & Es). exists g'', (Some p :: os). rewrite Eh, Es. split; [exact Er|]. split; [exact B'|]. split; [eapply kept_all_trans; eauto|].
      rewrite T, S2. cbn [g1 block_state ps_set ts_tables]. rewrite <- app_assoc. split; [reflexivity|]. split; [|rewrite N', S2; reflexivity].
      constructor; [|exact F]. apply (table_read_kept h0 (ps_heap g2)); [exact K|]. destruct Rd2 as (B2 & _ & P2 & N2).
      exists p, (tab (ps_heap g2) p). split; [reflexivity|]. split; [lia|]. split; [unfold tab; apply nth_error_nth'; lia|].
      split; [apply name_not_nil; [apply tab_wf, B2|exact N2]|]. auto 8.
Qed.
