(** Proofs_CellText.v -- the texts of cells are read back as the cells. *)
From Coq Require Import ZArith NArith List String Ascii Bool SpecFloat Lia.
From Verif Require Import Base Model_Names Model_Table Model_Heap Spec Spec_Text Model_Lex Model_Float Model_Time Model_Parser Model_Print
  Proofs_Lib Proofs_Table Proofs_Lex Proofs_Num Proofs_Float Proofs_Parser Proofs_FloatText Proofs_TimeText Proofs_Lines Proofs_Block.
Import ListNotations.
Local Open Scope string_scope.
Local Open Scope list_scope.

(** [u] is a text that is read as the cell [v] of a column of type [ct] wherever it stands in a line. *)
Record cell_word (ct : string) (v : value) (u : string) : Prop := {
  cw_first : exists c r, u = String c r /\ graphic c = true /\ Ascii.eqb c "#" = false;
  cw_last : exists a c, u = (a ++ String c "")%string /\ graphic c = true;
  cw_nl : has nl u = false;
  cw_reads : forall p h rest, stops rest -> get_value p ct (u ++ rest) h = Ok (h, v, rest) }.

Lemma graphic_cell ct v u : u <> "" -> all_c graphic u = true -> starts (Ascii.eqb "#") u = false ->
  (forall p h rest, stops rest -> get_value p ct (u ++ rest) h = Ok (h, v, rest)) -> cell_word ct v u.
Proof.
  intros N G S R. destruct (graphic_word u N G) as (_ & _ & _ & NL). constructor; auto.
  - destruct u as [|c r]; [congruence|]. cbn in G, S. apply andb_true_iff in G as [G _]. exists c, r. now rewrite Ascii.eqb_sym.
  - destruct (all_c_last _ _ G N) as (a & c & E & C). eauto.
Qed.

Lemma dec_graphic c : is_dec c = true -> graphic c = true /\ Ascii.eqb "#" c = false.
Proof. intros D. split; [apply word_graphic; now apply dec_word|]. destruct (Ascii.eqb_spec "#" c); [subst; discriminate|reflexivity]. Qed.
Lemma all_dec_graphic s : all_c is_dec s = true -> all_c graphic s = true.
Proof. apply all_c_impl. intros c D. now apply dec_graphic. Qed.
Lemma starts_dec s : all_c is_dec s = true -> starts (Ascii.eqb "#") s = false.
Proof. destruct s as [|c s]; [reflexivity|]. cbn. rewrite andb_true_iff. intros [D _]. now apply dec_graphic. Qed.
Lemma dec_of_graphic z : dec_of z <> "" /\ all_c graphic (dec_of z) = true /\ starts (Ascii.eqb "#") (dec_of z) = false.
Proof.
  unfold dec_of. destruct (Z.ltb_spec z 0).
  - destruct (dec_of_nonneg_dec (- z) ltac:(lia)) as (_ & A & _). repeat split; [discriminate|]. cbn [all_c]. rewrite (all_dec_graphic _ A). reflexivity.
  - destruct (dec_of_nonneg_dec z ltac:(lia)) as (_ & A & N). repeat split; auto using all_dec_graphic, starts_dec.
Qed.
Lemma number_graphic neg a p b : is_number a p b -> number neg a p b <> "" /\ all_c graphic (number neg a p b) = true /\ starts (Ascii.eqb "#") (number neg a p b) = false.
Proof.
  intros (A & Na & B & _). assert (G : all_c graphic (a ++ frac_text p b) = true).
  { rewrite all_c_app, (all_dec_graphic _ A). destruct p; [|reflexivity]. cbn. rewrite (all_dec_graphic _ B). reflexivity. }
  unfold number. destruct neg; cbn [sign_text].
  - repeat split; [discriminate|]. cbn [all_c]. rewrite G. reflexivity.
  - destruct a as [|c a]; [congruence|]. repeat split; [discriminate|exact G|]. cbn [append starts]. apply (starts_dec (String c a) A).
Qed.

(** ---------- the kinds of cells ---------- *)

Lemma int_cell ct k z : int_kind ct = Some k -> in_range k z = true -> cell_word ct (VInt k z) (dec_of z).
Proof.
  intros K R. destruct (dec_of_graphic z) as (N & G & S). apply graphic_cell; auto. intros p h rest T.
  unfold get_value. rewrite K. rewrite get_int_dec_of by auto using stops_separated. reflexivity.
Qed.
Lemma scan_true rest : word_ends rest = true -> scan_bool ("true" ++ rest) = Some ("true", rest).
Proof. intros W. unfold scan_bool. rewrite prefix_app. cbn [append drop andb]. now rewrite W. Qed.
Lemma scan_false rest : word_ends rest = true -> scan_bool ("false" ++ rest) = Some ("false", rest).
Proof.
  intros W. unfold scan_bool. assert (P : String.prefix "true" ("false" ++ rest) = false) by reflexivity. rewrite P, prefix_app. cbn [append drop andb].
  now rewrite W.
Qed.
Lemma bool_cell b : cell_word "bool" (VBool b) (if b then "true" else "false").
Proof.
  apply graphic_cell; try (destruct b; first [discriminate|reflexivity]). intros p h rest T.
  assert (W : word_ends rest = true) by (destruct rest as [|c rest]; [reflexivity|]; cbn in T; now subst c).
  change (get_value p "bool" ((if b then "true" else "false") ++ rest) h)
    with (pure h (of_opt (scan_bool ((if b then "true" else "false") ++ rest))) (fun text => VBool (text =? "true"))).
  destruct b; [rewrite scan_true|rewrite scan_false]; auto.
Qed.
Lemma string_cell ip s : cell_word "string" (VString s) (Quote ip s).
Proof.
  constructor.
  - eexists _, _. split; [reflexivity|]. split; reflexivity.
  - eexists (String dquote _), dquote. split; [reflexivity|reflexivity].
  - apply Quote_no_nl.
  - intros p h rest _.
    change (get_value p "string" (Quote ip s ++ rest) h)
      with (pure h (let! (text, rest) := of_opt (scan_string (Quote ip s ++ rest)) in let! v := of_opt (Unquote text) in Ok (v, rest)) VString).
    rewrite scan_Quote. cbn [of_opt rbind]. rewrite Unquote_Quote. reflexivity.
Qed.
Lemma rune_cell ip z : valid_rune z = true -> cell_word "rune" (VInt KInt32 z) (QuoteRune ip z).
Proof.
  intros V. constructor.
  - eexists _, _. split; [reflexivity|]. split; reflexivity.
  - eexists (String squote _), squote. split; [reflexivity|reflexivity].
  - apply QuoteRune_no_nl.
  - intros p h rest _. destruct (scan_QuoteRune ip z rest V) as (x & S & P & N).
    change (get_value p "rune" (QuoteRune ip z ++ rest) h)
      with (pure h (let! (text, rest) := of_opt (scan_rune (QuoteRune ip z ++ rest)) in
                    if Nat.ltb (String.length text) 1 then Err else let! r := of_opt (parseRune text) in Ok (r, rest)) (VInt KInt32)).
    rewrite S. cbn [of_opt rbind]. destruct x as [|c x]; [congruence|]. change (Nat.ltb (String.length (String c x)) 1) with false. cbn match.
    rewrite P. reflexivity.
Qed.

Definition float_type (F : ffmt) : string := if (f_prec F =? 24)%Z then "float32" else "float64".
Definition float_value (F : ffmt) : spec_float -> value := if (f_prec F =? 24)%Z then VFloat32 else VFloat64.
Lemma float_reads F f u : fmt_ok F -> (u = "NaN" \/ exists neg a p b, u = number neg a p b /\ is_number a p b) ->
  (forall rest, stops rest -> get_float F (u ++ rest) = Ok (f, rest)) -> cell_word (float_type F) (float_value F f) u.
Proof.
  intros Fo U R. assert (G : u <> "" /\ all_c graphic u = true /\ starts (Ascii.eqb "#") u = false).
  { destruct U as [->|(neg & a & p & b & -> & N)]; [split; [discriminate|split; reflexivity]|now apply number_graphic]. }
  apply graphic_cell; try tauto. intros p h rest S.
  assert (E : get_value p (float_type F) (u ++ rest) h = pure h (get_float F (u ++ rest)) (float_value F)) by (destruct Fo as [->| ->]; reflexivity).
  rewrite E, R by exact S. reflexivity.
Qed.
Lemma float_cell F f : fmt_ok F -> valid_binary (f_prec F) (f_emax F) f = true -> no_inf f -> cell_word (float_type F) (float_value F f) (format_short F f).
Proof.
  intros Fo V NI. apply float_reads; auto using get_float_short.
  assert (NN : f = S754_nan \/ f <> S754_nan) by (destruct f; auto; right; discriminate). destruct NN as [->|NN]; [now left|right].
  destruct (format_short_number F f Fo V NI NN) as (neg & a & p & b & E & N & _). eauto 8.
Qed.

(** slices *)
Definition slice_body (l : list ascii) : string := String.concat " " (map (fun c => dec_of (code c)) l).
Lemma byte_dec c : all_c is_dec (dec_of (code c)) = true /\ dec_of (code c) <> "" /\ digits_val 10 0 (dec_of (code c)) = Some (code c).
Proof.
  pose proof (code_range c). unfold dec_of. rewrite (proj2 (Z.ltb_ge _ _)) by lia. destruct (dec_of_nonneg_dec (code c) ltac:(lia)) as (A & B & C). auto.
Qed.
Lemma concat_cons w v ws : String.concat " " (w :: v :: ws) = (w ++ String " " (String.concat " " (v :: ws)))%string.
Proof. reflexivity. Qed.
Lemma split_each_nonempty s : split_each_white s <> [].
Proof. destruct s as [|c s]; cbn [split_each_white]; [discriminate|]. destruct (is_white c); [discriminate|]. destruct (split_each_white s); discriminate. Qed.
Lemma split_each_concat ws : ws <> [] -> Forall (fun w => all_c (fun c => negb (is_white c)) w = true) ws -> split_each_white (String.concat " " ws) = ws.
Proof.
  assert (W : forall w s, all_c (fun c => negb (is_white c)) w = true ->
    split_each_white (w ++ s) = match split_each_white s with x :: xs => (w ++ x)%string :: xs | [] => [w] end).
  { induction w as [|c w IH]; intros s; cbn [all_c append split_each_white].
    - intros _. pose proof (split_each_nonempty s). destruct (split_each_white s); [congruence|reflexivity].
    - rewrite andb_true_iff, negb_true_iff. intros [-> A]. rewrite (IH s A). destruct (split_each_white s); reflexivity. }
  induction ws as [|w ws IH]; [congruence|]. intros _ F. apply Forall_inv in F as Fw. apply Forall_inv_tail in F. destruct ws as [|v ws].
  - cbn [String.concat]. rewrite <- (app_str_nil_r w) at 1. rewrite W by exact Fw. cbn. now rewrite app_str_nil_r.
  - rewrite concat_cons, W by exact Fw. change (split_each_white (String " " ?x)) with ("" :: split_each_white x). rewrite IH by (congruence || exact F).
    now rewrite app_str_nil_r.
Qed.

Lemma byte_literal c : unsigned_literal (dec_of (code c)) (code c).
Proof. pose proof (code_range c). unfold dec_of. rewrite (proj2 (Z.ltb_ge _ _)) by lia. now apply dec_of_nonneg_spec. Qed.
Lemma full_byte c : full_uint (dec_of (code c)) = true.
Proof.
  destruct (unsigned_scan KUint8 _ _ "" (byte_literal c) I) as [S _]. rewrite app_str_nil_r in S. change (scan_kind KUint8) with scan_uint in S.
  unfold full_uint. now rewrite S.
Qed.
Lemma parse_byte c : parseUint 8 (dec_of (code c)) = Some (code c).
Proof.
  destruct (unsigned_scan KUint8 _ _ "" (byte_literal c) I) as [_ P]. change (parse_kind KUint8) with (parseUint 8) in P. rewrite P.
  unfold fit. pose proof (code_range c). assert (R : in_range KUint8 (code c) = true); [|now rewrite R].
  apply range_fits. unfold fits. cbn. lia.
Qed.
Lemma has_concat c ws : Ascii.eqb c " " = false -> Forall (fun w => has c w = false) ws -> has c (String.concat " " ws) = false.
Proof.
  intros C. induction ws as [|w ws IH]; [reflexivity|]. intros F. apply Forall_inv in F as Fw. apply Forall_inv_tail in F. destruct ws as [|v ws]; [exact Fw|].
  rewrite concat_cons, has_app, Fw. cbn [orb]. change (has c (String " " ?x)) with (Ascii.eqb c " " || has c x). rewrite C. now apply IH.
Qed.
Lemma slice_cell ct l : ct = "[]byte" \/ ct = "[]uint8" -> cell_word ct (VBytes (Some l)) (slice_text (Some l)).
Proof.
  intros CT. unfold slice_text. fold (slice_body l).
  assert (H : forall c, is_dec c = false -> Ascii.eqb c " " = false -> has c (slice_body l) = false).
  { intros c D B. apply has_concat; [exact B|]. apply Forall_forall. intros w I. apply in_map_iff in I as (x & <- & _). apply dec_has; [exact D|]. apply byte_dec. }
  assert (W : Forall (fun w => all_c (fun c => negb (is_white c)) w = true) (map (fun c => dec_of (code c)) l)).
  { apply Forall_forall. intros w I. apply in_map_iff in I as (x & <- & _). destruct (byte_dec x) as (A & _). eapply all_c_impl; [|exact A].
    intros c D. apply negb_true_iff. apply (graphic_facts c). now apply dec_graphic. }
  constructor.
  - eexists _, _. split; [reflexivity|]. split; reflexivity.
  - exists ("[" ++ slice_body l)%string, "]"%char. split; [now rewrite app_str_assoc|reflexivity].
  - rewrite !has_app, H by reflexivity. reflexivity.
  - intros p h rest _.
    assert (E : get_value p ct (("[" ++ slice_body l ++ "]") ++ rest) h = pure h (get_slice (("[" ++ slice_body l ++ "]") ++ rest)) (fun v => v)) by (destruct CT as [->| ->]; reflexivity).
    rewrite E. clear E. unfold get_slice, scan_slice. rewrite !app_str_assoc. cbn [append]. change (Ascii.eqb "[" "[") with true. cbn match.
    rewrite until_plain by (apply H; reflexivity).
    assert (FU : (slice_body l =? "") || forallb full_uint (split_each_white (slice_body l)) = true).
    { destruct l as [|c l]; [reflexivity|]. apply orb_true_iff. right. unfold slice_body. rewrite split_each_concat by (discriminate || exact W).
      apply forallb_forall. intros w I. apply in_map_iff in I as (x & <- & _). apply full_byte. }
    rewrite FU. cbn [of_opt rbind].
    assert (AS : all_some (map (parseUint 8) (splitSliceString (slice_body l))) = Some (map code l)).
    { destruct l as [|c l]; [reflexivity|]. unfold splitSliceString.
      assert (NE : (slice_body (c :: l) =? "") = false). { unfold slice_body. cbn [map]. destruct (byte_dec c) as (_ & N & _). destruct l; cbn [map String.concat]; destruct (dec_of (code c)); (congruence || reflexivity). }
      rewrite NE. rewrite (split_white_spaced (map (fun c => dec_of (code c)) (c :: l))).
      - rewrite map_map. clear. induction (c :: l) as [|x r IH]; [reflexivity|]. cbn [map all_some]. now rewrite parse_byte, IH.
      - apply spaced_concat. discriminate.
      - rewrite Forall_forall in *. intros w I. split; [|now apply W]. apply in_map_iff in I as (x & <- & _). apply byte_dec. }
    rewrite AS. cbn [of_opt rbind pure]. rewrite map_map. do 4 f_equal. rewrite (map_ext _ (fun x => x)) by apply chr_code. now rewrite map_id.
Qed.

Lemma all_c_dec_n n x : (0 <= x)%Z -> all_c graphic (dec_n n x) = true.
Proof. intros H. apply all_dec_graphic. destruct (dec_n_spec n x 0 H) as (_ & A & _). exact A. Qed.
Lemma time_cell t : time_plain t -> cell_word "time.Time" (VTime t) (time_text t).
Proof.
  intros T. assert (G : time_text t <> "" /\ all_c graphic (time_text t) = true /\ starts (Ascii.eqb "#") (time_text t) = false).
  { destruct T as (Y & M & B & NS). unfold time_text, format_time. set (loc := (tm_sec t + tm_off t)%Z) in *.
    destruct (date_of (loc / 86400)) as [[y m] d] eqn:D.
    assert (Ey : y = year_of (loc / 86400)). { unfold date_of in D. destruct (month_of _ _ _). now injection D. }
    rewrite <- Ey in Y. apply date_of_spec in D as (D & Hm & Hd & Hd31).
    assert (YT : year_text y = dec_n 4 y). { unfold year_text. rewrite (proj2 (Z.ltb_ge y 0)), (proj2 (Z.ltb_ge 9999 y)) by lia. reflexivity. }
    rewrite YT. destruct (dec_n_spec 4 y 0 ltac:(lia)) as (_ & YD & YL). destruct (dec_n 4 y) as [|c r] eqn:DE; [discriminate|]. rewrite <- DE in *.
    pose proof (Z.mod_pos_bound loc 86400 ltac:(lia)) as S.
    repeat split; [rewrite DE; discriminate| |rewrite DE in *; cbn [append starts]; now apply (starts_dec (String c r))].
    rewrite !all_c_app, !all_c_dec_n by (try lia; try (apply Z.div_pos; lia); try (apply Z.mod_pos_bound; lia)).
    cbn [all_c andb]. rewrite !andb_true_iff. repeat split.
    - destruct NS as [NS|[NS N0]]; [now rewrite NS|]. destruct ((0 <? tm_nsec t)%Z && _); [|reflexivity]. rewrite trim_nanos by lia. cbn [append all_c].
      rewrite all_c_dec_n by lia. reflexivity.
    - unfold zone_text. destruct (tm_off t =? 0)%Z; [reflexivity|]. cbv zeta. cbn [all_c]. rewrite !all_c_app, !all_c_dec_n by (try (apply Z.div_pos; lia); try (apply Z.mod_pos_bound; lia)).
      destruct (_ <? 0)%Z; reflexivity. }
  apply graphic_cell; try tauto. intros p h rest _.
  change (get_value p "time.Time" (time_text t ++ rest) h)
    with (pure h (let! (f, rest) := of_opt (scan_time (time_text t ++ rest)) in let! t := of_opt (parse_time f) in Ok (t, rest)) VTime).
  rewrite time_read by exact T. reflexivity.
Qed.

(** ---------- a row ---------- *)

Inductive cell_words : list string -> list value -> list string -> Prop :=
  | cws_nil : cell_words [] [] []
  | cws_cons ct v u cts vs us : cell_word ct v u -> cell_words cts vs us -> cell_words (ct :: cts) (v :: vs) (u :: us).

Lemma trim_left_spaces k c s : is_blank c = false -> trim_left is_blank (spaces k ++ String c s) = String c s.
Proof. intros C. induction k; cbn [spaces append trim_left]; [now rewrite C|]. exact IHk. Qed.
Lemma get_values_spaced us s : spaced us s -> forall cts vs, cell_words cts vs us -> 
  (exists c r, s = String c r /\ graphic c = true /\ Ascii.eqb c "#" = false) /\ forall p h, get_values p cts s h = Ok (h, vs).
Proof.
  induction 1 as [u|u us k s D IH]; intros cts vs W; inversion W as [|ct v ? cts' vs' us' CW CWS]; subst.
  - inversion CWS; subst. destruct (cw_first _ _ _ CW) as (c & r & E & G & NH). split; [eauto|]. intros p h. cbn [get_values].
    rewrite E. cbn [String.eqb]. rewrite <- E. pose proof (cw_reads _ _ _ CW p h "" I) as R. rewrite app_str_nil_r in R. rewrite R. reflexivity.
  - destruct (IH _ _ CWS) as [(c' & r' & -> & G' & _) GV]. destruct (cw_first _ _ _ CW) as (c & r & E & G & NH). split.
    + rewrite E. cbn [append]. eauto.
    + intros p h. cbn [get_values]. assert (NE : ((u ++ spaces (S k) ++ String c' r') =? "") = false) by (rewrite E; reflexivity). rewrite NE.
      rewrite (cw_reads _ _ _ CW) by reflexivity. cbn [rbind]. rewrite trim_left_spaces by now apply graphic_facts. rewrite GV. reflexivity.
Qed.
Lemma cell_words_hard cts vs us : cell_words cts vs us -> Forall hard_first us /\ Forall hard_last us /\ Forall (fun u => has nl u = false) us.
Proof.
  induction 1 as [|ct v u cts vs us [F L N _] _ (A & B & C)]; [repeat split; constructor|]. repeat split; constructor; auto.
  - destruct F as (c & r & -> & G & _). now apply graphic_hard_first.
  - destruct L as (a & c & E & G). exists a, c. auto.
Qed.
Theorem row_spread cts vs us line : cell_words cts vs us -> spread us line -> row_line cts vs line.
Proof.
  intros W S. destruct (cell_words_hard _ _ _ W) as (F & L & N). split; [eapply spread_no_nl; eauto|].
  pose proof (TrimSpace_spread us line S F L) as D. destruct (get_values_spaced _ _ D _ _ W) as [(c & r & E & _ & NH) GV].
  exists c, r. rewrite E in GV. auto.
Qed.
