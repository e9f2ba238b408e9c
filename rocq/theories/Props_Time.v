(** Props_Time.v -- C63: a time is read and written as the instant that the calendar says. *)
From Coq Require Import ZArith NArith List String Ascii Bool SpecFloat Lia.
From Verif Require Import Base Model_Names Model_Table Model_Heap Model_TableSet Model_Lex Model_Float Model_Time Model_Parser Model_Print Spec Spec_Heap Spec_TableSet Spec_Text Spec_Decimal Spec_Time Spec_Document Spec_Grammar Spec_Refuse.
From Verif Require Import Proofs_Lib Proofs_Table Proofs_Heap Proofs_TableSet Proofs_Lex Proofs_Num Proofs_Parser Proofs_Lines Proofs_Block Proofs_Float Proofs_FloatText Proofs_TimeText Proofs_Decimal Proofs_Time Proofs_Document Proofs_Token Proofs_Grammar Proofs_Refuse
  Proofs_JsonValue Proofs_Cells Proofs_Api Proofs_Api2 Props_Parser Props_Grammar Props_Refuse Props_Decimal Props_Query.
Import ListNotations.
Local Open Scope string_scope.
Local Open Scope list_scope.

(** ---------- the calendar ---------- *)

(** C63.  Every number of days is one date; every date is one number of days, and nothing but
    a date is. *)
Theorem C63_one_date : forall n, exists x, day_number n x /\ a_date x /\ forall y, day_number n y -> y = x.
Proof.
  intros n. destruct (day_number_total n) as (x & X). exists x. destruct (day_number_count n x X) as [A E]. split; [exact X|]. split; [exact A|]. intros y Y.
  destruct (day_number_count n y Y) as [B F]. apply day_count_injective; auto. congruence.
Qed.
Theorem C63_one_number : forall x, a_date x <-> exists n, day_number n x /\ forall m, day_number m x -> m = n.
Proof.
  intros [[y m] d]. split.
  - intros A. apply a_date_spec in A. exists (days_of y m d). split; [apply day_number_spec; tauto|]. intros k K. apply day_number_spec in K as (<- & _). reflexivity.
  - intros (n & N & _). exact (proj1 (day_number_count _ _ N)).
Qed.

(** ---------- reading ---------- *)

Lemma figures_graphic k s v : figures k s v -> all_c graphic s = true.
Proof. intros F. apply figures_dec in F as (_ & A & _). revert A. apply all_c_impl. intros c C. apply word_graphic. unfold is_word. rewrite C. now rewrite orb_true_r. Qed.
Lemma time_shaped_graphic tok : time_shaped tok -> tok <> "" /\ all_c graphic tok = true /\ comment tok = false.
Proof.
  intros (Y & y & M & m & D & d & H & h & N & n & S & s & frac & zone & -> & G1 & G2 & G3 & G4 & G5 & G6 & FR & ZN).
  assert (GF : all_c graphic frac = true) by (destruct FR as [->|(a & v & -> & F)]; [reflexivity|cbn [append all_c]; rewrite (figures_graphic _ _ _ F); reflexivity]).
  assert (GZ : all_c graphic zone = true).
  { destruct ZN as [->|(hh & h' & mm & m' & [-> | ->] & F1 & F2)]; [reflexivity|..]; cbn [append all_c]; rewrite all_c_app; cbn [all_c]; rewrite (figures_graphic _ _ _ F1), (figures_graphic _ _ _ F2); reflexivity. }
  assert (exists c r, Y = String c r /\ is_dec c = true) as (c & r & -> & C).
  { destruct (figures_dec _ _ _ G1) as (L & A & _). destruct Y as [|c r]; [discriminate L|]. cbn [all_c] in A. apply andb_true_iff in A. exists c, r. tauto. }
  split; [discriminate|]. split.
  - rewrite !all_c_app. rewrite (figures_graphic _ _ _ G1), (figures_graphic _ _ _ G2), (figures_graphic _ _ _ G3), (figures_graphic _ _ _ G4), (figures_graphic _ _ _ G5), (figures_graphic _ _ _ G6), GF, GZ. reflexivity.
  - unfold comment. cbn [append]. apply Ascii.eqb_neq. intros ->. discriminate C.
Qed.
Lemma time_written_shaped tok t : time_written tok t -> time_shaped tok.
Proof. rewrite time_written_spec, time_shaped_spec. intros (f & F & _). eauto. Qed.

(** A text is one time at most. *)
Theorem C63_one_time : forall tok t u, time_written tok t -> time_written tok u -> t = u.
Proof. exact time_written_one. Qed.

(** C63.  A table with a column of times: every text in the column is read as the time that it
    says. *)
Theorem C63_read : forall name col toks ts h, wf_heap h -> plain_name name -> plain_name col -> Forall2 time_written toks ts ->
  exists h' p t, NewTableFromString (column_text name col "time.Time" toks) h = (h', Ok (Some p)) /\ nth_error h' p = Some t /\ wf_table t /\
    tname t = name /\ cnames t = [col] /\ ctypes t = ["time.Time"] /\ rows t = map (fun x => [VTime x]) ts.
Proof.
  intros name col toks ts h W Pn Pc F.
  set (d := mkTD name [col] ["time.Time"] (map (fun x => [Value (VTime x)]) ts) false).
  assert (CT : In "time.Time" all_types) by (apply str_in_In; reflexivity).
  assert (G : Forall (fun l => l <> "" /\ all_c graphic l = true /\ comment l = false) (("[" ++ name ++ "]")%string :: col :: "time.Time" :: toks)).
  { apply Forall_cons; [|apply Forall_cons; [|apply Forall_cons]].
    - split; [discriminate|]. split; [now apply name_line_graphic, plain_ascii|reflexivity].
    - now apply plain_graphic.
    - repeat split; discriminate.
    - clear - F. induction F as [|tok t toks ts N F IH]; constructor; eauto using time_shaped_graphic, time_written_shaped. }
  assert (SW : set_written (significant (lines (column_text name col "time.Time" toks))) None [d]).
  { unfold column_text. rewrite significant_graphic by exact G. cbn [app]. apply (sw_table d (col :: "time.Time" :: toks) [""] None []); [| |right; eauto|apply sw_blank, sw_end].
    - split; [exact Pn|]. split; [apply Forall_cons; [apply Pc|apply Forall_nil]|]. split; [repeat constructor; intros []|]. split; [apply Forall_cons; [exact CT|apply Forall_nil]|reflexivity].
    - inversion G as [|? ? _ G1]; subst. inversion G1 as [|? ? (A1 & A2 & _) G2]; subst. inversion G2 as [|? ? (B1 & B2 & _) G3]; subst.
      apply bw_table; [reflexivity|apply words_one; now apply graphic_a_word..|]. cbn [td_types td_rows d]. clear - F.
      induction F as [|tok f toks fs N F IH]; constructor; auto. apply rw_one. now apply cw_time. }
  destruct (C60_one_table _ None d h W SW) as (h' & o & E & (p & t & -> & _ & N & _ & Tn & Cn & Ct & _ & R) & W' & _). exists h', p, t. split; [exact E|]. split; [exact N|].
  split; [exact (proj1 (Forall_forall _ _) (wh_tables _ W') t (nth_error_In _ _ N))|]. split; [exact Tn|]. split; [exact Cn|]. split; [exact Ct|].
  cbn [td_rows d] in R. clear - R. revert R. generalize (rows t). induction ts as [|f fs IH]; intros rs R; inversion R as [|? r ? rs' R1 R2]; subst; [reflexivity|].
  cbn [map]. f_equal; [|now apply IH]. inversion R1 as [|? v ? ? V R3]; subst. inversion R3; subst. cbn in V. now subst.
Qed.

(** C63.  A text in which the digits and signs are where they have to be, but which is no time
    (there is no such date, no such hour, minute or second, no such zone), is an error. *)
Theorem C63_refused : forall name col toks ts tok more h, wf_heap h -> plain_name name -> plain_name col -> Forall2 time_written toks ts ->
  time_shaped tok -> (forall t, ~ time_written tok t) -> Forall time_shaped more ->
  snd (NewTableFromString (column_text name col "time.Time" (toks ++ tok :: more)) h) = Err.
Proof.
  intros name col toks ts tok more h W Pn Pc F SH N M. apply C62_one_table; [exact W|].
  assert (CT : In "time.Time" all_types) by (apply str_in_In; reflexivity).
  assert (G : Forall (fun l => l <> "" /\ all_c graphic l = true /\ comment l = false) (("[" ++ name ++ "]")%string :: col :: "time.Time" :: toks ++ tok :: more)).
  { apply Forall_cons; [|apply Forall_cons; [|apply Forall_cons]].
    - split; [discriminate|]. split; [now apply name_line_graphic, plain_ascii|reflexivity].
    - now apply plain_graphic.
    - repeat split; discriminate.
    - apply Forall_app. split; [|constructor; [eauto using time_shaped_graphic|]].
      + clear - F. induction F as [|tok t toks ts N F IH]; constructor; eauto using time_shaped_graphic, time_written_shaped.
      + eapply Forall_impl; [|exact M]. eauto using time_shaped_graphic. }
  unfold column_text. rewrite significant_graphic by exact G. inversion G as [|? ? _ G1]; subst. inversion G1 as [|? ? (A1 & A2 & _) G2]; subst. inversion G2 as [|? ? (B1 & B2 & _) G3]; subst.
  cbn [app]. replace (col :: "time.Time" :: (toks ++ tok :: more) ++ [""]) with ((col :: "time.Time" :: toks ++ [tok]) ++ more ++ [""]) by (cbn [app]; rewrite <- !app_assoc; reflexivity).
  apply sx_body; [exact Pn|intros []|].
  apply (bx_row [col] col ["time.Time"] "time.Time" toks (map (fun f => [Value (VTime f)]) ts) tok); [now apply words_one, graphic_a_word| | |now apply words_one, graphic_a_word| |reflexivity| |].
  - apply Forall_cons; [apply Pc|apply Forall_nil].
  - repeat constructor. intros [].
  - apply Forall_cons; [exact CT|apply Forall_nil].
  - clear - F. induction F as [|t f toks fs N F IH]; constructor; auto. apply rw_one. now apply cw_time.
  - rewrite <- (app_str_nil_r tok). apply rx_cell; [|now left]. now apply cx_time.
Qed.

(** ---------- writing ---------- *)

(** A time that has a text: its zone is at whole minutes, less than a day from UTC, and its clock
    shows a year of four digits. *)
Definition has_text (t : time) : Prop :=
  (exists days y m d s, day_number days (y, m, d) /\ 0 <= y <= 9999 /\ tm_sec t + tm_off t = days * 86400 + s /\ 0 <= s < 86400) %Z /\
  (60 | tm_off t)%Z /\ (- 86400 < tm_off t < 86400)%Z /\ (0 <= tm_nsec t < 1000000000)%Z.
Lemma has_text_year t : has_text t -> (0 <= year_of ((tm_sec t + tm_off t) / 86400) <= 9999)%Z.
Proof.
  intros ((days & y & m & d & s & D & Y & E & S) & _). assert (Q : ((tm_sec t + tm_off t) / 86400 = days)%Z) by (rewrite E; symmetry; apply (Z.div_unique _ _ _ s); lia).
  rewrite Q. destruct (date_of days) as [[y' m'] d'] eqn:X. assert (Ey : y' = year_of days). { unfold date_of in X. destruct (month_of _ _ _). now injection X. }
  apply date_of_spec in X as (X & M' & D' & _). destruct (C63_one_date days) as (z & _ & _ & U).
  assert (A : day_number days (y', m', d')) by (apply day_number_spec; auto).
  pose proof (eq_trans (U _ D) (eq_sym (U _ A))) as P. injection P as -> _ _. lia.
Qed.

Lemma figures_dec_n k x : (0 <= x < 10 ^ Z.of_nat (S k))%Z -> figures (S k) (dec_n (S k) x) x.
Proof.
  intros B. destruct (dec_n_spec (S k) x 0 ltac:(lia)) as (V & A & L). pose proof (figures_of k _ A L) as F. unfold dec_val in F. rewrite V in F.
  rewrite Z.mod_small in F by exact B. exact F.
Qed.
Lemma zone_text_says off : (60 | off)%Z -> (- 86400 < off < 86400)%Z -> zone_says (zone_text off) off.
Proof.
  intros (m & E) B. unfold zone_text. destruct (Z.eqb_spec off 0) as [->|N]; [apply zs_utc|]. assert (Q : Z.quot off 60 = m) by (rewrite E; apply Z.quot_mul; lia). rewrite Q. cbv zeta.
  set (a := Z.abs m). assert (A : (0 <= a < 1440)%Z) by lia. pose proof (Z.mod_pos_bound a 60 ltac:(lia)) as M. pose proof (Z.div_mod a 60 ltac:(lia)) as DM.
  assert (H : (0 <= a / 60 < 24)%Z) by (split; [apply Z.div_pos; lia|apply Z.div_lt_upper_bound; lia]).
  assert (F1 : figures 2 (dec_n 2 (a / 60)) (a / 60)) by (apply figures_dec_n; cbn; lia). assert (F2 : figures 2 (dec_n 2 (a mod 60)) (a mod 60)) by (apply figures_dec_n; cbn; lia).
  destruct (Z.ltb_spec m 0).
  - replace off with (- ((a / 60 * 60 + a mod 60) * 60))%Z by lia. apply (zs_behind _ _ _ _ F1 F2); lia.
  - replace off with ((a / 60 * 60 + a mod 60) * 60)%Z by lia. apply (zs_ahead _ _ _ _ F1 F2); lia.
Qed.
Lemma trim_zeros_end s : trim_zeros s = "" \/ exists e c, trim_zeros s = (e ++ String c "")%string /\ c <> "0"%char.
Proof.
  induction s as [|c s IH]; [now left|]. cbn [trim_zeros]. destruct (trim_zeros s) as [|x u] eqn:T.
  - destruct (Ascii.eqb_spec c "0"); [now left|right]. exists "", c. auto.
  - right. destruct IH as [IH|(e & d & E & N)]; [discriminate|]. exists (String c e), d. rewrite E. auto.
Qed.
Lemma last_digit e c : all_c is_dec (e ++ String c "") = true -> c <> "0"%char -> (dec_val (e ++ String c "") mod 10 <> 0)%Z.
Proof.
  rewrite all_c_app. rewrite andb_true_iff. cbn [all_c]. rewrite andb_true_r. intros [A C] N. apply (class_val is_dec 10 e dec_ok 0) in A as [v V].
  assert (exists d, digit_val c = Some d /\ 0 < d < 10)%Z as (d & D & B).
  { clear V. destruct c as [[] [] [] [] [] [] [] []]; try discriminate C; try congruence; eexists; (split; [reflexivity|vm_compute; split; reflexivity]). }
  unfold dec_val. rewrite digits_val_snoc, V, D. rewrite (proj2 (Z.ltb_lt d 10)) by lia. rewrite Z.add_comm, Z.mod_add, Z.mod_small by lia. lia.
Qed.
Lemma nanos_say ns : (0 < ns < 1000000000)%Z -> exists k v, figures k (trim_zeros (dec_n 9 ns)) v /\ k <= 9 /\ (v * 10 ^ (9 - Z.of_nat k) = ns)%Z /\ (v mod 10 <> 0)%Z.
Proof.
  intros B. destruct (figures_dec_n 8 ns ltac:(cbn; lia)) as [L F]. pose proof (figures_dec 9 _ _ (conj L F)) as (_ & A & V & _).
  destruct (trim_zeros_split (dec_n 9 ns)) as (j & E). pose proof (trim_zeros_end (dec_n 9 ns)) as T. set (d := trim_zeros (dec_n 9 ns)) in *.
  assert (AD : all_c is_dec d = true) by (rewrite E, all_c_app in A; apply andb_true_iff in A; tauto).
  rewrite E in V, L. rewrite dec_val_zeros in V by exact AD. rewrite length_app_str, zeros_len in L.
  destruct T as [T|(e & c & T & N)].
  - rewrite T in V. cbn in V. lia.
  - exists (String.length d), (dec_val d). split; [split; [reflexivity|apply numeral_of; [rewrite T; apply snoc_not_empty|exact AD]]|]. split; [lia|]. split.
    + replace (9 - Z.of_nat (String.length d))%Z with (Z.of_nat j) by lia. exact V.
    + rewrite T. apply last_digit; [rewrite <- T; exact AD|exact N].
Qed.
Lemma fraction_nanos frac k ns : fraction_says frac k ns -> (10 ^ (9 - Z.of_nat k) | ns)%Z /\ k <= 9.
Proof. intros [|s k' v L _]; [split; [apply Z.divide_0_r|lia]|]. split; [exists v; lia|exact L]. Qed.
Lemma fewest k v ns j : k <= 9 -> (v * 10 ^ (9 - Z.of_nat k) = ns)%Z -> (v mod 10 <> 0)%Z -> (10 ^ (9 - Z.of_nat j) | ns)%Z -> j <= 9 -> k <= j.
Proof.
  intros K E N D J. destruct (Nat.le_gt_cases k j) as [|G]; [assumption|exfalso]. apply N. apply Z.mod_divide; [lia|].
  destruct D as (q & D). replace (9 - Z.of_nat j)%Z with (Z.succ (Z.of_nat (k - j - 1)) + (9 - Z.of_nat k))%Z in D by lia.
  rewrite Z.pow_add_r, Z.pow_succ_r in D by lia. assert (P : (0 < 10 ^ (9 - Z.of_nat k))%Z) by (apply Z.pow_pos_nonneg; lia).
  exists (q * 10 ^ Z.of_nat (k - j - 1))%Z. apply (Z.mul_reg_r _ _ (10 ^ (9 - Z.of_nat k))); [lia|]. rewrite E, D. ring.
Qed.
Lemma time_text_says t : has_text t -> exists k, time_says (time_text t) k t /\ forall tok j, time_says tok j t -> k <= j.
Proof.
  intros HT. pose proof (has_text_year t HT) as Y. destruct HT as (_ & M & B & NS). unfold time_text, format_time. set (loc := (tm_sec t + tm_off t)%Z) in *.
  destruct (date_of (loc / 86400)) as [[y m] d] eqn:D.
  assert (Ey : y = year_of (loc / 86400)). { unfold date_of in D. destruct (month_of _ _ _). now injection D. }
  rewrite <- Ey in Y. apply date_of_spec in D as (D & Hm & Hd & Hd31).
  set (s := (loc mod 86400)%Z). assert (Hs : (0 <= s < 86400)%Z) by (apply Z.mod_pos_bound; lia).
  assert (L : (loc = 86400 * days_of y m d + s)%Z) by (rewrite D; apply Z.div_mod; lia).
  set (hh := (s / 3600)%Z). set (mi := (s / 60 mod 60)%Z). set (ss := (s mod 60)%Z).
  assert (T : (s = hh * 3600 + mi * 60 + ss /\ 0 <= hh < 24 /\ 0 <= mi < 60 /\ 0 <= ss < 60)%Z).
  { unfold hh, mi, ss. clearbody s. Z.div_mod_to_equations. lia. } clearbody hh mi ss.
  assert (YT : year_text y = dec_n 4 y). { unfold year_text. rewrite (proj2 (Z.ltb_ge y 0)), (proj2 (Z.ltb_ge 9999 y)) by lia. reflexivity. }
  rewrite YT. pose proof (zone_text_says _ M B) as ZS.
  assert (Q : forall frac k, fraction_says frac k (tm_nsec t) -> time_says (dec_n 4 y ++ "-" ++ dec_n 2 m ++ "-" ++ dec_n 2 d ++ "T" ++ dec_n 2 hh ++ ":" ++ dec_n 2 mi ++ ":" ++ dec_n 2 ss ++ frac ++ zone_text (tm_off t)) k t).
  { intros frac k FS. exists (dec_n 4 y), y, (dec_n 2 m), m, (dec_n 2 d), d, (dec_n 2 hh), hh, (dec_n 2 mi), mi, (dec_n 2 ss), ss, frac, (zone_text (tm_off t)), (days_of y m d).
    split; [reflexivity|]. repeat (split; [apply figures_dec_n; cbn; lia|]). split; [lia|]. split; [lia|]. split; [lia|]. split; [apply day_number_spec; auto|]. split; [exact FS|]. split; [exact ZS|]. fold loc. lia. }
  destruct (Z.ltb_spec 0 (tm_nsec t)) as [P|P].
  - rewrite (proj2 (Z.eqb_neq (tm_nsec t) 0)) by lia. cbn [andb negb]. destruct (nanos_say (tm_nsec t) ltac:(lia)) as (k & v & F & K & E & N). exists k. split.
    + apply Q. pose proof (fs_some _ k v K F) as FS. rewrite E in FS. exact FS.
    + intros tok j (? & ? & ? & ? & ? & ? & ? & ? & ? & ? & ? & ? & frac & ? & ? & _ & _ & _ & _ & _ & _ & _ & _ & _ & _ & _ & FS & _).
      apply fraction_nanos in FS as [FS J]. exact (fewest k v _ j K E N FS J).
  - cbn [andb]. exists 0. split; [|intros; lia]. apply Q. replace (tm_nsec t) with 0%Z by lia. apply fs_none.
Qed.

(** C63.  The string of a time cell says the time in it, with as few decimals of a second as it
    can. *)
Theorem C63_written : forall h t c cn r x, wf_table t -> col_at t c cn -> nth_error (ctypes t) (Z.to_nat c) = Some "time.Time" ->
  GetValByColIndex t c r = Ok (VTime x) -> has_text x ->
  exists s k, GetValAsStringByColIndex h t c r = Ok s /\ GetValAsString h t cn r = Ok s /\ time_says s k x /\ forall tok j, time_says tok j x -> k <= j.
Proof.
  intros h t c cn r x W C T G H. destruct (time_text_says x H) as (k & S & M). pose proof (wf_col_not_nil t c W (col_at_range _ _ _ C)) as NN.
  assert (E : GetValAsStringByColIndex h t c r = Ok (time_text x)).
  { unfold GetValAsStringByColIndex. rewrite NN, G. cbn [rbind]. assert (Z : znth (ctypes t) c = Some "time.Time") by (apply znth_some; split; [apply C|exact T]). rewrite Z. reflexivity. }
  exists (time_text x), k. split; [exact E|]. split; [|auto]. destruct (C51_column_strings h t c cn "" W C) as (A & _). now rewrite A.
Qed.

(** The last second of a leap day, a time five hours behind, with nanoseconds; a day that is not
    in the calendar *)
Definition evening : time := mkTime 62135596800 123456780 (- 18000).
Lemma w_leap : time_written "2000-02-29T23:59:59Z" (mkTime 63087465599 0 0).
Proof. apply time_written_spec. exists (mkTF 2000 2 29 23 59 59 0 0 0 false). split; vm_compute; reflexivity. Qed.
Lemma w_evening : time_written "1969-12-31T19:00:00.123456780-05:00" evening.
Proof. apply time_written_spec. exists (mkTF 1969 12 31 19 0 0 123456780 5 0 true). split; vm_compute; reflexivity. Qed.
Lemma no_1900 : time_shaped "1900-02-29T00:00:00Z" /\ forall t, ~ time_written "1900-02-29T00:00:00Z" t.
Proof.
  split; [apply time_shaped_spec; exists (mkTF 1900 2 29 0 0 0 0 0 0 false); vm_compute; reflexivity|]. intros t T. apply time_written_spec in T as (f & F & P). vm_compute in F. injection F as <-. vm_compute in P. discriminate.
Qed.
Lemma evening_has_text : has_text evening.
Proof.
  split; [|split; [exists (-300)%Z; reflexivity|split; vm_compute; split; congruence || reflexivity]].
  exists 719161%Z, 1969%Z, 12%Z, 31%Z, 68400%Z. split; [apply day_number_spec; vm_compute; repeat split; congruence|]. vm_compute. repeat split; congruence.
Qed.
Example C63_nonvacuous : day_number 0 (1, 1, 1)%Z /\ a_date (2000, 2, 29)%Z /\ ~ a_date (1900, 2, 29)%Z
  /\ (exists h' p t, NewTableFromString (column_text "t" "x" "time.Time" ["2000-02-29T23:59:59Z"; "1969-12-31T19:00:00.123456780-05:00"]) [] = (h', Ok (Some p))
        /\ nth_error h' p = Some t /\ wf_table t /\ col_at t 0 "x" /\ ctypes t = ["time.Time"] /\ GetValByColIndex t 0 1 = Ok (VTime evening))
  /\ snd (NewTableFromString (column_text "t" "x" "time.Time" ["2000-02-29T23:59:59Z"; "1900-02-29T00:00:00Z"]) []) = Err
  /\ has_text evening /\ time_text evening = "1969-12-31T19:00:00.12345678-05:00".
Proof.
  split; [apply dn_first|]. split; [exists 29%Z; split; [|lia]; apply ml_29; split; [exists 500%Z; reflexivity|right; exists 5%Z; reflexivity]|].
  split. { intros A. apply a_date_spec in A as (_ & A). vm_compute in A. now apply A. }
  assert (PT : plain_name "t") by pn. assert (PX : plain_name "x") by pn. split.
  { destruct (C63_read "t" "x" ["2000-02-29T23:59:59Z"; "1969-12-31T19:00:00.123456780-05:00"] [mkTime 63087465599 0 0; evening] [] wf_heap_nil PT PX) as (h' & p & t & E & N & W & _ & Cn & Ct & R).
    - apply Forall2_cons; [exact w_leap|]. apply Forall2_cons; [exact w_evening|apply Forall2_nil].
    - exists h', p, t. split; [exact E|]. split; [exact N|]. split; [exact W|]. split; [split; [lia|rewrite Cn; reflexivity]|]. split; [exact Ct|].
      change 0%Z with (Z.of_nat 0). change 1%Z with (Z.of_nat 1). rewrite get_at_nat by exact W. unfold at_cell. rewrite R. reflexivity. }
  split. { apply (C63_refused "t" "x" ["2000-02-29T23:59:59Z"] [mkTime 63087465599 0 0] "1900-02-29T00:00:00Z" [] [] wf_heap_nil PT PX); [|apply no_1900..|apply Forall_nil]. apply Forall2_cons; [exact w_leap|apply Forall2_nil]. }
  split; [exact evening_has_text|vm_compute; reflexivity].
Qed.

(** Axioms used by any theorem of this file. *)
Definition all_Props_Time :=
  (@C63_one_date,
   @C63_one_number,
   @C63_one_time,
   @C63_read,
   @C63_refused,
   @C63_written).
Print Assumptions all_Props_Time.
