(** Proofs_Decimal.v -- a decimal text is read as the float next to it. *)
From Coq Require Import ZArith NArith List String Ascii Bool SpecFloat Lia.
From Verif Require Import Base Model_Lex Model_Float Spec_Text Spec_Round Spec_Decimal Proofs_Lex Proofs_Num Proofs_Float Proofs_Parser Proofs_FloatText Proofs_Closest.
Import ListNotations.
Local Open Scope string_scope.
Local Open Scope Z_scope.

(** ---------- exponents ---------- *)

Lemma dec_digit c d : digit_val c = Some d -> d < 10 -> d = code c - 48 /\ 0 <= d.
Proof.
  unfold digit_val. destruct (between 48 57 c) eqn:E1; [apply between_iff in E1; intros [= <-]; lia|].
  destruct (between 97 122 c) eqn:E2; [apply between_iff in E2; intros [= <-]; lia|].
  destruct (between 65 90 c) eqn:E3; [apply between_iff in E3; intros [= <-]; lia|]. discriminate.
Qed.
Lemma exp_frozen s : forall a, 10000 <= a -> exp_digits a s = a.
Proof. induction s as [|c s IH]; intros a A; cbn [exp_digits]; [reflexivity|]. destruct (Z.ltb_spec a 10000); [lia|]. now apply IH. Qed.
Lemma val_grows s : forall a v, 0 <= a -> digits_val 10 a s = Some v -> a <= v.
Proof.
  induction s as [|c s IH]; intros a v A; cbn [digits_val]; [intros [= ->]; lia|].
  destruct (digit_val c) as [d|] eqn:D; [|discriminate]. destruct (Z.ltb_spec d 10) as [L|]; [|discriminate]. intros E. destruct (dec_digit c d D L) as [_ P].
  apply IH in E; lia.
Qed.
Lemma exp_digits_spec s : forall a v, 0 <= a -> a < 10000 \/ s = "" -> digits_val 10 a s = Some v ->
  (v < 100000 -> exp_digits a s = v) /\ (100000 <= v -> 10000 <= exp_digits a s).
Proof.
  induction s as [|c s IH]; intros a v A H; cbn [digits_val exp_digits]; [intros [= ->]; lia|].
  destruct H as [H|H]; [|discriminate]. destruct (Z.ltb_spec a 10000); [|lia].
  destruct (digit_val c) as [d|] eqn:D; [|discriminate]. destruct (Z.ltb_spec d 10) as [L|]; [|discriminate]. intros E. destruct (dec_digit c d D L) as [DD P].
  rewrite <- DD. destruct (Z.lt_ge_cases (a * 10 + d) 10000) as [G|G].
  - apply IH; auto; lia.
  - rewrite exp_frozen by exact G. destruct s as [|c2 s]; [cbn in E; injection E as <-; lia|]. split; [|intros; exact G].
    intros V. exfalso. cbn [digits_val] in E. destruct (digit_val c2) as [d2|] eqn:D2; [|discriminate]. destruct (Z.ltb_spec d2 10) as [L2|]; [|discriminate].
    destruct (dec_digit c2 d2 D2 L2) as [_ P2]. apply val_grows in E; lia.
Qed.

(** ---------- the parts of the text ---------- *)

Definition capped (y y' : Z) : Prop := (Z.abs y < 100000 -> y' = y) /\ (100000 <= y -> 10000 <= y') /\ (y <= - 100000 -> y' <= - 10000).
Lemma exp_capped a y : numeral 10 a y -> capped y (exp_digits 0 a) /\ capped (- y) (- exp_digits 0 a).
Proof.
  intros N. pose proof (numeral_nonneg 10 a y ltac:(lia) N) as P. destruct (numeral_val 10 a y ltac:(lia) N) as [V NE].
  destruct (exp_digits_spec a 0 y ltac:(lia) ltac:(left; lia) V) as [A B]. unfold capped. split; (split; [|split]); lia.
Qed.

Lemma power_starts e y : power e y -> starts is_dec e = false /\ starts (Ascii.eqb ".") e = false.
Proof. intros P. destruct P as [|e s a x EE SS N|e a x EE N]; [split; reflexivity| |]; destruct EE as [-> | ->]; split; reflexivity. Qed.
Lemma digits_span a : all_c is_dec a = true -> span is_dec a = (a, "").
Proof. intros A. rewrite <- (app_str_nil_r a) at 1. now apply span_app. Qed.
Lemma take_sign_dec c a : is_dec c = true -> take_sign (String c a) = (false, String c a).
Proof. intros D. destruct (dec_not_sign c D) as (N1 & N2 & _). cbn [take_sign]. now rewrite N1, N2. Qed.

Lemma decimal_text_power r a b m k e y :
  span is_dec (m ++ e) = (a, r) -> match r with String c r' => if Ascii.eqb c "." then span is_dec r' else ("", r) | EmptyString => ("", r) end = (b, e) ->
  (a ++ b =? "")%string = false -> Z.of_nat (String.length b) = k -> power e y ->
  exists y', decimal_text (m ++ e) = Some (dec_val (a ++ b), y' - k) /\ capped y y'.
Proof.
  intros S1 S2 NE KK P. unfold decimal_text. rewrite S1, S2, NE, KK.
  inversion P as [|e0 s t x EE SS N|e0 t x EE N]; subst.
  - exists 0. split; [reflexivity|]. unfold capped. lia.
  - destruct (exp_capped t y N) as [C _]. destruct (numeral_dec t y N) as (_ & A & NT). destruct t as [|c t]; [congruence|].
    pose proof A as A'. cbn in A'. apply andb_true_iff in A' as [D _].
    exists (exp_digits 0 (String c t)). split; [|exact C].
    assert (T : take_sign (s ++ String c t) = (false, String c t)) by (destruct SS as [-> | ->]; cbn [append]; [now apply take_sign_dec|reflexivity]).
    destruct EE as [-> | ->]; cbn [append]; (change (one_of "eE" "e") with true || change (one_of "eE" "E") with true); cbn match; rewrite T, (digits_span _ A); reflexivity.
  - destruct (exp_capped t x N) as [_ C]. destruct (numeral_dec t x N) as (_ & A & NT). destruct t as [|c t]; [congruence|].
    exists (- exp_digits 0 (String c t)). split; [|exact C].
    destruct EE as [-> | ->]; cbn [append]; (change (one_of "eE" "e") with true || change (one_of "eE" "E") with true); cbn match; cbn [take_sign]; change (Ascii.eqb "-" "-") with true; cbn match; rewrite (digits_span _ A); reflexivity.
Qed.
Lemma decimal_text_of m x k e y : magnitude m x k -> power e y -> exists y', decimal_text (m ++ e) = Some (x, y' - k) /\ capped y y'.
Proof.
  intros M P. destruct (power_starts e y P) as [P1 P2]. inversion M as [a x' N|a b x' N]; subst.
  - destruct (numeral_dec m x N) as (V & A & NE). replace x with (dec_val (m ++ "")) by (rewrite app_str_nil_r; exact V).
    apply (decimal_text_power e m ""); auto.
    + now apply span_app.
    + destruct e as [|c e]; [reflexivity|]. unfold starts in P2. rewrite Ascii.eqb_sym, P2. reflexivity.
    + rewrite app_str_nil_r. destruct m; [congruence|reflexivity].
  - destruct (numeral_dec _ x N) as (V & A & NE). rewrite all_c_app in A. apply andb_true_iff in A as [A B]. rewrite <- V.
    apply (decimal_text_power ("." ++ b ++ e) a b); auto.
    + rewrite app_str_assoc. cbn [append]. apply span_app; [exact A|reflexivity].
    + cbn [append]. change (Ascii.eqb "." ".") with true. cbn match. now apply span_app.
    + destruct (a ++ b)%string; [congruence|reflexivity].
Qed.
Lemma magnitude_first m x k : magnitude m x k -> exists c r, m = String c r /\ (is_dec c = true \/ c = "."%char).
Proof.
  intros M. inversion M as [a x' N|a b x' N]; subst; destruct (numeral_dec _ x N) as (_ & A & NE).
  - destruct m as [|c m]; [congruence|]. cbn in A. apply andb_true_iff in A as [A _]. eauto.
  - destruct a as [|c a]; [cbn; eauto|]. cbn in A. apply andb_true_iff in A as [A _]. cbn. eauto.
Qed.

Lemma first_not_word c r w : is_dec c = true \/ c = "."%char -> (w = "nan" \/ w = "inf" \/ w = "infinity") -> (lower (String c r) =? w)%string = false.
Proof.
  intros [D| ->] W.
  - apply lower_dec; [exact D|]. destruct W as [-> |[-> | ->]]; reflexivity.
  - destruct W as [-> |[-> | ->]]; reflexivity.
Qed.
Theorem ParseFloat_decimal F tok neg x k y : decimal_of tok neg x k y -> exists y', ParseFloat F tok = nearest_dec F neg x (y' - k) /\ capped y y'.
Proof.
  intros (s & m & e & -> & S & M & P). destruct (decimal_text_of m x k e y M P) as (y' & T & C). exists y'. split; [|exact C].
  destruct (magnitude_first m x k M) as (c & r & -> & D). cbn [append] in T.
  assert (TS : take_sign (String c (r ++ e)) = (false, String c (r ++ e))).
  { destruct D as [D| ->]; [now apply take_sign_dec|reflexivity]. }
  assert (W : (lower (String c (r ++ e)) =? "inf")%string || (lower (String c (r ++ e)) =? "infinity")%string = false) by (rewrite !first_not_word; auto).
  unfold ParseFloat. destruct S as [[-> ->]|[[-> | ->] ->]]; cbn [append].
  - change (lower (String "-" (String c (r ++ e))) =? "nan")%string with false. cbn match. cbn [take_sign]. change (Ascii.eqb "-" "-") with true. cbn match. now rewrite W, T.
  - rewrite first_not_word by auto. rewrite TS, W, T. reflexivity.
  - change (lower (String "+" (String c (r ++ e))) =? "nan")%string with false. cbn match. cbn [take_sign]. change (Ascii.eqb "+" "-") with false. change (Ascii.eqb "+" "+") with true. cbn match. now rewrite W, T.
Qed.

(** ---------- rounding ---------- *)

Lemma decimal_bounds tok neg x k y : decimal_of tok neg x k y -> 0 <= x < 10 ^ Z.of_nat (String.length tok) /\ 0 <= k <= Z.of_nat (String.length tok).
Proof.
  intros (s & m & e & -> & S & M & P).
  assert (B : forall t v, numeral 10 t v -> 0 <= v < 10 ^ Z.of_nat (String.length t)).
  { intros t v N. split; [apply (numeral_nonneg 10 t v ltac:(lia) N)|]. induction N as [c d D|t v c d N IH D].
    - cbn. inversion D; subst; lia.
    - rewrite length_app_str. cbn [String.length]. replace (Z.of_nat (String.length t + 1)) with (Z.succ (Z.of_nat (String.length t))) by lia. rewrite Z.pow_succ_r by lia. 
      assert (d < 10) by (inversion D; subst; lia). lia. }
  rewrite !length_app_str. inversion M as [a x' N|a b x' N]; subst; pose proof (B _ _ N) as BB.
  - split; [|lia]. split; [lia|]. eapply Z.lt_le_trans; [apply BB|]. apply Z.pow_le_mono_r; lia.
  - rewrite !length_app_str in *. cbn [String.length]. split; [|lia]. split; [lia|]. eapply Z.lt_le_trans; [apply BB|]. apply Z.pow_le_mono_r; lia.
Qed.
Lemma nearest_dec_ten F neg x j n d : fmt_ok F -> 0 <= x -> ten_times x j n d -> nearest_dec F neg x j = nearest F neg n d /\ 0 <= n.
Proof.
  intros Fo X (D & E). assert (P1 : 0 < 10 ^ Z.max 0 j) by (apply Z.pow_pos_nonneg; lia). assert (P2 : 0 < 10 ^ Z.max 0 (- j)) by (apply Z.pow_pos_nonneg; lia).
  assert (N : 0 <= n) by nia. split; [|exact N]. unfold nearest_dec. destruct (Z.leb_spec 0 j).
  - rewrite (Z.max_l 0 (- j)), (Z.max_r 0 j) in * by lia. change (10 ^ 0) with 1 in E. apply nearest_eq; auto; nia.
  - rewrite (Z.max_r 0 (- j)), (Z.max_l 0 j) in * by lia. change (10 ^ 0) with 1 in E. apply nearest_eq; auto; lia.
Qed.

(** Less than half of the smallest float *)
Lemma nearest_tiny F neg n d : fmt_ok F -> 0 <= n -> 0 < d -> 2 * n * 2 ^ (- f_emin F) < d -> nearest F neg n d = Some (S754_zero neg).
Proof.
  intros Fo N D L. apply nearest_rounds; auto. split; [reflexivity|]. split; [reflexivity|]. split; [|split].
  - unfold too_big. intros H. assert (1 <= (2 ^ (f_prec F + 1) - 1) * 2 ^ (f_emax F - f_prec F - 1)) by (destruct Fo as [-> | ->]; vm_compute; discriminate).
    assert (0 < 2 ^ (- f_emin F)) by (apply pow2_pos; destruct Fo as [-> | ->]; vm_compute; discriminate). nia.
  - apply closest_steps; auto. split; [reflexivity|]. intros g _ _. cbn [steps]. unfold unit_. generalize (steps F g) as w. intros w.
    assert (UP : 0 < 2 ^ (- f_emin F)) by (apply pow2_pos; destruct Fo as [-> | ->]; vm_compute; discriminate).
    revert L UP. generalize (2 ^ (- f_emin F)) as u. intros u L UP. destruct (Z.eq_dec w 0) as [->|W]; [lia|].
    assert (W1 : 1 <= Z.abs w) by lia. assert (NU : 0 <= n * u) by (apply Z.mul_nonneg_nonneg; lia). assert (d <= Z.abs (w * d)) by (rewrite Z.abs_mul, (Z.abs_eq d) by lia; nia). destruct neg; lia.
  - intros _. exact I.
Qed.
Lemma nearest_huge F neg x j : fmt_ok F -> 0 < x -> 400 <= j -> nearest_dec F neg x j = None.
Proof.
  intros Fo X J. unfold nearest_dec. destruct (Z.leb_spec 0 j); [|lia]. apply nearest_none; auto; [|reflexivity|].
  - apply Z.mul_nonneg_nonneg; [lia|]. apply Z.pow_nonneg. lia.
  - unfold too_big. assert (A : (2 ^ (f_prec F + 1) - 1) * 2 ^ (f_emax F - f_prec F - 1) <= 10 ^ 400) by (destruct Fo as [-> | ->]; vm_compute; discriminate).
    pose proof (Z.pow_le_mono_r 10 400 j ltac:(lia) J) as B. rewrite !Z.mul_1_r. eapply Z.le_trans; [exact A|]. eapply Z.le_trans; [exact B|].
    assert (0 <= 10 ^ j) by (apply Z.pow_nonneg; lia). revert X H0. generalize (10 ^ j) as t. clear. intros t X T. nia.
Qed.
Lemma nearest_dec_zero F neg j : nearest_dec F neg 0 j = Some (S754_zero neg).
Proof. unfold nearest_dec. destruct (0 <=? j); reflexivity. Qed.
Lemma nearest_small F neg x j L : fmt_ok F -> 0 <= x < 10 ^ L -> 0 <= L -> j + L <= - 400 -> nearest_dec F neg x j = Some (S754_zero neg).
Proof.
  intros Fo X LP J. unfold nearest_dec. destruct (Z.leb_spec 0 j); [lia|]. apply nearest_tiny; [exact Fo|lia|apply Z.pow_pos_nonneg; lia|].
  assert (A : 2 * 2 ^ (- f_emin F) <= 10 ^ 400) by (destruct Fo as [-> | ->]; vm_compute; discriminate).
  pose proof (Z.pow_le_mono_r 10 (400 + L) (- j) ltac:(lia) ltac:(lia)) as B. rewrite Z.pow_add_r in B by lia.
  assert (0 < 2 ^ (- f_emin F)) by (apply pow2_pos; destruct Fo as [-> | ->]; vm_compute; discriminate).
  eapply Z.lt_le_trans; [|exact B].
  assert (P : 0 < 10 ^ L) by (apply Z.pow_pos_nonneg; lia). revert A H0 P X. generalize (10 ^ 400) as t, (2 ^ (- f_emin F)) as u, (10 ^ L) as w. clear. intros t u w A U P X. nia.
Qed.

Theorem ParseFloat_number_text F tok neg n d : fmt_ok F -> number_text tok neg n d -> ParseFloat F tok = nearest F neg n d /\ 0 <= n /\ 0 < d.
Proof.
  intros Fo (x & k & y & DO & TT & US). pose proof (decimal_bounds tok neg x k y DO) as (XB & KB).
  destruct (nearest_dec_ten F neg x (y - k) n d Fo ltac:(lia) TT) as [E N]. split; [|split; [exact N|apply TT]].
  destruct (ParseFloat_decimal F tok neg x k y DO) as (y' & -> & C1 & C2 & C3). rewrite <- E.
  destruct (Z.lt_ge_cases (Z.abs y) 100000) as [G|G]; [now rewrite C1|]. destruct US as [US|US]; [lia|].
  destruct (Z.eq_dec x 0) as [->|NZ]; [now rewrite !nearest_dec_zero|].
  destruct (Z.le_gt_cases 0 y).
  - specialize (C2 ltac:(lia)). rewrite !nearest_huge; auto; lia.
  - specialize (C3 ltac:(lia)). set (L := Z.of_nat (String.length tok)) in *. rewrite !(nearest_small F neg x _ L); auto; lia.
Qed.

(** ---------- what the parser takes for a number ---------- *)

Lemma digits_numeral a : a <> "" -> all_c is_dec a = true -> exists x, numeral 10 a x.
Proof. intros N A. exact (class_numeral is_dec 10 a dec_ok ltac:(lia) A N). Qed.
Lemma scan_mantissa_of s m r : scan_mantissa s = Some (m, r) -> exists x k, magnitude m x k.
Proof.
  unfold scan_mantissa. destruct (span is_dec s) as [a t] eqn:S. apply span_inv in S as (-> & A & _). destruct a as [|c a].
  - destruct t as [|q t]; [discriminate|]. destruct (Ascii.eqb_spec q "."); [|discriminate]. subst q. intros H. apply some_digits_inv in H as (d & -> & -> & N & D & _).
    destruct (digits_numeral d N D) as (x & X). exists x, (Z.of_nat (String.length d)). apply (mag_point "" d x X).
  - destruct t as [|q t].
    + intros [= <- <-]. destruct (digits_numeral (String c a) ltac:(discriminate) A) as (x & X). exists x, 0. now apply mag_int.
    + destruct (Ascii.eqb_spec q ".").
      * subst q. destruct (span is_dec t) as [f u] eqn:S. apply span_inv in S as (-> & B & _). intros [= <- <-].
        destruct (digits_numeral (String c a ++ f) ltac:(discriminate)) as (x & X); [now rewrite all_c_app, A, B|]. exists x, (Z.of_nat (String.length f)). exact (mag_point (String c a) f x X).
      * intros [= <- <-]. destruct (digits_numeral (String c a) ltac:(discriminate) A) as (x & X). exists x, 0. now apply mag_int.
Qed.
Lemma one_of_two a b c : one_of (String a (String b "")) c = true -> c = a \/ c = b.
Proof. unfold one_of. cbn [list_ascii_of_string existsb]. rewrite orb_false_r, orb_true_iff, !Ascii.eqb_eq. intros [H|H]; auto. Qed.
Lemma scan_exponent_of s e r : scan_exponent s = (e, r) -> exists y, power e y.
Proof.
  assert (NO : exists y, power "" y) by (exists 0; constructor).
  unfold scan_exponent. destruct s as [|c s]; [now intros [= <- <-]|]. destruct (one_of "eE" c) eqn:O; [|now intros [= <- <-]].
  destruct (scan_dec "+-" s) as [[d t]|] eqn:S; [|now intros [= <- <-]]. intros [= <- <-].
  assert (EE : String c "" = "e" \/ String c "" = "E") by (apply one_of_two in O as [-> | ->]; auto).
  unfold scan_dec in S. destruct s as [|g s]; [discriminate|]. destruct (one_of "+-" g) eqn:G.
  - apply some_digits_inv in S as (x & -> & _ & N & A & _). destruct (digits_numeral x N A) as (y & Y).
    apply one_of_two in G as [-> | ->].
    + exists y. exact (pow_plus (String c "") "+" x y EE (or_intror eq_refl) Y).
    + exists (- y). exact (pow_minus (String c "") x y EE Y).
  - apply some_digits_inv in S as (x & -> & _ & N & A & _). destruct (digits_numeral x N A) as (y & Y).
    exists y. exact (pow_plus (String c "") "" x y EE (or_introl eq_refl) Y).
Qed.
Lemma scan_decimal_of s tok r : scan_decimal s = Some (tok, r) -> exists neg x k y, decimal_of tok neg x k y.
Proof.
  unfold scan_decimal. destruct (match s with String c r => _ | _ => _ end) as [sg t] eqn:S.
  destruct (scan_mantissa t) as [[m u]|] eqn:M; [|discriminate]. destruct (scan_exponent u) as [e v] eqn:E. intros [= <- <-].
  apply scan_mantissa_of in M as (x & k & M). apply scan_exponent_of in E as (y & E).
  assert (SG : sg = "-" \/ sg = "" \/ sg = "+").
  { destruct s as [|c s]; [injection S as <- _; auto|]. destruct (one_of "-+" c) eqn:O; injection S as <- _; [|auto]. apply one_of_two in O as [-> | ->]; auto. }
  destruct SG as [SG|SG]; [exists true|exists false]; exists x, k, y, sg, m, e; auto 6.
Qed.
Lemma ten_times_some x j : ten_times x j (x * 10 ^ Z.max 0 j) (10 ^ Z.max 0 (- j)).
Proof. split; [apply Z.pow_pos_nonneg; lia|reflexivity]. Qed.
Lemma decimal_float_text F tok neg x k y f : fmt_ok F -> decimal_of tok neg x k y -> ParseFloat F tok = Some f -> float_text (f_prec F) (f_emax F) tok f.
Proof.
  intros Fo D P. right. exists neg, x, k, y, (x * 10 ^ Z.max 0 (y - k)), (10 ^ Z.max 0 (- (y - k))). split; [exact D|]. split; [apply ten_times_some|]. intros US.
  destruct (ParseFloat_number_text F tok neg (x * 10 ^ Z.max 0 (y - k)) (10 ^ Z.max 0 (- (y - k))) Fo) as (E & N & DP); [exists x, k, y; auto using ten_times_some|].
  apply nearest_rounds; auto. congruence.
Qed.
