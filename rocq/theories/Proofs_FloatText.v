(** Proofs_FloatText.v -- the texts of floats are read back. *)
From Coq Require Import ZArith NArith List String Ascii Bool SpecFloat Lia.
From Verif Require Import Base Model_Lex Model_Float Model_Parser Model_Print Spec_Text Proofs_Lex Proofs_Num Proofs_Float Proofs_Parser.
Import ListNotations.
Local Open Scope string_scope.
Local Open Scope Z_scope.

(** ---------- digits ---------- *)

Lemma digit_chr d : 0 <= d < 10 -> is_dec (chr (48 + d)) = true /\ digit_val (chr (48 + d)) = Some d.
Proof.
  intros H. unfold is_dec, digit_val. rewrite between_chr by lia.
  rewrite (proj2 (Z.leb_le _ _)), (proj2 (Z.leb_le _ _)) by lia. cbn [andb]. rewrite code_chr by lia. split; [reflexivity|f_equal; lia].
Qed.
Lemma dec_n_spec n : forall z acc, 0 <= z ->
  digits_val 10 acc (dec_n n z) = Some (acc * 10 ^ Z.of_nat n + z mod 10 ^ Z.of_nat n) /\ all_c is_dec (dec_n n z) = true
  /\ String.length (dec_n n z) = n.
Proof.
  induction n as [|n IH]; intros z acc Hz.
  - cbn. rewrite Z.mod_1_r. repeat split; f_equal; lia.
  - cbn [dec_n digits_val all_c String.length]. pose proof (pow10_pos (Z.of_nat n) ltac:(lia)) as K.
    set (d := z / 10 ^ Z.of_nat n mod 10). assert (D : 0 <= d < 10) by (apply Z.mod_pos_bound; lia).
    destruct (digit_chr d D) as [-> ->]. rewrite (proj2 (Z.ltb_lt _ _)) by lia. destruct (IH z (acc * 10 + d) Hz) as (-> & -> & ->).
    repeat split; cbn [andb]. f_equal.
    rewrite Nat2Z.inj_succ, Z.pow_succ_r by lia. rewrite (Z.mul_comm 10). rewrite Z.rem_mul_r by lia. fold d. lia.
Qed.
Lemma numeral_dec s v : numeral 10 s v -> dec_val s = v /\ all_c is_dec s = true /\ s <> "".
Proof.
  intros N. destruct (numeral_val 10 s v ltac:(lia) N) as [V _]. destruct (numeral_class is_dec 10 s v dec_ok ltac:(lia) N) as [A B].
  unfold dec_val. now rewrite V.
Qed.
Lemma dec_of_nonneg_dec n : 0 <= n -> digits_val 10 0 (dec_of_nonneg n) = Some n /\ all_c is_dec (dec_of_nonneg n) = true /\ dec_of_nonneg n <> "".
Proof.
  intros H. destruct (dec_of_nonneg_spec n H) as [N _]. destruct (numeral_val 10 _ n ltac:(lia) N) as [V _].
  now destruct (numeral_dec _ _ N) as (_ & A & B).
Qed.

(** ---------- numbers with a point ---------- *)

(** What follows a cell: nothing, or a space *)
Definition stops (s : string) : Prop := match s with EmptyString => True | String c _ => c = " "%char end.
Lemma stops_not f rest : f " "%char = false -> stops rest -> starts f rest = false.
Proof. intros F. destruct rest; cbn; [reflexivity|]. now intros ->. Qed.
Lemma stops_separated rest : stops rest -> separated rest.
Proof. intros S. apply separated_word. destruct rest; [reflexivity|]. cbn in S. now rewrite S. Qed.

Definition frac_text (p : bool) (b : string) : string := if p then String "." b else "".
Definition number (neg : bool) (a : string) (p : bool) (b : string) : string := sign_text neg (a ++ frac_text p b).
Definition is_number (a : string) (p : bool) (b : string) : Prop :=
  all_c is_dec a = true /\ a <> "" /\ all_c is_dec b = true /\ (p = false -> b = "").

Lemma point_not_dec : is_dec "." = false. Proof. reflexivity. Qed.
Lemma starts_frac p b rest : stops rest -> starts is_dec (frac_text p b ++ rest) = false.
Proof. intros S. destruct p; cbn; [reflexivity|]. now apply stops_not. Qed.

Lemma decimal_number a p b : is_number a p b -> decimal_text (a ++ frac_text p b) = Some (dec_val (a ++ b), - Z.of_nat (String.length b)).
Proof.
  intros (A & Na & B & Pb). unfold decimal_text.
  rewrite span_app; [|exact A|rewrite <- (app_str_nil_r (frac_text p b)); now apply starts_frac].
  assert (E : (a ++ b =? "")%string = false) by (destruct a; [congruence|reflexivity]).
  destruct p; cbn [frac_text].
  - change (Ascii.eqb "." ".") with true. cbn match. rewrite <- (app_str_nil_r b) at 1. rewrite span_app by (auto; reflexivity). now rewrite E.
  - rewrite (Pb eq_refl) in *. rewrite E. reflexivity.
Qed.

Lemma dec_code c : is_dec c = true -> 48 <= code c <= 57.
Proof. intros H. now apply between_iff. Qed.
Lemma dec_not_sign c : is_dec c = true -> Ascii.eqb c "-" = false /\ Ascii.eqb c "+" = false /\ one_of "-+" c = false.
Proof.
  intros H. apply dec_code in H. unfold one_of. cbn [list_ascii_of_string existsb]. rewrite !eqb_code.
  change (code "-") with 45. change (code "+") with 43. zb. auto.
Qed.
Lemma lower_dec c r w : is_dec c = true -> starts is_dec w = false -> (lower (String c r) =? w)%string = false.
Proof.
  intros D W. apply dec_code in D as D'. cbn [lower]. unfold lower_char, Model_Lex.between. zb. destruct w as [|d w]; [reflexivity|].
  cbn in W. cbn [String.eqb]. destruct (Ascii.eqb_spec c d); [congruence|reflexivity].
Qed.
Lemma ParseFloat_signed F neg c r : is_dec c = true ->
  ParseFloat F (sign_text neg (String c r)) = match decimal_text (String c r) with Some (m, j) => nearest_dec F neg m j | None => None end.
Proof.
  intros D. destruct (dec_not_sign c D) as (N1 & N2 & _). unfold ParseFloat. destruct neg; cbn [sign_text].
  - change (lower (String "-" (String c r)) =? "nan")%string with false. cbn match. cbn [take_sign].
    change (Ascii.eqb "-" "-") with true. cbn match. rewrite !lower_dec by (auto; reflexivity). reflexivity.
  - rewrite lower_dec by (auto; reflexivity). cbn [take_sign]. rewrite N1, N2. rewrite !lower_dec by (auto; reflexivity). reflexivity.
Qed.
Lemma ParseFloat_number F neg a p b : is_number a p b ->
  ParseFloat F (number neg a p b) = nearest_dec F neg (dec_val (a ++ b)) (- Z.of_nat (String.length b)).
Proof.
  intros N. pose proof (decimal_number a p b N) as D. destruct N as (A & Na & _). destruct a as [|c a]; [congruence|].
  cbn in A. apply andb_true_iff in A as [C _]. unfold number. cbn [append] in *. rewrite ParseFloat_signed by exact C. now rewrite D.
Qed.

Lemma scan_number neg a p b rest : is_number a p b -> stops rest ->
  scan_float (number neg a p b ++ rest) = Some (number neg a p b, rest).
Proof.
  intros (A & Na & B & Pb) S. unfold scan_float.
  assert (M : scan_mantissa ((a ++ frac_text p b) ++ rest) = Some (a ++ frac_text p b, rest)).
  { rewrite app_str_assoc. unfold scan_mantissa. rewrite span_app; [|exact A|now apply starts_frac].
    destruct a as [|c a]; [congruence|]. destruct p; cbn [frac_text append].
    - change (Ascii.eqb "." ".") with true. cbn match. rewrite span_app; [|exact B|now apply stops_not]. reflexivity.
    - rewrite app_str_nil_r. destruct rest as [|d rest]; [reflexivity|]. cbn in S. subst d. reflexivity. }
  assert (E : scan_exponent rest = ("", rest)).
  { unfold scan_exponent. destruct rest as [|d rest]; [reflexivity|]. cbn in S. subst d. reflexivity. }
  unfold number, scan_decimal. destruct a as [|c a]; [congruence|]. cbn in A. apply andb_true_iff in A as [C _].
  destruct (dec_not_sign c C) as (_ & _ & O). destruct neg; cbn [sign_text append] in *.
  - change (one_of "-+" "-") with true. cbn match. rewrite M, E. cbn [append]. rewrite app_str_nil_r. reflexivity.
  - rewrite O. rewrite M, E. cbn [append]. rewrite app_str_nil_r. reflexivity.
Qed.
Lemma number_not_nan neg a p b : is_number a p b -> (number neg a p b =? "NaN")%string = false.
Proof.
  intros (A & Na & _). destruct a as [|c a]; [congruence|]. cbn in A. apply andb_true_iff in A as [C _]. apply dec_code in C.
  destruct neg; [reflexivity|]. unfold number. cbn [sign_text append String.eqb]. rewrite eqb_code. change (code "N") with 78. now zb.
Qed.
Lemma get_float_number F neg a p b f rest : fmt_ok F -> is_number a p b -> stops rest ->
  nearest_dec F neg (dec_val (a ++ b)) (- Z.of_nat (String.length b)) = Some f -> f <> S754_nan ->
  get_float F (number neg a p b ++ rest) = Ok (f, rest).
Proof.
  intros Fo N S R Nan. unfold get_float. rewrite scan_number by auto. cbn [of_opt rbind]. rewrite ParseFloat_number, R by exact N.
  cbn [of_opt rbind]. destruct f; try reflexivity. congruence.
Qed.

(** ---------- print_scaled ---------- *)

Definition int_part (x p : Z) : string := if Z.leb p 0 then dec_of_nonneg x else dec_of_nonneg (x / 10 ^ p)%Z.
Definition frac_part (x p : Z) : string := dec_n (Z.to_nat p) (x mod 10 ^ p).
Lemma print_scaled_number x p : 0 <= x -> 0 <= p ->
  print_scaled x p = (int_part x p ++ frac_text (Z.ltb 0 p) (frac_part x p))%string
  /\ is_number (int_part x p) (0 <? p) (frac_part x p)
  /\ dec_val (int_part x p ++ frac_part x p) = x /\ Z.of_nat (String.length (frac_part x p)) = p.
Proof.
  intros Hx Hp. unfold print_scaled, int_part, frac_part. pose proof (pow10_pos p Hp) as K. destruct (Z.leb_spec p 0) as [L|L].
  - assert (p = 0) by lia. subst p. cbn [Z.ltb Z.compare Z.to_nat dec_n frac_text]. destruct (dec_of_nonneg_dec x Hx) as (V & A & N).
    rewrite app_str_nil_r. unfold dec_val. rewrite V. repeat split; auto.
  - rewrite (proj2 (Z.ltb_lt 0 p)) by lia. cbn [frac_text].
    assert (Hq : 0 <= x / 10 ^ p) by (apply Z.div_pos; lia). destruct (dec_of_nonneg_dec (x / 10 ^ p) Hq) as (V & A & N).
    assert (Hm : 0 <= x mod 10 ^ p) by (apply Z.mod_pos_bound; lia).
    destruct (dec_n_spec (Z.to_nat p) (x mod 10 ^ p) (x / 10 ^ p) Hm) as (V2 & A2 & L2). rewrite Z2Nat.id in V2 by lia.
    repeat split; auto; try discriminate.
    + unfold dec_val. rewrite digits_val_app, V, V2. rewrite Z.mod_mod by lia. pose proof (Z.div_mod x (10 ^ p) ltac:(lia)). lia.
    + rewrite L2. lia.
Qed.

(** ---------- the text FormatFloat(f, 'f', -1) ---------- *)

Definition no_inf (f : spec_float) : Prop := match f with S754_infinity _ => False | _ => True end.
(** The number of decimals of the shortest text *)
Definition short_places (F : ffmt) (f : spec_float) : Z :=
  match f with S754_finite _ m e => Z.max 0 (- snd (shortest F m e)) | _ => 0 end.

Lemma zero_dec F neg j : nearest_dec F neg 0 j = Some (S754_zero neg).
Proof. unfold nearest_dec. destruct (0 <=? j); [rewrite Z.mul_0_l|]; reflexivity. Qed.
Lemma nearest_dec_sign F neg x j m e : nearest_dec F false x j = Some (S754_finite false m e) -> nearest_dec F neg x j = Some (S754_finite neg m e).
Proof. unfold nearest_dec. destruct (0 <=? j); intros E; now apply nearest_sign. Qed.

(** Every float that is neither infinite nor a NaN is printed as a number that is read as it. *)
Lemma format_short_number F f : fmt_ok F -> valid_binary (f_prec F) (f_emax F) f = true -> no_inf f -> f <> S754_nan ->
  exists neg a p b, format_short F f = number neg a p b /\ is_number a p b
    /\ nearest_dec F neg (dec_val (a ++ b)) (- Z.of_nat (String.length b)) = Some f
    /\ Z.of_nat (String.length b) = short_places F f.
Proof.
  intros Fo V NI NN. destruct f as [neg|neg| |neg m e]; try contradiction.
  - exists neg, "0", false, "". split; [reflexivity|]. split; [repeat split; auto; discriminate|]. split; [apply zero_dec|reflexivity].
  - apply (canon_valid F) in V; [|exact Fo]. cbn [format_short short_places]. destruct (shortest F m e) as [x j] eqn:S. cbn [snd].
    destruct (shortest_reads F m e x j Fo V S) as [Hx R]. unfold print_dec. destruct (Z.leb_spec 0 j) as [J|J].
    + pose proof (pow10_pos j J). assert (Hy : 0 <= x * 10 ^ j) by nia.
      destruct (print_scaled_number (x * 10 ^ j) 0 Hy ltac:(lia)) as (E & N & D & L).
      exists neg, (int_part (x * 10 ^ j) 0), false, (frac_part (x * 10 ^ j) 0). cbn [print_scaled Z.leb Z.compare] in E.
      change (0 <? 0) with false in *. unfold number. rewrite <- E. split; [reflexivity|]. split; [exact N|]. rewrite D, L. split; [|lia].
      apply nearest_dec_sign. unfold nearest_dec in R. rewrite (proj2 (Z.leb_le 0 j)) in R by lia. unfold nearest_dec.
      cbn [Z.opp Z.leb Z.compare]. rewrite Z.pow_0_r, Z.mul_1_r. exact R.
    + destruct (print_scaled_number x (- j) ltac:(lia) ltac:(lia)) as (E & N & D & L).
      exists neg, (int_part x (- j)), (0 <? - j), (frac_part x (- j)). unfold number. rewrite <- E. split; [reflexivity|]. split; [exact N|].
      rewrite D, L. split; [|lia]. rewrite Z.opp_involutive. now apply nearest_dec_sign.
Qed.
Theorem get_float_short F f rest : fmt_ok F -> valid_binary (f_prec F) (f_emax F) f = true -> no_inf f -> stops rest ->
  get_float F (format_short F f ++ rest) = Ok (f, rest).
Proof.
  intros Fo V NI S. assert (NN : f = S754_nan \/ f <> S754_nan) by (destruct f; auto; right; discriminate). destruct NN as [->|NN].
  - reflexivity.
  - destruct (format_short_number F f Fo V NI NN) as (neg & a & p & b & -> & N & R & _). now apply get_float_number.
Qed.
Theorem ParseFloat_short F f : fmt_ok F -> valid_binary (f_prec F) (f_emax F) f = true -> no_inf f -> ParseFloat F (format_short F f) = Some f.
Proof.
  intros Fo V NI. assert (NN : f = S754_nan \/ f <> S754_nan) by (destruct f; auto; right; discriminate). destruct NN as [->|NN].
  - reflexivity.
  - destruct (format_short_number F f Fo V NI NN) as (neg & a & p & b & -> & N & R & _). now rewrite ParseFloat_number.
Qed.

(** ---------- padTrailingZeros ---------- *)

Fixpoint zeros (n : nat) : string := match n with O => "" | S k => String "0" (zeros k) end.
Lemma zeros_snoc n : zeros (S n) = (zeros n ++ "0")%string.
Proof. induction n; [reflexivity|]. cbn [zeros append]. now f_equal. Qed.
Lemma spaces_snoc n : spaces (S n) = (spaces n ++ " ")%string.
Proof. induction n; [reflexivity|]. cbn [spaces append]. now f_equal. Qed.
Lemma zeros_len n : String.length (zeros n) = n.
Proof. induction n; cbn; congruence. Qed.
Lemma zeros_dec n : all_c is_dec (zeros n) = true.
Proof. induction n; cbn; [reflexivity|]. exact IHn. Qed.

Lemma pad_zeros_snoc s c d : srev (pad_zeros_rev (srev ((s ++ String c "") ++ String d ""))) =
  if Ascii.eqb c "." || negb (Ascii.eqb d "0") then ((s ++ String c "") ++ String d "")%string
  else (srev (pad_zeros_rev (srev (s ++ String c ""))) ++ " ")%string.
Proof.
  assert (E : forall s c, srev (s ++ String c "") = String c (srev s)) by (intros; rewrite srev_app_str; reflexivity).
  rewrite (E (s ++ String c "")%string d), E. cbn [pad_zeros_rev]. destruct (_ || _).
  - rewrite <- E, <- E, srev_srev. reflexivity.
  - now rewrite srev_cons.
Qed.
Lemma pad_zeros_number pre b : all_c is_dec b = true -> b <> "" ->
  exists b1 k, b = (b1 ++ zeros k)%string /\ b1 <> "" /\
    srev (pad_zeros_rev (srev (pre ++ String "." b))) = (pre ++ String "." b1 ++ spaces k)%string.
Proof.
  pattern b. apply string_snoc; [congruence|]. clear b.
  intros b d IH. rewrite all_c_app, andb_true_iff. cbn [all_c]. intros [B D] _.
  destruct (string_dec b "") as [->|Nb].
  - exists (String d ""), 0%nat. split; [now rewrite app_str_nil_r|]. split; [discriminate|]. cbn [append].
    replace (pre ++ String "." (String d ""))%string with ((pre ++ String "." "") ++ String d "")%string by now rewrite app_str_assoc.
    rewrite pad_zeros_snoc. change (Ascii.eqb "." ".") with true. cbn [orb spaces]. now rewrite app_str_assoc.
  - destruct (IH B Nb) as (b1 & k & E & N1 & P).
    assert (exists b' c, b = (b' ++ String c "")%string /\ is_dec c = true) as (b' & c & Eb & Dc).
    { clear - B Nb. revert B Nb. pattern b. apply string_snoc; [congruence|]. intros s c _ A _. exists s, c. split; [reflexivity|].
      rewrite all_c_app, andb_true_iff in A. cbn in A. now destruct (is_dec c). }
    replace (pre ++ String "." (b ++ String d ""))%string with (((pre ++ String "." b') ++ String c "") ++ String d "")%string
      by (rewrite Eb; clear; rewrite !app_str_assoc; cbn [append]; now rewrite ?app_str_assoc).
    rewrite pad_zeros_snoc. replace ((pre ++ String "." b') ++ String c "")%string with (pre ++ String "." b)%string
      by (rewrite Eb; clear; now rewrite !app_str_assoc).
    assert (Ascii.eqb c "." = false) as -> by (destruct (Ascii.eqb_spec c "."); [subst; discriminate|reflexivity]).
    cbn [orb]. destruct (Ascii.eqb_spec d "0") as [->|Nd]; cbn [negb].
    + exists b1, (S k). rewrite P, zeros_snoc, spaces_snoc, E, !app_str_assoc. cbn [append]. rewrite ?app_str_assoc. auto.
    + exists (b ++ String d "")%string, 0%nat. cbn [zeros spaces]. rewrite !app_str_nil_r, !app_str_assoc. split; [reflexivity|].
      split; [apply snoc_not_empty|reflexivity].
Qed.

Lemma dec_has c s : is_dec c = false -> all_c is_dec s = true -> has c s = false.
Proof.
  intros C A. rewrite has_all_c, negb_false_iff. eapply all_c_impl; [|exact A]. intros d D. destruct (Ascii.eqb_spec c d); [congruence|reflexivity].
Qed.
Lemma until_none c s : has c s = false -> until c s = None.
Proof.
  induction s as [|d s IH]; [reflexivity|]. unfold has. cbn [list_ascii_of_string existsb until]. rewrite orb_false_iff. intros [N H].
  rewrite Ascii.eqb_sym, N. now rewrite (IH H).
Qed.
Lemma at_point_number neg a p b : is_number a p b ->
  at_point (number neg a p b) = if p then Some (sign_text neg a, b) else None.
Proof.
  intros (A & _ & B & Pb). unfold at_point, number. apply dec_has with (c := "."%char) in A; [|reflexivity]. destruct p; cbn [frac_text].
  - rewrite <- (until_plain "." (sign_text neg a)); [now destruct neg|]. destruct neg; exact A.
  - rewrite app_str_nil_r. apply until_none. destruct neg; exact A.
Qed.
Lemma precisionOf_number neg a p b : is_number a p b -> precisionOf (number neg a p b) = Z.of_nat (String.length b).
Proof. intros N. unfold precisionOf. rewrite at_point_number by exact N. destruct p; [reflexivity|]. destruct N as (_ & _ & _ & Pb). now rewrite Pb. Qed.

Lemma dec_val_zeros s k : all_c is_dec s = true -> dec_val (s ++ zeros k) = dec_val s * 10 ^ Z.of_nat k.
Proof.
  intros A. apply (class_val is_dec 10 s dec_ok 0) in A as [v V]. unfold dec_val. rewrite digits_val_app, V. clear V s.
  revert v. induction k as [|k IH]; intros v; [cbn; lia|]. rewrite Nat2Z.inj_succ, Z.pow_succ_r by lia.
  cbn [zeros digits_val]. change (digit_val "0") with (Some 0). cbn match. change (0 <? 10) with true. cbn match. rewrite IH. lia.
Qed.
Lemma dec_val_nonneg s : 0 <= dec_val s.
Proof. unfold dec_val. destruct (digits_val 10 0 s) eqn:E; [|lia]. eapply digits_val_nonneg; [| |exact E]; lia. Qed.
Lemma nearest_dec_zeros F neg x p k : fmt_ok F -> 0 <= x -> 0 <= p -> 0 <= k -> nearest_dec F neg (x * 10 ^ k) (- (p + k)) = nearest_dec F neg x (- p).
Proof.
  intros Fo Hx Hp Hk. pose proof (pow10_pos k Hk).
  rewrite (nearest_dec_at F neg (x * 10 ^ k) (- (p + k)) (p + k)), (nearest_dec_at F neg x (- p) (p + k)) by first [assumption|nia].
  replace (p + k + - (p + k)) with 0 by lia. replace (p + k + - p) with k by lia. now rewrite Z.pow_0_r, Z.mul_1_r.
Qed.
Lemma padTrailingZeros_number neg a p b : is_number a p b -> (p = true -> b <> "") ->
  exists b1 k, padTrailingZeros (number neg a p b) = (number neg a p b1 ++ spaces k)%string /\ is_number a p b1 /\
   forall F s, fmt_ok F -> nearest_dec F s (dec_val (a ++ b1)) (- Z.of_nat (String.length b1)) = nearest_dec F s (dec_val (a ++ b)) (- Z.of_nat (String.length b)).
Proof.
  intros N Pb. unfold padTrailingZeros. rewrite at_point_number by exact N. destruct N as (A & Na & B & P). destruct p.
  - destruct (pad_zeros_number (sign_text neg a) b B (Pb eq_refl)) as (b1 & k & E & N1 & Z).
    rewrite E, all_c_app, andb_true_iff in B. destruct B as [B1 _]. exists b1, k. split; [|split; [repeat split; auto; discriminate|]].
    + unfold number, frac_text. replace (sign_text neg (a ++ String "." b)) with (sign_text neg a ++ String "." b)%string by now destruct neg.
      rewrite Z. destruct neg; cbn [sign_text append]; now rewrite app_str_assoc.
    + intros F s Fo. rewrite E, <- app_str_assoc, dec_val_zeros by (now rewrite all_c_app, A, B1). rewrite length_app_str, zeros_len, Nat2Z.inj_add.
      symmetry. apply nearest_dec_zeros; try lia; [exact Fo|apply dec_val_nonneg].
  - exists b, 0%nat. cbn [spaces]. rewrite app_str_nil_r. repeat split; auto.
Qed.

(** ---------- the text FormatFloat(f, 'f', P) ---------- *)

(** The floats that the fixed text with P decimals gives back: not infinite, and where the
    distance to the float below is half that to the float above (a power of two), written in full. *)
Definition fixed_ok (F : ffmt) (P : Z) (f : spec_float) : Prop :=
  match f with
  | S754_infinity _ => False
  | S754_finite _ m e => inner F (Zpos m) e \/ (Zpos m * e_up e * 10 ^ P) mod e_down e = 0
  | _ => True
  end.
Lemma format_fixed_number F f P : fmt_ok F -> valid_binary (f_prec F) (f_emax F) f = true -> fixed_ok F P f -> f <> S754_nan ->
  0 <= P -> short_places F f <= P ->
  exists neg a p b, format_fixed P f = number neg a p b /\ is_number a p b /\ (p = true -> b <> "")
    /\ nearest_dec F neg (dec_val (a ++ b)) (- Z.of_nat (String.length b)) = Some f.
Proof.
  intros Fo V FO NN HP SP.
  assert (NE : forall x, 0 <= x -> (0 <? P) = true -> frac_part x P <> "").
  { intros x Hx L E. destruct (print_scaled_number x P Hx HP) as (_ & _ & _ & L2). rewrite E in L2. apply Z.ltb_lt in L. cbn in L2. lia. }
  destruct f as [neg|neg| |neg m e]; try contradiction.
  - destruct (print_scaled_number 0 P ltac:(lia) HP) as (E & N & D & L).
    exists neg, (int_part 0 P), (0 <? P), (frac_part 0 P). cbn [format_fixed]. unfold number. rewrite <- E. repeat split; auto; try apply N.
    + intros. now apply NE; try lia.
    + rewrite D. apply zero_dec.
  - apply (canon_valid F) in V; [|exact Fo]. cbn [format_fixed]. rewrite ratio_eq. destruct (shortest F m e) as [x j] eqn:S.
    cbn [short_places] in SP. rewrite S in SP. cbn [snd] in SP.
    destruct (fixed_reads F m e x j P Fo V (shortest_reads F m e x j Fo V S) HP ltac:(lia) FO) as [Hy R].
    set (y := round_half_even _ _) in *. destruct (print_scaled_number y P ltac:(lia) HP) as (E & N & D & L).
    exists neg, (int_part y P), (0 <? P), (frac_part y P). unfold number. rewrite <- E. repeat split; auto; try apply N.
    + intros. apply NE; [lia|assumption].
    + rewrite D, L. now apply nearest_dec_sign.
Qed.

(** A float in a padded table is read back. *)
Theorem get_float_fixed F f P : fmt_ok F -> valid_binary (f_prec F) (f_emax F) f = true -> fixed_ok F P f -> 0 <= P -> short_places F f <= P ->
  exists u k, padTrailingZeros (format_fixed P f) = (u ++ spaces k)%string /\ (u = "NaN" \/ exists neg a p b, u = number neg a p b /\ is_number a p b) /\
    forall rest, stops rest -> get_float F (u ++ rest) = Ok (f, rest).
Proof.
  intros Fo V FO HP SP. assert (NN : f = S754_nan \/ f <> S754_nan) by (destruct f; auto; right; discriminate). destruct NN as [->|NN].
  - exists "NaN", 0%nat. split; [reflexivity|]. split; [now left|]. reflexivity.
  - destruct (format_fixed_number F f P Fo V FO NN HP SP) as (neg & a & p & b & -> & N & Pb & R).
    destruct (padTrailingZeros_number neg a p b N Pb) as (b1 & k & -> & N1 & E). exists (number neg a p b1), k. split; [reflexivity|].
    split; [right; eauto 8|]. intros rest S. apply get_float_number; auto. now rewrite E.
Qed.
Lemma precisionOf_short F f : fmt_ok F -> valid_binary (f_prec F) (f_emax F) f = true -> no_inf f -> precisionOf (format_short F f) = short_places F f.
Proof.
  intros Fo V NI. assert (NN : f = S754_nan \/ f <> S754_nan) by (destruct f; auto; right; discriminate). destruct NN as [->|NN].
  - reflexivity.
  - destruct (format_short_number F f Fo V NI NN) as (neg & a & p & b & -> & N & _ & L). now rewrite precisionOf_number.
Qed.

(** ---------- integers that pass through float64 ---------- *)

Lemma exact_int z : 0 < z <= 2 ^ 53 -> forall neg, exists m e, nearest F64 neg z 1 = Some (S754_finite neg m e) /\ Zpos m * e_up e = z * e_down e.
Proof.
  intros [Z1 Z2] neg. assert (Fo : fmt_ok F64) by (right; reflexivity). destruct (Z.eq_dec z (2 ^ 53)) as [->|N].
  - exists (2 ^ 52)%positive, 1. split; [vm_compute; reflexivity|reflexivity].
  - pose proof (Z.log2_spec z Z1) as [L1 L2]. set (l := Z.log2 z) in *. assert (L0 : 0 <= l) by apply Z.log2_nonneg.
    assert (L3 : l < 53) by (apply (Z.pow_lt_mono_r_iff 2); lia).
    assert (K : 2 ^ l * 2 ^ (52 - l) = 2 ^ 52) by (rewrite <- Z.pow_add_r by lia; f_equal; lia).
    assert (K0 : 0 < 2 ^ (52 - l)) by (apply Z.pow_pos_nonneg; lia). rewrite Z.pow_succ_r in L2 by lia.
    assert (K1 : 2 ^ 52 <= z * 2 ^ (52 - l) < 2 ^ 53) by (change (2 ^ 53) with (2 * 2 ^ 52); nia).
    assert (C : canon F64 (z * 2 ^ (52 - l)) (l - 52)).
    { unfold canon. change (f_emin F64) with (-1074). change (f_emax F64) with 1024. change (f_prec F64) with 53. change (53 - 1) with 52. lia. }
    exists (Z.to_pos (z * 2 ^ (52 - l))), (l - 52). assert (E : e_down (l - 52) = 2 ^ (52 - l)) by (unfold e_down; f_equal; lia).
    assert (E2 : e_up (l - 52) = 1) by (unfold e_up; replace (Z.max 0 (l - 52)) with 0 by lia; reflexivity). split.
    + apply nearest_exact; auto; try lia. fold (e_up (l - 52)) (e_down (l - 52)). rewrite E, E2. lia.
    + rewrite E, E2, Z2Pos.id by nia. lia.
Qed.
Theorem int_fixed z : Z.abs z <= 2 ^ 53 -> exists f, ParseFloat F64 (dec_of z) = Some f /\ format_fixed 0 f = dec_of z.
Proof.
  intros Z0. assert (Fo : fmt_ok F64) by (right; reflexivity). destruct (Z.eq_dec z 0) as [->|Nz].
  - exists (S754_zero false). split; reflexivity.
  - set (neg := z <? 0). set (y := Z.abs z).
    assert (E : dec_of z = number neg (int_part y 0) false (frac_part y 0)).
    { unfold dec_of, number, neg, y, int_part. change (0 <=? 0) with true. cbn [frac_text]. cbn match. rewrite app_str_nil_r.
      destruct (Z.ltb_spec z 0); cbn [sign_text]; [replace (Z.abs z) with (- z) by lia|replace (Z.abs z) with z by lia]; reflexivity. }
    destruct (print_scaled_number y 0 ltac:(lia) ltac:(lia)) as (E0 & N & D & L). change (0 <? 0) with false in *.
    destruct (exact_int y ltac:(lia) neg) as (m & e & R & Q). exists (S754_finite neg m e). rewrite E. split.
    + rewrite ParseFloat_number, D, L by exact N. unfold nearest_dec. cbn [Z.opp Z.leb Z.compare]. rewrite Z.pow_0_r, Z.mul_1_r. exact R.
    + cbn [format_fixed]. rewrite ratio_eq, Z.pow_0_r, Z.mul_1_r, Q, round_exact by apply e_down_pos. unfold number. now rewrite E0.
Qed.

(** ---------- powers of two ---------- *)

(** Powers of two have half the distance to the float below.  Those below 2^-23 (float64) or
    2^-11 (float32) have more digits than the shortest text. *)
Definition power_limit (F : ffmt) : Z := if f_prec F =? 53 then 23 else 11.
Definition small_power (F : ffmt) (f : spec_float) : Prop :=
  match f with S754_finite _ m e => Zpos m = 2 ^ (f_prec F - 1) /\ e + (f_prec F - 1) < - power_limit F | _ => False end.

Definition zseq_from (a : Z) (n : nat) : list Z := map (fun i => a + Z.of_nat i) (seq 0 n).
Definition power_places_ok (F : ffmt) (k : Z) : bool :=
  k <=? short_places F (S754_finite false (Z.to_pos (2 ^ (f_prec F - 1))) (- k - (f_prec F - 1))).
Lemma power_places F : fmt_ok F -> forall k, 0 <= k <= power_limit F -> power_places_ok F k = true.
Proof.
  intros Fo k Hk. assert (A : forallb (power_places_ok F) (zseq_from 0 24) = true \/ (power_limit F = 11 /\ forallb (power_places_ok F) (zseq_from 0 12) = true)).
  { destruct Fo as [->| ->]; [right; split; [reflexivity|]|left]; vm_compute; reflexivity. }
  assert (I : forall n, 0 <= k < Z.of_nat n -> In k (zseq_from 0 n)).
  { intros n Hn. apply in_map_iff. exists (Z.to_nat k). split; [lia|]. apply in_seq. lia. }
  destruct A as [A|[L A]]; rewrite forallb_forall in A; apply A, I.
  - destruct Fo as [->| ->]; [change (power_limit F32) with 11 in Hk|change (power_limit F64) with 23 in Hk]; lia.
  - lia.
Qed.
Lemma fixed_ok_power F f P : fmt_ok F -> valid_binary (f_prec F) (f_emax F) f = true -> no_inf f -> ~ small_power F f -> 0 <= P -> short_places F f <= P -> fixed_ok F P f.
Proof.
  intros Fo V NI SM HP SP. destruct f as [neg|neg| |neg m e]; cbn [fixed_ok]; auto. apply (canon_valid F) in V; [|exact Fo]. pose proof (fmt_prec F Fo) as FP.
  destruct (Z.eq_dec (Zpos m) (2 ^ (f_prec F - 1))) as [M|M]; [|left; now left]. right.
  cbn [small_power] in SM. assert (L : - power_limit F <= e + (f_prec F - 1)) by lia. clear SM.
  destruct (Z_le_gt_dec 0 (e + (f_prec F - 1))) as [Hv|Hv].
  - rewrite M. unfold e_up, e_down. destruct (Z_le_gt_dec 0 e).
    + replace (Z.max 0 (- e)) with 0 by lia. now rewrite Z.mod_1_r.
    + replace (Z.max 0 (- e)) with (- e) by lia. replace (Z.max 0 e) with 0 by lia. rewrite Z.pow_0_r, Z.mul_1_r.
      replace (f_prec F - 1) with (e + (f_prec F - 1) + - e) at 1 by lia. rewrite Z.pow_add_r by lia.
      rewrite <- Z.mul_assoc, (Z.mul_comm (2 ^ - e)), Z.mul_assoc. apply Z_mod_mult.
  - set (k := - (e + (f_prec F - 1))). pose proof (power_places F Fo k ltac:(lia)) as PP. unfold power_places_ok in PP. apply Z.leb_le in PP.
    rewrite <- M in PP. rewrite Pos2Z.id in PP. replace (- k - (f_prec F - 1)) with e in PP by lia. cbn [short_places] in SP, PP.
    unfold e_up, e_down. replace (Z.max 0 (- e)) with (- e) by lia. replace (Z.max 0 e) with 0 by lia. rewrite Z.pow_0_r, Z.mul_1_r, M.
    rewrite pow10_split by lia. replace P with (k + (P - k)) at 2 by lia. rewrite Z.pow_add_r by lia.
    replace (2 ^ (f_prec F - 1) * (5 ^ P * (2 ^ k * 2 ^ (P - k)))) with (5 ^ P * 2 ^ (P - k) * (2 ^ (f_prec F - 1) * 2 ^ k)) by ring.
    rewrite <- Z.pow_add_r by lia. replace (f_prec F - 1 + k) with (- e) by lia. apply Z_mod_mult.
Qed.
