(** Proofs_JsonValue.v -- cell values that pass through JSON numbers and strings. *)
From Coq Require Import ZArith NArith List String Ascii Bool SpecFloat Lia.
From Verif Require Import Base Model_Names Model_Table Model_Sort Model_Heap Model_TableSet Model_Lex Model_Float Model_Time
  Model_Parser Model_Print Model_Json Spec Spec_Walk Spec_Text Spec_Json Proofs_Lib Proofs_Table Proofs_Lex Proofs_Num Proofs_Float Proofs_FloatText Proofs_TimeText.
Import ListNotations.
Local Open Scope string_scope.
Local Open Scope Z_scope.

(** ---------- integers ---------- *)

Lemma exact_integer y neg : 0 < y < 2 ^ 64 -> float_integer y ->
  exists m e, nearest F64 neg y 1 = Some (S754_finite neg m e) /\ Zpos m * e_up e = y * e_down e.
Proof.
  intros [Y1 Y2] (m & e & E & [M1 M2] & E0). rewrite Z.abs_eq in E by lia. assert (Fo : fmt_ok F64) by (now right).
  assert (M0 : 0 < m) by (pose proof (Z.pow_nonneg 2 e ltac:(lia)); destruct (Z.eq_dec m 0); [subst m; lia|lia]).
  pose proof (Z.log2_spec m M0) as [L1 L2]. set (l := Z.log2 m) in *. assert (L0 : 0 <= l) by apply Z.log2_nonneg.
  assert (L3 : l < 53) by (apply (Z.pow_lt_mono_r_iff 2); lia).
  assert (EL : e + l < 64).
  { apply (Z.pow_lt_mono_r_iff 2); [lia|lia|]. rewrite Z.pow_add_r by lia. pose proof (Z.pow_pos_nonneg 2 e ltac:(lia) E0). nia. }
  assert (K : 2 ^ l * 2 ^ (52 - l) = 2 ^ 52) by (rewrite <- Z.pow_add_r by lia; f_equal; lia).
  assert (K0 : 0 < 2 ^ (52 - l)) by (apply Z.pow_pos_nonneg; lia). rewrite Z.pow_succ_r in L2 by lia.
  assert (K1 : 2 ^ 52 <= m * 2 ^ (52 - l) < 2 ^ 53) by (change (2 ^ 53) with (2 * 2 ^ 52); nia).
  set (e' := e + l - 52).
  assert (C : canon F64 (m * 2 ^ (52 - l)) e').
  { unfold canon. change (f_emin F64) with (-1074). change (f_emax F64) with 1024. change (f_prec F64) with 53. change (53 - 1) with 52. lia. }
  assert (Q : y * e_down e' = m * 2 ^ (52 - l) * e_up e').
  { rewrite E. unfold e_down, e_up. rewrite <- !Z.mul_assoc. f_equal. rewrite <- !Z.pow_add_r by lia. f_equal. lia. }
  exists (Z.to_pos (m * 2 ^ (52 - l))), e'. split.
  - apply nearest_exact; auto; try lia. fold (e_up e') (e_down e'). rewrite Q. lia.
  - rewrite Z2Pos.id by nia. lia.
Qed.

Theorem integer_read wild k z : in_range k z = true -> float_integer z ->
  exists f, ParseFloat F64 (dec_of z) = Some f /\ float_to_int wild k f = z.
Proof.
  intros R FI. assert (Fo : fmt_ok F64) by (now right). destruct (Z.eq_dec z 0) as [->|Nz].
  - exists (S754_zero false). split; reflexivity.
  - set (neg := z <? 0). set (y := Z.abs z).
    assert (E : dec_of z = number neg (int_part y 0) false (frac_part y 0)).
    { unfold dec_of, number, neg, y, int_part. change (0 <=? 0) with true. cbn [frac_text]. cbn match. rewrite app_str_nil_r.
      destruct (Z.ltb_spec z 0); cbn [sign_text]; [replace (Z.abs z) with (- z) by lia|replace (Z.abs z) with z by lia]; reflexivity. }
    destruct (print_scaled_number y 0 ltac:(lia) ltac:(lia)) as (E0 & N & D & L). change (0 <? 0) with false in *.
    assert (B : 0 < y < 2 ^ 64).
    { split; [lia|]. apply range_fits in R. unfold fits in R. destruct (bits_pos k) as [B1 B2].
      assert (2 ^ ibits k <= 2 ^ 64) by (apply Z.pow_le_mono_r; lia).
      assert (2 ^ (ibits k - 1) <= 2 ^ 63) by (apply Z.pow_le_mono_r; lia).
      change (2 ^ 64) with (2 * 2 ^ 63) in *. destruct (isigned k); lia. }
    assert (FY : float_integer y) by (destruct FI as (m & e & F); exists m, e; unfold y; rewrite Z.abs_involutive; exact F).
    destruct (exact_integer y neg B FY) as (m & e & Rd & Q). exists (S754_finite neg m e). rewrite E. split.
    + rewrite ParseFloat_number, D, L by exact N. unfold nearest_dec. cbn [Z.opp Z.leb Z.compare]. rewrite Z.pow_0_r, Z.mul_1_r. exact Rd.
    + unfold float_to_int. rewrite ratio_eq, Q. rewrite Z.div_mul by (pose proof (e_down_pos e); lia).
      assert (V : (if neg then - y else y) = z) by (unfold neg, y; destruct (Z.ltb_spec z 0); lia). rewrite V, R. reflexivity.
Qed.

Lemma small_float_integer z : Z.abs z < 2 ^ 53 -> float_integer z.
Proof. intros B. exists (Z.abs z), 0. rewrite Z.pow_0_r. lia. Qed.

Lemma byte_read wild c : exists f, ParseFloat F64 (dec_of (code c)) = Some f /\ chr (float_to_int wild KUint8 f) = c.
Proof.
  pose proof (code_range c) as B. destruct (integer_read wild KUint8 (code c)) as (f & P & I).
  - apply range_fits. cbn. lia.
  - apply small_float_integer. lia.
  - exists f. split; [exact P|]. now rewrite I, chr_code.
Qed.

(** ---------- times ---------- *)

Lemma trim_zeros_split s : exists k, s = trim_zeros s ++ zeros k.
Proof.
  induction s as [|c s [k IH]]; [exists 0%nat; reflexivity|]. cbn [trim_zeros]. destruct (trim_zeros s) as [|d u] eqn:T.
  - cbn [append] in IH. destruct (Ascii.eqb_spec c "0") as [->|].
    + exists (S k). cbn [append zeros]. now rewrite <- IH.
    + exists k. cbn [append]. now rewrite <- IH.
  - exists k. cbn [append] in *. now rewrite <- IH.
Qed.
Lemma zeros_app a b : zeros a ++ zeros b = zeros (a + b).
Proof. induction a; [reflexivity|]. cbn [zeros append Nat.add]. now rewrite IHa. Qed.
Lemma substring_0_app s t : substring 0 (String.length s) (s ++ t) = s.
Proof. induction s as [|c s IH]; [destruct t; reflexivity|]. cbn [String.length append substring]. now rewrite IH. Qed.

Lemma fraction_digits ns rest : 0 < ns < 1000000000 -> starts is_dec rest = false ->
  fraction ("." ++ trim_zeros (dec_n 9 ns) ++ rest) = Some (ns, rest).
Proof.
  intros B R. destruct (dec_n_spec 9 ns 0 ltac:(lia)) as (V & A & L). change (10 ^ Z.of_nat 9) with 1000000000 in V. rewrite Z.mod_small in V by lia.
  destruct (trim_zeros_split (dec_n 9 ns)) as (k & E). set (d := trim_zeros (dec_n 9 ns)) in *.
  assert (AD : all_c is_dec d = true) by (rewrite E, all_c_app in A; apply andb_true_iff in A; tauto).
  assert (ND : d <> "").
  { intros D. rewrite D in E. cbn [append] in E. rewrite E in V. assert (X : digits_val 10 0 (zeros k) = Some 0) by (clear; induction k; [reflexivity|exact IHk]).
    rewrite X in V. inversion V. lia. }
  cbn [append fraction]. change (Ascii.eqb "." ".") with true. cbn match. rewrite span_app by auto.
  destruct d as [|c d']; [congruence|]. cbn match.
  assert (LD : (String.length (String c d') + k = 9)%nat) by (rewrite <- L, E, length_app_str, zeros_len; reflexivity).
  assert (K : (k <= 8)%nat) by (cbn [String.length] in LD; lia).
  replace "00000000" with (zeros (k + (8 - k))) by (replace (k + (8 - k))%nat with 8%nat by lia; reflexivity).
  rewrite <- zeros_app, <- app_str_assoc, <- E.
  pose proof (substring_0_app (dec_n 9 ns) (zeros (8 - k))) as S. rewrite L in S. rewrite S. unfold dec_val. now rewrite V.
Qed.

Theorem time_back t : json_time t -> 0 <= tm_nsec t < 1000000000 -> time_of_text (time_text t) = Some t.
Proof.
  intros (Y & M & B) NS. unfold time_text, format_time. set (loc := tm_sec t + tm_off t) in *.
  destruct (date_of (loc / 86400)) as [[y m] d] eqn:D.
  assert (Ey : y = year_of (loc / 86400)). { unfold date_of in D. destruct (month_of _ _ _). now injection D. }
  rewrite <- Ey in Y. apply date_of_spec in D as (D & Hm & Hd & Hd31).
  set (s := loc mod 86400). assert (Hs : 0 <= s < 86400) by (apply Z.mod_pos_bound; lia).
  assert (L : loc = 86400 * days_of y m d + s) by (rewrite D; apply Z.div_mod; lia).
  set (hh := s / 3600). set (mi := s / 60 mod 60). set (ss := s mod 60).
  assert (T : s = hh * 3600 + mi * 60 + ss /\ 0 <= hh < 24 /\ 0 <= mi < 60 /\ 0 <= ss < 60).
  { unfold hh, mi, ss. clearbody s. Z.div_mod_to_equations. lia. } clearbody hh mi ss.
  destruct (zone_read (tm_off t) "" M B) as (zh & zm & zneg & ZT & Z1 & Z2 & Z3). rewrite app_str_nil_r in ZT.
  assert (YT : year_text y = dec_n 4 y). { unfold year_text. rewrite (proj2 (Z.ltb_ge y 0)), (proj2 (Z.ltb_ge 9999 y)) by lia. reflexivity. }
  rewrite YT.
  assert (ZN : exists c r, zone_text (tm_off t) = String c r /\ Ascii.eqb c "." = false /\ is_dec c = false).
  { unfold zone_text. destruct (tm_off t =? 0); [exists "Z"%char, ""; auto|]. cbv zeta. eexists _, _. split; [reflexivity|]. destruct (Z.quot (tm_off t) 60 <? 0); split; reflexivity. }
  assert (TA : forall frac, fraction (frac ++ zone_text (tm_off t)) = Some (tm_nsec t, zone_text (tm_off t)) ->
     time_of_text (dec_n 4 y ++ "-" ++ dec_n 2 m ++ "-" ++ dec_n 2 d ++ "T" ++ dec_n 2 hh ++ ":" ++ dec_n 2 mi ++ ":" ++ dec_n 2 ss ++ frac ++ zone_text (tm_off t)) = Some t).
  { intros frac H. unfold time_of_text. rewrite !field_dec_n by (cbn; lia).
    pose proof (field_dec_n 2 ss "" (frac ++ zone_text (tm_off t))) as F. cbn [append] in F. rewrite F by (cbn; lia).
    rewrite H, ZT. unfold parse_time. cbn [tf_y tf_mo tf_d tf_h tf_mi tf_s tf_ns tf_zh tf_zm tf_zneg].
    rewrite (proj2 (Z.leb_le 1 m)), (proj2 (Z.leb_le m 12)), (proj2 (Z.leb_le 1 d)), (proj2 (Z.leb_le d _)), (proj2 (Z.ltb_lt hh 24)),
      (proj2 (Z.ltb_lt mi 60)), (proj2 (Z.ltb_lt ss 60)), (proj2 (Z.leb_le zh 24)), (proj2 (Z.leb_le zm 60)) by lia.
    cbn [andb]. rewrite Z3. destruct t as [sec nsec off]. cbn [tm_sec tm_nsec tm_off] in *. do 2 f_equal. unfold loc in L. lia. }
  destruct ZN as (c & r & ZE & ZP & ZD). destruct (Z.ltb_spec 0 (tm_nsec t)) as [P|P].
  - rewrite (proj2 (Z.eqb_neq (tm_nsec t) 0)) by lia. cbn [andb negb]. apply TA. rewrite app_str_assoc. apply fraction_digits; [lia|]. rewrite ZE. exact ZD.
  - cbn [andb]. apply TA. cbn [append]. rewrite ZE. cbn [fraction]. rewrite ZP. assert (N0 : tm_nsec t = 0) by lia. rewrite N0. reflexivity.
Qed.
