(** Proofs_Time.v -- the calendar of the model is the calendar. *)
From Coq Require Import ZArith NArith List String Ascii Bool Lia.
From Verif Require Import Base Model_Lex Model_Float Model_Time Model_Parser Spec_Text Spec_Time Spec_Decimal Proofs_Lex Proofs_Num Proofs_Float Proofs_FloatText Proofs_TimeText Proofs_Decimal.
Import ListNotations.
Local Open Scope string_scope.
Local Open Scope Z_scope.

Lemma leap_year_spec y : leap_year y <-> is_leap y = true.
Proof. rewrite leap_bool. unfold leap_year. rewrite <- !Z.mod_divide by lia. tauto. Qed.
Lemma month_length_spec y m k : month_length y m k <-> 1 <= m <= 12 /\ k = days_in y m.
Proof.
  split.
  - intros [m' I|m' I|L|L].
    + cbn in I. repeat destruct I as [<-|I]; try contradiction; split; try lia; reflexivity.
    + cbn in I. repeat destruct I as [<-|I]; try contradiction; split; try lia; reflexivity.
    + apply leap_year_spec in L. split; [lia|]. unfold days_in, month_days. cbn. now rewrite L.
    + rewrite leap_year_spec in L. apply not_true_is_false in L. split; [lia|]. unfold days_in, month_days. cbn. now rewrite L.
  - intros [M ->]. assert (C : m = 1 \/ m = 2 \/ m = 3 \/ m = 4 \/ m = 5 \/ m = 6 \/ m = 7 \/ m = 8 \/ m = 9 \/ m = 10 \/ m = 11 \/ m = 12) by lia.
    destruct (Z.eq_dec m 2) as [->|N].
    + unfold days_in, month_days. cbn. destruct (is_leap y) eqn:E; [apply ml_29; now apply leap_year_spec|apply ml_28; rewrite leap_year_spec; congruence].
    + repeat destruct C as [->|C]; try congruence; subst; unfold days_in, month_days; cbn [Z.sub Z.to_nat nth]; (apply ml_31; cbn; tauto) || (apply ml_30; cbn; tauto).
Qed.
Lemma month_start_next y m : 1 <= m < 12 -> month_start y (m + 1) = month_start y m + days_in y m.
Proof.
  intros M. assert (C : m = 1 \/ m = 2 \/ m = 3 \/ m = 4 \/ m = 5 \/ m = 6 \/ m = 7 \/ m = 8 \/ m = 9 \/ m = 10 \/ m = 11) by lia.
  unfold month_start, days_in, month_days. repeat destruct C as [->|C]; subst; destruct (is_leap y); reflexivity.
Qed.
Lemma a_date_spec y m d : a_date (y, m, d) <-> 1 <= m <= 12 /\ 1 <= d <= days_in y m.
Proof.
  unfold a_date. split; [intros (k & K & D); apply month_length_spec in K as [? ->]; auto|]. intros [M D]. exists (days_in y m). split; [now apply month_length_spec|exact D].
Qed.
Definition day_count (x : Z * Z * Z) : Z := let '(y, m, d) := x in days_of y m d.
Lemma days_in_pos y m : 1 <= m <= 12 -> 28 <= days_in y m <= 31.
Proof. intros M. assert (K : month_length y m (days_in y m)) by now apply month_length_spec. destruct K; lia. Qed.
Lemma day_after_spec x y : day_after x y -> a_date x /\ a_date y /\ day_count y = day_count x + 1.
Proof.
  intros [y0 m d k K D|y0 m k K M|y0]; cbn [day_count]; rewrite !a_date_spec.
  - apply month_length_spec in K as [M ->]. unfold days_of. lia.
  - apply month_length_spec in K as [M' ->]. pose proof (days_in_pos y0 m M'). pose proof (days_in_pos y0 (m + 1)). split; [lia|]. split; [lia|]. unfold days_of. rewrite month_start_next by lia. lia.
  - split; [split; [lia|]; change (1 <= 31 <= 31); lia|]. split; [split; [lia|]; change (1 <= 1 <= 31); lia|]. unfold days_of. pose proof (year_length y0).
    change (month_start (y0 + 1) 1) with 0. assert (month_start y0 12 = if is_leap y0 then 335 else 334) by (unfold month_start, month_days; destruct (is_leap y0); reflexivity). destruct (is_leap y0); lia.
Qed.
Lemma next_exists x : a_date x -> exists y, day_after x y.
Proof.
  destruct x as [[y m] d]. rewrite a_date_spec. intros [M D]. assert (K : month_length y m (days_in y m)) by now apply month_length_spec.
  destruct (Z.eq_dec d (days_in y m)) as [->|N]; [|eexists; eapply da_day; eauto; lia].
  destruct (Z.eq_dec m 12) as [->|N]; [eexists; apply (da_year y)|eexists; apply da_month; [exact K|lia]].
Qed.
Lemma previous_exists y : a_date y -> exists x, day_after x y.
Proof.
  destruct y as [[y m] d]. rewrite a_date_spec. intros [M D]. assert (K : month_length y m (days_in y m)) by now apply month_length_spec.
  destruct (Z.eq_dec d 1) as [->|N].
  - destruct (Z.eq_dec m 1) as [->|N]; [exists (y - 1, 12, 31); replace y with (y - 1 + 1) at 2 by lia; apply da_year|].
    exists (y, m - 1, days_in y (m - 1)). replace m with (m - 1 + 1) at 3 by lia. apply da_month; [apply month_length_spec; lia|lia].
  - exists (y, m, d - 1). replace d with (d - 1 + 1) at 2 by lia. eapply da_day; [exact K|lia].
Qed.
Lemma year_start_mono a b : a <= b -> year_start a <= year_start b.
Proof.
  intros H. replace b with (a + Z.of_nat (Z.to_nat (b - a))) by lia. generalize (Z.to_nat (b - a)). intros n. induction n as [|n IH]; [rewrite Z.add_0_r; lia|].
  pose proof (year_length (a + Z.of_nat n)). replace (a + Z.of_nat (Datatypes.S n)) with (a + Z.of_nat n + 1) by lia. destruct (is_leap _); lia.
Qed.
Lemma month_start_mono y a b : 1 <= a -> b <= 12 -> a < b -> month_start y a + days_in y a <= month_start y b.
Proof.
  intros A B H. replace b with (a + 1 + Z.of_nat (Z.to_nat (b - a - 1))) in * by lia. revert B. generalize (Z.to_nat (b - a - 1)). intros n. induction n as [|n IH]; intros B.
  - rewrite Z.add_0_r, month_start_next by lia. lia.
  - replace (a + 1 + Z.of_nat (Datatypes.S n)) with (a + 1 + Z.of_nat n + 1) by lia. rewrite month_start_next by lia. pose proof (days_in_pos y (a + 1 + Z.of_nat n)). lia.
Qed.
Lemma day_of_year y m d : a_date (y, m, d) -> 0 <= month_start y m + (d - 1) < if is_leap y then 366 else 365.
Proof.
  rewrite a_date_spec. intros [M D]. assert (S12 : month_start y 12 = if is_leap y then 335 else 334) by (unfold month_start, month_days; destruct (is_leap y); reflexivity).
  assert (D12 : days_in y 12 = 31) by reflexivity.
  destruct (Z.eq_dec m 12) as [->|N]; [rewrite D12 in D; rewrite S12; destruct (is_leap y); lia|]. pose proof (month_start_mono y m 12 ltac:(lia) ltac:(lia) ltac:(lia)).
  assert (0 <= month_start y m). { destruct (Z.eq_dec m 1) as [->|N1]; [change (month_start y 1) with 0; lia|]. pose proof (month_start_mono y 1 m ltac:(lia) ltac:(lia) ltac:(lia)). change (month_start y 1) with 0 in *. pose proof (days_in_pos y 1 ltac:(lia)). lia. }
  destruct (is_leap y); lia.
Qed.
Lemma day_count_injective x y : a_date x -> a_date y -> day_count x = day_count y -> x = y.
Proof.
  destruct x as [[y1 m1] d1], y as [[y2 m2] d2]. intros A B E. cbn in E. pose proof (day_of_year _ _ _ A) as Y1. pose proof (day_of_year _ _ _ B) as Y2.
  unfold days_of in E. pose proof (year_length y1) as L1. pose proof (year_length y2) as L2.
  assert (y1 = y2) as <-.
  { destruct (Z.lt_trichotomy y1 y2) as [L|[->|L]]; [|reflexivity|].
    - pose proof (year_start_mono (y1 + 1) y2 ltac:(lia)). lia.
    - pose proof (year_start_mono (y2 + 1) y1 ltac:(lia)). lia. }
  apply a_date_spec in A as [M1 D1]. apply a_date_spec in B as [M2 D2].
  assert (m1 = m2) as <-.
  { destruct (Z.lt_trichotomy m1 m2) as [L|[->|L]]; [|reflexivity|].
    - pose proof (month_start_mono y1 m1 m2 ltac:(lia) ltac:(lia) L). lia.
    - pose proof (month_start_mono y1 m2 m1 ltac:(lia) ltac:(lia) L). lia. }
  replace d2 with d1 by lia. reflexivity.
Qed.
Lemma day_number_count n x : day_number n x -> a_date x /\ day_count x = n.
Proof.
  induction 1 as [|n x y H [A E] D|n x y H [A E] D].
  - split; [apply a_date_spec; change (1 <= 1 <= 12 /\ 1 <= 1 <= 31); lia|reflexivity].
  - apply day_after_spec in D as (_ & B & Q). split; [exact B|lia].
  - apply day_after_spec in D as (B & _ & Q). split; [exact B|lia].
Qed.
Lemma day_number_total n : exists x, day_number n x.
Proof.
  assert (P : forall k, exists x, day_number (Z.of_nat k) x).
  { induction k as [|k [x IH]]; [eexists; apply dn_first|]. destruct (day_number_count _ _ IH) as [A _]. destruct (next_exists x A) as [y Y]. exists y. replace (Z.of_nat (Datatypes.S k)) with (Z.of_nat k + 1) by lia. eapply dn_after; eauto. }
  assert (N : forall k, exists x, day_number (- Z.of_nat k) x).
  { induction k as [|k [x IH]]; [eexists; apply dn_first|]. destruct (day_number_count _ _ IH) as [A _]. destruct (previous_exists x A) as [y Y]. exists y. replace (- Z.of_nat (Datatypes.S k)) with (- Z.of_nat k - 1) by lia. eapply dn_before; eauto. }
  destruct (Z_le_dec 0 n) as [H|H]; [destruct (P (Z.to_nat n)) as [x X]|destruct (N (Z.to_nat (- n))) as [x X]]; exists x; [rewrite Z2Nat.id in X by lia; exact X|].
  rewrite Z2Nat.id in X by lia. now rewrite Z.opp_involutive in X.
Qed.
Theorem day_number_spec n y m d : day_number n (y, m, d) <-> days_of y m d = n /\ 1 <= m <= 12 /\ 1 <= d <= days_in y m.
Proof.
  split.
  - intros H. apply day_number_count in H as [A E]. apply a_date_spec in A. tauto.
  - intros (E & A). apply a_date_spec in A. destruct (day_number_total n) as [x X]. destruct (day_number_count _ _ X) as [B Q].
    replace (y, m, d) with x; [exact X|]. apply day_count_injective; [exact B|exact A|]. cbn. congruence.
Qed.

(** ---------- RFC 3339 ---------- *)

Definition time_literal (tok : string) (f : time_fields) : Prop := time_at tok = Some (f, "").

Lemma numeral_of a : a <> "" -> all_c is_dec a = true -> numeral 10 a (dec_val a).
Proof. intros N A. destruct (digits_numeral a N A) as (x & X). destruct (numeral_dec a x X) as (<- & _). exact X. Qed.
Lemma numeral_nonneg s v : numeral 10 s v -> 0 <= v.
Proof.
  intros N. refine (proj1 (proj1 (decimal_bounds s false v 0 0 _))). exists "", s, "". rewrite app_str_nil_r. split; [reflexivity|]. split; [right; auto|]. split; [now apply mag_int|constructor].
Qed.
Lemma figures_dec k s v : figures k s v -> String.length s = k /\ all_c is_dec s = true /\ dec_val s = v /\ 0 <= v.
Proof. intros [L N]. destruct (numeral_dec s v N) as (V & A & _). pose proof (numeral_nonneg s v N). auto. Qed.
Lemma figures_of k s : all_c is_dec s = true -> String.length s = Datatypes.S k -> figures (Datatypes.S k) s (dec_val s).
Proof. intros A L. split; [exact L|]. apply numeral_of; [destruct s; discriminate|exact A]. Qed.
Lemma digits_n_spec : forall n s a r, digits_n n s = Some (a, r) -> s = (a ++ r)%string /\ String.length a = n /\ all_c is_dec a = true.
Proof.
  induction n as [|n IH]; intros s a r; cbn [digits_n]; [intros [= <- <-]; auto|]. destruct s as [|c s]; [discriminate|]. destruct (is_dec c) eqn:C; [|discriminate].
  destruct (digits_n n s) as [[a' r']|] eqn:E; [|discriminate]. intros [= <- <-]. destruct (IH s a' r' E) as (-> & L & A). cbn. rewrite L, C, A. auto.
Qed.
Lemma field_figures k s v sep rest : figures k s v -> field k sep (s ++ sep ++ rest) = Some (v, rest).
Proof.
  intros F. destruct (figures_dec k s v F) as (<- & A & <- & _). unfold field. rewrite digits_n_app by exact A. now rewrite prefix_app, drop_app.
Qed.
Lemma prefix_split a b : String.prefix a b = true -> b = (a ++ drop (String.length a) b)%string.
Proof.
  revert b. induction a as [|c a IH]; intros b; [reflexivity|]. destruct b as [|d b]; [discriminate|]. cbn [String.prefix String.length drop append]. destruct (ascii_dec c d) as [->|]; [|discriminate].
  intros H. now rewrite <- (IH b H).
Qed.
Lemma field_spec k sep s v r : field (Datatypes.S k) sep s = Some (v, r) -> exists a, s = (a ++ sep ++ r)%string /\ figures (Datatypes.S k) a v.
Proof.
  unfold field. destruct (digits_n (Datatypes.S k) s) as [[a b]|] eqn:E; [|discriminate]. destruct (String.prefix sep b) eqn:P; [|discriminate]. intros [= <- <-].
  apply digits_n_spec in E as (-> & L & A). exists a. rewrite <- (prefix_split sep b P). split; [reflexivity|]. now apply figures_of.
Qed.

(** The fraction and the zone *)
Definition fraction_at (s : string) : Z * string :=
  match s with
  | String c r => if Ascii.eqb c "." then match digits_n 9 r with Some (x, r) => (dec_val x, r) | None => (0, s) end else (0, s)
  | EmptyString => (0, s)
  end.
Definition zone_parts (zone : string) (zh zm : Z) (zneg : bool) : Prop :=
  zone = "Z" /\ zh = 0 /\ zm = 0 /\ zneg = false \/
  exists hh mm, zone = (String (if zneg then "-" else "+")%char (hh ++ ":" ++ mm))%string /\ figures 2 hh zh /\ figures 2 mm zm.
Definition fraction_parts (frac : string) (ns : Z) : Prop := frac = "" /\ ns = 0 \/ exists a, frac = ("." ++ a)%string /\ figures 9 a ns.
Lemma zone_parts_at zone zh zm zneg : zone_parts zone zh zm zneg -> time_zone zone = Some (zh, zm, zneg, "").
Proof.
  intros [(-> & -> & -> & ->)|(hh & mm & -> & Fh & Fm)]; [reflexivity|]. unfold time_zone.
  replace (Ascii.eqb (if zneg then "-" else "+") "Z") with false by (destruct zneg; reflexivity). replace (one_of "+-" (if zneg then "-" else "+")) with true by (destruct zneg; reflexivity).
  rewrite (field_figures 2 hh zh ":" mm Fh). pose proof (field_figures 2 mm zm "" "" Fm) as Q. cbn [append] in Q. rewrite app_str_nil_r in Q. rewrite Q. destruct zneg; reflexivity.
Qed.
Lemma zone_at_parts s zh zm zneg : time_zone s = Some (zh, zm, zneg, "") -> zone_parts s zh zm zneg.
Proof.
  destruct s as [|c r]; [discriminate|]. unfold time_zone. destruct (Ascii.eqb_spec c "Z") as [->|NZ].
  - intros [= <- <- <- ->]. left. auto.
  - destruct (one_of "+-" c) eqn:O; [|discriminate]. destruct (field 2 ":" r) as [[h r1]|] eqn:F1; [|discriminate]. destruct (field 2 "" r1) as [[m r2]|] eqn:F2; [|discriminate].
    intros [= <- <- <- ->]. apply field_spec in F1 as (a & -> & Fa). apply field_spec in F2 as (b & -> & Fb). cbn [append]. rewrite app_str_nil_r. right. exists a, b. split; [|auto].
    f_equal. apply one_of_two in O as [-> | ->]; reflexivity.
Qed.
Lemma zone_not_dot zone zh zm zneg : zone_parts zone zh zm zneg -> exists c r, zone = String c r /\ Ascii.eqb c "." = false.
Proof. intros [(-> & _)|(hh & mm & -> & _)]; [exists "Z"%char, ""; auto|]. eexists _, _. split; [reflexivity|]. destruct zneg; reflexivity. Qed.
Lemma fraction_parts_at frac ns zone : fraction_parts frac ns -> (exists c r, zone = String c r /\ Ascii.eqb c "." = false) -> fraction_at (frac ++ zone) = (ns, zone).
Proof.
  intros [(-> & ->)|(a & -> & F)] (c & r & -> & C); cbn [append fraction_at].
  - now rewrite C.
  - change (Ascii.eqb "." ".") with true. cbn match. destruct (figures_dec 9 a ns F) as (L & A & V & _). rewrite <- L, digits_n_app by exact A. now rewrite V.
Qed.
Lemma fraction_at_parts s ns zone : fraction_at s = (ns, zone) -> (exists c r, zone = String c r /\ Ascii.eqb c "." = false) -> exists frac, s = (frac ++ zone)%string /\ fraction_parts frac ns.
Proof.
  intros H (c & r & -> & C). destruct s as [|d s]; cbn [fraction_at] in H; [discriminate|]. destruct (Ascii.eqb_spec d ".") as [->|N].
  - destruct (digits_n 9 s) as [[x r1]|] eqn:E; [|injection H as <- <- <-; discriminate C]. injection H as <- ->. apply digits_n_spec in E as (-> & L & A). exists ("." ++ x)%string. split; [reflexivity|].
    right. exists x. split; [reflexivity|]. now apply figures_of.
  - injection H as <- <- <-. exists "". split; [reflexivity|now left].
Qed.

Definition time_parts (tok : string) (f : time_fields) : Prop :=
  exists Y M D H N S frac zone,
    tok = (Y ++ "-" ++ M ++ "-" ++ D ++ "T" ++ H ++ ":" ++ N ++ ":" ++ S ++ frac ++ zone)%string /\
    figures 4 Y (tf_y f) /\ figures 2 M (tf_mo f) /\ figures 2 D (tf_d f) /\ figures 2 H (tf_h f) /\ figures 2 N (tf_mi f) /\ figures 2 S (tf_s f) /\
    fraction_parts frac (tf_ns f) /\ zone_parts zone (tf_zh f) (tf_zm f) (tf_zneg f).
Lemma time_at_fraction s : time_at s =
  match field 4 "-" s with None => None | Some (y, s) =>
  match field 2 "-" s with None => None | Some (mo, s) =>
  match field 2 "T" s with None => None | Some (d, s) =>
  match field 2 ":" s with None => None | Some (h, s) =>
  match field 2 ":" s with None => None | Some (mi, s) =>
  match field 2 "" s with None => None | Some (sec, s) =>
  let '(ns, s) := fraction_at s in
  match time_zone s with None => None | Some (zh, zm, zneg, s) =>
  Some (mkTF y mo d h mi sec ns zh zm zneg, s)
  end end end end end end end.
Proof. reflexivity. Qed.
Theorem time_literal_parts tok f : time_literal tok f <-> time_parts tok f.
Proof.
  unfold time_literal, time_parts. rewrite time_at_fraction. split.
  - destruct (field 4 "-" tok) as [[y r1]|] eqn:F1; [|discriminate]. apply field_spec in F1 as (Y & -> & G1).
    destruct (field 2 "-" r1) as [[mo r2]|] eqn:F2; [|discriminate]. apply field_spec in F2 as (M & -> & G2).
    destruct (field 2 "T" r2) as [[d r3]|] eqn:F3; [|discriminate]. apply field_spec in F3 as (D & -> & G3).
    destruct (field 2 ":" r3) as [[h r4]|] eqn:F4; [|discriminate]. apply field_spec in F4 as (H & -> & G4).
    destruct (field 2 ":" r4) as [[n r5]|] eqn:F5; [|discriminate]. apply field_spec in F5 as (N & -> & G5).
    destruct (field 2 "" r5) as [[s r6]|] eqn:F6; [|discriminate]. apply field_spec in F6 as (S & -> & G6).
    destruct (fraction_at r6) as [ns r7] eqn:F7. destruct (time_zone r7) as [[[[zh zm] zn] r8]|] eqn:F8; [|discriminate]. intros [= <- ->].
    apply zone_at_parts in F8. destruct (fraction_at_parts _ _ _ F7 (zone_not_dot _ _ _ _ F8)) as (frac & -> & G7).
    exists Y, M, D, H, N, S, frac, r7. cbn [tf_y tf_mo tf_d tf_h tf_mi tf_s tf_ns tf_zh tf_zm tf_zneg]. auto 10.
  - intros (Y & M & D & H & N & S & frac & zone & -> & G1 & G2 & G3 & G4 & G5 & G6 & G7 & G8).
    rewrite !field_figures with (v := tf_y f) by exact G1. rewrite field_figures with (v := tf_mo f) by exact G2. rewrite field_figures with (v := tf_d f) by exact G3.
    rewrite field_figures with (v := tf_h f) by exact G4. rewrite field_figures with (v := tf_mi f) by exact G5.
    pose proof (field_figures 2 S (tf_s f) "" (frac ++ zone) G6) as Q. cbn [append] in Q. rewrite Q. rewrite (fraction_parts_at _ _ _ G7 (zone_not_dot _ _ _ _ G8)), (zone_parts_at _ _ _ _ G8). destruct f; reflexivity.
Qed.

Lemma zone_says_parts zone off : zone_says zone off <-> exists zh zm zneg, zone_parts zone zh zm zneg /\ zh <= 24 /\ zm <= 60 /\ off = (zh * 3600 + zm * 60) * (if zneg then -1 else 1).
Proof.
  split.
  - intros [|hh h mm m Fh Fm Lh Lm|hh h mm m Fh Fm Lh Lm].
    + exists 0, 0, false. split; [left; auto|lia].
    + exists h, m, false. split; [right; exists hh, mm; auto|lia].
    + exists h, m, true. split; [right; exists hh, mm; auto|lia].
  - intros (zh & zm & zneg & [(-> & -> & -> & ->)|(hh & mm & -> & Fh & Fm)] & Lh & Lm & ->); [apply zs_utc|]. destruct zneg.
    + replace ((zh * 3600 + zm * 60) * -1) with (- ((zh * 60 + zm) * 60)) by lia. apply (zs_behind hh zh mm zm); auto.
    + replace ((zh * 3600 + zm * 60) * 1) with ((zh * 60 + zm) * 60) by lia. apply (zs_ahead hh zh mm zm); auto.
Qed.
Lemma fraction_says_parts frac k ns : k = 0%nat \/ k = 9%nat -> fraction_says frac k ns -> fraction_parts frac ns.
Proof.
  intros K Q. revert K. destruct Q as [|s k v L F]; intros K; [left; auto|]. destruct K as [->| ->].
  - destruct F as [L0 F]. exfalso. apply numeral_dec in F as (_ & _ & F). destruct s; [now apply F|discriminate L0].
  - right. exists s. split; [reflexivity|]. replace (v * 10 ^ (9 - Z.of_nat 9)) with v by (cbn; lia). exact F.
Qed.
Theorem time_written_spec tok t : time_written tok t <-> exists f, time_literal tok f /\ parse_time f = Some t.
Proof.
  split.
  - assert (K : forall k, k = 0%nat \/ k = 9%nat -> time_says tok k t -> exists f, time_literal tok f /\ parse_time f = Some t).
    { intros k K (Y & y & M & m & D & d & H & h & N & n & S & s & frac & zone & dd & -> & G1 & G2 & G3 & G4 & G5 & G6 & Lh & Ln & Ls & DN & FS & ZS & E).
      apply zone_says_parts in ZS as (zh & zm & zneg & ZP & Z1 & Z2 & Z3). apply (fraction_says_parts _ _ _ K) in FS. apply day_number_spec in DN as (DD & M1 & D1).
      exists (mkTF y m d h n s (tm_nsec t) zh zm zneg). split.
      - apply time_literal_parts. exists Y, M, D, H, N, S, frac, zone. cbn [tf_y tf_mo tf_d tf_h tf_mi tf_s tf_ns tf_zh tf_zm tf_zneg]. auto 10.
      - unfold parse_time. cbn [tf_y tf_mo tf_d tf_h tf_mi tf_s tf_ns tf_zh tf_zm tf_zneg].
        rewrite (proj2 (Z.leb_le 1 m)), (proj2 (Z.leb_le m 12)), (proj2 (Z.leb_le 1 d)), (proj2 (Z.leb_le d _)), (proj2 (Z.ltb_lt h 24)),
          (proj2 (Z.ltb_lt n 60)), (proj2 (Z.ltb_lt s 60)), (proj2 (Z.leb_le zh 24)), (proj2 (Z.leb_le zm 60)) by lia.
        cbn [andb]. rewrite <- Z3. destruct t as [sec nsec off]. cbn [tm_sec tm_nsec tm_off] in *. do 2 f_equal. lia. }
    intros [T|T]; [exact (K 0%nat (or_introl eq_refl) T)|exact (K 9%nat (or_intror eq_refl) T)].
  - intros (f & T & P). apply time_literal_parts in T as (Y & M & D & H & N & S & frac & zone & -> & G1 & G2 & G3 & G4 & G5 & G6 & G7 & G8).
    unfold parse_time in P. destruct (_ && _)%bool eqn:B; [|discriminate]. rewrite !andb_true_iff, !Z.leb_le, !Z.ltb_lt in B. destruct B as ((((((((B1 & B2) & B3) & B4) & B5) & B6) & B7) & B8) & B9).
    injection P as <-.
    assert (Q : forall k, fraction_says frac k (tf_ns f) -> time_says (Y ++ "-" ++ M ++ "-" ++ D ++ "T" ++ H ++ ":" ++ N ++ ":" ++ S ++ frac ++ zone)
      k (mkTime (days_of (tf_y f) (tf_mo f) (tf_d f) * 86400 + tf_h f * 3600 + tf_mi f * 60 + tf_s f - (tf_zh f * 3600 + tf_zm f * 60) * (if tf_zneg f then -1 else 1)) (tf_ns f) ((tf_zh f * 3600 + tf_zm f * 60) * (if tf_zneg f then -1 else 1)))).
    { intros k FS. exists Y, (tf_y f), M, (tf_mo f), D, (tf_d f), H, (tf_h f), N, (tf_mi f), S, (tf_s f), frac, zone, (days_of (tf_y f) (tf_mo f) (tf_d f)). cbn [tm_sec tm_nsec tm_off].
      split; [reflexivity|]. repeat (split; [assumption|]). split; [apply day_number_spec; auto|]. split; [exact FS|]. split; [|lia]. apply zone_says_parts. eauto 10. }
    destruct G7 as [(-> & E)|(a & -> & F)].
    + left. apply Q. rewrite E. apply fs_none.
    + right. apply Q. replace (tf_ns f) with (tf_ns f * 10 ^ (9 - Z.of_nat 9)) by (cbn; lia). now apply fs_some.
Qed.
Lemma time_shaped_spec tok : time_shaped tok <-> exists f, time_literal tok f.
Proof.
  split.
  - intros (Y & y & M & m & D & d & H & h & N & n & S & s & frac & zone & -> & G1 & G2 & G3 & G4 & G5 & G6 & FR & ZN).
    assert (exists ns, fraction_parts frac ns) as (ns & FP) by (destruct FR as [->|(a & v & -> & F)]; [exists 0; left; auto|exists v; right; eauto]).
    assert (exists zh zm zneg, zone_parts zone zh zm zneg) as (zh & zm & zneg & ZP).
    { destruct ZN as [->|(hh & h' & mm & m' & [-> | ->] & F1 & F2)]; [exists 0, 0, false; left; auto|exists h', m', false; right; exists hh, mm; auto|exists h', m', true; right; exists hh, mm; auto]. }
    exists (mkTF y m d h n s ns zh zm zneg). apply time_literal_parts. exists Y, M, D, H, N, S, frac, zone. cbn [tf_y tf_mo tf_d tf_h tf_mi tf_s tf_ns tf_zh tf_zm tf_zneg]. auto 10.
  - intros (f & T). apply time_literal_parts in T as (Y & M & D & H & N & S & frac & zone & -> & G1 & G2 & G3 & G4 & G5 & G6 & G7 & G8).
    exists Y, (tf_y f), M, (tf_mo f), D, (tf_d f), H, (tf_h f), N, (tf_mi f), S, (tf_s f), frac, zone. split; [reflexivity|]. repeat (split; [assumption|]). split.
    + destruct G7 as [(-> & _)|(a & -> & F)]; [now left|right; eauto].
    + destruct G8 as [(-> & _)|(hh & mm & -> & F1 & F2)]; [now left|right]. exists hh, (tf_zh f), mm, (tf_zm f). split; [destruct (tf_zneg f); auto|auto].
Qed.
Lemma time_written_one tok t1 t2 : time_written tok t1 -> time_written tok t2 -> t1 = t2.
Proof. rewrite !time_written_spec. unfold time_literal. intros (f & A & B) (g & C & D). rewrite A in C. injection C as <-. rewrite B in D. now injection D. Qed.
