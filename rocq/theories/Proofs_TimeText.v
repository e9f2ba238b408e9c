(** Proofs_TimeText.v -- the texts of times are read back. *)
From Coq Require Import ZArith NArith List String Ascii Bool Lia.
From Verif Require Import Base Model_Lex Model_Float Model_Time Model_Parser Proofs_Lex Proofs_Num Proofs_Float Proofs_FloatText.
Import ListNotations.
Local Open Scope string_scope.
Local Open Scope Z_scope.

(** ---------- the calendar ---------- *)

Lemma leap_bool y : is_leap y = true <-> (y mod 4 = 0 /\ (y mod 100 <> 0 \/ y mod 400 = 0)).
Proof. unfold is_leap. rewrite andb_true_iff, orb_true_iff, negb_true_iff, !Z.eqb_eq, Z.eqb_neq. tauto. Qed.
Lemma year_length y : year_start (y + 1) - year_start y = if is_leap y then 366 else 365.
Proof.
  unfold year_start. replace (y + 1 - 1) with y by lia. destruct (is_leap y) eqn:E.
  - apply leap_bool in E. Z.div_mod_to_equations. lia.
  - assert (N : ~ (y mod 4 = 0 /\ (y mod 100 <> 0 \/ y mod 400 = 0))) by (rewrite <- leap_bool; congruence). Z.div_mod_to_equations. lia.
Qed.
Lemma year_of_spec n : year_start (year_of n) <= n < year_start (year_of n + 1).
Proof.
  unfold year_of. cbv zeta. set (y := n * 400 / 146097 + 1).
  assert (A : year_start (y - 1) <= n < year_start (y + 2)).
  { unfold year_start, y. Z.div_mod_to_equations. lia. }
  destruct (Z.ltb_spec n (year_start y)).
  - replace (y - 1 + 1) with y by lia. lia.
  - destruct (Z.leb_spec (year_start (y + 1)) n).
    + replace (y + 1 + 1) with (y + 2) by lia. lia.
    + lia.
Qed.
Lemma date_of_spec n y m d : date_of n = (y, m, d) -> days_of y m d = n /\ 1 <= m <= 12 /\ 1 <= d <= days_in y m /\ d <= 31.
Proof.
  unfold date_of. pose proof (year_of_spec n) as Y. pose proof (year_length (year_of n)) as L. set (x := year_of n) in *. set (k := n - year_start x).
  assert (K : 0 <= k < if is_leap x then 366 else 365) by (unfold k; lia). unfold month_days. cbn [month_of].
  replace n with (year_start x + k) by (unfold k; lia). clearbody k. clear Y L.
  unfold days_of, days_in, month_start, month_days.
  destruct (is_leap x) eqn:E; cbn match in K;
  repeat (match goal with |- context [?a <? ?b] =>  destruct (Z.ltb_spec a b) end; [intros [= <- <- <-]; generalize (year_start x); intros z; rewrite ?E; repeat match goal with |- context [Z.to_nat ?e] => let v := eval vm_compute in (Z.to_nat e) in change (Z.to_nat e) with v end; cbn [firstn fold_right nth]; lia|]); lia.
Qed.

(** ---------- fields of digits ---------- *)

Lemma digits_n_app s r : all_c is_dec s = true -> digits_n (String.length s) (s ++ r) = Some (s, r).
Proof.
  induction s as [|c s IH]; [reflexivity|]. cbn [all_c String.length append digits_n]. rewrite andb_true_iff. intros [-> A]. now rewrite (IH A).
Qed.
Lemma field_dec_n n x sep r : 0 <= x < 10 ^ Z.of_nat n -> field n sep (dec_n n x ++ sep ++ r) = Some (x, r).
Proof.
  intros H. destruct (dec_n_spec n x 0 ltac:(lia)) as (V & A & L). unfold field. rewrite <- L at 1. rewrite digits_n_app by exact A.
  rewrite prefix_app, drop_app. unfold dec_val. rewrite V, Z.mod_small by exact H. do 2 f_equal.
Qed.

(** A time whose text is read back: year 0 to 9999 in its own zone, a zone offset of whole minutes and less than a day,
    and nanoseconds that are 0 or do not end in a zero digit. *)
Definition time_plain (t : time) : Prop :=
  0 <= year_of ((tm_sec t + tm_off t) / 86400) <= 9999 /\ tm_off t mod 60 = 0 /\ - 86400 < tm_off t < 86400 /\
  (tm_nsec t = 0 \/ (0 < tm_nsec t < 1000000000 /\ tm_nsec t mod 10 <> 0)).

Lemma trim_zeros_id s c : c <> "0"%char -> trim_zeros (s ++ String c "") = (s ++ String c "")%string.
Proof.
  intros N. induction s as [|d s IH]; cbn [append trim_zeros].
  - destruct (Ascii.eqb_spec c "0"); [contradiction|reflexivity].
  - rewrite IH. destruct s; reflexivity.
Qed.
Lemma dec_n_last n x : 0 <= x -> exists s, dec_n (S n) x = (s ++ String (chr (48 + x mod 10)) "")%string.
Proof.
  intros Hx. induction n as [|n [s IH]].
  - exists "". cbn [dec_n append]. rewrite Z.div_1_r. reflexivity.
  - cbn [dec_n] in *. rewrite IH. eexists (String _ s). reflexivity.
Qed.
Lemma trim_nanos x : 0 <= x -> x mod 10 <> 0 -> trim_zeros (dec_n 9 x) = dec_n 9 x.
Proof.
  intros Hx N. destruct (dec_n_last 8 x Hx) as [s ->]. apply trim_zeros_id. intros E. apply N.
  assert (code (chr (48 + x mod 10)) = 48) by (now rewrite E). pose proof (Z.mod_pos_bound x 10). rewrite code_chr in H by lia. lia.
Qed.

Lemma zone_read off rest : off mod 60 = 0 -> - 86400 < off < 86400 ->
  exists zh zm zneg, time_zone (zone_text off ++ rest) = Some (zh, zm, zneg, rest) /\ 0 <= zh <= 24 /\ 0 <= zm < 60 /\
    (zh * 3600 + zm * 60) * (if zneg then -1 else 1) = off.
Proof.
  intros M B. unfold zone_text. destruct (Z.eqb_spec off 0) as [->|N].
  - exists 0, 0, false. cbn. repeat split; lia.
  - cbv zeta. set (m := Z.quot off 60). set (a := Z.abs m).
    assert (Q : off = 60 * m). { unfold m. pose proof (Z.quot_rem' off 60).
      assert (Z.rem off 60 = 0) by (apply Z.rem_divide; [lia|]; apply Z.mod_divide; [lia|exact M]). lia. }
    clearbody m. assert (A : 0 <= a < 1440) by lia.
    exists (a / 60), (a mod 60), (m <? 0). pose proof (Z.mod_pos_bound a 60). pose proof (Z.div_mod a 60).
    assert (0 <= a / 60 < 24) by (split; [apply Z.div_pos; lia|apply Z.div_lt_upper_bound; lia]).
    split; [|split; [lia|split; [lia|]]].
    + cbn [append]. unfold time_zone.
      replace (Ascii.eqb (if m <? 0 then "-" else "+") "Z") with false by (destruct (m <? 0); reflexivity).
      replace (one_of "+-" (if m <? 0 then "-" else "+")) with true by (destruct (m <? 0); reflexivity).
      rewrite !app_str_assoc. pose proof (field_dec_n 2 (a / 60) ":" (dec_n 2 (a mod 60) ++ rest)) as F0. cbn [append] in F0 |- *. rewrite F0 by (cbn; lia).
      pose proof (field_dec_n 2 (a mod 60) "" rest) as F. cbn [append] in F. rewrite F by (cbn; lia). destruct (m <? 0); reflexivity.
    + destruct (Z.ltb_spec m 0); lia.
Qed.

Theorem time_read t rest : time_plain t ->
  (let! (f, rest) := of_opt (scan_time (time_text t ++ rest)) in let! t := of_opt (parse_time f) in Ok (t, rest)) = Ok (t, rest).
Proof.
  intros (Y & M & B & NS). unfold time_text, format_time. set (loc := tm_sec t + tm_off t) in *.
  destruct (date_of (loc / 86400)) as [[y m] d] eqn:D. 
  assert (Ey : y = year_of (loc / 86400)). { unfold date_of in D. destruct (month_of _ _ _). now injection D. }
  rewrite <- Ey in Y. apply date_of_spec in D as (D & Hm & Hd & Hd31).
  set (s := loc mod 86400). assert (Hs : 0 <= s < 86400) by (apply Z.mod_pos_bound; lia).
  assert (L : loc = 86400 * days_of y m d + s) by (rewrite D; apply Z.div_mod; lia).
  set (hh := s / 3600). set (mi := s / 60 mod 60). set (ss := s mod 60).
  assert (T : s = hh * 3600 + mi * 60 + ss /\ 0 <= hh < 24 /\ 0 <= mi < 60 /\ 0 <= ss < 60).
  { unfold hh, mi, ss. clearbody s. Z.div_mod_to_equations. lia. } clearbody hh mi ss.
  destruct (zone_read (tm_off t) rest M B) as (zh & zm & zneg & ZT & Z1 & Z2 & Z3).
  assert (YT : year_text y = dec_n 4 y). { unfold year_text. rewrite (proj2 (Z.ltb_ge y 0)), (proj2 (Z.ltb_ge 9999 y)) by lia. reflexivity. }
  rewrite YT.
  assert (TA : forall frac ns, (match (frac ++ zone_text (tm_off t) ++ rest)%string with
                  | String c r =>
                      if Ascii.eqb c "." then
                        match digits_n 9 r with Some (x, r) => (dec_val x, r) | None => (0, (frac ++ zone_text (tm_off t) ++ rest)%string) end
                      else (0, (frac ++ zone_text (tm_off t) ++ rest)%string)
                  | EmptyString => (0, (frac ++ zone_text (tm_off t) ++ rest)%string)
                  end) = (ns, (zone_text (tm_off t) ++ rest)%string) ->
     time_at ((dec_n 4 y ++ "-" ++ dec_n 2 m ++ "-" ++ dec_n 2 d ++ "T" ++ dec_n 2 hh ++ ":" ++ dec_n 2 mi ++ ":" ++ dec_n 2 ss ++ frac ++ zone_text (tm_off t)) ++ rest)
     = Some (mkTF y m d hh mi ss ns zh zm zneg, rest)).
  { intros frac ns H. rewrite !app_str_assoc. unfold time_at. rewrite !field_dec_n by (cbn; lia).
    pose proof (field_dec_n 2 ss "" (frac ++ zone_text (tm_off t) ++ rest)) as F. cbn [append] in F. rewrite F by (cbn; lia).
    rewrite H, ZT. reflexivity. }
  assert (SC : forall x r, time_at x = Some r -> scan_time x = Some r) by (intros x r H; destruct x; cbn [scan_time]; now rewrite H).
  assert (PT : forall ns, ns = tm_nsec t -> parse_time (mkTF y m d hh mi ss ns zh zm zneg) = Some t).
  { intros ns ->. unfold parse_time. cbn [tf_y tf_mo tf_d tf_h tf_mi tf_s tf_ns tf_zh tf_zm tf_zneg].
    rewrite (proj2 (Z.leb_le 1 m)), (proj2 (Z.leb_le m 12)), (proj2 (Z.leb_le 1 d)), (proj2 (Z.leb_le d _)), (proj2 (Z.ltb_lt hh 24)),
      (proj2 (Z.ltb_lt mi 60)), (proj2 (Z.ltb_lt ss 60)), (proj2 (Z.leb_le zh 24)), (proj2 (Z.leb_le zm 60)) by lia.
    cbn [andb]. rewrite Z3. destruct t as [sec nsec off]. cbn [tm_sec tm_nsec tm_off] in *. do 2 f_equal. unfold loc in L. lia. }
  assert (ZN : forall r, match (zone_text (tm_off t) ++ r)%string with String c _ => Ascii.eqb c "." = false | _ => False end).
  { intros r. unfold zone_text. destruct (tm_off t =? 0); [reflexivity|]. cbv zeta. cbn [append]. destruct (Z.quot (tm_off t) 60 <? 0); reflexivity. }
  destruct NS as [NS|[NS N0]].
  - rewrite NS. cbn [Z.ltb Z.compare andb].
    assert (H : scan_time ((dec_n 4 y ++ "-" ++ dec_n 2 m ++ "-" ++ dec_n 2 d ++ "T" ++ dec_n 2 hh ++ ":" ++ dec_n 2 mi ++ ":" ++ dec_n 2 ss ++ "" ++ zone_text (tm_off t)) ++ rest) = Some (mkTF y m d hh mi ss 0 zh zm zneg, rest)).
    { apply SC, TA. cbn [append]. specialize (ZN rest). destruct (zone_text (tm_off t) ++ rest)%string; [contradiction|]. now rewrite ZN. }
    rewrite H. cbn [of_opt rbind]. rewrite PT by auto. reflexivity.
  - rewrite (proj2 (Z.ltb_lt 0 _)), (proj2 (Z.eqb_neq (tm_nsec t) 0)) by lia. cbn [andb negb]. rewrite trim_nanos by lia.
    assert (H : scan_time ((dec_n 4 y ++ "-" ++ dec_n 2 m ++ "-" ++ dec_n 2 d ++ "T" ++ dec_n 2 hh ++ ":" ++ dec_n 2 mi ++ ":" ++ dec_n 2 ss ++ ("." ++ dec_n 9 (tm_nsec t)) ++ zone_text (tm_off t)) ++ rest) = Some (mkTF y m d hh mi ss (tm_nsec t) zh zm zneg, rest)).
    { apply SC, TA. rewrite app_str_assoc.
      change ("." ++ dec_n 9 (tm_nsec t) ++ zone_text (tm_off t) ++ rest)%string with (String "." (dec_n 9 (tm_nsec t) ++ zone_text (tm_off t) ++ rest)).
      cbn match. change (Ascii.eqb "." ".") with true. cbn match.
      destruct (dec_n_spec 9 (tm_nsec t) 0 ltac:(lia)) as (V & A & Len). rewrite <- Len at 1. rewrite digits_n_app by exact A.
      unfold dec_val. rewrite V, Z.mod_small by (cbn; lia). reflexivity. }
    rewrite H. cbn [of_opt rbind]. rewrite PT by auto. reflexivity.
Qed.
