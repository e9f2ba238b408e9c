(** Props_Round.v -- C48: UtilRound. *)
From Coq Require Import ZArith NArith List String Ascii Bool SpecFloat Lia.
From Verif Require Import Base Model_Lex Model_Float Model_Round Spec_Round Proofs_Float.
Import ListNotations.
Local Open Scope string_scope.
Local Open Scope Z_scope.

(** ---------- values ---------- *)

Lemma F64_ok : fmt_ok F64. Proof. now right. Qed.
Lemma value_finite s m e n d : has_value (S754_finite s m e) n d <-> n * e_down e = (if s then Z.neg m else Z.pos m) * e_up e * d.
Proof. reflexivity. Qed.
Lemma value_ratio s m e : has_value (S754_finite s m e) (if s then - (Zpos m * e_up e) else Zpos m * e_up e) (e_down e).
Proof. rewrite value_finite. destruct s; [rewrite <- Pos2Z.opp_pos|]; ring. Qed.

(** Two exact values of a float are the same fraction. *)
Lemma value_unique f n d n' d' : 0 < d -> 0 < d' -> has_value f n d -> has_value f n' d' -> n * d' = n' * d.
Proof.
  intros D D'. destruct f as [s| | |s m e]; cbn [has_value]; try contradiction; [lia|]. fold (e_up e). fold (e_down e). intros A B.
  pose proof (e_down_pos e) as P. apply (Z.mul_reg_r _ _ (e_down e)); [lia|].
  replace (n * d' * e_down e) with (n * e_down e * d') by ring. replace (n' * d * e_down e) with (n' * e_down e * d) by ring. rewrite A, B. ring.
Qed.
Lemma value_other f n d n' d' : 0 < d -> 0 < d' -> has_value f n d -> n * d' = n' * d -> has_value f n' d'.
Proof.
  intros D D' A E. destruct f as [s| | |s m e]; cbn [has_value] in *; try contradiction; [nia|]. fold (e_up e) in *. fold (e_down e) in *.
  apply (Z.mul_reg_r _ _ d); [lia|]. replace (n' * e_down e * d) with (n' * d * e_down e) by ring. rewrite <- E.
  replace (n * d' * e_down e) with (n * e_down e * d') by ring. rewrite A. ring.
Qed.

(** ---------- nearest is nearest ---------- *)

Lemma nearest_none n d : 0 <= n -> 0 < d -> n <= max_float * d -> forall neg, nearest F64 neg n d <> None.
Proof.
  intros N D L neg X. destruct (Z.eq_dec n 0) as [->|NZ]; [discriminate|]. assert (NP : 0 < n) by lia.
  destruct (last_bit_spec F64 n d F64_ok NP D) as (E1 & E2 & E3). remember (last_bit F64 n d) as e eqn:EE.
  assert (EB : e <= 971).
  { destruct (Z.le_gt_cases e 971) as [|G]; [assumption|]. exfalso. apply E3; [cbn; lia|]. unfold below.
    replace (Z.max 0 (- (e + f_prec F64 - 1))) with 0 by (cbn [f_prec F64]; lia). rewrite Z.mul_1_r.
    apply Z.le_lt_trans with (max_float * d); [exact L|]. rewrite Z.mul_comm. apply Z.mul_lt_mono_pos_l; [lia|].
    apply Z.lt_le_trans with (2 ^ 1024); [reflexivity|]. apply Z.pow_le_mono_r; cbn [f_prec F64]; lia. }
  rewrite (nearest_at F64 neg n d e F64_ok NP D) in X by (symmetry; exact EE). cbv zeta in X.
  assert (QB : e = 971 -> round_half_even (n * 2 ^ Z.max 0 (- e)) (d * 2 ^ Z.max 0 e) <> 2 ^ 53).
  { intros ->. change (2 ^ Z.max 0 (- (971))) with 1. change (Z.max 0 971) with 971. rewrite Z.mul_1_r.
    assert (P : 0 < 2 ^ 971) by (apply pow2_pos; lia). unfold max_float in L. revert L P. generalize (2 ^ 971) as u. intros u L P.
    destruct (round_bounds n (d * u)) as (_ & B & _); [lia|nia|]. cbv zeta in B. intros Q. rewrite Q in B.
    change (2 ^ 53) with 9007199254740992 in *. nia. }
  set (q := round_half_even (n * 2 ^ Z.max 0 (- e)) (d * 2 ^ Z.max 0 e)) in *. clearbody q. destruct (q =? 0); [discriminate|].
  change (f_prec F64) with 53 in X. change (f_emax F64) with 1024 in X.
  destruct (Z.eqb_spec q (2 ^ 53)) as [EQ|NE]; cbv iota beta in X; match type of X with (if ?c then _ else _) = _ => destruct c eqn:Y; [|discriminate] end;
  apply Z.ltb_lt in Y; [|lia]. assert (e = 971) by lia. now apply QB in EQ.
Qed.

(** Every float64 is a multiple of 2^-1074. *)
Definition tiny : Z := 2 ^ 1074.
Lemma tiny_pos : 0 < tiny. Proof. reflexivity. Qed.
Definition mant (f : spec_float) : Z :=
  match f with S754_finite s m e => (if s then Z.neg m else Z.pos m) * 2 ^ (e + 1074) | _ => 0 end.
Definition real_value (f : spec_float) : bool := match f with S754_finite _ _ _ | S754_zero _ => true | _ => false end.
Global Opaque tiny.

Lemma tiny_eq : tiny = 2 ^ 1074. Proof. Transparent tiny. reflexivity. Qed.
Global Opaque tiny.
Lemma up_down e : -1074 <= e -> 2 ^ (e + 1074) * e_down e = e_up e * tiny.
Proof.
  intros L. unfold e_up, e_down. rewrite tiny_eq. rewrite <- !Z.pow_add_r by lia. f_equal. lia.
Qed.
Lemma valid_canon s m e : valid_binary 53 1024 (S754_finite s m e) = true -> canon F64 (Zpos m) e.
Proof. intros V. apply (canon_valid F64 s m e F64_ok). exact V. Qed.
Lemma canon_emin m e : canon F64 m e -> -1074 <= e <= 971 /\ 0 < m < 2 ^ 53 /\ (-1074 < e -> 2 ^ 52 <= m).
Proof. intros C. exact C. Qed.

Lemma value_mant f n d : valid_binary 53 1024 f = true -> has_value f n d <-> real_value f = true /\ n * tiny = mant f * d.
Proof.
  intros V. destruct f as [s| | |s m e]; cbn [has_value real_value mant]; try (split; [contradiction|intros [X _]; discriminate]).
  - pose proof tiny_pos. split; [intros ->; split; [reflexivity|lia]|intros [_ X]; nia].
  - fold (e_up e). fold (e_down e). destruct (canon_emin _ _ (valid_canon _ _ _ V)) as ((L & _) & _).
    pose proof (up_down e L) as U. pose proof (e_up_pos e). pose proof (e_down_pos e) as P. pose proof tiny_pos.
    assert (P2 : 0 < 2 ^ (e + 1074)) by (apply pow2_pos; lia).
    set (M := if s then Z.neg m else Z.pos m). split.
    + intros A. split; [reflexivity|]. apply (Z.mul_reg_r _ _ (e_down e)); [lia|].
      replace (n * tiny * e_down e) with (n * e_down e * tiny) by ring. rewrite A.
      replace (M * 2 ^ (e + 1074) * d * e_down e) with (M * d * (2 ^ (e + 1074) * e_down e)) by ring. rewrite U. ring.
    + intros [_ A]. apply (Z.mul_reg_r _ _ tiny); [lia|]. replace (n * e_down e * tiny) with (n * tiny * e_down e) by ring. rewrite A.
      replace (M * 2 ^ (e + 1074) * d * e_down e) with (M * d * (2 ^ (e + 1074) * e_down e)) by ring. rewrite U. ring.
Qed.

(** What [nearest] computes, in multiples of 2^-1074 *)
Lemma nearest_mant n d f neg : 0 < n -> 0 < d -> nearest F64 neg n d = Some f ->
  valid_binary 53 1024 f = true /\ real_value f = true
  /\ exists e0 q, -1074 <= e0 /\ q = round_half_even (n * tiny) (d * 2 ^ (e0 + 1074)) /\ mant f = (if neg then - q else q) * 2 ^ (e0 + 1074)
     /\ (-1074 < e0 -> d * 2 ^ 52 * 2 ^ (e0 + 1074) <= n * tiny).
Proof.
  intros N D X. destruct (last_bit_spec F64 n d F64_ok N D) as (E1 & E2 & E3).
  assert (VR : valid_binary 53 1024 f = true /\ real_value f = true).
  { destruct (nearest_canon F64 neg n d f F64_ok ltac:(lia) D X) as [->|(m & e & -> & C)]; [split; reflexivity|].
    split; [|reflexivity]. now apply (canon_valid F64 neg m e F64_ok). }
  destruct VR as [VB RV]. split; [exact VB|]. split; [exact RV|].
  remember (last_bit F64 n d) as e0 eqn:EE.
  assert (L : -1074 <= e0) by exact E1. exists e0, (round_half_even (n * tiny) (d * 2 ^ (e0 + 1074))). split; [exact L|]. split; [reflexivity|].
  pose proof (up_down e0 L) as UD. pose proof tiny_pos as TP. pose proof (e_up_pos e0) as UP. pose proof (e_down_pos e0) as DP.
  assert (P2 : 0 < 2 ^ (e0 + 1074)) by (apply pow2_pos; lia).
  assert (K : exists k, 0 < k /\ tiny = e_down e0 * k /\ 2 ^ (e0 + 1074) = e_up e0 * k).
  { exists (2 ^ (1074 - Z.max 0 (- e0))). split; [apply pow2_pos; lia|]. rewrite tiny_eq. unfold e_up, e_down. rewrite <- !Z.pow_add_r by lia.
    split; f_equal; lia. }
  destruct K as (k & KP & K1 & K2). split.
  - rewrite (nearest_at F64 neg n d e0 F64_ok N D) in X by (symmetry; exact EE). fold (e_up e0) in X. fold (e_down e0) in X. cbv zeta in X.
    replace (round_half_even (n * tiny) (d * 2 ^ (e0 + 1074))) with (round_half_even (n * e_down e0) (d * e_up e0)).
    2:{ rewrite K1, K2, !Z.mul_assoc. symmetry. apply round_scale; nia. }
    pose proof (round_bounds (n * e_down e0) (d * e_up e0) ltac:(nia) ltac:(nia)) as (_ & _ & Q0). cbv zeta in Q0.
    set (q := round_half_even (n * e_down e0) (d * e_up e0)) in *. clearbody q.
    destruct (Z.eqb_spec q 0) as [Q|NZ]; [injection X as <-; cbn; rewrite Q; destruct neg; reflexivity|].
    destruct (Z.eqb_spec q (2 ^ f_prec F64)) as [EQ|NE]; cbv iota beta in X; (match type of X with (if ?c then _ else _) = _ => destruct c; [discriminate|] end); injection X as <-; cbn [mant].
    + replace (if neg then Z.neg (Z.to_pos (2 ^ (f_prec F64 - 1))) else Z.pos (Z.to_pos (2 ^ (f_prec F64 - 1)))) with (if neg then - 2 ^ 52 else 2 ^ 52) by (destruct neg; reflexivity).
      rewrite EQ. replace (e0 + 1 + 1074) with (1 + (e0 + 1074)) by lia. rewrite Z.pow_add_r by lia. destruct neg; cbn [f_prec F64]; [replace (2 ^ 53) with (2 ^ 52 * 2) by reflexivity|replace (2 ^ 53) with (2 ^ 52 * 2) by reflexivity]; ring.
    + destruct q as [|q|q]; try lia. cbn [Z.to_pos]. destruct neg; reflexivity.
  - intros G. destruct (Z.le_gt_cases (d * 2 ^ 52 * 2 ^ (e0 + 1074)) (n * tiny)) as [|H]; [assumption|]. exfalso. apply (E3 G).
    cbn [f_prec F64]. apply (below_ij n d (e0 + 53 - 1) 1074 (52 + (e0 + 1074))); try lia. rewrite <- tiny_eq, Z.pow_add_r by lia.
    revert H. generalize (2 ^ 52) as u, (2 ^ (e0 + 1074)) as v. intros u v H. nia.
Qed.

Lemma mant_multiple g e0 : valid_binary 53 1024 g = true -> -1074 <= e0 ->
  (exists w, mant g = w * 2 ^ (e0 + 1074)) \/ (mant g < 2 ^ 52 * 2 ^ (e0 + 1074) /\ -1074 < e0).
Proof.
  intros V L. destruct g as [s| | |s m e]; try (left; exists 0; reflexivity).
  destruct (canon_emin _ _ (valid_canon _ _ _ V)) as ((L1 & _) & (_ & MU) & _). cbn [mant].
  destruct (Z.le_gt_cases e0 e) as [G|G].
  - left. exists ((if s then Z.neg m else Z.pos m) * 2 ^ (e - e0)). replace (e + 1074) with ((e - e0) + (e0 + 1074)) by lia. rewrite Z.pow_add_r by lia. ring.
  - right. split; [|lia]. assert (P : 0 < 2 ^ (e + 1074)) by (apply pow2_pos; lia).
    assert (SP : 2 ^ (e0 + 1074) = 2 ^ (e0 - e - 1) * (2 * 2 ^ (e + 1074))).
    { rewrite <- Z.pow_succ_r, <- Z.pow_add_r by lia. f_equal. lia. }
    rewrite SP.
    assert (P1 : 0 < 2 ^ (e0 - e - 1)) by (apply pow2_pos; lia). assert (B : 2 ^ 53 = 2 ^ 52 * 2) by reflexivity.
    apply Z.lt_le_trans with (2 ^ 53 * 2 ^ (e + 1074)).
    + apply Z.mul_lt_mono_pos_r; [exact P|]. destruct s; lia.
    + rewrite B. assert (U : 0 < 2 ^ 52) by reflexivity. revert P P1 U. generalize (2 ^ 52) as u, (2 ^ (e + 1074)) as v, (2 ^ (e0 - e - 1)) as w. intros u v w P P1 U.
      replace (u * 2 * v) with (u * v * 2 * 1) by ring. replace (u * (w * (2 * v))) with (u * v * 2 * w) by ring. apply Z.mul_le_mono_nonneg_l; nia.
Qed.

Lemma mant_best n d f g neg : 0 < n -> 0 < d -> nearest F64 neg n d = Some f -> valid_binary 53 1024 g = true ->
  Z.abs (mant f * d - (if neg then - n else n) * tiny) <= Z.abs (mant g * d - (if neg then - n else n) * tiny).
Proof.
  intros N D X V. destruct (nearest_mant n d f neg N D X) as (VF & RF & e0 & q & L & Q & MF & LOW).
  assert (P2 : 0 < 2 ^ (e0 + 1074)) by (apply pow2_pos; lia). pose proof tiny_pos as TP.
  assert (BEST : forall w, Z.abs (q * (d * 2 ^ (e0 + 1074)) - n * tiny) <= Z.abs (w * (d * 2 ^ (e0 + 1074)) - n * tiny)).
  { intros w. rewrite Q. apply round_best; nia. }
  set (u := 2 ^ (e0 + 1074)) in *. set (T := n * tiny) in *.
  assert (POS : forall x, ((exists w, x = w * u) \/ (x < 2 ^ 52 * u /\ -1074 < e0)) -> Z.abs (q * u * d - T) <= Z.abs (x * d - T)).
  { intros x [[w ->]|[B G]].
    - replace (q * u * d) with (q * (d * u)) by ring. replace (w * u * d) with (w * (d * u)) by ring. apply BEST.
    - specialize (LOW G). replace (q * u * d) with (q * (d * u)) by ring. etransitivity; [apply (BEST (2 ^ 52))|].
      assert (x * d < 2 ^ 52 * u * d) by (apply Z.mul_lt_mono_pos_r; lia). replace (2 ^ 52 * (d * u)) with (2 ^ 52 * u * d) by ring.
      replace (d * 2 ^ 52 * u) with (2 ^ 52 * u * d) in LOW by ring. lia. }
  destruct neg.
  - specialize (POS (- mant g)). replace (Z.abs (mant f * d - - n * tiny)) with (Z.abs (q * u * d - T)) by (rewrite MF; unfold T; lia).
    replace (Z.abs (mant g * d - - n * tiny)) with (Z.abs (- mant g * d - T)) by (unfold T; lia). apply POS.
    destruct (mant_multiple (SFopp g) e0) as [[w W]|[B G]]; [destruct g; exact V|exact L| |].
    + left. exists w. fold u in W. rewrite <- W. destruct g as [s| | |s m e]; cbn [SFopp mant]; try reflexivity. destruct s; cbn [negb]; lia.
    + right. split; [|exact G]. fold u in B. replace (- mant g) with (mant (SFopp g)); [exact B|].
      destruct g as [s| | |s m e]; cbn [SFopp mant]; try reflexivity. destruct s; cbn [negb]; lia.
  - rewrite MF. apply POS. apply mant_multiple; assumption.
Qed.

(** The float that [nearest] gives is closest to n/d. *)
Theorem nearest_closest neg n d f : 0 <= n -> 0 < d -> nearest F64 neg n d = Some f -> 
  valid_binary 53 1024 f = true /\ closest f (if neg then - n else n) d.
Proof.
  intros N D X. destruct (Z.eq_dec n 0) as [->|NZ].
  - cbn in X. injection X as <-. split; [reflexivity|]. exists 0, 1. split; [lia|]. split; [reflexivity|]. intros g a' b' _ B' _. destruct neg; cbn; lia.
  - assert (NP : 0 < n) by lia. destruct (nearest_mant n d f neg NP D X) as (VF & RF & _). split; [exact VF|].
    pose proof tiny_pos as TP. exists (mant f), tiny. split; [exact TP|]. split; [apply value_mant; [exact VF|split; [exact RF|lia]]|].
    intros g a' b' V B' G. apply value_mant in G as [_ G]; [|exact V]. pose proof (mant_best n d f g neg NP D X V) as BEST.
    set (x := if neg then - n else n) in *. clearbody x.
    replace (Z.abs (a' * d - x * b') * tiny) with (Z.abs (mant g * d - x * tiny) * b').
    + apply Z.mul_le_mono_nonneg_r; lia.
    + rewrite <- (Z.abs_eq b') at 1 by lia. rewrite <- (Z.abs_eq tiny) at 2 by lia. rewrite <- !Z.abs_mul. f_equal.
      replace ((mant g * d - x * tiny) * b') with (mant g * b' * d - x * tiny * b') by ring. rewrite <- G. ring.
Qed.

(** A float that is closest to the value of a float has that value. *)
Lemma closest_exact f g n d : 0 < d -> closest f n d -> valid_binary 53 1024 g = true -> has_value g n d -> has_value f n d.
Proof.
  intros D (a & b & B & V & C) VG G. specialize (C g n d VG D G). rewrite Z.sub_diag in C. cbn in C.
  assert (a * d = n * b) by nia. eapply value_other; [exact B|exact D|exact V|lia].
Qed.
Lemma closest_same f n d n' d' : 0 < d -> 0 < d' -> n * d' = n' * d -> closest f n d -> closest f n' d'.
Proof.
  intros D D' E (a & b & B & V & C). exists a, b. split; [exact B|]. split; [exact V|]. intros g a' b' VG B' G. specialize (C g a' b' VG B' G).
  assert (X : forall x y, Z.abs (x * d' - n' * y) * d = Z.abs (x * d - n * y) * d').
  { intros x y. rewrite <- (Z.abs_eq d) at 1 by lia. rewrite <- (Z.abs_eq d') at 2 by lia. rewrite <- !Z.abs_mul. f_equal.
    replace ((x * d' - n' * y) * d) with (x * d' * d - n' * d * y) by ring. rewrite <- E. ring. }
  apply (Z.mul_le_mono_pos_r _ _ d); [exact D|]. replace (Z.abs (a * d' - n' * b) * b' * d) with (Z.abs (a * d' - n' * b) * d * b') by ring.
  replace (Z.abs (a' * d' - n' * b') * b * d) with (Z.abs (a' * d' - n' * b') * d * b) by ring. rewrite !X. nia.
Qed.

Lemma float_of_closest neg n d : 0 <= n -> 0 < d -> n <= max_float * d ->
  valid_binary 53 1024 (float_of neg n d) = true /\ closest (float_of neg n d) (if neg then - n else n) d.
Proof.
  intros N D L. unfold float_of. destruct (nearest F64 neg n d) as [f|] eqn:X; [|now apply nearest_none in X]. now apply nearest_closest.
Qed.

(** The integers up to 2^53 are float64 numbers. *)
Lemma small_int N : 0 < N <= 2 ^ 53 -> exists m e, canon F64 m e /\ N * e_down e = m * e_up e.
Proof.
  intros [L U]. destruct (Z.eq_dec N (2 ^ 53)) as [->|NE].
  - exists (2 ^ 52), 1. split; [|reflexivity]. repeat split; cbn; lia.
  - set (l := Z.log2 N). assert (LN : 2 ^ l <= N < 2 ^ Z.succ l) by (apply Z.log2_spec; lia).
    assert (L0 : 0 <= l) by apply Z.log2_nonneg.
    assert (LU : l < 53). { apply Z.log2_lt_pow2; lia. }
    exists (N * 2 ^ (52 - l)), (l - 52). assert (P : 0 < 2 ^ (52 - l)) by (apply pow2_pos; lia).
    assert (S1 : 2 ^ l * 2 ^ (52 - l) = 2 ^ 52) by (rewrite <- Z.pow_add_r by lia; f_equal; lia).
    assert (S2 : 2 ^ Z.succ l * 2 ^ (52 - l) = 2 ^ 53) by (rewrite <- Z.pow_add_r by lia; f_equal; lia).
    split.
    + unfold canon. change (f_prec F64) with 53. change (f_emin F64) with (-1074). change (f_emax F64) with 1024.
      split; [lia|]. split; [split; [nia|rewrite <- S2; nia]|]. intros _. change (53 - 1) with 52. rewrite <- S1. nia.
    + unfold e_up, e_down. replace (Z.max 0 (- (l - 52))) with (52 - l) by lia. replace (Z.max 0 (l - 52)) with 0 by lia. ring.
Qed.

(** The integers next to a float64 number are float64 numbers. *)
Lemma next_int m e N s : canon F64 (Zpos m) e -> Zpos m * e_up e - e_down e < N * e_down e -> N * e_down e < Zpos m * e_up e + e_down e ->
  0 <= N /\ N <= max_float /\ exists f, nearest F64 s N 1 = Some f /\ valid_binary 53 1024 f = true /\ has_value f (if s then - N else N) 1.
Proof.
  intros C L U. pose proof (e_up_pos e) as UP. pose proof (e_down_pos e) as DP.
  assert (N0 : 0 <= N) by nia. split; [exact N0|].
  destruct (canon_emin _ _ C) as ((E1 & E2) & (M0 & M1) & M2).
  assert (REP : N = 0 \/ exists m' e', canon F64 m' e' /\ N * e_down e' = m' * e_up e').
  { destruct (Z.eq_dec N 0); [now left|right]. destruct (Z.le_gt_cases 0 e) as [G|G].
    - exists (Zpos m), e. split; [exact C|]. assert (e_down e = 1) by (unfold e_down; replace (Z.max 0 (- e)) with 0 by lia; reflexivity). nia.
    - apply small_int. split; [lia|]. assert (UE : e_up e = 1) by (unfold e_up; replace (Z.max 0 e) with 0 by lia; reflexivity).
      assert (DE : 2 <= e_down e). { unfold e_down. replace (Z.max 0 (- e)) with (1 + (- e - 1)) by lia. rewrite Z.pow_add_r by lia. pose proof (pow2_pos (- e - 1) ltac:(lia)). lia. }
      change (2 ^ 53) with 9007199254740992 in *. nia. }
  destruct REP as [->|(m' & e' & C' & V)].
  - split; [unfold max_float; pose proof (pow2_pos 971 ltac:(lia)); change (2 ^ 53) with 9007199254740992; nia|].
    exists (S754_zero s). split; [reflexivity|]. split; [reflexivity|]. destruct s; reflexivity.
  - pose proof (e_up_pos e') as UP'. pose proof (e_down_pos e') as DP'. destruct (canon_emin _ _ C') as ((E1' & E2') & (M0' & M1') & M2').
    assert (NP : 0 < N) by nia.
    assert (X : nearest F64 s N 1 = Some (S754_finite s (Z.to_pos m') e')).
    { apply nearest_exact; [apply F64_ok|exact NP|lia|exact C'|]. fold (e_up e'). fold (e_down e'). rewrite V. ring. }
    split.
    { unfold max_float. assert (PW : e_up e' <= 2 ^ 971) by (unfold e_up; apply Z.pow_le_mono_r; lia).
      apply Z.le_trans with (m' * e_up e'); [nia|]. revert PW. generalize (2 ^ 971) as u. intros u PW. change (2 ^ 53) with 9007199254740992 in *. nia. }
    eexists. split; [exact X|]. split; [apply (canon_valid F64 s (Z.to_pos m') e' F64_ok); rewrite Z2Pos.id by lia; exact C'|].
    rewrite value_finite. rewrite <- (Z2Pos.id m') in V by lia. destruct s; [rewrite <- Pos2Z.opp_pos|]; lia.
Qed.

(** ---------- the steps of UtilRound ---------- *)

Lemma fmul_closest mp ep val p n d : has_value (S754_finite false mp ep) (10 ^ p) 1 -> 0 <= p ->
  valid_binary 53 1024 val = true -> 0 < d -> has_value val n d -> Z.abs n * 10 ^ p <= max_float * d ->
  let x := fmul (S754_finite false mp ep) val in
  valid_binary 53 1024 x = true /\ real_value x = true /\ closest x (10 ^ p * n) d.
Proof.
  intros PV P0 V D G L. cbv zeta. pose proof (pow10_pos p P0) as PP.
  destruct val as [s| | |s m e]; try contradiction.
  - cbn [fmul]. split; [reflexivity|]. split; [reflexivity|]. cbn in G. subst n. exists 0, 1. split; [lia|]. split; [reflexivity|]. intros g a' b' _ B' _. cbn. lia.
  - rewrite value_finite in PV, G. cbn [fmul]. rewrite !ratio_eq, xorb_false_l.
    pose proof (e_up_pos e) as U. pose proof (e_down_pos e) as DN. pose proof (e_up_pos ep) as UE. pose proof (e_down_pos ep) as DE.
    set (A := Z.pos mp * e_up ep * (Z.pos m * e_up e)). set (B := e_down ep * e_down e). assert (BP : 0 < B) by (unfold B; nia).
    assert (AP : 0 < A) by (unfold A; nia).
    assert (EQ : (if s then - A else A) * d = 10 ^ p * n * B).
    { unfold A, B. replace (10 ^ p * n * (e_down ep * e_down e)) with (10 ^ p * e_down ep * (n * e_down e)) by ring. rewrite PV, G.
      destruct s; [rewrite <- Pos2Z.opp_pos|]; ring. }
    assert (AB : A * d = Z.abs n * 10 ^ p * B).
    { assert (N : Z.abs n = if s then - n else n). { destruct s; nia. } rewrite N. destruct s; nia. }
    assert (LB : A <= max_float * B).
    { apply (Z.mul_le_mono_pos_r _ _ d); [exact D|]. rewrite AB. replace (max_float * B * d) with (max_float * d * B) by ring. apply Z.mul_le_mono_nonneg_r; lia. }
    destruct (float_of_closest s A B) as [VF C]; [lia|exact BP|exact LB|].
    split; [exact VF|]. split.
    + destruct C as (a & b & _ & HV & _). destruct (float_of s A B); try contradiction; reflexivity.
    + eapply closest_same; [exact BP|exact D|exact EQ|exact C].
Qed.

Lemma div_floor a b : 0 < b -> (a / b) * b <= a < (a / b) * b + b.
Proof. intros B. pose proof (Z.div_mod a b ltac:(lia)). pose proof (Z.mod_pos_bound a b B). nia. Qed.

(** Ceil or Floor of a float is an integer N, half up or down, and N is a float. *)
Lemma round_step x : valid_binary 53 1024 x = true -> real_value x = true ->
  let f := if frac_at_least_half x then Ceil x else Floor x in
  exists N, valid_binary 53 1024 f = true /\ has_value f N 1 /\ Z.abs N <= max_float
    /\ forall n d, 0 < d -> has_value x n d -> (0 <= n -> half_up N n d) /\ (n < 0 -> floor_of N n d).
Proof.
  intros V R. cbv zeta. destruct x as [s| | |s m e]; try discriminate.
  - cbn [frac_at_least_half Floor]. exists 0. split; [reflexivity|]. split; [reflexivity|]. split; [unfold max_float; pose proof (pow2_pos 971 ltac:(lia)); change (2 ^ 53) with 9007199254740992; change (Z.abs 0) with 0; lia|].
    intros n d D X. cbn in X. subst n. unfold half_up, floor_of. lia.
  - pose proof (valid_canon _ _ _ V) as C. cbn [frac_at_least_half Ceil Floor]. rewrite ratio_eq.
    pose proof (e_up_pos e) as U. pose proof (e_down_pos e) as DN. set (A := Z.pos m * e_up e). set (B := e_down e) in *. assert (AP : 0 < A) by (unfold A; nia).
    (* pick N >= 0, the absolute value *)
    assert (GO : forall K, A - B < K * B -> K * B < A + B ->
      (forall n d, 0 < d -> has_value (S754_finite s m e) n d -> (0 <= n -> half_up (if s then - K else K) n d) /\ (n < 0 -> floor_of (if s then - K else K) n d)) ->
      exists N, valid_binary 53 1024 (float_of s K 1) = true /\ has_value (float_of s K 1) N 1 /\ Z.abs N <= max_float
        /\ forall n d, 0 < d -> has_value (S754_finite s m e) n d -> (0 <= n -> half_up N n d) /\ (n < 0 -> floor_of N n d)).
    { intros K L1 L2 H. destruct (next_int m e K s C L1 L2) as (K0 & KM & f & X & VF & HF). exists (if s then - K else K). unfold float_of. rewrite X.
      split; [exact VF|]. split; [exact HF|]. split; [destruct s; lia|exact H]. }
    assert (VAL : forall n d, 0 < d -> has_value (S754_finite s m e) n d -> n * B = (if s then - A else A) * d).
    { intros n d D. rewrite value_finite. fold B. unfold A. destruct s; [rewrite <- Pos2Z.opp_pos|]; intros ->; ring. }
    destruct s.
    + (* negative: Floor *)
      pose proof (div_floor (- A) B DN) as F. apply GO; [nia|nia|]. intros n d D H. apply VAL in H; [|exact D].
      split; [intros; nia|]. intros _. unfold floor_of. rewrite Z.opp_involutive. set (K := - A / B) in *. clearbody K. split; nia.
    + pose proof (div_floor A B DN) as F. pose proof (div_floor (- A) B DN) as F'. pose proof (Z.div_mod A B ltac:(lia)) as DM.
      pose proof (Z.mod_pos_bound A B DN) as MB.
      destruct (Z.leb_spec B (2 * (A mod B))) as [G|G].
      * apply GO; [nia|nia|]. intros n d D H. apply VAL in H; [|exact D]. split; [intros _|intros; nia]. unfold half_up.
        set (K := - (- A / B)) in *. assert (KE : K = A / B + 1). { unfold K. set (Q := - A / B) in *. set (Q' := A / B) in *. clearbody Q Q'. nia. }
        rewrite KE. clear F' KE. clearbody K. set (Q := A / B) in *. set (r := A mod B) in *. clearbody Q r. split; nia.
      * apply GO; [nia|nia|]. intros n d D H. apply VAL in H; [|exact D]. split; [intros _|intros; nia]. unfold half_up.
        clear F'. set (Q := A / B) in *. set (r := A mod B) in *. clearbody Q r. split; nia.
Qed.

Lemma fdiv_closest f mp ep p N : has_value (S754_finite false mp ep) (10 ^ p) 1 -> 0 <= p ->
  valid_binary 53 1024 f = true -> has_value f N 1 -> Z.abs N <= max_float ->
  let x := fdiv f (S754_finite false mp ep) in valid_binary 53 1024 x = true /\ closest x N (10 ^ p).
Proof.
  intros PV P0 V G L. cbv zeta. pose proof (pow10_pos p P0) as PP.
  destruct f as [s| | |s m e]; try contradiction.
  - cbn [fdiv]. split; [reflexivity|]. cbn in G. subst N. exists 0, 1. split; [lia|]. split; [reflexivity|]. intros g a' b' _ B' _. cbn. lia.
  - rewrite value_finite in PV, G. cbn [fdiv]. rewrite !ratio_eq. rewrite xorb_false_r.
    pose proof (e_up_pos e) as U. pose proof (e_down_pos e) as DN. pose proof (e_up_pos ep) as UE. pose proof (e_down_pos ep) as DE.
    set (A := Z.pos m * e_up e * e_down ep). set (B := e_down e * (Z.pos mp * e_up ep)). assert (BP : 0 < B) by (unfold B; nia).
    assert (AP : 0 < A) by (unfold A; nia).
    assert (EQ : (if s then - A else A) * 10 ^ p = N * B).
    { unfold A, B. replace (N * (e_down e * (Z.pos mp * e_up ep))) with ((N * e_down e) * (Z.pos mp * e_up ep)) by ring. rewrite G.
      replace (Z.pos mp * e_up ep) with (10 ^ p * e_down ep) by lia. destruct s; [rewrite <- Pos2Z.opp_pos|]; ring. }
    assert (LB : A <= max_float * B).
    { assert (A * 10 ^ p = Z.abs N * B). { assert (X : Z.abs N = if s then - N else N) by (destruct s; nia). rewrite X. destruct s; nia. }
      apply Z.le_trans with (A * 10 ^ p); [nia|]. rewrite H. apply Z.mul_le_mono_nonneg_r; lia. }
    destruct (float_of_closest s A B) as [VF C]; [lia|exact BP|exact LB|]. split; [exact VF|].
    eapply closest_same; [exact BP|exact PP|exact EQ|exact C].
Qed.

(** ---------- C48 ---------- *)

(** For 0 to 22 places and a product that does not overflow: the product 10^places * val is
    rounded to the closest float64 x; x is rounded to an integer N, half up if it is not
    negative and down otherwise; the result is the float64 closest to N / 10^places. *)
Theorem C48_UtilRound : forall pow10 val p n d, pow10_ok pow10 -> valid_binary 53 1024 val = true ->
  0 < d -> has_value val n d -> 0 <= p <= 22 -> Z.abs n * 10 ^ p <= max_float * d ->
  exists x dn dd N, closest x (10 ^ p * n) d /\ 0 < dd /\ has_value x dn dd
    /\ (0 <= dn -> half_up N dn dd) /\ (dn < 0 -> floor_of N dn dd)
    /\ valid_binary 53 1024 (UtilRound pow10 val p) = true
    /\ closest (UtilRound pow10 val p) N (10 ^ p).
Proof.
  intros pow10 val p n d PO V D G P L. destruct (PO p P) as (mp & ep & PE & _ & PV). rewrite PE in PV.
  destruct (fmul_closest mp ep val p n d PV ltac:(lia) V D G L) as (VX & RX & CX). unfold UtilRound. rewrite PE.
  set (x := fmul (S754_finite false mp ep) val) in *. destruct (round_step x VX RX) as (N & VF & HF & NL & H).
  destruct (fdiv_closest _ mp ep p N PV ltac:(lia) VF HF NL) as (VR & CR).
  pose proof CX as (dn & dd & DD & HX & _). exists x, dn, dd, N. destruct (H dn dd DD HX) as [H1 H2]. auto 10.
Qed.

(** When the product is exact there is one rounding only: the result is the float64 closest to
    the multiple of 10^-places that is nearest to val, half up, for a val that is not negative. *)
Theorem C48_exact_product : forall pow10 val p n d g, pow10_ok pow10 -> valid_binary 53 1024 val = true ->
  0 < d -> has_value val n d -> 0 <= p <= 22 -> Z.abs n * 10 ^ p <= max_float * d ->
  valid_binary 53 1024 g = true -> has_value g (10 ^ p * n) d ->
  exists N, (0 <= n -> half_up N (10 ^ p * n) d) /\ (n < 0 -> floor_of N (10 ^ p * n) d)
    /\ closest (UtilRound pow10 val p) N (10 ^ p).
Proof.
  intros pow10 val p n d g PO V D G P L VG HG. destruct (PO p P) as (mp & ep & PE & _ & PV). rewrite PE in PV.
  destruct (fmul_closest mp ep val p n d PV ltac:(lia) V D G L) as (VX & RX & CX). unfold UtilRound. rewrite PE.
  set (x := fmul (S754_finite false mp ep) val) in *. destruct (round_step x VX RX) as (N & VF & HF & NL & H).
  destruct (fdiv_closest _ mp ep p N PV ltac:(lia) VF HF NL) as (VR & CR).
  pose proof (closest_exact x g _ d D CX VG HG) as HX. destruct (H _ d D HX) as [H1 H2]. pose proof (pow10_pos p ltac:(lia)) as PP.
  exists N. split; [intros; apply H1; nia|]. split; [intros; apply H2; nia|exact CR].
Qed.

(** To the integer: UtilRound(val, 0) is exactly the nearest integer, half up, of a val that is
    not negative, and the integer below a negative val. *)
Theorem C48_integers : forall pow10 val n d, pow10_ok pow10 -> valid_binary 53 1024 val = true -> 0 < d -> has_value val n d ->
  exists N, has_value (UtilRound pow10 val 0) N 1 /\ (0 <= n -> half_up N n d) /\ (n < 0 -> floor_of N n d).
Proof.
  intros pow10 val n d PO V D G.
  assert (L : Z.abs n * 10 ^ 0 <= max_float * d).
  { rewrite Z.mul_1_r. destruct val as [s| | |s m e]; try contradiction.
    - cbn in G. subst n. unfold max_float. pose proof (pow2_pos 971 ltac:(lia)). change (2 ^ 53) with 9007199254740992. cbn [Z.abs]. nia.
    - destruct (canon_emin _ _ (valid_canon _ _ _ V)) as ((E1 & E2) & (M0 & M1) & _). rewrite value_finite in G.
      pose proof (e_up_pos e) as U. pose proof (e_down_pos e) as DN.
      assert (PW : e_up e <= 2 ^ 971) by (unfold e_up; apply Z.pow_le_mono_r; lia).
      assert (AB : Z.abs n * e_down e = Z.pos m * e_up e * d).
      { rewrite <- (Z.abs_eq (e_down e)) by lia. rewrite <- Z.abs_mul, G, !Z.abs_mul, (Z.abs_eq (e_up e)), (Z.abs_eq d) by lia. destruct s; reflexivity. }
      apply Z.le_trans with (Z.abs n * e_down e); [nia|]. rewrite AB. apply Z.mul_le_mono_nonneg_r; [lia|]. unfold max_float.
      revert PW. generalize (2 ^ 971) as u. intros u PW. change (2 ^ 53) with 9007199254740992 in *. nia. }
  destruct (PO 0 ltac:(lia)) as (mp & ep & PE & _ & PV). rewrite PE in PV.
  destruct (fmul_closest mp ep val 0 n d PV ltac:(lia) V D G L) as (VX & RX & CX). unfold UtilRound. rewrite PE.
  set (x := fmul (S754_finite false mp ep) val) in *. destruct (round_step x VX RX) as (N & VF & HF & NL & H).
  destruct (fdiv_closest _ mp ep 0 N PV ltac:(lia) VF HF NL) as (VR & CR).
  rewrite Z.mul_1_l in CX. pose proof (closest_exact x val _ d D CX V G) as HX. destruct (H _ d D HX) as [H1 H2].
  exists N. split; [eapply closest_exact; [lia|exact CR|exact VF|exact HF]|]. auto.
Qed.

(** NaN and the infinities are kept. *)
Theorem C48_special : forall pow10 p, pow10_ok pow10 -> 0 <= p <= 22 ->
  UtilRound pow10 S754_nan p = S754_nan /\ forall s, UtilRound pow10 (S754_infinity s) p = S754_infinity s.
Proof.
  intros pow10 p PO P. destruct (PO p P) as (mp & ep & PE & _ & _). unfold UtilRound. rewrite PE. split; [reflexivity|]. intros []; reflexivity.
Qed.

(** ---------- an instance, and the exceptions ---------- *)

Definition pow10_0 (k : Z) : spec_float := float_of false (10 ^ k) 1.
Lemma pow10_0_ok : pow10_ok pow10_0.
Proof.
  intros k K.
  assert (A : forallb (fun i => match pow10_0 (Z.of_nat i) with
      | S754_finite false m e => bounded 53 1024 m e && (10 ^ Z.of_nat i * 2 ^ Z.max 0 (- e) =? Z.pos m * 2 ^ Z.max 0 e)
      | _ => false end) (seq 0 23) = true) by (vm_compute; reflexivity).
  rewrite forallb_forall in A. specialize (A (Z.to_nat k)). rewrite Z2Nat.id in A by lia. specialize (A ltac:(apply in_seq; lia)).
  destruct (pow10_0 k) as [| | |[] m e] eqn:E; try discriminate. apply andb_prop in A as [A1 A2]. apply Z.eqb_eq in A2.
  exists m, e. split; [reflexivity|]. split; [exact A1|]. cbn [has_value]. lia.
Qed.

(** 2.5 -> 3, 2.49 -> 2, 1234.5678 to 2 places -> 1234.57 *)
Definition lit (s : string) : spec_float := match ParseFloat F64 s with Some f => f | None => S754_nan end.
Example C48_nonvacuous : pow10_ok pow10_0 /\ valid_binary 53 1024 (lit "1234.5678") = true /\ has_value (lit "2.5") 5 2
  /\ UtilRound pow10_0 (lit "2.5") 0 = lit "3" /\ UtilRound pow10_0 (lit "2.49") 0 = lit "2"
  /\ UtilRound pow10_0 (lit "1234.5678") 2 = lit "1234.57" /\ UtilRound pow10_0 (lit "-1.25") 1 = lit "-1.3".
Proof. split; [apply pow10_0_ok|]. vm_compute. auto 10. Qed.

(** A negative number goes down, not to the nearest: UtilRound(-1.2, 0) = -2. *)
Theorem C48_negative_refuted : UtilRound pow10_0 (lit "-1.2") 0 = lit "-2"
  /\ closest (lit "-1.2") (-12) 10 /\ has_value (lit "-2") (-2) 1 /\ ~ half_up (-2) (-12) 10.
Proof.
  split; [vm_compute; reflexivity|]. split.
  - change (-12) with (- (12)). assert (X : lit "-1.2" = float_of true 12 10) by (vm_compute; reflexivity). rewrite X.
    apply (float_of_closest true 12 10); [lia|lia|]. unfold max_float. pose proof (pow2_pos 971 ltac:(lia)). change (2 ^ 53) with 9007199254740992. nia.
  - split; [vm_compute; reflexivity|]. unfold half_up. lia.
Qed.

(** The product is rounded too: the float64 2.675 is below 2.675, so that the nearest multiple of
    0.01 is 2.67, but UtilRound(2.675, 2) = 2.68. *)
Theorem C48_product_refuted : exists n d, 0 < d /\ has_value (lit "2.675") n d /\ half_up 267 (10 ^ 2 * n) d
  /\ UtilRound pow10_0 (lit "2.675") 2 = lit "2.68".
Proof.
  exists 6023564501608038, (2 ^ 51). split; [reflexivity|]. split; [vm_compute; reflexivity|]. split; [split; vm_compute; [reflexivity|discriminate]|].
  vm_compute. reflexivity.
Qed.

(** Axioms used by any theorem of this file. *)
Definition all_Props_Round :=
  (@nearest_closest,
   @C48_UtilRound,
   @C48_exact_product,
   @C48_integers,
   @C48_special,
   @C48_negative_refuted,
   @C48_product_refuted).
Print Assumptions all_Props_Round.
