(** Proofs_Closest.v -- [nearest] is the rounding of IEEE 754, for float32 and float64. *)
From Coq Require Import ZArith NArith List String Ascii Bool SpecFloat Lia.
From Verif Require Import Base Model_Lex Model_Float Spec_Round Spec_Decimal Proofs_Float.
Import ListNotations.
Local Open Scope Z_scope.

Section Format.
Context (F : ffmt) (FO : fmt_ok F).
Let p := f_prec F.
Let K := - f_emin F.
Let T := f_emax F - f_prec F.

Lemma p_big : 24 <= p. Proof. pose proof (fmt_prec F FO). unfold p. lia. Qed.
Lemma K_pos : 0 < K. Proof. pose proof (fmt_emin F FO). unfold K. lia. Qed.
Lemma T_pos : 0 < T. Proof. pose proof (fmt_emax F FO). unfold T. lia. Qed.

Definition unit_ : Z := 2 ^ K.
Lemma unit_pos : 0 < unit_. Proof. apply pow2_pos. pose proof K_pos. lia. Qed.

(** Every float is a multiple of 2^-K. *)
Definition steps (f : spec_float) : Z := match f with S754_finite s m e => (if s then Z.neg m else Z.pos m) * 2 ^ (e + K) | _ => 0 end.
Definition a_number (f : spec_float) : bool := match f with S754_finite _ _ _ | S754_zero _ => true | _ => false end.

Lemma up_down_F e : - K <= e -> 2 ^ (e + K) * e_down e = e_up e * unit_.
Proof. intros L. pose proof K_pos. unfold e_up, e_down, unit_. rewrite <- !Z.pow_add_r by lia. f_equal. lia. Qed.
Lemma canon_F m e : canon F m e <-> - K <= e <= T /\ 0 < m < 2 ^ p /\ (- K < e -> 2 ^ (p - 1) <= m).
Proof. unfold canon, K. fold p T. rewrite Z.opp_involutive. reflexivity. Qed.
Lemma valid_F s m e : valid_binary p (f_emax F) (S754_finite s m e) = true <-> canon F (Zpos m) e.
Proof. apply canon_valid. exact FO. Qed.
Lemma half_p : 2 ^ p = 2 ^ (p - 1) * 2.
Proof. pose proof p_big. replace p with (p - 1 + 1) at 1 by lia. rewrite Z.pow_add_r by lia. reflexivity. Qed.

Lemma value_steps f n d : valid_binary p (f_emax F) f = true -> has_value f n d <-> a_number f = true /\ n * unit_ = steps f * d.
Proof.
  intros V. pose proof unit_pos as UP. destruct f as [s| | |s m e]; cbn [has_value a_number steps]; try (split; [contradiction|intros [X _]; discriminate]).
  - split; [intros ->; split; [reflexivity|lia]|intros [_ X]; nia].
  - apply valid_F, canon_F in V as ((L & _) & _). fold (e_up e). fold (e_down e).
    pose proof (up_down_F e L) as U. pose proof (e_down_pos e) as P.
    set (M := if s then Z.neg m else Z.pos m). split.
    + intros A. split; [reflexivity|]. apply (Z.mul_reg_r _ _ (e_down e)); [lia|].
      replace (n * unit_ * e_down e) with (n * e_down e * unit_) by ring. rewrite A.
      replace (M * 2 ^ (e + K) * d * e_down e) with (M * d * (2 ^ (e + K) * e_down e)) by ring. rewrite U. ring.
    + intros [_ A]. apply (Z.mul_reg_r _ _ unit_); [lia|]. replace (n * e_down e * unit_) with (n * unit_ * e_down e) by ring. rewrite A.
      replace (M * 2 ^ (e + K) * d * e_down e) with (M * d * (2 ^ (e + K) * e_down e)) by ring. rewrite U. ring.
Qed.

(** What [nearest] computes, in multiples of 2^-K *)
Lemma nearest_steps n d f neg : 0 < n -> 0 < d -> nearest F neg n d = Some f ->
  valid_binary p (f_emax F) f = true /\ a_number f = true /\ negative f = neg
  /\ exists e0 q, - K <= e0 <= T /\ q = round_half_even (n * unit_) (d * 2 ^ (e0 + K)) /\ steps f = (if neg then - q else q) * 2 ^ (e0 + K)
     /\ 0 <= q <= 2 ^ p /\ (- K < e0 -> d * 2 ^ (p - 1) * 2 ^ (e0 + K) <= n * unit_) /\ (Z.even q = true -> even_float f)
     /\ (e0 = T -> q < 2 ^ p) /\ (e0 < T -> n < d * 2 ^ (T + p - 1)).
Proof.
  intros N D X. pose proof p_big as PB. pose proof K_pos as KP. pose proof T_pos as TP.
  destruct (last_bit_spec F n d FO N D) as (E1 & E2 & E3).
  assert (VR : valid_binary p (f_emax F) f = true /\ a_number f = true /\ negative f = neg).
  { destruct (nearest_canon F neg n d f FO ltac:(lia) D X) as [->|(m & e & -> & C)]; [repeat split|].
    split; [|split; reflexivity]. now apply valid_F. }
  destruct VR as (VB & RV & NG). split; [exact VB|]. split; [exact RV|]. split; [exact NG|].
  remember (last_bit F n d) as e0 eqn:EE. fold p in E2, E3.
  assert (L : - K <= e0) by (unfold K; rewrite Z.opp_involutive; exact E1).
  pose proof (up_down_F e0 L) as UD. pose proof unit_pos as UP. pose proof (e_up_pos e0) as EU. pose proof (e_down_pos e0) as ED.
  assert (P2 : 0 < 2 ^ (e0 + K)) by (apply pow2_pos; lia).
  assert (KK : exists k, 0 < k /\ unit_ = e_down e0 * k /\ 2 ^ (e0 + K) = e_up e0 * k).
  { exists (2 ^ (K - Z.max 0 (- e0))). split; [apply pow2_pos; lia|]. unfold e_up, e_down, unit_. rewrite <- !Z.pow_add_r by lia. split; f_equal; lia. }
  destruct KK as (k & KP2 & K1 & K2).
  assert (RS : round_half_even (n * unit_) (d * 2 ^ (e0 + K)) = round_half_even (n * e_down e0) (d * e_up e0)).
  { rewrite K1, K2, !Z.mul_assoc. apply round_scale; nia. }
  assert (BL : n * unit_ < d * 2 ^ (e0 + K) * 2 ^ p).
  { apply (below_ij n d (e0 + p) K (e0 + K + p)) in E2; try lia. rewrite Z.pow_add_r in E2 by lia. unfold unit_. lia. }
  pose proof (round_bounds (n * unit_) (d * 2 ^ (e0 + K)) ltac:(nia) ltac:(nia)) as (_ & _ & Q0). cbv zeta in Q0.
  pose proof (round_lt (n * unit_) (d * 2 ^ (e0 + K)) (2 ^ p) ltac:(nia) ltac:(nia) BL) as Q1.
  rewrite (nearest_at F neg n d e0 FO N D) in X by (symmetry; exact EE). fold (e_up e0) in X. fold (e_down e0) in X. cbv zeta in X. rewrite <- RS in X. fold p T in X.
  remember (round_half_even (n * unit_) (d * 2 ^ (e0 + K))) as q eqn:EQ.
  assert (PP : 0 < 2 ^ (p - 1)) by (apply pow2_pos; lia). pose proof half_p as HP.
  assert (S : e0 <= T /\ steps f = (if neg then - q else q) * 2 ^ (e0 + K) /\ (Z.even q = true -> even_float f) /\ (e0 = T -> q < 2 ^ p)).
  { destruct (Z.eqb_spec q 0) as [Q|NZ].
    - injection X as <-. cbn [steps even_float]. rewrite Q. split; [|split; [destruct neg; reflexivity|split; [intros _; exact I|lia]]].
      destruct (Z.le_gt_cases e0 T) as [|G]; [assumption|]. exfalso.
      assert (GE : d * 2 ^ (e0 + K) * 2 ^ (p - 1) <= n * unit_).
      { destruct (Z.le_gt_cases (d * 2 ^ (e0 + K) * 2 ^ (p - 1)) (n * unit_)) as [|H]; [assumption|]. exfalso.
        apply E3; [unfold K in *; lia|]. apply (below_ij n d (e0 + p - 1) K (e0 + K + (p - 1))); try lia. rewrite Z.pow_add_r by lia. fold unit_. lia. }
      pose proof (round_ge (n * unit_) (d * 2 ^ (e0 + K)) (2 ^ (p - 1)) ltac:(nia) ltac:(nia) GE) as R. rewrite <- EQ in R. lia.
    - destruct (Z.eqb_spec q (2 ^ p)) as [EP|NE]; cbv iota beta in X; (match type of X with (if ?c then _ else _) = _ => destruct c eqn:C; [discriminate|] end); apply Z.ltb_ge in C; injection X as <-; cbn [steps even_float].
      + split; [lia|]. split.
        { rewrite EP, HP. replace (e0 + 1 + K) with (Z.succ (e0 + K)) by lia. rewrite (Z.pow_succ_r 2 (e0 + K)) by lia. destruct neg; [rewrite <- Pos2Z.opp_pos|]; rewrite Z2Pos.id by lia; ring. }
        rewrite Z2Pos.id by lia.
        split; [|lia]. intros _. replace (p - 1) with (1 + (p - 2)) by lia. rewrite Z.pow_add_r by lia. rewrite Z.even_mul. reflexivity.
      + split; [lia|]. split; [|split; [rewrite Z2Pos.id by lia; auto|lia]].
        f_equal. destruct neg; [rewrite <- Pos2Z.opp_pos|]; rewrite Z2Pos.id by lia; reflexivity. }
  destruct S as (S1 & S2 & S3 & S4). exists e0, q. split; [lia|]. split; [exact EQ|]. split; [exact S2|]. split; [lia|]. split; [|split; [exact S3|split; [exact S4|]]].
  - intros G. destruct (Z.le_gt_cases (d * 2 ^ (p - 1) * 2 ^ (e0 + K)) (n * unit_)) as [|H]; [assumption|]. exfalso. apply E3; [unfold K in *; lia|].
    apply (below_ij n d (e0 + p - 1) K (e0 + K + (p - 1))); try lia. rewrite Z.pow_add_r by lia. fold unit_. lia.
  - intros G. assert (B : below n d (T + p - 1)) by (eapply below_mono; [lia|exact D| |exact E2]; lia).
    apply (below_ij n d (T + p - 1) 0 (T + p - 1)) in B; try lia.
Qed.

(** No float between the multiples *)
Lemma steps_multiple g e0 : valid_binary p (f_emax F) g = true -> - K <= e0 ->
  (exists w, steps g = w * 2 ^ (e0 + K)) \/ (steps g < 2 ^ (p - 1) * 2 ^ (e0 + K) /\ - K < e0).
Proof.
  intros V L. pose proof p_big. destruct g as [s| | |s m e]; try (left; exists 0; reflexivity).
  apply valid_F, canon_F in V as ((L1 & _) & (_ & MU) & _). cbn [steps].
  destruct (Z.le_gt_cases e0 e) as [G|G].
  - left. exists ((if s then Z.neg m else Z.pos m) * 2 ^ (e - e0)). replace (e + K) with ((e - e0) + (e0 + K)) by lia. rewrite Z.pow_add_r by lia. ring.
  - right. split; [|lia]. assert (P : 0 < 2 ^ (e + K)) by (apply pow2_pos; lia).
    assert (SP : 2 ^ (e0 + K) = 2 ^ (e0 - e - 1) * (2 * 2 ^ (e + K))).
    { rewrite <- Z.pow_succ_r, <- Z.pow_add_r by lia. f_equal. lia. }
    rewrite SP. assert (P1 : 0 < 2 ^ (e0 - e - 1)) by (apply pow2_pos; lia). pose proof half_p as HP.
    apply Z.lt_le_trans with (2 ^ p * 2 ^ (e + K)).
    + apply Z.mul_lt_mono_pos_r; [exact P|]. destruct s; lia.
    + rewrite HP. assert (U : 0 < 2 ^ (p - 1)) by (apply pow2_pos; lia). revert P P1 U. generalize (2 ^ (p - 1)) as u, (2 ^ (e + K)) as v, (2 ^ (e0 - e - 1)) as w. intros u v w P P1 U.
      replace (u * 2 * v) with (u * v * 2 * 1) by ring. replace (u * (w * (2 * v))) with (u * v * 2 * w) by ring. apply Z.mul_le_mono_nonneg_l; nia.
Qed.

Lemma steps_opp g : steps (SFopp g) = - steps g.
Proof. destruct g as [s| | |s m e]; cbn; try reflexivity. destruct s; cbn [negb]; lia. Qed.
Lemma valid_opp g : valid_binary p (f_emax F) (SFopp g) = valid_binary p (f_emax F) g.
Proof. now destruct g. Qed.

(** No float is closer, and one that is as close is there only if the result is even. *)
Lemma steps_best n d f neg : 0 < n -> 0 < d -> nearest F neg n d = Some f ->
  forall g, valid_binary p (f_emax F) g = true ->
  Z.abs (steps f * d - (if neg then - n else n) * unit_) <= Z.abs (steps g * d - (if neg then - n else n) * unit_) /\
  (Z.abs (steps f * d - (if neg then - n else n) * unit_) = Z.abs (steps g * d - (if neg then - n else n) * unit_) -> steps f = steps g \/ even_float f).
Proof.
  intros N D X. destruct (nearest_steps n d f neg N D X) as (VF & RF & NG & e0 & q & L & Q & MF & QB & LOW & EV & _).
  assert (P2 : 0 < 2 ^ (e0 + K)) by (apply pow2_pos; lia). pose proof unit_pos as TP.
  assert (BEST : forall w, Z.abs (q * (d * 2 ^ (e0 + K)) - n * unit_) <= Z.abs (w * (d * 2 ^ (e0 + K)) - n * unit_)).
  { intros w. rewrite Q. apply round_best; nia. }
  pose proof (proj1 (round_iff (n * unit_) (d * 2 ^ (e0 + K)) q ltac:(nia) ltac:(nia)) (eq_sym Q)) as RI.
  assert (PP : 0 < 2 ^ (p - 1)) by (apply pow2_pos; pose proof p_big; lia).
  assert (MUL := fun g V => steps_multiple g e0 V (proj1 L)).
  set (u := 2 ^ (e0 + K)) in *. set (Y := n * unit_) in *. set (h := 2 ^ (p - 1)) in *. assert (YE : Y = n * unit_) by reflexivity. clearbody u Y h. clear Q.
  assert (POS : forall x, ((exists w, x = w * u) \/ (x < h * u /\ - K < e0)) -> Z.abs (q * u * d - Y) <= Z.abs (x * d - Y) /\
     (Z.abs (q * u * d - Y) = Z.abs (x * d - Y) -> q * u = x \/ Z.even q = true)).
  { intros x [[w ->]|[B G]].
    - replace (q * u * d) with (q * (d * u)) by ring. replace (w * u * d) with (w * (d * u)) by ring. split; [apply BEST|]. intros EQ.
      destruct RI as [RI|[_ RI]]; [|now right]. left. assert (w = q); [|subst; ring].
      assert (DU : 0 < d * u) by nia. revert EQ RI DU. generalize (d * u) as b. intros b EQ RI DU.
      assert (W : Z.abs (w * b - q * b) < b) by lia. rewrite <- Z.mul_sub_distr_r, Z.abs_mul, (Z.abs_eq b) in W by lia. nia.
    - specialize (LOW G). pose proof (BEST h) as BH.
      assert (x * d < h * u * d) by (apply Z.mul_lt_mono_pos_r; lia). replace (h * (d * u)) with (h * u * d) in BH by ring.
      replace (d * h * u) with (h * u * d) in LOW by ring. replace (q * u * d) with (q * (d * u)) by ring. split; lia. }
  intros g V. destruct neg.
  - specialize (POS (- steps g)). replace (Z.abs (steps f * d - - n * unit_)) with (Z.abs (q * u * d - Y)).
    2:{ rewrite MF. rewrite YE. replace (- q * u * d - - n * unit_) with (- (q * u * d - n * unit_)) by ring. now rewrite Z.abs_opp. }
    replace (Z.abs (steps g * d - - n * unit_)) with (Z.abs (- steps g * d - Y)).
    2:{ rewrite YE. replace (steps g * d - - n * unit_) with (- (- steps g * d - n * unit_)) by ring. now rewrite Z.abs_opp. }
    destruct POS as [A B]; [|split; [exact A|]; intros E; destruct (B E); [left; lia|right; auto]].
    rewrite <- steps_opp. apply MUL. now rewrite valid_opp.
  - rewrite MF. rewrite <- YE. destruct (POS (steps g)) as [A B]; [now apply MUL|]. split; [exact A|]. intros E. destruct (B E); auto.
Qed.

(** Only what is too big is not rounded. *)
Lemma nearest_none n d neg : 0 <= n -> 0 < d -> nearest F neg n d = None <-> too_big p (f_emax F) n d.
Proof.
  intros N D. pose proof p_big as PB. pose proof K_pos as KP. pose proof T_pos as TP. unfold too_big. fold T.
  replace (f_emax F - p - 1) with (T - 1) by (unfold T, p; lia).
  assert (P1 : 0 < 2 ^ (T - 1)) by (apply pow2_pos; lia).
  assert (PP : 1 < 2 ^ p) by (apply Z.pow_gt_1; lia).
  assert (PS : 2 ^ (p + 1) = 2 * 2 ^ p) by (rewrite <- Z.pow_succ_r by lia; f_equal; lia).
  destruct (Z.eq_dec n 0) as [->|NZ].
  { split; [discriminate|]. intros H. exfalso. rewrite PS in H. assert (0 < (2 * 2 ^ p - 1) * 2 ^ (T - 1) * d) by (repeat apply Z.mul_pos_pos; lia). lia. }
  destruct (nearest F neg n d) as [f|] eqn:X.
  - split; [discriminate|]. intros H. exfalso.
    destruct (nearest_steps n d f neg ltac:(lia) D X) as (VF & RF & NG & e0 & q & L & Q & MF & QB & LOW & EV & TOP & LT).
    assert (TT : 2 ^ T = 2 * 2 ^ (T - 1)) by (rewrite <- Z.pow_succ_r by lia; f_equal; lia).
    destruct (Z.eq_dec e0 T) as [->|NE].
    + specialize (TOP eq_refl). pose proof (proj1 (round_iff (n * unit_) (d * 2 ^ (T + K)) q ltac:(pose proof unit_pos; nia) ltac:(apply Z.mul_pos_pos; [lia|apply pow2_pos; lia])) (eq_sym Q)) as RI.
      rewrite Z.pow_add_r in RI by lia. fold unit_ in RI. rewrite TT in RI. pose proof unit_pos as UP.
      rewrite PS in H. assert (OD : q = 2 ^ p - 1 -> Z.even q = false).
      { intros ->. replace p with (Z.succ (p - 1)) by lia. rewrite Z.pow_succ_r by lia. rewrite Z.even_sub, Z.even_mul. reflexivity. }
      revert RI H UP P1 TOP OD. generalize (2 ^ p) as r, (2 ^ (T - 1)) as t, unit_ as u. intros r t u RI H UP P1 TOP OD.
      assert (S : 2 * (n * u - q * (d * (2 * t * u))) = (2 * n - 4 * q * d * t) * u) by ring. rewrite S in RI. replace (d * (2 * t * u)) with (2 * d * t * u) in RI by ring.
      assert (DT : 0 < d * t) by nia. replace ((2 * r - 1) * t * d) with ((2 * r - 1) * (d * t)) in H by ring. replace (4 * q * d * t) with (4 * q * (d * t)) in RI by ring. replace (2 * d * t * u) with (2 * (d * t) * u) in RI by ring. destruct RI as [[R1 _]|[[R1|R1] R2]].
      * apply Z.mul_lt_mono_pos_r in R1; [|exact UP]. assert (QW : 2 * r - 1 < 2 * q + 1) by (apply (Z.mul_lt_mono_pos_r (d * t)); [exact DT|lia]). lia.
      * apply Z.mul_reg_r in R1; [|lia]. assert (QW : 2 * r - 1 <= 2 * q + 1) by (apply (Z.mul_le_mono_pos_r _ _ (d * t)); [exact DT|lia]). assert (q = r - 1) by lia. rewrite OD in R2 by assumption. discriminate.
      * rewrite <- Z.mul_opp_l in R1. apply Z.mul_reg_r in R1; [|lia]. assert (QW : 2 * r - 1 <= 2 * q - 1) by (apply (Z.mul_le_mono_pos_r _ _ (d * t)); [exact DT|lia]). lia.
    + specialize (LT ltac:(lia)). replace (T + p - 1) with (p + (T - 1)) in LT by lia. rewrite Z.pow_add_r in LT by lia. rewrite PS in H. nia.
  - split; [|reflexivity]. intros _. destruct (last_bit_spec F n d FO ltac:(lia) D) as (E1 & E2 & E3). fold p in E2, E3.
    rewrite (nearest_at F neg n d _ FO ltac:(lia) D eq_refl) in X. cbv zeta in X.
    remember (last_bit F n d) as e0 eqn:EE. fold (e_up e0) in X. fold (e_down e0) in X. fold p T in X.
    pose proof (e_up_pos e0) as EU. pose proof (e_down_pos e0) as ED.
    pose proof (round_bounds (n * e_down e0) (d * e_up e0) ltac:(nia) ltac:(nia)) as RB. cbv zeta in RB.
    remember (round_half_even (n * e_down e0) (d * e_up e0)) as q eqn:EQ.
    destruct (Z.eqb_spec q 0); [discriminate|].
    assert (C : T < e0 \/ e0 = T /\ q = 2 ^ p).
    { destruct (Z.eqb_spec q (2 ^ p)); cbv iota beta in X; (match type of X with (if ?c then _ else _) = _ => destruct c eqn:C; [|discriminate] end); apply Z.ltb_lt in C; lia. }
    rewrite PS. destruct C as [G|[-> QP]].
    + assert (B : ~ below n d (e0 + p - 1)) by (apply E3; unfold K, T in *; lia).
      assert (B2 : ~ below n d (T + p)) by (intros B2; apply B; eapply below_mono; [lia|exact D| |exact B2]; lia).
      assert (B3 : d * 2 ^ (T + p) <= n).
      { destruct (Z.le_gt_cases (d * 2 ^ (T + p)) n) as [|H]; [assumption|]. exfalso. apply B2. apply (below_ij n d (T + p) 0 (T + p)); try lia. }
      replace (T + p) with (Z.succ (p + (T - 1))) in B3 by lia. rewrite Z.pow_succ_r, Z.pow_add_r in B3 by lia. nia.
    + rewrite QP in RB. unfold e_up, e_down in RB. rewrite (Z.max_r 0 T), (Z.max_l 0 (- T)) in RB by lia.
      assert (TT : 2 ^ T = 2 * 2 ^ (T - 1)) by (rewrite <- Z.pow_succ_r by lia; f_equal; lia). rewrite TT in RB. change (2 ^ 0) with 1 in RB. nia.
Qed.

(** ---------- closest and tied, in multiples ---------- *)
Lemma abs_scale a b z u n d : 0 < b -> 0 < u -> a * u = z * b -> Z.abs (a * d - n * b) * u = Z.abs (z * d - n * u) * b.
Proof.
  intros B U E. rewrite <- (Z.abs_eq b) at 2 by lia. rewrite <- (Z.abs_eq u) at 1 by lia. rewrite <- !Z.abs_mul. f_equal.
  replace ((a * d - n * b) * u) with (a * u * d - n * b * u) by ring. rewrite E. ring.
Qed.
Lemma closest_steps f n d : valid_binary p (f_emax F) f = true -> 0 < d ->
  closest_float p (f_emax F) f n d <-> a_number f = true /\ forall g, valid_binary p (f_emax F) g = true -> a_number g = true -> Z.abs (steps f * d - n * unit_) <= Z.abs (steps g * d - n * unit_).
Proof.
  intros V D. pose proof unit_pos as UP.
  assert (OWN : forall g, valid_binary p (f_emax F) g = true -> a_number g = true -> has_value g (steps g) unit_) by (intros g Vg R; apply value_steps; auto).
  split.
  - intros (a & b & B & HV & ALL). apply (value_steps f a b V) in HV as [R E]. split; [exact R|]. intros g Vg Rg.
    specialize (ALL g (steps g) unit_ Vg UP (OWN g Vg Rg)).
    apply (Z.mul_le_mono_pos_r _ _ b); [exact B|].
    rewrite <- (abs_scale a b (steps f) unit_ n d B UP E). exact ALL.
  - intros [R ALL]. exists (steps f), unit_. split; [exact UP|]. split; [now apply OWN|]. intros g a' b' Vg B' HV.
    apply (value_steps g a' b' Vg) in HV as [Rg E]. specialize (ALL g Vg Rg). apply (Z.mul_le_mono_pos_r _ _ b') in ALL; [|exact B'].
    rewrite (abs_scale a' b' (steps g) unit_ n d B' UP E). exact ALL.
Qed.

Lemma tied_steps f n d : valid_binary p (f_emax F) f = true ->
  tied p (f_emax F) f n d <-> a_number f = true /\ exists g, valid_binary p (f_emax F) g = true /\ a_number g = true /\ steps f <> steps g /\ Z.abs (steps f * d - n * unit_) = Z.abs (steps g * d - n * unit_).
Proof.
  intros V. pose proof unit_pos as UP.
  assert (SC : forall a b z, 0 < b -> a * unit_ = z * b -> Z.abs (a * d - n * b) * unit_ = Z.abs (z * d - n * unit_) * b) by (intros; now apply abs_scale).
  split.
  - intros (a & b & g & a' & b' & B & HV & Vg & B' & HG & NE & EQ). apply (value_steps f a b V) in HV as [R E]. apply (value_steps g a' b' Vg) in HG as [Rg E'].
    split; [exact R|]. exists g. split; [exact Vg|]. split; [exact Rg|]. pose proof (SC _ _ _ B E) as S. pose proof (SC _ _ _ B' E') as S'. split.
    + intros X. apply NE. rewrite X in E. apply (Z.mul_reg_r _ _ unit_); [lia|]. replace (a * b' * unit_) with (a * unit_ * b') by ring. replace (a' * b * unit_) with (a' * unit_ * b) by ring. rewrite E, E'. ring.
    + apply (Z.mul_reg_r _ _ (b * b')); [nia|]. rewrite !Z.mul_assoc, <- S. replace (Z.abs (steps g * d - n * unit_) * b * b') with (Z.abs (steps g * d - n * unit_) * b' * b) by ring. rewrite <- S'.
      replace (Z.abs (a * d - n * b) * unit_ * b') with (Z.abs (a * d - n * b) * b' * unit_) by ring. rewrite EQ. ring.
  - intros (R & g & Vg & Rg & NE & EQ). exists (steps f), unit_, g, (steps g), unit_. split; [exact UP|]. split; [apply value_steps; auto|]. split; [exact Vg|]. split; [exact UP|]. split; [apply value_steps; auto|]. split.
    + intros X. apply NE. now apply (Z.mul_reg_r _ _ unit_); [lia|].
    + now rewrite EQ.
Qed.

(** A float is known by its sign and its multiple. *)
Lemma same_float f g : valid_binary p (f_emax F) f = true -> valid_binary p (f_emax F) g = true -> a_number f = true -> a_number g = true ->
  negative f = negative g -> steps f = steps g -> f = g.
Proof.
  intros Vf Vg Rf Rg NG E. pose proof p_big as PB.
  destruct f as [s| | |s m e]; try discriminate; destruct g as [s'| | |s' m' e']; try discriminate; cbn [negative] in NG; subst s'; [reflexivity| | |]; cbn [steps] in E.
  1,2: exfalso; try (apply valid_F, canon_F in Vf as ((L & _) & _)); try (apply valid_F, canon_F in Vg as ((L & _) & _)).
  - assert (0 < 2 ^ (e' + K)) by (apply pow2_pos; lia). destruct s; nia.
  - assert (0 < 2 ^ (e + K)) by (apply pow2_pos; lia). destruct s; nia.
  - apply valid_F, canon_F in Vf as ((L & U) & (M1 & M2) & N). apply valid_F, canon_F in Vg as ((L' & U') & (M1' & M2') & N').
    assert (E2 : Z.pos m * 2 ^ (e + K) = Z.pos m' * 2 ^ (e' + K)) by (destruct s; [rewrite <- !Pos2Z.opp_pos, !Z.mul_opp_l in E; lia|exact E]). clear E.
    pose proof half_p as HP.
    assert (LT : forall m1 m2 e1 e2, - K <= e1 -> e1 < e2 -> m1 < 2 ^ p -> 2 ^ (p - 1) <= m2 -> m1 * 2 ^ (e1 + K) <> m2 * 2 ^ (e2 + K)).
    { intros m1 m2 e1 e2 A B C D X. replace (e2 + K) with ((e2 - e1 - 1) + Z.succ (e1 + K)) in X by lia. rewrite (Z.pow_add_r 2 (e2 - e1 - 1)), (Z.pow_succ_r 2 (e1 + K)) in X by lia.
      assert (P : 0 < 2 ^ (e1 + K)) by (apply pow2_pos; lia). assert (P1 : 0 < 2 ^ (e2 - e1 - 1)) by (apply pow2_pos; lia).
      replace (m2 * (2 ^ (e2 - e1 - 1) * (2 * 2 ^ (e1 + K)))) with (m2 * 2 * 2 ^ (e2 - e1 - 1) * 2 ^ (e1 + K)) in X by ring. apply Z.mul_reg_r in X; [|lia].
      assert (0 < 2 ^ (p - 1)) by (apply pow2_pos; lia). nia. }
    destruct (Z.lt_trichotomy e e') as [G|[G|G]].
    + exfalso. exact (LT (Zpos m) (Zpos m') e e' L G M2 (N' ltac:(lia)) E2).
    + subst e'. apply Z.mul_reg_r in E2; [|pose proof (pow2_pos (e + K)); lia]. congruence.
    + exfalso. exact (LT (Zpos m') (Zpos m) e' e L' G M2' (N ltac:(lia)) (eq_sym E2)).
Qed.

(** Between two even floats there is another one. *)
Lemma between_even f g : valid_binary p (f_emax F) f = true -> valid_binary p (f_emax F) g = true -> a_number f = true -> a_number g = true ->
  negative f = false -> negative g = false -> even_float f -> even_float g -> steps f < steps g ->
  exists c, valid_binary p (f_emax F) c = true /\ a_number c = true /\ steps f < steps c < steps g.
Proof.
  intros Vf Vg Rf Rg Nf Ng Ef Eg LT. pose proof p_big as PB. pose proof half_p as HP. assert (PP : 0 < 2 ^ (p - 1)) by (apply pow2_pos; lia).
  assert (F0 : 0 <= steps f).
  { destruct f as [s| | |s m e]; cbn [steps]; try lia. cbn in Nf. subst s. apply valid_F, canon_F in Vf as ((L & _) & _). assert (0 < 2 ^ (e + K)) by (apply pow2_pos; lia). nia. }
  destruct g as [s| | |s m e]; try discriminate; cbn [steps] in LT; [lia|]. cbn in Ng. subst s. cbn [even_float] in Eg.
  pose proof Vg as Vg'. apply valid_F, canon_F in Vg as ((L & U) & (M1 & M2) & N).
  assert (PU : 0 < 2 ^ (e + K)) by (apply pow2_pos; lia).
  assert (MK : forall m' e', canon F m' e' -> exists c, valid_binary p (f_emax F) c = true /\ a_number c = true /\ negative c = false /\ steps c = m' * 2 ^ (e' + K) /\ (even_float c -> Z.even m' = true)).
  { intros m' e' C. pose proof C as C'. apply canon_F in C' as (_ & (MP & _) & _). exists (S754_finite false (Z.to_pos m') e'). split; [apply valid_F; now rewrite Z2Pos.id by lia|]. split; [reflexivity|]. split; [reflexivity|].
    cbn [steps even_float]. rewrite Z2Pos.id by lia. auto. }
  assert (M2E : 2 <= Z.pos m) by (destruct m; cbn in Eg; try discriminate; lia).
  destruct (Z.eq_dec (Z.pos m) (2 ^ (p - 1))) as [EM|NM]; [destruct (Z.eq_dec e (- K)) as [EK|NK]|].
  - (* in the lowest binade *)
    destruct (MK (Z.pos m - 1) e) as (c & Vc & Rc & Nc & Sc & Oc). { apply canon_F. lia. }
    exists c. split; [exact Vc|]. split; [exact Rc|]. rewrite Sc. cbn [steps]. split; [|nia].
    destruct (Z.lt_trichotomy (steps f) ((Z.pos m - 1) * 2 ^ (e + K))) as [X|[X|X]]; [exact X| |]; exfalso.
    + assert (f = c) by (apply same_float; congruence). subst c. rewrite Z.even_sub, Eg in Oc. discriminate (Oc Ef).
    + subst e. replace (- K + K) with 0 in * by lia. change (2 ^ 0) with 1 in *. lia.
  - (* a power of two *)
    destruct (MK (2 ^ p - 1) (e - 1)) as (c & Vc & Rc & Nc & Sc & Oc). { apply canon_F. lia. }
    exists c. split; [exact Vc|]. split; [exact Rc|]. rewrite Sc. cbn [steps]. replace (e + K) with (Z.succ (e - 1 + K)) in * by lia. rewrite Z.pow_succ_r in * by lia.
    assert (PV : 0 < 2 ^ (e - 1 + K)) by (apply pow2_pos; lia). split; [|rewrite EM; nia].
    destruct (Z.lt_trichotomy (steps f) ((2 ^ p - 1) * 2 ^ (e - 1 + K))) as [X|[X|X]]; [exact X| |]; exfalso.
    + assert (f = c) by (apply same_float; congruence). subst c. rewrite HP, Z.even_sub, Z.even_mul, orb_true_r in Oc. discriminate (Oc Ef).
    + rewrite EM in LT. destruct (steps_multiple f (e - 1) Vf ltac:(lia)) as [[w W]|[W _]]; [rewrite W in *|nia].
      replace (2 ^ (p - 1) * (2 * 2 ^ (e - 1 + K))) with (2 ^ p * 2 ^ (e - 1 + K)) in LT by (rewrite HP; ring).
      apply Z.mul_lt_mono_pos_r in LT; [|exact PV]. apply Z.mul_lt_mono_pos_r in X; [|exact PV]. lia.
  - destruct (MK (Z.pos m - 1) e) as (c & Vc & Rc & Nc & Sc & Oc). { apply canon_F. split; [lia|]. split; [lia|]. intros G. specialize (N G). lia. }
    exists c. split; [exact Vc|]. split; [exact Rc|]. rewrite Sc. cbn [steps]. split; [|nia].
    destruct (Z.lt_trichotomy (steps f) ((Z.pos m - 1) * 2 ^ (e + K))) as [X|[X|X]]; [exact X| |]; exfalso.
    + assert (f = c) by (apply same_float; congruence). subst c. rewrite Z.even_sub, Eg in Oc. discriminate (Oc Ef).
    + destruct (steps_multiple f e Vf L) as [[w W]|[W G]]; [rewrite W in *|specialize (N G); nia].
      apply Z.mul_lt_mono_pos_r in LT; [|exact PU]. apply Z.mul_lt_mono_pos_r in X; [|exact PU]. lia.
Qed.

Lemma negative_opp f : a_number f = true -> negative (SFopp f) = negb (negative f).
Proof. now destruct f. Qed.
Lemma even_opp f : even_float f -> even_float (SFopp f). Proof. now destruct f. Qed.
Lemma number_opp f : a_number (SFopp f) = a_number f. Proof. now destruct f. Qed.

(** Two even floats of one sign are not both closest to a number, unless they are the same. *)
Lemma one_closest f g Y d : 0 < d -> valid_binary p (f_emax F) f = true -> valid_binary p (f_emax F) g = true -> a_number f = true -> a_number g = true ->
  negative f = negative g -> even_float f -> even_float g -> Z.abs (steps f * d - Y) = Z.abs (steps g * d - Y) ->
  (forall c, valid_binary p (f_emax F) c = true -> a_number c = true -> Z.abs (steps f * d - Y) <= Z.abs (steps c * d - Y)) -> steps f = steps g.
Proof.
  intros D Vf Vg Rf Rg NG Ef Eg EQ ALL.
  assert (C : forall c, valid_binary p (f_emax F) c = true -> a_number c = true -> steps f < steps c < steps g \/ steps g < steps c < steps f -> False).
  { intros c Vc Rc H. specialize (ALL c Vc Rc). destruct H as [[A B]|[A B]]; apply (Z.mul_lt_mono_pos_r d) in A; try exact D; apply (Z.mul_lt_mono_pos_r d) in B; try exact D; lia. }
  destruct (negative f) eqn:NF.
  - destruct (Z.lt_trichotomy (steps f) (steps g)) as [X|[X|X]]; [|exact X|]; exfalso.
    + destruct (between_even (SFopp g) (SFopp f)) as (c & Vc & Rc & B); try (now rewrite ?valid_opp, ?number_opp); try (now apply even_opp); try (rewrite negative_opp by assumption; now rewrite <- ?NG, ?NF); try (rewrite !steps_opp; lia).
      rewrite !steps_opp in B. apply (C (SFopp c)); rewrite ?valid_opp, ?number_opp, ?steps_opp; auto; lia.
    + destruct (between_even (SFopp f) (SFopp g)) as (c & Vc & Rc & B); try (now rewrite ?valid_opp, ?number_opp); try (now apply even_opp); try (rewrite negative_opp by assumption; now rewrite <- ?NG, ?NF); try (rewrite !steps_opp; lia).
      rewrite !steps_opp in B. apply (C (SFopp c)); rewrite ?valid_opp, ?number_opp, ?steps_opp; auto; lia.
  - destruct (Z.lt_trichotomy (steps f) (steps g)) as [X|[X|X]]; [|exact X|]; exfalso.
    + destruct (between_even f g) as (c & Vc & Rc & B); auto. apply (C c); auto.
    + destruct (between_even g f) as (c & Vc & Rc & B); auto. apply (C c); auto.
Qed.

Theorem nearest_rounds n d neg f : 0 <= n -> 0 < d -> nearest F neg n d = Some f <-> rounds p (f_emax F) neg n d f.
Proof.
  intros N D. pose proof unit_pos as UP.
  assert (FWD : forall f0, nearest F neg n d = Some f0 -> rounds p (f_emax F) neg n d f0).
  { intros f0 X. assert (TB : ~ too_big p (f_emax F) n d) by (rewrite <- (nearest_none n d neg N D); congruence).
    destruct (Z.eq_dec n 0) as [->|NZ].
    - injection X as <-. split; [reflexivity|]. split; [reflexivity|]. split; [exact TB|]. split; [|intros _; exact I].
      apply closest_steps; [reflexivity|exact D|]. split; [reflexivity|]. intros g _ _. cbn [steps]. replace (if neg then - 0 else 0) with 0 by now destruct neg. apply Z.abs_nonneg.
    - destruct (nearest_steps n d f0 neg ltac:(lia) D X) as (V & R & NG & _). pose proof (steps_best n d f0 neg ltac:(lia) D X) as B.
      split; [exact V|]. split; [exact NG|]. split; [exact TB|]. split.
      + apply closest_steps; [exact V|exact D|]. split; [exact R|]. intros g Vg _. apply (B g Vg).
      + intros TI. apply tied_steps in TI as (_ & g & Vg & Rg & NE & EQ); [|exact V]. destruct (proj2 (B g Vg) EQ); [contradiction|assumption]. }
  split; [apply FWD|]. intros (V & NG & TB & CL & TI).
  destruct (nearest F neg n d) as [f0|] eqn:X. 2:{ exfalso. apply TB, (nearest_none n d neg N D), X. }
  f_equal. destruct (FWD f0 eq_refl) as (V0 & NG0 & _ & CL0 & TI0).
  pose proof (proj1 (closest_steps f _ d V D) CL) as (R & ALL). pose proof (proj1 (closest_steps f0 _ d V0 D) CL0) as (R0 & ALL0).
  symmetry. apply same_float; auto; [congruence|]. destruct (Z.eq_dec (steps f) (steps f0)) as [|NE]; [assumption|].
  assert (EQ : Z.abs (steps f * d - (if neg then - n else n) * unit_) = Z.abs (steps f0 * d - (if neg then - n else n) * unit_)) by (apply Z.le_antisymm; auto).
  apply (one_closest f f0 ((if neg then - n else n) * unit_) d D V V0 R R0); [congruence| | |exact EQ|exact ALL].
  - apply TI, tied_steps; [exact V|]. split; [exact R|]. exists f0. auto.
  - apply TI0, tied_steps; [exact V0|]. split; [exact R0|]. exists f. auto.
Qed.
End Format.
