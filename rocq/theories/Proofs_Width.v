(** Proofs_Width.v -- how long the printed floats are. *)
From Coq Require Import ZArith NArith List String Ascii Bool SpecFloat Lia.
From Verif Require Import Base Spec_Text Model_Lex Model_Float Model_Print
  Proofs_Lib Proofs_Lex Proofs_Num Proofs_Float Proofs_FloatText.
Import ListNotations.
Local Open Scope string_scope.
Local Open Scope Z_scope.

(** ---------- between two decimals that are read as a float ---------- *)

Lemma round_mono n n' d : 0 < d -> n <= n' -> round_half_even n d <= round_half_even n' d.
Proof.
  intros D L. unfold round_half_even. cbv zeta.
  pose proof (Z.div_mod n d ltac:(lia)) as E. pose proof (Z.mod_pos_bound n d D) as R.
  pose proof (Z.div_mod n' d ltac:(lia)) as E'. pose proof (Z.mod_pos_bound n' d D) as R'.
  pose proof (Z.div_le_mono n n' d D L) as Q. set (q := n / d) in *. set (q' := n' / d) in *. set (r := n mod d) in *. set (r' := n' mod d) in *.
  destruct (Z.eq_dec q q') as [EQ|NQ].
  - rewrite <- EQ in *. assert (RR : r <= r') by lia.
    destruct (Z.ltb_spec d (2 * r)); cbn [orb].
    + destruct (Z.ltb_spec d (2 * r')); [cbn [orb]; lia|lia].
    + destruct (Z.eqb_spec (2 * r) d); cbn [andb].
      * destruct (Z.ltb_spec d (2 * r')); cbn [orb]; [destruct (Z.odd q); lia|]. destruct (Z.eqb_spec (2 * r') d); [|lia]. cbn [andb]. lia.
      * destruct ((d <? 2 * r') || _); lia.
  - destruct ((d <? 2 * r) || _), ((d <? 2 * r') || _); lia.
Qed.

Lemma below_le n n' d k : n <= n' -> below n' d k -> below n d k.
Proof. unfold below. intros L B. pose proof (pow2_pos (Z.max 0 (- k)) ltac:(lia)). nia. Qed.
Lemma last_bit_mono F n n' d : fmt_ok F -> 0 < n -> 0 < d -> n <= n' -> last_bit F n d <= last_bit F n' d.
Proof.
  intros Fo Hn Hd L. destruct (last_bit_spec F n d Fo Hn Hd) as (A & B & C). destruct (last_bit_spec F n' d Fo ltac:(lia) Hd) as (A' & B' & C'). cbv zeta in *.
  destruct (Z_le_gt_dec (last_bit F n d) (last_bit F n' d)) as [|G]; [assumption|]. exfalso. apply C; [lia|].
  apply (below_le n n'); [exact L|]. eapply below_mono; [lia..| |exact B']. lia.
Qed.

Definition rnd (d n e : Z) : Z := round_half_even (n * 2 ^ Z.max 0 (- e)) (d * 2 ^ Z.max 0 e).
(** What [nearest] does when it gives a finite float *)
Lemma nearest_finite F n d m e : fmt_ok F -> 0 < n -> 0 < d -> nearest F false n d = Some (S754_finite false m e) ->
  let e0 := last_bit F n d in let q := rnd d n e0 in
  (q = Zpos m /\ e = e0 /\ q <> 2 ^ f_prec F) \/ (q = 2 ^ f_prec F /\ Zpos m = 2 ^ (f_prec F - 1) /\ e = e0 + 1).
Proof.
  intros Fo Hn Hd N e0 q. rewrite (nearest_at F false n d e0 Fo Hn Hd eq_refl) in N. cbv zeta in N. fold (rnd d n e0) in N. fold q in N.
  destruct (scale_pos e0 n d ltac:(lia) Hd) as [Ha Hb]. destruct (round_bounds _ _ Ha Hb) as (_ & _ & B). cbv zeta in B. fold (rnd d n e0) in B. fold q in B. pose proof (fmt_prec F Fo).
  destruct (Z.eqb_spec q 0) as [Q0|Q0]; [discriminate|]. destruct (Z.eqb_spec q (2 ^ f_prec F)) as [Qp|Qp].
  - destruct (_ <? _); [discriminate|]. right. injection N as <- <-. rewrite Z2Pos.id by (apply pow2_pos; lia). auto.
  - destruct (_ <? _); [discriminate|]. left. injection N as <- <-. rewrite Z2Pos.id by lia. auto.
Qed.

Lemma round_at_mono d e a b : 0 < d -> a <= b -> rnd d a e <= rnd d b e.
Proof.
  unfold rnd. intros Hd Hab. pose proof (pow2_pos (Z.max 0 (- e)) ltac:(lia)). pose proof (pow2_pos (Z.max 0 e) ltac:(lia)).
  apply round_mono; [now apply Z.mul_pos_pos|apply Z.mul_le_mono_nonneg_r; lia].
Qed.
Lemma nearest_convex F n1 n2 n3 d m e : fmt_ok F -> 0 < n1 -> 0 < d -> n1 <= n2 <= n3 ->
  nearest F false n1 d = Some (S754_finite false m e) -> nearest F false n3 d = Some (S754_finite false m e) -> nearest F false n2 d = Some (S754_finite false m e).
Proof.
  intros Fo H1 Hd L N1 N3. pose proof (fmt_prec F Fo) as FP.
  assert (CN : canon F (Zpos m) e). { destruct (nearest_canon F false n1 d _ Fo ltac:(lia) Hd N1) as [X|(mm & ee & X & C)]; [discriminate|]. now injection X as <- <-. }
  pose proof (last_bit_mono F n1 n2 d Fo H1 Hd ltac:(lia)) as M12. pose proof (last_bit_mono F n2 n3 d Fo ltac:(lia) Hd ltac:(lia)) as M23.
  pose proof (nearest_finite F n1 d m e Fo H1 Hd N1) as R1. pose proof (nearest_finite F n3 d m e Fo ltac:(lia) Hd N3) as R3. cbv zeta in R1, R3.
  set (e1 := last_bit F n1 d) in *. set (e3 := last_bit F n3 d) in *. set (e2 := last_bit F n2 d) in *.
  pose proof (pow2_pos (f_prec F) ltac:(lia)) as PP. pose proof (pow2_pos (f_prec F - 1) ltac:(lia)) as PP1.
  assert (P2 : 2 ^ f_prec F = 2 * 2 ^ (f_prec F - 1)) by (rewrite <- Z.pow_succ_r by lia; f_equal; lia).
  (* the rounded value of n2 *)
  assert (K : (e2 = e /\ rnd d n2 e2 = Zpos m) \/
              (e2 + 1 = e /\ Zpos m = 2 ^ (f_prec F - 1) /\ rnd d n2 e2 = 2 ^ f_prec F)).
  { destruct R1 as [(Q1 & E1 & N1')|(Q1 & M1 & E1)]; destruct R3 as [(Q3 & E3 & N3')|(Q3 & M3 & E3)].
    - left. assert (E2 : e2 = e) by lia. split; [exact E2|]. pose proof (round_at_mono d e2 n1 n2 Hd (proj1 L)). pose proof (round_at_mono d e2 n2 n3 Hd (proj2 L)).
      replace e1 with e2 in Q1 by lia. replace e3 with e2 in Q3 by lia. lia.
    - lia.
    - assert (E2 : e2 = e1 \/ e2 = e3) by lia. destruct E2 as [E2|E2].
      + right. split; [lia|]. split; [exact M1|]. pose proof (round_at_mono d e2 n1 n2 Hd (proj1 L)) as LO. replace e1 with e2 in Q1 by lia.
        destruct (last_bit_spec F n2 d Fo ltac:(lia) Hd) as (_ & B2 & _). cbv zeta in B2. fold e2 in B2.
        destruct (scale_pos e2 n2 d ltac:(lia) Hd) as [Ha Hb].
        assert (UP : rnd d n2 e2 <= 2 ^ f_prec F).
        { unfold rnd. apply round_lt; [exact Ha|exact Hb|]. rewrite <- Z.mul_assoc, <- Z.pow_add_r by lia. apply (below_ij n2 d (e2 + f_prec F)); [lia..|exact B2]. }
        lia.
      + left. split; [lia|]. pose proof (round_at_mono d e2 n2 n3 Hd (proj2 L)) as UP. replace e3 with e2 in Q3 by lia.
        destruct (last_bit_spec F n2 d Fo ltac:(lia) Hd) as (_ & _ & C2). cbv zeta in C2. fold e2 in C2.
        destruct (last_bit_spec F n1 d Fo H1 Hd) as (A1 & _). cbv zeta in A1. fold e1 in A1.
        destruct (scale_pos e2 n2 d ltac:(lia) Hd) as [Ha Hb].
        assert (LO : 2 ^ (f_prec F - 1) <= rnd d n2 e2).
        { unfold rnd. apply round_ge; [exact Ha|exact Hb|]. specialize (C2 ltac:(lia)). rewrite <- Z.mul_assoc, <- Z.pow_add_r by lia.
          destruct (Z_le_gt_dec (d * 2 ^ (Z.max 0 e2 + (f_prec F - 1))) (n2 * 2 ^ Z.max 0 (- e2))) as [|G]; [assumption|]. exfalso. apply C2.
          apply (below_ij n2 d _ (Z.max 0 (- e2)) (Z.max 0 e2 + (f_prec F - 1))); lia. }
        lia.
    - right. split; [lia|]. split; [exact M1|]. pose proof (round_at_mono d e2 n1 n2 Hd (proj1 L)). pose proof (round_at_mono d e2 n2 n3 Hd (proj2 L)).
      replace e1 with e2 in Q1 by lia. replace e3 with e2 in Q3 by lia. lia. }
  destruct CN as (CR & CM & _).
  rewrite (nearest_at F false n2 d e2 Fo ltac:(lia) Hd eq_refl). cbv zeta. fold (rnd d n2 e2). destruct K as [(E & Q)|(E & M & Q)]; rewrite Q.
  - change (Zpos m =? 0) with false. cbn match. destruct (Z.eqb_spec (Zpos m) (2 ^ f_prec F)); [lia|]. destruct (Z.ltb_spec (f_emax F - f_prec F) e2); [lia|]. now rewrite Pos2Z.id, E.
  - destruct (Z.eqb_spec (2 ^ f_prec F) 0); [lia|]. rewrite Z.eqb_refl. destruct (Z.ltb_spec (f_emax F - f_prec F) (e2 + 1)); [lia|]. rewrite <- M, Pos2Z.id. congruence.
Qed.

(** Decimals: x1 * 10^j1 <= y * 10^k <= x2 * 10^j2, all multiplied with 10^P *)
Lemma reads_convex F m e x1 j1 y k x2 j2 P : fmt_ok F -> 0 <= P -> 0 <= P + j1 -> 0 <= P + k -> 0 <= P + j2 ->
  reads F m e x1 j1 -> reads F m e x2 j2 -> x1 * 10 ^ (P + j1) <= y * 10 ^ (P + k) <= x2 * 10 ^ (P + j2) -> reads F m e y k.
Proof.
  intros Fo HP H1 Hk H2 [X1 R1] [X2 R2] L. pose proof (pow10_pos P HP). pose proof (pow10_pos _ H1). pose proof (pow10_pos _ Hk). pose proof (pow10_pos _ H2).
  assert (Y : 0 < y) by nia. split; [exact Y|].
  rewrite (nearest_dec_at F false x1 j1 P) in R1 by first [assumption|lia]. rewrite (nearest_dec_at F false x2 j2 P) in R2 by first [assumption|lia].
  rewrite (nearest_dec_at F false y k P) by first [assumption|lia]. apply (nearest_convex F (x1 * 10 ^ (P + j1)) _ (x2 * 10 ^ (P + j2))); auto; nia.
Qed.

(** ---------- the shortest text ---------- *)

Lemma reads_as_true F m e x j : reads F m e x j -> reads_as F m e x j = true.
Proof. intros [X R]. unfold reads_as. rewrite R, Pos.eqb_refl, Z.eqb_refl. apply Z.ltb_lt in X. now rewrite X. Qed.

(** The exact value *)
Lemma exact_value F m e : fmt_ok F -> canon F (Zpos m) e -> let K := Z.max 0 (- e) in
  exists x0, reads F m e x0 (- K) /\ x0 * e_down e = Zpos m * e_up e * 10 ^ K.
Proof.
  intros Fo C K. exists (Zpos m * e_up e * 10 ^ K / e_down e). split; [exact (exact_reads F m e Fo C)|].
  assert (HK : 0 <= K) by (unfold K; lia). unfold e_down. fold K. rewrite pow10_split by exact HK. rewrite Z.mul_assoc. pose proof (pow2_pos K HK). rewrite Z.div_mul by lia. reflexivity.
Qed.

(** If some multiple of 10^k is read as the float, then one next to it is. *)
Lemma candidate_some F m e y k : fmt_ok F -> canon F (Zpos m) e -> 0 <= k -> reads F m e y k -> exists x, candidate F m e k = Some x.
Proof.
  intros Fo C Hk R. destruct (exact_value F m e Fo C) as (x0 & R0 & E0). cbv zeta in *. set (K := Z.max 0 (- e)) in *. assert (HK : 0 <= K) by (unfold K; lia).
  unfold candidate. rewrite ratio_eq. rewrite (proj2 (Z.leb_le 0 k) Hk). set (n := Zpos m * e_up e) in *. set (d := e_down e) in *. assert (D : 0 < d) by apply e_down_pos.
  pose proof (pow10_pos k Hk) as K1. pose proof (pow10_pos K HK) as K2. assert (B : 0 < d * 10 ^ k) by now apply Z.mul_pos_pos.
  pose proof (Z.div_mod n (d * 10 ^ k) ltac:(lia)) as DM. pose proof (Z.mod_pos_bound n _ B) as MB. set (q := n / (d * 10 ^ k)) in *. set (r := n mod (d * 10 ^ k)) in *.
  assert (PK : 10 ^ (K + k) = 10 ^ K * 10 ^ k) by (apply Z.pow_add_r; lia).
  assert (LO : q * 10 ^ (K + k) <= x0).
  { apply (Z.mul_le_mono_pos_r _ _ d D). rewrite E0, PK. replace (q * (10 ^ K * 10 ^ k) * d) with ((d * 10 ^ k * q) * 10 ^ K) by ring. apply Z.mul_le_mono_nonneg_r; lia. }
  assert (UP : x0 <= (q + 1) * 10 ^ (K + k)).
  { apply (Z.mul_le_mono_pos_r _ _ d D). rewrite E0, PK. replace ((q + 1) * (10 ^ K * 10 ^ k) * d) with ((d * 10 ^ k * q + d * 10 ^ k) * 10 ^ K) by ring. apply Z.mul_le_mono_nonneg_r; lia. }
  assert (PP : 0 < 10 ^ (K + k)) by (apply pow10_pos; lia).
  assert (Z0 : 10 ^ (K + - K) = 1) by (rewrite Z.add_opp_diag_r; reflexivity).
  assert (ONE : reads F m e q k \/ reads F m e (q + 1) k).
  { destruct (Z_le_gt_dec y q) as [L|L].
    - left. apply (reads_convex F m e y k q k x0 (- K) K); auto; try lia. rewrite Z0. split; [apply Z.mul_le_mono_nonneg_r; lia|lia].
    - right. apply (reads_convex F m e x0 (- K) (q + 1) k y k K); auto; try lia. rewrite Z0. split; [lia|apply Z.mul_le_mono_nonneg_r; lia]. }
  destruct ONE as [O|O]; apply reads_as_true in O; rewrite O; [destruct (reads_as F m e (q + 1) k)|destruct (reads_as F m e q k)]; cbn [andb]; eauto.
Qed.

Lemma shortest_from_ge F m e k : (exists x, candidate F m e k = Some x) -> forall fuel top x j, k <= top -> top - Z.of_nat fuel <= k - 1 \/ k <= - Z.max 0 (- e) ->
  shortest_from fuel F m e top = (x, j) -> k <= j.
Proof.
  intros [x0 C]. induction fuel as [|fuel IH]; intros top x j L H; cbn [shortest_from].
  - destruct (ratio m e) as [n d]. intros [= _ <-]. lia.
  - destruct (candidate F m e top) as [y|] eqn:E; [intros [= _ <-]; exact L|]. apply IH; [|lia]. assert (top <> k) by congruence. lia.
Qed.

(** The whole part of the fixed text has no more digits than that of the shortest text. *)
Lemma whole_part F m e x j P k : fmt_ok F -> canon F (Zpos m) e -> shortest F m e = (x, j) -> 0 <= P -> 0 <= P + j -> 0 <= k ->
  let y := round_half_even (Zpos m * e_up e * 10 ^ P) (e_down e) in
  reads F m e y (- P) -> 10 ^ (P + k) <= y -> 10 ^ (P + k) <= x * 10 ^ (P + j).
Proof.
  intros Fo C S HP HJ Hk y R LE. pose proof (shortest_reads F m e x j Fo C S) as RS.
  destruct (Z_le_gt_dec (10 ^ (P + k)) (x * 10 ^ (P + j))) as [|G]; [assumption|]. exfalso.
  assert (R1 : reads F m e 1 k).
  { apply (reads_convex F m e x j 1 k y (- P) P); auto; try lia. rewrite Z.add_opp_diag_r, Z.pow_0_r. lia. }
  assert (KJ : k <= j).
  { unfold shortest in S. cbv zeta in S. set (l := Z.log2 (Zpos m) + e) in *. set (top := if 0 <=? l then l / 3 + 2 else l / 4 + 2) in *.
    assert (TOP : k <= top).
    { (* 10^k <= y / 10^P <= m * 2^e + 1/2 *)
      pose proof (e_up_pos e) as U. pose proof (e_down_pos e) as D. pose proof (pow10_pos P HP) as K. pose proof (pow10_pos k Hk) as Kk.
      assert (N : 0 <= Zpos m * e_up e * 10 ^ P) by (apply Z.mul_nonneg_nonneg; [apply Z.mul_nonneg_nonneg|]; lia).
      destruct (round_bounds _ _ N D) as (_ & B & _). cbv zeta in B. fold y in B.
      assert (B2 : 2 * 10 ^ k * e_down e <= 2 * (Zpos m * e_up e) + e_down e).
      { apply (Z.mul_le_mono_pos_r _ _ (10 ^ P) K). rewrite Z.pow_add_r in LE by lia.
        assert (2 * (10 ^ P * 10 ^ k) * e_down e <= 2 * y * e_down e) by (apply Z.mul_le_mono_nonneg_r; lia).
        assert (e_down e <= e_down e * 10 ^ P) by (rewrite <- (Z.mul_1_r (e_down e)) at 1; apply Z.mul_le_mono_nonneg_l; lia).
        replace (2 * 10 ^ k * e_down e * 10 ^ P) with (2 * (10 ^ P * 10 ^ k) * e_down e) by ring.
        replace ((2 * (Zpos m * e_up e) + e_down e) * 10 ^ P) with (2 * (Zpos m * e_up e * 10 ^ P) + e_down e * 10 ^ P) by ring. lia. }
      destruct (Z.log2_spec (Zpos m) ltac:(lia)) as [_ M2]. pose proof (Z.log2_nonneg (Zpos m)) as LN.
      (* m * 2^e < 2^(l+1) *)
      assert (V : Zpos m * e_up e * 2 ^ Z.max 0 (- (l + 1)) < e_down e * 2 ^ Z.max 0 (l + 1)).
      { unfold e_up, e_down. assert (M3 : Zpos m * 2 ^ 0 < 1 * 2 ^ Z.succ (Z.log2 (Zpos m))) by (rewrite Z.pow_0_r; lia).
        pose proof (proj1 (cmp_shift (Zpos m) 1 0 (Z.succ (Z.log2 (Zpos m))) (Z.max 0 e + Z.max 0 (- (l + 1))) (Z.max 0 (- e) + Z.max 0 (l + 1)) ltac:(lia) ltac:(lia) ltac:(lia) ltac:(lia) ltac:(unfold l; lia)) M3) as Q.
        rewrite !Z.pow_add_r in Q by lia. rewrite Z.mul_1_l, Z.mul_assoc in Q. exact Q. }
      unfold top. destruct (Z.leb_spec 0 l) as [L0|L0].
      - replace (Z.max 0 (- (l + 1))) with 0 in V by lia. rewrite Z.pow_0_r, Z.mul_1_r in V. replace (Z.max 0 (l + 1)) with (l + 1) in V by lia.
        assert (W : 10 ^ k <= 2 ^ (l + 1)).
        { assert (2 * 10 ^ k * e_down e < (2 * 2 ^ (l + 1) + 1) * e_down e) by lia. apply Z.mul_lt_mono_pos_r in H; [lia|exact D]. }
        assert (2 ^ (3 * k) <= 2 ^ (l + 1)).
        { rewrite Z.pow_mul_r by lia. change (2 ^ 3) with 8. assert (8 ^ k <= 10 ^ k) by (apply Z.pow_le_mono_l; lia). lia. }
        apply Z.pow_le_mono_r_iff in H; [|lia|lia]. assert (k <= (l + 1) / 3) by (apply Z.div_le_lower_bound; lia).
        assert ((l + 1) / 3 <= l / 3 + 1) by (replace (l / 3 + 1) with ((l + 1 * 3) / 3) by (rewrite Z.div_add; lia); apply Z.div_le_mono; lia). lia.
      - (* below 1 *)
        assert (W : 2 * (Zpos m * e_up e) <= 2 * e_down e).
        { replace (Z.max 0 (l + 1)) with 0 in V by lia. rewrite Z.pow_0_r, Z.mul_1_r in V. pose proof (pow2_pos (Z.max 0 (- (l + 1))) ltac:(lia)) as PW.
          assert (Zpos m * e_up e * 1 <= Zpos m * e_up e * 2 ^ Z.max 0 (- (l + 1))) by (apply Z.mul_le_mono_nonneg_l; lia). lia. }
        assert (K1 : 10 ^ k = 1).
        { assert (2 * 10 ^ k * e_down e <= 3 * e_down e) by lia. apply Z.mul_le_mono_pos_r in H; lia. }
        assert (k = 0). { destruct (Z.eq_dec k 0); [assumption|]. pose proof (proj1 (Z.pow_gt_1 10 k ltac:(lia)) ltac:(lia)). lia. }
        subst k. rewrite Z.pow_0_r in B2.
        assert (HL : -2 < l).
        { destruct (Z_lt_ge_dec (-2) l) as [|G2]; [assumption|]. exfalso. replace (Z.max 0 (l + 1)) with 0 in V by lia. rewrite Z.pow_0_r, Z.mul_1_r in V.
          assert (2 <= 2 ^ Z.max 0 (- (l + 1))) by (change 2 with (2 ^ 1) at 1; apply Z.pow_le_mono_r; lia).
          assert (Zpos m * e_up e * 2 <= Zpos m * e_up e * 2 ^ Z.max 0 (- (l + 1))) by (apply Z.mul_le_mono_nonneg_l; lia). lia. }
        replace l with (-1) by lia. change (-1 / 4) with (-1). lia. }
    apply (shortest_from_ge F m e k (candidate_some F m e 1 k Fo C Hk R1) _ _ _ _ TOP) with (2 := S).
    rewrite Z2Nat.id by lia. destruct (Z.eq_dec (Z.max 0 (- e)) 0) as [->|]; lia. }
  assert (10 ^ (P + k) <= 10 ^ (P + j)) by (apply Z.pow_le_mono_r; lia). destruct RS as [X _]. pose proof (pow10_pos _ HJ).
  assert (1 * 10 ^ (P + j) <= x * 10 ^ (P + j)) by (apply Z.mul_le_mono_nonneg_r; lia). lia.
Qed.

(** ---------- numbers of digits ---------- *)

Lemma digits_bound s : forall a v, 0 <= a -> digits_val 10 a s = Some v -> a * 10 ^ Z.of_nat (String.length s) <= v < (a + 1) * 10 ^ Z.of_nat (String.length s).
Proof.
  induction s as [|c s IH]; intros a v A; cbn [digits_val String.length]; [intros [= <-]; rewrite Z.pow_0_r; lia|].
  destruct (digit_val c) as [d|] eqn:D; [|discriminate]. destruct (Z.ltb_spec d 10) as [D10|]; [|discriminate]. pose proof (digit_val_nonneg c d D) as D0.
  intros V. apply IH in V; [|lia]. rewrite Nat2Z.inj_succ, Z.pow_succ_r by lia. pose proof (pow10_pos (Z.of_nat (String.length s)) ltac:(lia)) as K.
  set (T := 10 ^ Z.of_nat (String.length s)) in *. nia.
Qed.
Lemma dec_first n : 0 < n -> starts (Ascii.eqb "0") (dec_of_nonneg n) = false.
Proof.
  intros H. unfold dec_of_nonneg. destruct (dec_digits_spec (S (Z.to_nat (Z.log2 n))) n "") as (p & E & _ & Z0 & _).
  { split; [lia|]. rewrite Nat2Z.inj_succ, Z2Nat.id by apply Z.log2_nonneg. apply Z.log2_spec. exact H. }
  rewrite E, app_str_nil_r. apply Z0. lia.
Qed.
Lemma digit_zero c : digit_val c = Some 0 -> c = "0"%char.
Proof.
  unfold digit_val, between. pose proof (N_ascii_bounded c) as B. fold (code c).
  assert (G : code c = 48 -> c = "0"%char). { intros E. unfold code in E. rewrite <- (ascii_N_embedding c). replace (N_of_ascii c) with 48%N by lia. reflexivity. }
  repeat match goal with |- context [?a <=? ?b] => destruct (Z.leb_spec a b); cbn [andb] end; intros [= E]; try (apply G); lia.
Qed.
Lemma dec_len n : 0 <= n -> let L := Z.of_nat (String.length (dec_of_nonneg n)) in 1 <= L /\ n < 10 ^ L /\ (0 < n -> 10 ^ (L - 1) <= n) /\ (n = 0 -> L = 1).
Proof.
  intros H L. destruct (dec_of_nonneg_dec n H) as (V & _ & NE).
  assert (L1 : 1 <= L) by (unfold L; destruct (dec_of_nonneg n); [congruence|cbn [String.length]; lia]).
  pose proof (digits_bound _ 0 n ltac:(lia) V) as B. fold L in B. split; [exact L1|]. split; [lia|]. split.
  - intros P. pose proof (dec_first n P) as FS. unfold L. clear L L1 B. destruct (dec_of_nonneg n) as [|c s]; [congruence|]. cbn [digits_val] in V. destruct (digit_val c) as [d|] eqn:D; [|discriminate].
    destruct (Z.ltb_spec d 10) as [D10|]; [|discriminate].
    pose proof (digit_val_nonneg c d D) as D0. assert (d <> 0). { intros ->. apply digit_zero in D. subst c. discriminate FS. }
    replace (0 * 10 + d) with d in V by lia. apply digits_bound in V; [|lia]. cbn [String.length]. rewrite Nat2Z.inj_succ. replace (Z.succ (Z.of_nat (String.length s)) - 1) with (Z.of_nat (String.length s)) by lia.
    pose proof (pow10_pos (Z.of_nat (String.length s)) ltac:(lia)). nia.
  - intros ->. reflexivity.
Qed.
Lemma dec_len_le a b : 0 <= a -> 0 <= b -> (forall k, 0 <= k -> 10 ^ k <= a -> 10 ^ k <= b) -> (String.length (dec_of_nonneg a) <= String.length (dec_of_nonneg b))%nat.
Proof.
  intros A B K. destruct (dec_len a A) as (A1 & A2 & A3 & A4). destruct (dec_len b B) as (B1 & B2 & _ & _). cbv zeta in *.
  destruct (Z.eq_dec a 0) as [E|N]; [specialize (A4 E); lia|]. specialize (A3 ltac:(lia)). specialize (K (Z.of_nat (String.length (dec_of_nonneg a)) - 1) ltac:(lia) A3).
  assert (X : 10 ^ (Z.of_nat (String.length (dec_of_nonneg a)) - 1) < 10 ^ Z.of_nat (String.length (dec_of_nonneg b))) by lia.
  apply Z.pow_lt_mono_r_iff in X; lia.
Qed.

(** ---------- the length of the fixed text ---------- *)

Definition sign_len (neg : bool) : Z := if neg then 1 else 0.
Lemma len_sign neg s : Z.of_nat (String.length (sign_text neg s)) = sign_len neg + Z.of_nat (String.length s).
Proof. destruct neg; cbn [sign_text String.length sign_len]; lia. Qed.
Lemma len_scaled y P : 0 <= y -> 0 <= P -> Z.of_nat (String.length (print_scaled y P)) = Z.of_nat (String.length (dec_of_nonneg (y / 10 ^ P))) + (if 0 <? P then 1 + P else 0).
Proof.
  intros Y HP. destruct (print_scaled_number y P Y HP) as (-> & _ & _ & L). rewrite length_app_str, Nat2Z.inj_add. unfold int_part. destruct (Z.leb_spec P 0).
  - replace P with 0 by lia. rewrite Z.pow_0_r, Z.div_1_r. cbn. lia.
  - destruct (Z.ltb_spec 0 P); [|lia]. cbn [frac_text String.length]. lia.
Qed.
Lemma pre_number neg a p b : is_number a p b -> preNumberOf (number neg a p b) = sign_len neg + Z.of_nat (String.length a).
Proof.
  intros N. unfold preNumberOf. rewrite at_point_number by exact N. destruct p; [apply len_sign|]. unfold number. cbn [frac_text]. rewrite app_str_nil_r. apply len_sign.
Qed.
(** The digits before the point *)
Lemma pre_dec neg x j : 0 <= x -> preNumberOf (sign_text neg (print_dec x j)) = sign_len neg + Z.of_nat (String.length (dec_of_nonneg (if 0 <=? j then x * 10 ^ j else x / 10 ^ (- j)))).
Proof.
  intros X. unfold print_dec. destruct (Z.leb_spec 0 j) as [J|J].
  - pose proof (pow10_pos j J). assert (Y : 0 <= x * 10 ^ j) by nia. destruct (print_scaled_number (x * 10 ^ j) 0 Y ltac:(lia)) as (E & N & _ & _).
    change (0 <? 0) with false in *. cbn [print_scaled Z.leb Z.compare] in E. assert (Q : print_scaled (x * 10 ^ j) 0 = dec_of_nonneg (x * 10 ^ j)) by reflexivity.
    assert (W : sign_text neg (dec_of_nonneg (x * 10 ^ j)) = number neg (int_part (x * 10 ^ j) 0) false (frac_part (x * 10 ^ j) 0)) by (unfold number; rewrite <- E; exact (f_equal (sign_text neg) (eq_sym Q))).
    rewrite W, pre_number by exact N. reflexivity.
  - destruct (print_scaled_number x (- j) X ltac:(lia)) as (E & N & _ & _). rewrite E. fold (number neg (int_part x (- j)) (0 <? - j) (frac_part x (- j))). rewrite pre_number by exact N.
    unfold int_part. destruct (Z.leb_spec (- j) 0); [lia|]. reflexivity.
Qed.

Theorem fixed_length F f P : fmt_ok F -> valid_binary (f_prec F) (f_emax F) f = true -> 0 <= P -> short_places F f <= P ->
  Z.of_nat (String.length (format_fixed P f)) <= preNumberOf (format_short F f) + (if 0 <? P then 1 + P else 0).
Proof.
  intros Fo V HP SP. assert (T0 : 0 <= (if 0 <? P then 1 + P else 0)) by (destruct (Z.ltb_spec 0 P); lia).
  destruct f as [neg|neg| |neg m e].
  - cbn [format_fixed format_short]. rewrite len_sign, len_scaled by lia. rewrite Z.div_0_l by (pose proof (pow10_pos P HP); lia).
    change "0"%string with (print_dec 0 0). rewrite pre_dec by lia. change (dec_of_nonneg 0) with "0"%string. change (dec_of_nonneg (if 0 <=? 0 then 0 * 10 ^ 0 else 0 / 10 ^ (- 0))) with "0"%string. lia.
  - destruct neg; cbn [format_fixed format_short]; [change (preNumberOf "-Inf") with 4|change (preNumberOf "+Inf") with 4]; cbn [String.length]; lia.
  - cbn [format_fixed format_short]. change (preNumberOf "NaN") with 3. cbn [String.length]. lia.
  - pose proof V as C. apply (canon_valid F) in C; [|exact Fo]. cbn [format_fixed format_short]. rewrite ratio_eq. destruct (shortest F m e) as [x j] eqn:S.
    pose proof (shortest_reads F m e x j Fo C S) as RS. assert (X : 0 < x) by apply RS.
    assert (PJ : 0 <= P + j). { cbn [short_places] in SP. rewrite S in SP. cbn [snd] in SP. lia. }
    pose proof (e_up_pos e) as U. pose proof (e_down_pos e) as D. pose proof (pow10_pos P HP) as K.
    assert (N : 0 <= Zpos m * e_up e * 10 ^ P) by (apply Z.mul_nonneg_nonneg; [apply Z.mul_nonneg_nonneg|]; lia).
    set (y := round_half_even (Zpos m * e_up e * 10 ^ P) (e_down e)). destruct (round_bounds _ _ N D) as (_ & YB & Y0). cbv zeta in YB, Y0. fold y in YB, Y0.
    rewrite len_sign, len_scaled by assumption. rewrite pre_dec by lia.
    assert (B0 : 0 <= (if 0 <=? j then x * 10 ^ j else x / 10 ^ (- j))).
    { destruct (Z.leb_spec 0 j); [pose proof (pow10_pos j ltac:(lia)); nia|apply Z.div_pos; [lia|apply pow10_pos; lia]]. }
    assert (LE : le (String.length (dec_of_nonneg (y / 10 ^ P))) (String.length (dec_of_nonneg (if 0 <=? j then x * 10 ^ j else x / 10 ^ (- j))))); [|lia].
    apply dec_len_le; [apply Z.div_pos; lia|exact B0|]. intros k Hk L.
    assert (L2 : 10 ^ (P + k) <= y).
    { rewrite Z.pow_add_r by lia. pose proof (Z.mul_div_le y (10 ^ P) K). assert (10 ^ P * 10 ^ k <= 10 ^ P * (y / 10 ^ P)) by (apply Z.mul_le_mono_nonneg_l; lia). lia. }
    assert (R : reads F m e y (- P)).
    { apply (fixed_reads F m e x j P Fo C RS HP PJ).
      assert (NS : ~ small_power F (S754_finite neg m e)).
      { cbn [small_power]. intros [M SM]. (* then it is below 1/2 *)
        pose proof (fmt_prec F Fo) as FP. assert (PL : 11 <= power_limit F) by (unfold power_limit; destruct (_ =? _); lia).
        assert (UE : e_up e = 1) by (unfold e_up; replace (Z.max 0 e) with 0 by lia; reflexivity).
        assert (DE : e_down e = 2 ^ (- e)) by (unfold e_down; f_equal; lia).
        assert (BIG : 4 * Zpos m <= e_down e).
        { rewrite M, DE. change 4 with (2 ^ 2). rewrite <- Z.pow_add_r by lia. apply Z.pow_le_mono_r; lia. }
        assert (2 * (Zpos m * e_up e * 10 ^ P) * 2 <= e_down e * 10 ^ P).
        { rewrite UE. replace (2 * (Zpos m * 1 * 10 ^ P) * 2) with (4 * Zpos m * 10 ^ P) by ring. apply Z.mul_le_mono_nonneg_r; lia. }
        assert (10 ^ P <= y). { assert (10 ^ P <= 10 ^ (P + k)) by (apply Z.pow_le_mono_r; lia). lia. }
        assert (2 * 10 ^ P * e_down e <= 2 * y * e_down e) by (apply Z.mul_le_mono_nonneg_r; lia).
        assert (e_down e <= e_down e * 10 ^ P) by (rewrite <- (Z.mul_1_r (e_down e)) at 1; apply Z.mul_le_mono_nonneg_l; lia).
        nia. }
      exact (fixed_ok_power F (S754_finite neg m e) P Fo V I NS HP SP). }
    pose proof (whole_part F m e x j P k Fo C S HP PJ Hk R L2) as WP. rewrite !Z.pow_add_r in WP by lia.
    destruct (Z.leb_spec 0 j) as [J|J].
    + rewrite Z.pow_add_r in WP by lia. apply (Z.mul_le_mono_pos_l _ _ (10 ^ P) K). lia.
    + apply Z.div_le_lower_bound; [apply pow10_pos; lia|]. replace P with (P + j + - j) in WP at 1 by lia. rewrite Z.pow_add_r in WP by lia.
      pose proof (pow10_pos (P + j) PJ). apply (Z.mul_le_mono_pos_l _ _ (10 ^ (P + j))); [assumption|]. lia.
Qed.
