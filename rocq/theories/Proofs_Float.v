(** Proofs_Float.v -- reading and printing floats. *)
From Coq Require Import ZArith NArith List String Ascii Bool SpecFloat Lia.
From Verif Require Import Base Model_Lex Model_Float Spec_Text Proofs_Lex Proofs_Num.
Import ListNotations.
Local Open Scope Z_scope.

Definition fmt_ok (F : ffmt) : Prop := F = F32 \/ F = F64.
Lemma fmt_prec F : fmt_ok F -> 24 <= f_prec F <= 53.
Proof. intros [-> | ->]; cbn; lia. Qed.
Lemma fmt_emin F : fmt_ok F -> f_emin F < 0.
Proof. intros [-> | ->]; cbn; lia. Qed.
Lemma fmt_emax F : fmt_ok F -> 0 < f_emax F - f_prec F.
Proof. intros [-> | ->]; cbn; lia. Qed.

(** ---------- fractions n / d times powers of two ---------- *)

Lemma pow2_pos k : 0 <= k -> 0 < 2 ^ k.
Proof. intros. apply Z.pow_pos_nonneg; lia. Qed.

Lemma cmp_shift1 n d i j k : 0 <= i -> 0 <= j -> 0 <= k ->
  (n * 2 ^ i < d * 2 ^ j <-> n * 2 ^ (i + k) < d * 2 ^ (j + k)).
Proof.
  intros Hi Hj Hk. rewrite !Z.pow_add_r, !Z.mul_assoc by lia. pose proof (pow2_pos k Hk).
  apply Z.mul_lt_mono_pos_r. lia.
Qed.
Lemma cmp_shift n d i j i' j' : 0 <= i -> 0 <= j -> 0 <= i' -> 0 <= j' -> j - i = j' - i' ->
  (n * 2 ^ i < d * 2 ^ j <-> n * 2 ^ i' < d * 2 ^ j').
Proof.
  intros Hi Hj Hi' Hj' E. destruct (Z.le_ge_cases i i') as [L|L].
  - rewrite (cmp_shift1 n d i j (i' - i)) by lia. replace (i + (i' - i)) with i' by lia. replace (j + (i' - i)) with j' by lia. reflexivity.
  - rewrite (cmp_shift1 n d i' j' (i - i')) by lia. replace (i' + (i - i')) with i by lia. replace (j' + (i - i')) with j by lia. reflexivity.
Qed.

Lemma scale_eq e n d : scale e n d = (n * 2 ^ Z.max 0 (- e), d * 2 ^ Z.max 0 e).
Proof.
  unfold scale. destruct (Z.ltb_spec e 0).
  - rewrite Z.max_r, (Z.max_l 0 e) by lia. rewrite Z.mul_1_r. reflexivity.
  - rewrite Z.max_l, (Z.max_r 0 e) by lia. rewrite Z.mul_1_r. reflexivity.
Qed.

(** n / d < 2^k, for any integer k *)
Definition below (n d k : Z) : Prop := n * 2 ^ Z.max 0 (- k) < d * 2 ^ Z.max 0 k.
Lemma below_ij n d k i j : 0 <= i -> 0 <= j -> j - i = k -> (n * 2 ^ i < d * 2 ^ j <-> below n d k).
Proof. intros. unfold below. apply cmp_shift; lia. Qed.
Lemma below_mono n d k k' : 0 <= n -> 0 < d -> k <= k' -> below n d k -> below n d k'.
Proof.
  intros Hn Hd L B. apply (below_ij n d k (Z.max 0 (- k)) (Z.max 0 k)) in B; [|lia..].
  apply (below_ij n d k' (Z.max 0 (- k)) (Z.max 0 k + (k' - k))); [lia..|].
  eapply Z.lt_le_trans; [exact B|]. apply Z.mul_le_mono_nonneg_l; [lia|]. apply Z.pow_le_mono_r; lia.
Qed.
Lemma below_dec n d k : below n d k \/ ~ below n d k.
Proof. unfold below. lia. Qed.

(** The logarithms say where a fraction is. *)
Lemma log_below n d : 0 < n -> 0 < d -> below n d (Z.log2 n - Z.log2 d + 1) /\ ~ below n d (Z.log2 n - Z.log2 d - 1).
Proof.
  intros Hn Hd. destruct (Z.log2_spec n Hn) as [N1 N2]. destruct (Z.log2_spec d Hd) as [D1 D2].
  pose proof (Z.log2_nonneg n). pose proof (Z.log2_nonneg d). split.
  - apply (below_ij n d _ (Z.log2 d) (Z.log2 n + 1)); [lia..|].
    replace (Z.log2 n + 1) with (Z.succ (Z.log2 n)) by lia. pose proof (pow2_pos (Z.log2 d) ltac:(lia)).
    pose proof (pow2_pos (Z.succ (Z.log2 n)) ltac:(lia)). nia.
  - rewrite <- (below_ij n d _ (Z.log2 d + 1) (Z.log2 n)) by lia.
    replace (Z.log2 d + 1) with (Z.succ (Z.log2 d)) by lia. pose proof (pow2_pos (Z.log2 n) ltac:(lia)).
    pose proof (pow2_pos (Z.succ (Z.log2 d)) ltac:(lia)). nia.
Qed.

(** last_bit is the exponent e with 2^(e + prec - 1) <= n/d < 2^(e + prec), or e is the least one. *)
Lemma scale_test F n d e : 0 < f_prec F ->
  (let '(a, b) := scale e n d in a <? b * 2 ^ f_prec F) = true <-> below n d (e + f_prec F).
Proof.
  intros P. rewrite scale_eq, Z.ltb_lt. rewrite <- Z.mul_assoc, <- Z.pow_add_r by lia.
  apply below_ij; lia.
Qed.
Lemma last_bit_spec F n d : fmt_ok F -> 0 < n -> 0 < d ->
  let e := last_bit F n d in
  f_emin F <= e /\ below n d (e + f_prec F) /\ (f_emin F < e -> ~ below n d (e + f_prec F - 1)).
Proof.
  intros Fo Hn Hd. pose proof (fmt_prec F Fo) as P. cbv zeta. unfold last_bit.
  set (e0 := Z.log2 n - Z.log2 d - f_prec F).
  destruct (log_below n d Hn Hd) as [B1 B2].
  assert (T := scale_test F n d e0 ltac:(lia)). destruct (scale e0 n d) as [a b].
  destruct (a <? b * 2 ^ f_prec F).
  - assert (Be : below n d (e0 + f_prec F)) by (now apply T). split; [lia|]. split.
    + eapply below_mono; [lia..| |exact Be]. lia.
    + intros L. rewrite Z.max_r in * by lia. intros C. apply B2. eapply below_mono; [lia..| |exact C]. unfold e0. lia.
  - assert (Be : ~ below n d (e0 + f_prec F)) by (intros C; apply T in C; discriminate). split; [lia|]. split.
    + eapply below_mono; [lia..| |exact B1]. unfold e0. lia.
    + intros L. rewrite Z.max_r in * by lia. intros C. apply Be. eapply below_mono; [lia..| |exact C]. lia.
Qed.
Lemma last_bit_unique F n d e : fmt_ok F -> 0 < n -> 0 < d -> f_emin F <= e -> below n d (e + f_prec F) ->
  (f_emin F < e -> ~ below n d (e + f_prec F - 1)) -> last_bit F n d = e.
Proof.
  intros Fo Hn Hd L B N. destruct (last_bit_spec F n d Fo Hn Hd) as (L' & B' & N'). cbv zeta in *.
  destruct (Z.lt_trichotomy (last_bit F n d) e) as [C|[C|C]]; [|exact C|].
  - exfalso. apply N; [lia|]. eapply below_mono; [lia..| |exact B']. lia.
  - exfalso. apply N'; [lia|]. eapply below_mono; [lia..| |exact B]. lia.
Qed.

(** ---------- rounding ---------- *)

Lemma round_bounds n d : 0 <= n -> 0 < d -> let q := round_half_even n d in 2 * n <= 2 * q * d + d /\ 2 * q * d - d <= 2 * n /\ 0 <= q.
Proof.
  intros Hn Hd. cbv zeta. unfold round_half_even. pose proof (Z.div_mod n d ltac:(lia)). pose proof (Z.mod_pos_bound n d Hd).
  assert (0 <= n / d) by (apply Z.div_pos; lia).
  destruct (Z.ltb_spec d (2 * (n mod d))); cbn [orb]; [nia|].
  destruct (Z.eqb_spec (2 * (n mod d)) d); cbn [andb]; [destruct (Z.odd (n / d)); nia|nia].
Qed.
Lemma round_exact q d : 0 < d -> round_half_even (q * d) d = q.
Proof.
  intros Hd. unfold round_half_even. rewrite Z.div_mul, Z.mod_mul by lia.
  destruct (Z.ltb_spec d (2 * 0)); [lia|]. destruct (Z.eqb_spec (2 * 0) d); [lia|]. reflexivity.
Qed.
Lemma round_lt n d p : 0 <= n -> 0 < d -> n < d * p -> round_half_even n d <= p.
Proof.
  intros Hn Hd L. destruct (round_bounds n d Hn Hd) as (_ & B & _). cbv zeta in B. nia.
Qed.
Lemma round_ge n d p : 0 <= n -> 0 < d -> d * p <= n -> p <= round_half_even n d.
Proof.
  intros Hn Hd L. destruct (round_bounds n d Hn Hd) as (B & _ & _). cbv zeta in B. nia.
Qed.

(** ---------- valid floats ---------- *)

Lemma digits2_log2 p : Zpos (digits2_pos p) = Z.log2 (Zpos p) + 1.
Proof.
  assert (E : digits2_pos p = Pos.size p) by (induction p; cbn; congruence).
  rewrite E. destruct p as [p|p|]; cbn; lia.
Qed.

(** m * 2^e is a float of the format. *)
Definition canon (F : ffmt) (m : Z) (e : Z) : Prop :=
  f_emin F <= e <= f_emax F - f_prec F /\ 0 < m < 2 ^ f_prec F /\ (f_emin F < e -> 2 ^ (f_prec F - 1) <= m).

Lemma canon_valid F neg m e : fmt_ok F -> valid_binary (f_prec F) (f_emax F) (S754_finite neg m e) = true <-> canon F (Zpos m) e.
Proof.
  intros Fo. pose proof (fmt_prec F Fo) as P. cbn [valid_binary]. unfold bounded, canonical_mantissa, fexp, emin.
  rewrite andb_true_iff, Z.leb_le. rewrite <- Zeq_is_eq_bool.
  rewrite digits2_log2. unfold canon. fold (f_emin F).
  pose proof (Z.log2_spec (Zpos m) ltac:(lia)) as [L1 L2].
  assert (Q : Z.log2 (Zpos m) < f_prec F <-> Zpos m < 2 ^ f_prec F) by (symmetry; apply Z.log2_lt_pow2; lia).
  assert (Q2 : f_prec F - 1 <= Z.log2 (Zpos m) <-> 2 ^ (f_prec F - 1) <= Zpos m) by (symmetry; apply Z.log2_le_pow2; lia).
  split.
  - intros [E B]. repeat split; try lia.
  - intros (E & B & C). split; [|lia]. destruct (Z.eq_dec e (f_emin F)) as [->|N].
    + unfold f_emin in *. lia.
    + specialize (C ltac:(unfold f_emin in *; lia)). unfold f_emin in *. lia.
Qed.

Lemma nearest_canon F neg n d f : fmt_ok F -> 0 <= n -> 0 < d -> nearest F neg n d = Some f ->
  f = S754_zero neg \/ exists m e, f = S754_finite neg m e /\ canon F (Zpos m) e.
Proof.
  intros Fo Hn Hd. pose proof (fmt_prec F Fo) as P. unfold nearest.
  destruct (Z.eqb_spec n 0); [intros [= <-]; now left|].
  destruct (last_bit_spec F n d Fo ltac:(lia) Hd) as (L & B & N). cbv zeta in *.
  set (e := last_bit F n d) in *. rewrite scale_eq.
  set (a := n * 2 ^ Z.max 0 (- e)). set (b := d * 2 ^ Z.max 0 e).
  assert (Ha : 0 <= a) by (pose proof (pow2_pos (Z.max 0 (- e)) ltac:(lia)); unfold a; nia).
  assert (Hb : 0 < b) by (pose proof (pow2_pos (Z.max 0 e) ltac:(lia)); unfold b; nia).
  assert (A1 : a < b * 2 ^ f_prec F).
  { unfold a, b. rewrite <- Z.mul_assoc, <- Z.pow_add_r by lia. apply (below_ij n d (e + f_prec F)); [lia..|exact B]. }
  pose proof (round_lt a b _ Ha Hb A1) as Q1.
  destruct (round_bounds a b Ha Hb) as (_ & _ & Q0). cbv zeta in Q0.
  set (q := round_half_even a b) in *.
  destruct (Z.eqb_spec q 0); [intros [= <-]; now left|].
  assert (Q2 : f_emin F < e -> 2 ^ (f_prec F - 1) <= q).
  { intros G. apply round_ge; try assumption. specialize (N G). unfold a, b. rewrite <- Z.mul_assoc, <- Z.pow_add_r by lia.
    rewrite <- (below_ij n d _ (Z.max 0 (- e)) (Z.max 0 e + (f_prec F - 1))) in N by lia. lia. }
  assert (P2 : 2 ^ f_prec F = 2 * 2 ^ (f_prec F - 1)) by (rewrite <- Z.pow_succ_r by lia; f_equal; lia).
  pose proof (pow2_pos (f_prec F - 1) ltac:(lia)).
  destruct (Z.eqb_spec q (2 ^ f_prec F)).
  - destruct (Z.ltb_spec (f_emax F - f_prec F) (e + 1)); [discriminate|]. intros [= <-]. right.
    eexists _, _. split; [reflexivity|]. rewrite Z2Pos.id by lia. unfold canon. repeat split; lia.
  - destruct (Z.ltb_spec (f_emax F - f_prec F) e); [discriminate|]. intros [= <-]. right.
    eexists _, _. split; [reflexivity|]. rewrite Z2Pos.id by lia. unfold canon. repeat split; try lia.
Qed.

Theorem ParseFloat_valid F s f : fmt_ok F -> ParseFloat F s = Some f -> valid_binary (f_prec F) (f_emax F) f = true.
Proof.
  intros Fo. unfold ParseFloat. destruct (_ =? _)%string; [now intros [= <-]|].
  destruct (take_sign s) as [neg r]. destruct (_ || _); [now intros [= <-]|].
  destruct (decimal_text r) as [[m j]|] eqn:D; [|discriminate].
  assert (M : 0 <= m).
  { unfold decimal_text in D. destruct (span is_dec r) as [x r1].
    destruct (match r1 with String c r' => if (c =? ".")%char then span is_dec r' else (""%string, r1) | ""%string => (""%string, r1) end) as [y r2].
    destruct (_ =? _)%string; [discriminate|].
    assert (V : forall t, 0 <= dec_val t).
    { intros t. unfold dec_val. destruct (digits_val 10 0 t) as [v|] eqn:E; [|lia].
      assert (G : forall t a v, 0 <= a -> digits_val 10 a t = Some v -> 0 <= v).
      { clear. induction t as [|c t IH]; intros a v A E; [cbn in E; congruence|]. cbn in E.
        destruct (digit_val c) as [x|] eqn:D; [|discriminate]. destruct (x <? 10); [|discriminate].
        apply (IH (a * 10 + x)); [|exact E]. unfold digit_val in D.
        destruct (between 48 57 c) eqn:E1; [apply between_iff in E1; injection D as <-; lia|].
        destruct (between 97 122 c) eqn:E2; [apply between_iff in E2; injection D as <-; lia|].
        destruct (between 65 90 c) eqn:E3; [apply between_iff in E3; injection D as <-; lia|]. discriminate. }
      apply (G t 0 v); [lia|exact E]. }
    destruct r2 as [|c r3]; [injection D as <- <-; apply V|].
    destruct (one_of "eE" c); [|discriminate]. destruct (take_sign r3) as [ng r4].
    destruct (span is_dec r4) as [[|d0 ds] [|]]; try discriminate. injection D as <- <-. apply V. }
  unfold nearest_dec. intros N.
  assert (X : f = S754_zero neg \/ exists m e, f = S754_finite neg m e /\ canon F (Zpos m) e).
  { destruct (Z.leb_spec 0 j).
    - eapply nearest_canon; [exact Fo| | |exact N]; [pose proof (Z.pow_nonneg 10 j ltac:(lia)); nia|lia].
    - eapply nearest_canon; [exact Fo|exact M| |exact N]. apply Z.pow_pos_nonneg; lia. }
  destruct X as [->|(m' & e & -> & C)]; [reflexivity|]. now apply (canon_valid F).
Qed.

(** ---------- nearest ---------- *)

Lemma scale_pos e n d : 0 <= n -> 0 < d -> 0 <= n * 2 ^ Z.max 0 (- e) /\ 0 < d * 2 ^ Z.max 0 e.
Proof.
  intros Hn Hd. pose proof (pow2_pos (Z.max 0 (- e)) ltac:(lia)). pose proof (pow2_pos (Z.max 0 e) ltac:(lia)). nia.
Qed.
(** In units of 2^e, the fraction lies in the binade of the format. *)
Lemma last_bit_at F n d e : fmt_ok F -> 0 < n -> 0 < d -> f_emin F <= e ->
  n * 2 ^ Z.max 0 (- e) < d * 2 ^ Z.max 0 e * 2 ^ f_prec F ->
  (f_emin F < e -> d * 2 ^ Z.max 0 e * 2 ^ (f_prec F - 1) <= n * 2 ^ Z.max 0 (- e)) ->
  last_bit F n d = e.
Proof.
  intros Fo Hn Hd L U Lo. pose proof (fmt_prec F Fo). apply last_bit_unique; auto.
  - rewrite <- Z.mul_assoc, <- Z.pow_add_r in U by lia. apply (below_ij n d _ (Z.max 0 (- e)) (Z.max 0 e + f_prec F)); [lia..|exact U].
  - intros G. specialize (Lo G). rewrite <- Z.mul_assoc, <- Z.pow_add_r in Lo by lia.
    rewrite <- (below_ij n d _ (Z.max 0 (- e)) (Z.max 0 e + (f_prec F - 1))) by lia. lia.
Qed.

Lemma odd_even m : Z.odd m = negb (Z.even m).
Proof. symmetry. apply Z.negb_even. Qed.
(** round_half_even gives m exactly for the fractions within one half of m, a tie only when m is even. *)
Lemma round_iff n d m : 0 <= n -> 0 < d ->
  round_half_even n d = m <->
  (2 * (n - m * d) < d /\ - d < 2 * (n - m * d)) \/
  ((2 * (n - m * d) = d \/ 2 * (n - m * d) = - d) /\ Z.even m = true).
Proof.
  intros Hn Hd. unfold round_half_even. pose proof (Z.div_mod n d ltac:(lia)) as E. pose proof (Z.mod_pos_bound n d Hd) as R.
  set (q := n / d) in *. set (r := n mod d) in *. rewrite odd_even.
  assert (Ev : Z.even (q + 1) = negb (Z.even q)) by (rewrite Z.even_add; destruct (Z.even q); reflexivity).
  assert (K : n - m * d = (q - m) * d + r) by lia. rewrite K. clear K.
  destruct (Z.ltb_spec d (2 * r)) as [A|A]; cbn [orb].
  - split.
    + intros <-. left. lia.
    + intros [[B C]|[[B|B] D]].
      * assert (q - m < 0) by nia. assert (-2 < q - m) by nia. lia.
      * assert (q - m < 0) by nia. assert (-2 < q - m) by nia. nia.
      * assert (q - m < 0) by nia. assert (-2 < q - m) by nia. nia.
  - destruct (Z.eqb_spec (2 * r) d) as [T|T]; cbn [andb].
    + assert (J : forall k, 2 * (k * d + r) = (2 * k + 1) * d) by (intros; nia). rewrite J. clear J.
      destruct (Z.even q) eqn:Eq; cbn [negb].
      * split.
        -- intros <-. right. rewrite Z.sub_diag. split; [left; lia|exact Eq].
        -- intros [[B C]|[[B|B] D]]; [nia|nia|]. assert (q - m = -1) by nia. assert (m = q + 1) by lia. subst m. rewrite Ev, ?Eq in D. discriminate.
      * split.
        -- intros <-. right. rewrite Ev. split; [right; nia|reflexivity].
        -- intros [[B C]|[[B|B] D]]; [nia| |nia]. assert (q - m = 0) by nia. assert (m = q) by lia. congruence.
    + split.
      * intros <-. left. lia.
      * intros [[B C]|[[B|B] D]].
        -- assert (q - m < 1) by nia. assert (-1 < q - m) by nia. lia.
        -- assert (q - m < 1) by nia. assert (-1 < q - m) by nia. nia.
        -- assert (q - m < 1) by nia. assert (-1 < q - m) by nia. nia.
Qed.

Lemma nearest_at F neg n d e : fmt_ok F -> 0 < n -> 0 < d -> last_bit F n d = e ->
  nearest F neg n d =
  (let q := round_half_even (n * 2 ^ Z.max 0 (- e)) (d * 2 ^ Z.max 0 e) in
   if q =? 0 then Some (S754_zero neg)
   else let '(q, e) := if q =? 2 ^ f_prec F then (2 ^ (f_prec F - 1), e + 1) else (q, e) in
        if f_emax F - f_prec F <? e then None else Some (S754_finite neg (Z.to_pos q) e)).
Proof.
  intros Fo Hn Hd E. unfold nearest. destruct (Z.eqb_spec n 0); [lia|]. cbv zeta. rewrite E, scale_eq. reflexivity.
Qed.

(** A fraction equal to m * 2^e *)
Lemma nearest_exact F neg n d m e : fmt_ok F -> 0 < n -> 0 < d -> canon F m e ->
  n * 2 ^ Z.max 0 (- e) = m * (d * 2 ^ Z.max 0 e) -> nearest F neg n d = Some (S754_finite neg (Z.to_pos m) e).
Proof.
  intros Fo Hn Hd (Re & Rm & Lo) E. pose proof (fmt_prec F Fo). destruct (scale_pos e n d ltac:(lia) Hd) as [_ Hb].
  rewrite (nearest_at F neg n d e Fo Hn Hd).
  - cbv zeta. rewrite E, round_exact by exact Hb.
    destruct (Z.eqb_spec m 0); [lia|]. destruct (Z.eqb_spec m (2 ^ f_prec F)); [lia|].
    destruct (Z.ltb_spec (f_emax F - f_prec F) e); [lia|]. reflexivity.
  - apply last_bit_at; auto; [lia| |]; rewrite E; [|intros G; specialize (Lo G)]; nia.
Qed.

(** m * 2^e is not the least float of its binade (below it the floats are twice as close). *)
Definition inner (F : ffmt) (m e : Z) : Prop := m <> 2 ^ (f_prec F - 1) \/ e = f_emin F.

Definition near (m a b : Z) : Prop :=
  (2 * (a - m * b) < b /\ - b < 2 * (a - m * b)) \/ ((2 * (a - m * b) = b \/ 2 * (a - m * b) = - b) /\ Z.even m = true).

Lemma nearest_inner F neg n d m e : fmt_ok F -> 0 < n -> 0 < d -> canon F (Zpos m) e -> inner F (Zpos m) e ->
  (nearest F neg n d = Some (S754_finite neg m e) <-> near (Zpos m) (n * 2 ^ Z.max 0 (- e)) (d * 2 ^ Z.max 0 e)).
Proof.
  intros Fo Hn Hd (Re & Rm & Lo) In. pose proof (fmt_prec F Fo) as P.
  assert (P2 : 2 ^ f_prec F = 2 * 2 ^ (f_prec F - 1)) by (rewrite <- Z.pow_succ_r by lia; f_equal; lia).
  pose proof (pow2_pos (f_prec F - 1) ltac:(lia)) as P1.
  split.
  - intros N. destruct (last_bit_spec F n d Fo Hn Hd) as (L & _ & _). cbv zeta in L. set (e0 := last_bit F n d) in *.
    rewrite (nearest_at F neg n d e0 Fo Hn Hd eq_refl) in N. cbv zeta in N.
    destruct (scale_pos e0 n d ltac:(lia) Hd) as [Ha Hb].
    remember (round_half_even (n * 2 ^ Z.max 0 (- e0)) (d * 2 ^ Z.max 0 e0)) as q eqn:Eq.
    destruct (Z.eqb_spec q 0) as [Q0|Q0]; [discriminate|].
    assert (Q : 0 < q).
    { destruct (round_bounds _ _ Ha Hb) as (_ & _ & B). rewrite <- Eq in B. lia. }
    destruct (Z.eqb_spec q (2 ^ f_prec F)) as [Qp|Qp].
    + destruct (_ <? _); [discriminate|]. assert (Zpos m = 2 ^ (f_prec F - 1)) by (injection N as <- <-; rewrite Z2Pos.id by lia; reflexivity).
      assert (e = e0 + 1) by congruence. destruct In; [contradiction|lia].
    + destruct (_ <? _); [discriminate|]. assert (Zpos m = q) by (injection N as <- <-; rewrite Z2Pos.id by lia; reflexivity).
      assert (e = e0) by congruence. subst e. rewrite H. unfold near. apply round_iff; auto.
  - intros N. destruct (scale_pos e n d ltac:(lia) Hd) as [Ha Hb]. set (a := n * 2 ^ Z.max 0 (- e)) in *. set (b := d * 2 ^ Z.max 0 e) in *.
    assert (E : last_bit F n d = e).
    { apply last_bit_at; auto; [lia| |]; fold a b.
      - destruct N as [N|[N _]]; nia.
      - intros G. specialize (Lo G). assert (2 ^ (f_prec F - 1) + 1 <= Zpos m) by (destruct In; lia).
        destruct N as [N|[N _]]; nia. }
    rewrite (nearest_at F neg n d e Fo Hn Hd E). cbv zeta. fold a b.
    assert (Q : round_half_even a b = Zpos m) by (apply round_iff; auto). rewrite Q.
    destruct (Z.eqb_spec (Zpos m) 0); [lia|]. destruct (Z.eqb_spec (Zpos m) (2 ^ f_prec F)); [lia|].
    destruct (Z.ltb_spec (f_emax F - f_prec F) e); [lia|]. rewrite Pos2Z.id. reflexivity.
Qed.

(** Only the value of the fraction matters. *)
Lemma round_scale n d k : 0 <= n -> 0 < d -> 0 < k -> round_half_even (n * k) (d * k) = round_half_even n d.
Proof.
  intros Hn Hd Hk. unfold round_half_even. rewrite Z.div_mul_cancel_r, Zmult_mod_distr_r by lia. cbv zeta.
  replace (d * k <? 2 * (n mod d * k)) with (d <? 2 * (n mod d)); [replace (2 * (n mod d * k) =? d * k) with (2 * (n mod d) =? d)|]; [reflexivity| |].
  - destruct (Z.eqb_spec (2 * (n mod d)) d); symmetry; [apply Z.eqb_eq; nia|apply Z.eqb_neq; nia].
  - destruct (Z.ltb_spec d (2 * (n mod d))); symmetry; [apply Z.ltb_lt; nia|apply Z.ltb_ge; nia].
Qed.
Lemma below_scale n d k x : 0 < k -> below (n * k) (d * k) x <-> below n d x.
Proof.
  intros Hk. unfold below. set (i := 2 ^ Z.max 0 (- x)). set (j := 2 ^ Z.max 0 x).
  replace (n * k * i) with (n * i * k) by lia. replace (d * k * j) with (d * j * k) by lia.
  symmetry. apply Z.mul_lt_mono_pos_r. exact Hk.
Qed.
Lemma nearest_scale F neg n d k : fmt_ok F -> 0 <= n -> 0 < d -> 0 < k -> nearest F neg (n * k) (d * k) = nearest F neg n d.
Proof.
  intros Fo Hn Hd Hk. destruct (Z.eq_dec n 0) as [->|N]; [reflexivity|].
  destruct (last_bit_spec F n d Fo ltac:(lia) Hd) as (L & B & Lo). cbv zeta in *.
  assert (E : last_bit F (n * k) (d * k) = last_bit F n d).
  { apply last_bit_unique; auto; try nia; rewrite below_scale by lia; auto. }
  rewrite (nearest_at F neg (n * k) (d * k) (last_bit F n d) Fo ltac:(nia) ltac:(nia) E).
  rewrite (nearest_at F neg n d (last_bit F n d) Fo ltac:(lia) Hd eq_refl). cbv zeta.
  set (i := 2 ^ Z.max 0 (- last_bit F n d)). set (j := 2 ^ Z.max 0 (last_bit F n d)).
  destruct (scale_pos (last_bit F n d) n d Hn Hd) as [A1 A2]. fold i in A1. fold j in A2.
  replace (n * k * i) with (n * i * k) by lia. replace (d * k * j) with (d * j * k) by lia. rewrite round_scale by lia. reflexivity.
Qed.
Lemma nearest_eq F neg n d n' d' : fmt_ok F -> 0 <= n -> 0 < d -> 0 <= n' -> 0 < d' -> n * d' = n' * d ->
  nearest F neg n d = nearest F neg n' d'.
Proof.
  intros Fo Hn Hd Hn' Hd' E. rewrite <- (nearest_scale F neg n d d') by auto. rewrite <- (nearest_scale F neg n' d' d) by auto.
  rewrite E. f_equal. lia.
Qed.
Lemma nearest_sign F n d m e : nearest F false n d = Some (S754_finite false m e) -> forall neg, nearest F neg n d = Some (S754_finite neg m e).
Proof.
  unfold nearest. intros E neg. destruct (n =? 0); [discriminate|]. cbv zeta in *. destruct (scale _ n d) as [a b].
  destruct (_ =? 0); [discriminate|]. destruct (if _ =? 2 ^ f_prec F then _ else _) as [q x]. destruct (_ <? _); [discriminate|]. congruence.
Qed.

Lemma pow10_pos k : 0 <= k -> 0 < 10 ^ k.
Proof. intros. apply Z.pow_pos_nonneg; lia. Qed.

(** Equal decimals are read as equal floats. *)
Lemma nearest_dec_at F neg x j P : fmt_ok F -> 0 <= x -> 0 <= P -> 0 <= P + j ->
  nearest_dec F neg x j = nearest F neg (x * 10 ^ (P + j)) (10 ^ P).
Proof.
  intros Fo Hx HP HJ. unfold nearest_dec. pose proof (pow10_pos P HP). pose proof (pow10_pos (P + j) HJ). destruct (Z.leb_spec 0 j).
  - pose proof (pow10_pos j ltac:(lia)). apply nearest_eq; auto; try lia; try nia. rewrite Z.pow_add_r by lia. lia.
  - pose proof (pow10_pos (- j) ltac:(lia)). apply nearest_eq; auto; try lia; try nia.
    replace P with ((P + j) + - j) at 1 by lia. rewrite Z.pow_add_r by lia. lia.
Qed.

(** ---------- the shortest decimal ---------- *)

Definition e_up (e : Z) : Z := 2 ^ Z.max 0 e.
Definition e_down (e : Z) : Z := 2 ^ Z.max 0 (- e).
Lemma e_up_pos e : 0 < e_up e. Proof. apply pow2_pos. lia. Qed.
Lemma e_down_pos e : 0 < e_down e. Proof. apply pow2_pos. lia. Qed.
Lemma ratio_eq m e : ratio m e = (Zpos m * e_up e, e_down e).
Proof.
  unfold ratio, e_up, e_down. destruct (Z.leb_spec 0 e).
  - rewrite Z.max_r, Z.max_l by lia. reflexivity.
  - rewrite Z.max_l, Z.max_r by lia. rewrite Z.mul_1_r. reflexivity.
Qed.

(** The decimal x * 10^j is read as m * 2^e. *)
Definition reads (F : ffmt) (m : positive) (e x j : Z) : Prop := 0 < x /\ nearest_dec F false x j = Some (S754_finite false m e).
Lemma reads_as_iff F m e x j : fmt_ok F -> reads_as F m e x j = true -> reads F m e x j.
Proof.
  intros Fo R. unfold reads_as in R. apply andb_true_iff in R as [X R]. apply Z.ltb_lt in X. split; [exact X|].
  destruct (nearest_dec F false x j) as [[| | |s m' e']|] eqn:N; try discriminate.
  apply andb_true_iff in R as [M E]. apply Pos.eqb_eq in M. apply Z.eqb_eq in E. subst.
  assert (s = false); [|congruence]. unfold nearest_dec in N.
  assert (Q : forall n d, 0 <= n -> 0 < d -> nearest F false n d = Some (S754_finite s m' e') -> s = false).
  { intros n d Hn Hd Z. apply nearest_canon in Z; auto. destruct Z as [Z|(mm & ee & Z & _)]; congruence. }
  destruct (Z.leb_spec 0 j); (eapply Q; [| |exact N]).
  all: first [lia | apply pow10_pos; lia | pose proof (pow10_pos j ltac:(lia)); nia].
Qed.
Lemma candidate_reads F m e j x : fmt_ok F -> candidate F m e j = Some x -> reads F m e x j.
Proof.
  intros Fo. unfold candidate. rewrite ratio_eq. destruct (if 0 <=? j then _ else _) as [a b] eqn:AB.
  destruct (reads_as F m e (a / b) j) eqn:D, (reads_as F m e (a / b + 1) j) eqn:U; cbn [andb]; try discriminate.
  - assert (R : round_half_even a b = a / b \/ round_half_even a b = a / b + 1).
    { unfold round_half_even. destruct (_ || _); auto. }
    intros [= <-]. destruct R as [-> | ->]; now apply reads_as_iff.
  - intros [= <-]. now apply reads_as_iff.
  - intros [= <-]. now apply reads_as_iff.
Qed.
(** Either the decimal is read as the float, or it is its exact value. *)
Lemma pow10_split k : 0 <= k -> 10 ^ k = 5 ^ k * 2 ^ k.
Proof. intros. rewrite <- Z.pow_mul_l. reflexivity. Qed.
Lemma exact_reads F m e : fmt_ok F -> canon F (Zpos m) e -> let k := Z.max 0 (- e) in
  reads F m e (Zpos m * e_up e * 10 ^ k / e_down e) (- k).
Proof.
  intros Fo C k. assert (Hk : 0 <= k) by (unfold k; lia). pose proof (e_up_pos e) as U. pose proof (e_down_pos e) as D.
  assert (Ed : e_down e = 2 ^ k) by reflexivity. clearbody k.
  pose proof (pow10_pos k ltac:(lia)) as K. assert (K5 : 0 < 5 ^ k) by (apply Z.pow_pos_nonneg; lia).
  assert (Q : Zpos m * e_up e * 10 ^ k / e_down e = Zpos m * e_up e * 5 ^ k).
  { rewrite pow10_split by lia. rewrite Ed, Z.mul_assoc. apply Z.div_mul. lia. }
  assert (PQ : 0 < Zpos m * e_up e * 5 ^ k) by nia. rewrite Q. clear Q.
  set (x := Zpos m * e_up e * 5 ^ k) in *. assert (Ex : x * 2 ^ k = Zpos m * (10 ^ k * e_up e)) by (unfold x; rewrite (pow10_split k) by lia; lia).
  clearbody x. split; [exact PQ|]. rewrite (nearest_dec_at F false x (- k) k) by first [assumption|lia].
  rewrite Z.add_opp_diag_r, Z.pow_0_r, Z.mul_1_r. rewrite (nearest_exact F false x (10 ^ k) (Zpos m) e); auto.
  fold (e_up e) (e_down e). rewrite Ed. exact Ex.
Qed.
Lemma shortest_reads F m e x j : fmt_ok F -> canon F (Zpos m) e -> shortest F m e = (x, j) ->
  reads F m e x j.
Proof.
  intros Fo C. unfold shortest. cbv zeta. set (top := if _ <=? _ then _ else _).
  generalize (Z.to_nat (top + Z.max 0 (- e))). intros fuel. generalize top. clear top. induction fuel as [|fuel IH]; intros top; cbn [shortest_from].
  - rewrite ratio_eq. intros [= <- <-]. now apply exact_reads.
  - destruct (candidate F m e top) as [y|] eqn:E; [|apply IH]. intros [= <- <-]. now apply candidate_reads.
Qed.

(** With at least as many decimals as the shortest text has, the exact value rounded to that many
    decimals is read as the same float, if the float is not the least of its binade, or if those
    decimals are all it has. *)
Lemma round_best n d w : 0 <= n -> 0 < d -> Z.abs (round_half_even n d * d - n) <= Z.abs (w * d - n).
Proof.
  intros Hn Hd. destruct (round_bounds n d Hn Hd) as (A & B & _). cbv zeta in *. set (q := round_half_even n d) in *.
  destruct (Z.eq_dec w q) as [->|N]; [lia|]. assert (2 * Z.abs (q * d - n) <= d) by lia.
  assert (d <= 2 * Z.abs (w * d - n)); [|lia]. destruct (Z.lt_ge_cases w q).
  - assert (w * d <= q * d - d) by nia. lia.
  - assert (q * d + d <= w * d) by nia. lia.
Qed.
Lemma fixed_reads F m e x j P : fmt_ok F -> canon F (Zpos m) e -> reads F m e x j -> 0 <= P -> 0 <= P + j ->
  inner F (Zpos m) e \/ (Zpos m * e_up e * 10 ^ P) mod e_down e = 0 ->
  reads F m e (round_half_even (Zpos m * e_up e * 10 ^ P) (e_down e)) (- P).
Proof.
  intros Fo C [Hx R] HP HJ In. pose proof (e_up_pos e) as U. pose proof (e_down_pos e) as D. pose proof (pow10_pos P HP) as K.
  set (n := Zpos m * e_up e * 10 ^ P) in *. assert (Hn : 0 < n) by (unfold n; nia).
  destruct In as [In|Ex].
  - set (y := round_half_even n (e_down e)).
    rewrite (nearest_dec_at F false x j P) in R by first [assumption|lia].
    set (w := x * 10 ^ (P + j)) in *. assert (Hw : 0 < w) by (pose proof (pow10_pos (P + j) HJ); unfold w; nia).
    rewrite nearest_inner in R by auto. fold (e_down e) (e_up e) in R.
    assert (B : Z.abs (y * e_down e - n) <= Z.abs (w * e_down e - n)) by (apply round_best; lia).
    assert (S : near (Zpos m) (y * e_down e) (10 ^ P * e_up e)).
    { unfold near in *. replace (Zpos m * (10 ^ P * e_up e)) with n in * by (unfold n; lia).
      assert (0 < 10 ^ P * e_up e) by nia.
      destruct (Z.even (Zpos m)) eqn:Ev.
      - destruct (Z.eq_dec (2 * (y * e_down e - n)) (10 ^ P * e_up e)); [right; split; [now left|reflexivity]|].
        destruct (Z.eq_dec (2 * (y * e_down e - n)) (- (10 ^ P * e_up e))); [right; split; [now right|reflexivity]|].
        left. destruct R as [R|[R _]]; lia.
      - left. destruct R as [R|[R ?]]; [lia|discriminate]. }
    assert (Hy : 0 < y).
    { destruct (round_bounds n (e_down e) ltac:(lia) D) as (_ & _ & Y). fold y in Y. destruct (Z.eq_dec y 0) as [Y0|]; [|lia]. exfalso.
      rewrite Y0 in S. unfold near in S. assert (0 < 10 ^ P * e_up e) by nia. set (b := 10 ^ P * e_up e) in *.
      rewrite Z.mul_0_l in S.
      destruct S as [S|[S Ev]]; [nia|]. assert (Zpos m * (2 * b) = b) by lia. nia. }
    split; [exact Hy|]. rewrite (nearest_dec_at F false y (- P) P) by first [assumption|lia]. rewrite Z.add_opp_diag_r, Z.pow_0_r, Z.mul_1_r.
    rewrite nearest_inner by auto. exact S.
  - assert (E : n = n / e_down e * e_down e) by (pose proof (Z.div_mod n (e_down e) ltac:(lia)); lia).
    rewrite E at 1. rewrite round_exact by exact D. assert (0 < n / e_down e) by nia. split; [lia|].
    rewrite (nearest_dec_at F false _ (- P) P) by first [assumption|lia]. rewrite Z.add_opp_diag_r, Z.pow_0_r, Z.mul_1_r.
    rewrite (nearest_exact F false _ _ (Zpos m) e); auto.
    fold (e_down e) (e_up e). rewrite <- E. unfold n. lia.
Qed.
