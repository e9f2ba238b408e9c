(** Proofs_Order.v -- the comparison functions define total orders. *)
From Coq Require Import ZArith NArith List String Ascii Bool SpecFloat Lia.
From Verif Require Import Base Model_Names Model_Table Model_Sort Spec Spec_Sort Proofs_Lib Proofs_Table.
Import ListNotations.
Local Open Scope string_scope.
Local Open Scope list_scope.

(** ---------- strings ---------- *)

Lemma str_ltb_irrefl a : str_ltb a a = false.
Proof. induction a as [|x a IH]; simpl; auto. rewrite N.ltb_irrefl. exact IH. Qed.

Lemma str_ltb_trans a b c : str_ltb a b = true -> str_ltb b c = true -> str_ltb a c = true.
Proof.
  revert b c. induction a as [|x a IH]; intros [|y b] [|z c]; simpl; auto; try discriminate.
  destruct (N.ltb_spec (N_of_ascii x) (N_of_ascii y)), (N.ltb_spec (N_of_ascii y) (N_of_ascii x)),
    (N.ltb_spec (N_of_ascii y) (N_of_ascii z)), (N.ltb_spec (N_of_ascii z) (N_of_ascii y)),
    (N.ltb_spec (N_of_ascii x) (N_of_ascii z)), (N.ltb_spec (N_of_ascii z) (N_of_ascii x)); try lia; auto; try discriminate.
  apply IH.
Qed.

Lemma N_of_ascii_inj x y : N_of_ascii x = N_of_ascii y -> x = y.
Proof. intros H. rewrite <- (ascii_N_embedding x), <- (ascii_N_embedding y). now rewrite H. Qed.

Lemma str_ltb_total a b : str_ltb a b = false -> str_ltb b a = false -> a = b.
Proof.
  revert b. induction a as [|x a IH]; intros [|y b]; simpl; auto; try discriminate.
  destruct (N.ltb_spec (N_of_ascii x) (N_of_ascii y)), (N.ltb_spec (N_of_ascii y) (N_of_ascii x)); try discriminate; try lia.
  intros H1 H2. f_equal; [apply N_of_ascii_inj; lia|auto].
Qed.

Lemma str_ltb_asym a b : str_ltb a b = true -> str_ltb b a = false.
Proof.
  intros H. destruct (str_ltb b a) eqn:E; auto. pose proof (str_ltb_trans _ _ _ H E) as X. rewrite str_ltb_irrefl in X. discriminate.
Qed.

Lemma str_ltb_spec a b : str_ltb a b = true <-> str_lt a b.
Proof.
  split.
  - revert b. induction a as [|x a IH]; intros [|y b]; simpl; try discriminate.
    + intros _. exists "". left. exists y, b. auto.
    + destruct (N.ltb_spec (N_of_ascii x) (N_of_ascii y)).
      * intros _. exists "". right. exists x, y, a, b. auto.
      * destruct (N.ltb_spec (N_of_ascii y) (N_of_ascii x)); [discriminate|].
        assert (x = y) by (apply N_of_ascii_inj; lia). subst y. intros L.
        destruct (IH b L) as [p [(z & r & -> & ->)|(z & w & ra & rb & -> & -> & Hlt)]]; exists (String x p).
        -- left. exists z, r. auto.
        -- right. exists z, w, ra, rb. auto.
  - intros [p [(x & r & -> & ->)|(x & y & ra & rb & -> & -> & H)]].
    + induction p as [|c p IH]; simpl; auto. rewrite N.ltb_irrefl. exact IH.
    + induction p as [|c p IH]; simpl; [|rewrite N.ltb_irrefl; exact IH].
      destruct (N.ltb_spec (N_of_ascii x) (N_of_ascii y)); auto. lia.
Qed.

Lemma cmp_string_lt E a b : cmp_string E a b = (-1)%Z <-> str_lt (to_lower E a) (to_lower E b) \/ (to_lower E a = to_lower E b /\ str_lt a b).
Proof.
  rewrite <- !str_ltb_spec. unfold cmp_string.
  destruct (str_ltb (to_lower E a) (to_lower E b)) eqn:L1; [split; auto|].
  destruct (str_ltb (to_lower E b) (to_lower E a)) eqn:L2.
  - split; [discriminate|]. intros [H|[H _]]; [discriminate|]. rewrite H, str_ltb_irrefl in L2. discriminate.
  - pose proof (str_ltb_total _ _ L1 L2) as X.
    destruct (str_ltb a b) eqn:L3; [split; auto|]. destruct (str_ltb b a); split; try discriminate; intros [H|[_ H]]; discriminate.
Qed.
Lemma cmp_string_anti E a b : cmp_string E b a = (- cmp_string E a b)%Z.
Proof.
  unfold cmp_string.
  destruct (str_ltb (to_lower E a) (to_lower E b)) eqn:L1.
  { rewrite (str_ltb_asym _ _ L1). reflexivity. }
  destruct (str_ltb (to_lower E b) (to_lower E a)) eqn:L2; [reflexivity|].
  destruct (str_ltb a b) eqn:L3. { rewrite (str_ltb_asym _ _ L3). reflexivity. }
  destruct (str_ltb b a); reflexivity.
Qed.
Lemma cmp_string_0 E a b : cmp_string E a b = 0%Z <-> a = b.
Proof.
  unfold cmp_string. split.
  - destruct (str_ltb (to_lower E a) (to_lower E b)) eqn:L1; [discriminate|].
    destruct (str_ltb (to_lower E b) (to_lower E a)) eqn:L2; [discriminate|].
    destruct (str_ltb a b) eqn:L3; [discriminate|]. destruct (str_ltb b a) eqn:L4; [discriminate|].
    intros _. now apply str_ltb_total.
  - intros ->. now rewrite !str_ltb_irrefl.
Qed.
Lemma cmp_string_range E a b : let c := cmp_string E a b in (c = -1 \/ c = 0 \/ c = 1)%Z.
Proof. unfold cmp_string. repeat destruct (str_ltb _ _); simpl; auto. Qed.

(** ---------- floats ---------- *)

Lemma digits2_pos_lt m : (Zpos m < 2 ^ Zpos (digits2_pos m))%Z.
Proof.
  induction m as [m IH|m IH|]; simpl digits2_pos; try (rewrite Pos2Z.inj_succ, Z.pow_succ_r by lia; lia). reflexivity.
Qed.
Lemma digits2_pos_ge m : (2 ^ (Zpos (digits2_pos m) - 1) <= Zpos m)%Z.
Proof.
  induction m as [m IH|m IH|]; simpl digits2_pos; [| |simpl; lia].
  all: rewrite Pos2Z.inj_succ; replace (Z.succ (Zpos (digits2_pos m)) - 1)%Z with (Z.succ (Zpos (digits2_pos m) - 1)) by lia;
    rewrite Z.pow_succ_r by lia; lia.
Qed.

Section Float.
  Variables prec emax : Z.
  Hypothesis Hp : (1 <= prec)%Z.
  Hypothesis He : (1 <= emax)%Z.
  Notation emin := (3 - emax - prec)%Z.

  Lemma valid_finite s m e : valid_binary prec emax (S754_finite s m e) = true ->
    (emin <= e)%Z /\ (Zpos (digits2_pos m) <= prec)%Z /\ (e <= emax - prec)%Z /\ (emin < e -> Zpos (digits2_pos m) = prec)%Z.
  Proof.
    unfold valid_binary, bounded, canonical_mantissa, fexp, SpecFloat.emin. rewrite andb_true_iff, Z.leb_le, <- Zeq_is_eq_bool.
    intros [H1 H2]. lia.
  Qed.

  Lemma pow2_pos k : (0 <= k)%Z -> (0 < 2 ^ k)%Z.
  Proof. intros. apply Z.pow_pos_nonneg; lia. Qed.

  Lemma finite_lt m1 e1 m2 e2 : valid_binary prec emax (S754_finite false m1 e1) = true ->
    valid_binary prec emax (S754_finite false m2 e2) = true -> (e1 < e2)%Z ->
    (Zpos m1 * 2 ^ (e1 - emin) < Zpos m2 * 2 ^ (e2 - emin))%Z.
  Proof.
    intros V1 V2 H. apply valid_finite in V1, V2.
    pose proof (digits2_pos_lt m1) as D1. pose proof (digits2_pos_ge m2) as D2.
    assert (P1 : (Zpos m1 < 2 ^ prec)%Z). { eapply Z.lt_le_trans; [exact D1|]. apply Z.pow_le_mono_r; lia. }
    assert (P2 : (2 ^ (prec - 1) <= Zpos m2)%Z). { rewrite (proj2 (proj2 (proj2 V2))) in D2 by lia. exact D2. }
    replace (e2 - emin)%Z with ((e1 - emin) + (e2 - e1))%Z by lia. rewrite Z.pow_add_r by lia.
    pose proof (pow2_pos (e1 - emin) ltac:(lia)).
    assert (Q : (Zpos m1 < Zpos m2 * 2 ^ (e2 - e1))%Z).
    { apply Z.lt_le_trans with (2 ^ prec)%Z; auto. apply Z.le_trans with (Zpos m2 * 2)%Z.
      - replace prec with (Z.succ (prec - 1)) by lia. rewrite Z.pow_succ_r by lia. lia.
      - apply Z.mul_le_mono_nonneg_l; [lia|]. change 2%Z with (2 ^ 1)%Z at 1. apply Z.pow_le_mono_r; lia. }
    nia.
  Qed.

  Lemma finite_inf m e : valid_binary prec emax (S754_finite false m e) = true ->
    (0 < Zpos m * 2 ^ (e - emin) < 2 ^ (2 * emax + prec))%Z.
  Proof.
    intros V. apply valid_finite in V. pose proof (digits2_pos_lt m) as D1.
    pose proof (pow2_pos (e - emin) ltac:(lia)).
    assert (P1 : (Zpos m < 2 ^ prec)%Z). { eapply Z.lt_le_trans; [exact D1|]. apply Z.pow_le_mono_r; lia. }
    split; [nia|].
    apply Z.lt_le_trans with (2 ^ prec * 2 ^ (e - emin))%Z; [nia|].
    rewrite <- Z.pow_add_r by lia. apply Z.pow_le_mono_r; lia.
  Qed.

  Lemma valid_abs s m e : valid_binary prec emax (S754_finite s m e) = true -> valid_binary prec emax (S754_finite false m e) = true.
  Proof. intros H. exact H. Qed.

  Lemma finite_cmp m1 e1 m2 e2 : valid_binary prec emax (S754_finite false m1 e1) = true ->
    valid_binary prec emax (S754_finite false m2 e2) = true ->
    (Zpos m1 * 2 ^ (e1 - emin) ?= Zpos m2 * 2 ^ (e2 - emin))%Z =
    match Z.compare e1 e2 with Lt => Lt | Gt => Gt | Eq => Pos.compare_cont Eq m1 m2 end.
  Proof.
    intros V1 V2. destruct (Z.compare_spec e1 e2) as [->|H|H].
    - pose proof (pow2_pos (e2 - emin)) as P. apply valid_finite in V2. specialize (P ltac:(lia)).
      rewrite <- Zmult_compare_compat_r by lia. reflexivity.
    - apply Z.compare_lt_iff. now apply finite_lt.
    - apply Z.compare_gt_iff. now apply finite_lt.
  Qed.

  Lemma SFcompare_scaled a b : valid_binary prec emax a = true -> valid_binary prec emax b = true ->
    a <> S754_nan -> b <> S754_nan -> SFcompare a b = Some (scaled prec emax a ?= scaled prec emax b)%Z.
  Proof.
    intros Va Vb Na Nb.
    assert (PI : (0 < 2 ^ (2 * emax + prec))%Z) by (apply pow2_pos; lia).
    destruct a as [sa|sa| |sa ma ea], b as [sb|sb| |sb mb eb]; try congruence; unfold scaled;
      try (pose proof (finite_inf _ _ (valid_abs _ _ _ Va))); try (pose proof (finite_inf _ _ (valid_abs _ _ _ Vb))).
    - reflexivity.
    - destruct sb; simpl SFcompare; f_equal; symmetry; [apply Z.compare_gt_iff|apply Z.compare_lt_iff]; nia.
    - destruct sb; simpl SFcompare; f_equal; symmetry; [apply Z.compare_gt_iff|apply Z.compare_lt_iff]; nia.
    - destruct sa; simpl SFcompare; f_equal; symmetry; [apply Z.compare_lt_iff|apply Z.compare_gt_iff]; nia.
    - destruct sa, sb; simpl SFcompare; f_equal; symmetry; (apply Z.compare_eq_iff; nia) || (apply Z.compare_lt_iff; nia) || (apply Z.compare_gt_iff; nia).
    - destruct sa, sb; simpl SFcompare; f_equal; symmetry; (apply Z.compare_lt_iff; nia) || (apply Z.compare_gt_iff; nia).
    - destruct sa; simpl SFcompare; f_equal; symmetry; [apply Z.compare_lt_iff|apply Z.compare_gt_iff]; nia.
    - destruct sa, sb; simpl SFcompare; f_equal; symmetry; (apply Z.compare_lt_iff; nia) || (apply Z.compare_gt_iff; nia).
    - pose proof (finite_cmp ma ea mb eb (valid_abs _ _ _ Va) (valid_abs _ _ _ Vb)) as FC.
      destruct sa, sb; simpl SFcompare; f_equal; symmetry; try (apply Z.compare_lt_iff; nia); try (apply Z.compare_gt_iff; nia).
      + rewrite !Z.mul_opp_l || idtac.
        replace (-1 * Zpos ma * 2 ^ (ea - emin))%Z with (- (Zpos ma * 2 ^ (ea - emin)))%Z by lia.
        replace (-1 * Zpos mb * 2 ^ (eb - emin))%Z with (- (Zpos mb * 2 ^ (eb - emin)))%Z by lia.
        rewrite <- Zcompare_opp. rewrite <- Z.compare_antisym || rewrite Z.compare_antisym. 
        rewrite FC. destruct (ea ?= eb)%Z; reflexivity.
      + replace (1 * Zpos ma * 2 ^ (ea - emin))%Z with (Zpos ma * 2 ^ (ea - emin))%Z by lia.
        replace (1 * Zpos mb * 2 ^ (eb - emin))%Z with (Zpos mb * 2 ^ (eb - emin))%Z by lia.
        exact FC.
  Qed.
End Float.

Lemma cmpZ_spec a b : let c := cmpZ a b in
  (c = -1 \/ c = 0 \/ c = 1)%Z /\ (c = -1 <-> a < b)%Z /\ (c = 0 <-> a = b)%Z /\ (c = 1 <-> b < a)%Z.
Proof.
  unfold cmpZ. rewrite Z.gtb_ltb. destruct (Z.ltb_spec a b), (Z.ltb_spec b a); simpl; lia.
Qed.

Lemma cmp_float_scaled p em a b : (1 <= p)%Z -> (1 <= em)%Z -> valid_binary p em a = true -> valid_binary p em b = true ->
  a <> S754_nan -> b <> S754_nan -> cmp_float a b = cmpZ (scaled p em a) (scaled p em b).
Proof.
  intros Hp He Va Vb Na Nb. unfold cmp_float, float_ltb, cmpZ.
  rewrite (SFcompare_scaled p em Hp He a b), (SFcompare_scaled p em Hp He b a) by auto. rewrite Z.gtb_ltb.
  unfold Z.ltb. destruct (scaled p em a ?= scaled p em b)%Z, (scaled p em b ?= scaled p em a)%Z; reflexivity.
Qed.

Definition both_zero (a b : spec_float) : Prop := match a, b with S754_zero _, S754_zero _ => True | _, _ => False end.

Lemma scaled_inj p em a b : (1 <= p)%Z -> (1 <= em)%Z -> valid_binary p em a = true -> valid_binary p em b = true ->
  a <> S754_nan -> b <> S754_nan -> scaled p em a = scaled p em b <-> a = b \/ both_zero a b.
Proof.
  intros Hp He Va Vb Na Nb. split.
  2:{ intros [->|H]; auto. destruct a, b; simpl in H; try tauto. }
  intros H. assert (C : SFcompare a b = Some Eq).
  { rewrite (SFcompare_scaled p em Hp He a b) by auto. f_equal. now apply Z.compare_eq_iff. }
  destruct a as [sa|sa| |sa ma ea], b as [sb|sb| |sb mb eb]; simpl in C; try congruence; simpl; auto;
    try (destruct sa; discriminate); try (destruct sb; discriminate).
  - left. destruct sa, sb; try discriminate; reflexivity.
  - left. destruct sa, sb; try discriminate; destruct (Z.compare_spec ea eb); try discriminate; subst;
      injection C as C.
    + assert (X : Pos.compare_cont Eq ma mb = Eq) by (destruct (Pos.compare_cont Eq ma mb); auto; discriminate).
      apply Pos.compare_eq in X. congruence.
    + apply Pos.compare_eq in C. congruence.
Qed.

Lemma cmp_bool_spec a b : let c := cmp_bool a b in
  (c = -1 \/ c = 0 \/ c = 1)%Z /\ (c = -1 <-> a = false /\ b = true)%Z /\ (c = 0 <-> a = b)%Z /\ (c = 1 <-> b = false /\ a = true)%Z.
Proof. destruct a, b; simpl; intuition discriminate. Qed.

Lemma ikind_eqb_eq a b : ikind_eqb a b = true <-> a = b.
Proof. destruct a, b; simpl; split; congruence. Qed.

Definition cmp_ok (E : env) (v w : value) (c : Z) : Prop :=
  (c = -1 \/ c = 0 \/ c = 1)%Z /\ (c = -1 <-> val_lt E v w)%Z /\ (c = 0 <-> val_eq v w)%Z /\ (c = 1 <-> val_lt E w v)%Z.

Lemma cmp_int_ok E k a b : cmp_int k (VInt k a) (VInt k b) = Some (cmpZ a b) /\ cmp_ok E (VInt k a) (VInt k b) (cmpZ a b).
Proof.
  simpl. rewrite (proj2 (ikind_eqb_eq k k) eq_refl). split; auto.
  destruct (cmpZ_spec a b) as (H1 & H2 & H3 & H4). unfold cmp_ok, val_lt, val_eq. split; auto.
  rewrite H2, H3, H4. split; [split; intros; [auto|tauto]|]. split; [|split; intros; [auto|tauto]].
  split; [intros ->; auto|]. intros [X|[]]. congruence.
Qed.

Lemma str_lt_asym a b : str_lt a b -> str_lt b a -> False.
Proof. rewrite <- !str_ltb_spec. intros H1 H2. apply str_ltb_asym in H1. congruence. Qed.

Definition comparable (ct : string) (v : value) : Prop := cell_ok ct v /\ ~ is_nan v.

Lemma compare_val_ok E ct v w : In ct sortable_types -> comparable ct v -> comparable ct w ->
  exists c, compare_val E ct v w = Some c /\ cmp_ok E v w c.
Proof.
  intros S [[Tv Gv] Nv] [[Tw Gw] Nw].
  assert (KI : forall k v w, match v, w with VInt kv _, VInt kw _ => kv = k /\ kw = k | _, _ => False end ->
     exists c, cmp_int k v w = Some c /\ cmp_ok E v w c).
  { intros k [] []; try tauto. intros [-> ->]. eexists. apply cmp_int_ok. }
  unfold compare_val.
  types S; cbn [String.eqb Ascii.eqb Bool.eqb];
    destruct v as [|bv|sv|kv zv|fv|fv|ov|[pv|]|tv|xv]; simpl in Tv; try contradiction; try discriminate;
    try (destruct kv; simpl in Tv; try discriminate; try (destruct Tv; discriminate));
    try (destruct Tv; discriminate);
    destruct w as [|bw|sw|kw zw|fw|fw|ow|[pw|]|tw|xw]; simpl in Tw; try contradiction; try discriminate;
    try (destruct kw; simpl in Tw; try discriminate; try (destruct Tw; discriminate));
    try (destruct Tw; discriminate);
    try (apply KI; auto; fail).
  - eexists. split; [reflexivity|]. destruct (cmp_bool_spec bv bw) as (H1 & H2 & H3 & H4). split; auto. unfold val_lt, val_eq.
    split; auto. split; auto. rewrite H3. split; [intros ->; auto|]. intros [X|[]]. congruence.
  - simpl in Gv, Gw. assert (fv <> S754_nan) by (intros ->; apply Nv; now left). assert (fw <> S754_nan) by (intros ->; apply Nw; now left).
    eexists. split; [reflexivity|]. rewrite (cmp_float_scaled 24 128) by (auto; lia).
    destruct (cmpZ_spec (scaled 24 128 fv) (scaled 24 128 fw)) as (H1 & H2 & H3 & H4). split; auto. unfold val_lt, val_eq.
    split; auto. split; auto. rewrite H3, scaled_inj by (auto; lia). split; intros [X|X].
    + subst; auto.
    + right. destruct fv, fw; simpl in X; try tauto; auto.
    + left. congruence.
    + right. destruct fv, fw; simpl in X; try tauto; auto.
  - simpl in Gv, Gw. assert (fv <> S754_nan) by (intros ->; apply Nv; now right). assert (fw <> S754_nan) by (intros ->; apply Nw; now right).
    eexists. split; [reflexivity|]. rewrite (cmp_float_scaled 53 1024) by (auto; lia).
    destruct (cmpZ_spec (scaled 53 1024 fv) (scaled 53 1024 fw)) as (H1 & H2 & H3 & H4). split; auto. unfold val_lt, val_eq.
    split; auto. split; auto. rewrite H3, scaled_inj by (auto; lia). split; intros [X|X].
    + subst; auto.
    + right. destruct fv, fw; simpl in X; try tauto; auto.
    + left. congruence.
    + right. destruct fv, fw; simpl in X; try tauto; auto.
  - eexists. split; [reflexivity|]. split; [apply cmp_string_range|]. unfold val_lt, val_eq.
    split; [apply cmp_string_lt|]. split.
    + rewrite cmp_string_0. split; [intros ->; auto|]. intros [X|[]]. congruence.
    + rewrite <- cmp_string_lt, (cmp_string_anti E sv sw). lia.
Qed.

(** Facts about val_lt and val_eq on comparable values of one type. *)
Section Values.
  Variables (E : env) (ct : string).
  Hypothesis S : In ct sortable_types.

  Lemma val_trichotomy v w : comparable ct v -> comparable ct w ->
    (val_lt E v w /\ ~ val_eq v w /\ ~ val_lt E w v) \/ (~ val_lt E v w /\ val_eq v w /\ ~ val_lt E w v)
    \/ (~ val_lt E v w /\ ~ val_eq v w /\ val_lt E w v).
  Proof.
    intros Cv Cw. destruct (compare_val_ok E ct v w S Cv Cw) as (c & _ & R & H1 & H2 & H3).
    rewrite <- H1, <- H2, <- H3. lia.
  Qed.

  Lemma val_lt_trans u v w : comparable ct u -> comparable ct v -> comparable ct w ->
    val_lt E u v -> val_lt E v w -> val_lt E u w.
  Proof.
    intros _ _ _. destruct u, v; simpl; try tauto; destruct w; simpl; try tauto.
    - rewrite <- !str_ltb_spec. intros [H1|[H1 H1']] [H2|[H2 H2']].
      + left. eapply str_ltb_trans; eauto.
      + left. rewrite <- H2. auto.
      + left. rewrite H1. auto.
      + right. split; [congruence|]. eapply str_ltb_trans; eauto.
    - intros [-> H1] [-> H2]. split; auto. lia.
    - lia.
    - lia.
  Qed.

  Lemma val_eq_refl v : val_eq v v.
  Proof. now left. Qed.
  Lemma val_eq_sym v w : val_eq v w -> val_eq w v.
  Proof.
    intros [->|H]; [now left|]. right. destruct v as [| | | |[]|[]| | | |], w as [| | | |[]|[]| | | |]; simpl in *; auto.
  Qed.
  Lemma val_eq_cases v w : val_eq v w -> v = w \/ exists a b, (v = VFloat32 (S754_zero a) /\ w = VFloat32 (S754_zero b))
                                                         \/ (v = VFloat64 (S754_zero a) /\ w = VFloat64 (S754_zero b)).
  Proof.
    intros [->|H]; [now left|]. right. destruct v as [| | | |[]|[]| | | |]; try contradiction;
      destruct w as [| | | |[]|[]| | | |]; try contradiction; eauto.
  Qed.
  Lemma val_eq_trans u v w : val_eq u v -> val_eq v w -> val_eq u w.
  Proof.
    intros Q1 Q2. destruct (val_eq_cases _ _ Q1) as [->|(a & b & [[-> ->]|[-> ->]])]; auto;
      (destruct (val_eq_cases _ _ Q2) as [<-|(c & d & [[X ->]|[X ->]])]; [auto| |]; try discriminate; now right).
  Qed.
  Lemma val_lt_eq_l u v w : comparable ct u -> comparable ct v -> comparable ct w -> val_eq u v -> val_lt E v w -> val_lt E u w.
  Proof.
    intros _ _ _ Q L. destruct (val_eq_cases _ _ Q) as [->|(a & b & [[-> ->]|[-> ->]])]; auto; destruct w; exact L.
  Qed.
  Lemma val_lt_eq_r u v w : comparable ct u -> comparable ct v -> comparable ct w -> val_lt E u v -> val_eq v w -> val_lt E u w.
  Proof.
    intros _ _ _ L Q. destruct (val_eq_cases _ _ Q) as [<-|(a & b & [[-> ->]|[-> ->]])]; auto; destruct u; exact L.
  Qed.
End Values.
