(** Proofs_Sort.v -- key tuples of rows; Less and the search predicates compare them. *)
From Coq Require Import ZArith NArith List String Ascii Bool SpecFloat Permutation Lia.
From Verif Require Import Base Model_Names Model_Table Model_Sort Spec Spec_Sort.
From Verif Require Import Proofs_Lib Proofs_Table Proofs_Cells Proofs_Struct Proofs_Api Proofs_Api2 Proofs_Order.
Import ListNotations.
Local Open Scope string_scope.
Local Open Scope list_scope.

(** ---------- tuples ---------- *)

Definition klt (E : env) (k : skey) (v w : value) : Prop := if k_rev k then val_lt E w v else val_lt E v w.
Fixpoint tlt (E : env) (ks : list skey) (us vs : list value) : Prop :=
  match ks, us, vs with
  | k :: ks', u :: us', v :: vs' => klt E k u v \/ (val_eq u v /\ tlt E ks' us' vs')
  | _, _, _ => False
  end.
Definition teq (us vs : list value) : Prop := Forall2 val_eq us vs.
(** vs are values the keys can compare. *)
Definition tok (ks : list skey) (vs : list value) : Prop :=
  Forall2 (fun k v => In (k_type k) sortable_types /\ comparable (k_type k) v) ks vs.

Lemma klt_tri E k v w : In (k_type k) sortable_types -> comparable (k_type k) v -> comparable (k_type k) w ->
  (klt E k v w /\ ~ val_eq v w /\ ~ klt E k w v) \/ (~ klt E k v w /\ val_eq v w /\ ~ klt E k w v)
    \/ (~ klt E k v w /\ ~ val_eq v w /\ klt E k w v).
Proof.
  intros S Cv Cw. unfold klt. pose proof (val_trichotomy E _ S v w Cv Cw). destruct (k_rev k); tauto.
Qed.
Lemma klt_trans E k u v w : In (k_type k) sortable_types -> comparable (k_type k) u -> comparable (k_type k) v -> comparable (k_type k) w ->
  klt E k u v -> klt E k v w -> klt E k u w.
Proof.
  intros S Cu Cv Cw. unfold klt. destruct (k_rev k); intros H1 H2.
  - exact (val_lt_trans E (k_type k) w v u Cw Cv Cu H2 H1).
  - exact (val_lt_trans E (k_type k) u v w Cu Cv Cw H1 H2).
Qed.
Lemma klt_eq_l E k u v w : In (k_type k) sortable_types -> comparable (k_type k) u -> comparable (k_type k) v -> comparable (k_type k) w ->
  val_eq u v -> klt E k v w -> klt E k u w.
Proof.
  intros S Cu Cv Cw H. unfold klt. destruct (k_rev k); intros H2.
  - exact (val_lt_eq_r E (k_type k) w v u Cw Cv Cu H2 (val_eq_sym _ _ H)).
  - exact (val_lt_eq_l E (k_type k) u v w Cu Cv Cw H H2).
Qed.
Lemma klt_eq_r E k u v w : In (k_type k) sortable_types -> comparable (k_type k) u -> comparable (k_type k) v -> comparable (k_type k) w ->
  klt E k u v -> val_eq v w -> klt E k u w.
Proof.
  intros S Cu Cv Cw H H2. unfold klt in *. destruct (k_rev k).
  - exact (val_lt_eq_l E (k_type k) w v u Cw Cv Cu (val_eq_sym _ _ H2) H).
  - exact (val_lt_eq_r E (k_type k) u v w Cu Cv Cw H H2).
Qed.

Lemma teq_refl us : teq us us.
Proof. induction us; constructor; auto using val_eq_refl. Qed.
Lemma teq_sym us vs : teq us vs -> teq vs us.
Proof. induction 1; constructor; auto using val_eq_sym. Qed.
Lemma teq_trans us vs ws : teq us vs -> teq vs ws -> teq us ws.
Proof. intros H. revert ws. induction H; intros ws H2; inversion H2; subst; constructor; eauto using val_eq_trans. apply IHForall2. auto. Qed.

Lemma tlt_tri E ks : forall us vs, tok ks us -> tok ks vs ->
  (tlt E ks us vs /\ ~ teq us vs /\ ~ tlt E ks vs us) \/ (~ tlt E ks us vs /\ teq us vs /\ ~ tlt E ks vs us)
  \/ (~ tlt E ks us vs /\ ~ teq us vs /\ tlt E ks vs us).
Proof.
  induction ks as [|k ks IH]; intros us vs Hu Hv; inversion Hu as [|? u ? us' [S Cu] Hu']; inversion Hv as [|? v ? vs' [_ Cv] Hv']; subst.
  - simpl. right; left. split; auto. split; auto. constructor.
  - assert (TE : teq (u :: us') (v :: vs') <-> val_eq u v /\ teq us' vs').
    { split; [intros H; inversion H; auto|intros [? ?]; constructor; auto]. }
    rewrite TE. simpl. specialize (IH us' vs' Hu' Hv').
    pose proof (klt_tri E k u v S Cu Cv) as T. pose proof (val_eq_sym u v). pose proof (val_eq_sym v u). tauto.
Qed.

Lemma tlt_trans E ks : forall us vs ws, tok ks us -> tok ks vs -> tok ks ws -> tlt E ks us vs -> tlt E ks vs ws -> tlt E ks us ws.
Proof.
  induction ks as [|k ks IH]; intros us vs ws Hu Hv Hw; inversion Hu as [|? u ? us' [S Cu] Hu'];
    inversion Hv as [|? v ? vs' [_ Cv] Hv']; inversion Hw as [|? w ? ws' [_ Cw] Hw']; subst; simpl; try tauto.
  intros [H1|[H1 H1']] [H2|[H2 H2']].
  - left. eapply klt_trans; [exact S|exact Cu|exact Cv|exact Cw|auto|auto].
  - left. eapply klt_eq_r; [exact S|exact Cu|exact Cv|exact Cw|auto|auto].
  - left. eapply klt_eq_l; [exact S|exact Cu|exact Cv|exact Cw|auto|auto].
  - right. split; [eapply val_eq_trans; eauto|eauto].
Qed.

Lemma tlt_eq_l E ks : forall us vs ws, tok ks us -> tok ks vs -> tok ks ws -> teq us vs -> tlt E ks vs ws -> tlt E ks us ws.
Proof.
  induction ks as [|k ks IH]; intros us vs ws Hu Hv Hw; inversion Hu as [|? u ? us' [S Cu] Hu'];
    inversion Hv as [|? v ? vs' [_ Cv] Hv']; inversion Hw as [|? w ? ws' [_ Cw] Hw']; subst; simpl; try tauto.
  intros TE. inversion TE as [|? ? ? ? TE1 TE2]; subst. intros [H2|[H2 H2']].
  - left. eapply klt_eq_l; [exact S|exact Cu|exact Cv|exact Cw|auto|auto].
  - right. split; [eapply val_eq_trans; eauto|eauto].
Qed.
Lemma tlt_eq_r E ks : forall us vs ws, tok ks us -> tok ks vs -> tok ks ws -> tlt E ks us vs -> teq vs ws -> tlt E ks us ws.
Proof.
  induction ks as [|k ks IH]; intros us vs ws Hu Hv Hw; inversion Hu as [|? u ? us' [S Cu] Hu'];
    inversion Hv as [|? v ? vs' [_ Cv] Hv']; inversion Hw as [|? w ? ws' [_ Cw] Hw']; subst; simpl; try tauto.
  intros [H2|[H2 H2']] TE; inversion TE as [|? ? ? ? TE1 TE2]; subst.
  - left. eapply klt_eq_r; [exact S|exact Cu|exact Cv|exact Cw|auto|auto].
  - right. split; [eapply val_eq_trans; eauto|eauto].
Qed.

(** ---------- key tuples of rows ---------- *)

Definition kv (m : smap) (ks : list skey) (row : list value) : list value :=
  map (fun k => match mget m (k_col k) with Some c => nth c row VNil | None => VNil end) ks.
Definition kvt (t : table) (ks : list skey) (r : Z) : list value :=
  map (fun k => match GetVal t (k_col k) r with Ok v => v | _ => VNil end) ks.

(** The key columns exist in row. *)
Definition kin (m : smap) (ks : list skey) (row : list value) : Prop :=
  Forall (fun k => exists c v, mget m (k_col k) = Some c /\ nth_error row c = Some v) ks.

Lemma cmp_signs (k : skey) E v w c : cmp_ok E v w c ->
  let c' := if k_rev k then (c * -1)%Z else c in
  (c' = 0 <-> val_eq v w)%Z /\ (c' < 0 <-> klt E k v w)%Z /\ (c' > 0 <-> klt E k w v)%Z.
Proof.
  intros (R & H1 & H2 & H3). unfold klt. destruct (k_rev k); cbv zeta; rewrite <- H1, <- H2, <- H3; lia.
Qed.

Lemma less_rows_spec E m ks : forall ri rj, kin m ks ri -> kin m ks rj -> tok ks (kv m ks ri) -> tok ks (kv m ks rj) ->
  exists b, less_rows E m ks ri rj = Some b /\ (b = true <-> tlt E ks (kv m ks ri) (kv m ks rj)).
Proof.
  induction ks as [|k ks IH]; intros ri rj Ki Kj Ti Tj; simpl.
  - exists false. split; auto. split; [discriminate|tauto].
  - inversion Ki as [|? ? (c & vi & Hc & Hi) Ki']. inversion Kj as [|? ? (c' & vj & Hc' & Hj) Kj']. subst.
    assert (c' = c) by congruence. subst c'.
    unfold kv in Ti, Tj. simpl in Ti, Tj. rewrite Hc in Ti, Tj.
    rewrite (nth_error_nth _ _ VNil Hi) in Ti. rewrite (nth_error_nth _ _ VNil Hj) in Tj.
    inversion Ti as [|? ? ? ? [S Ci] Ti']. inversion Tj as [|? ? ? ? [_ Cj] Tj']. subst.
    rewrite Hc, Hi, Hj. rewrite (nth_error_nth _ _ VNil Hi), (nth_error_nth _ _ VNil Hj).
    destruct (compare_val_ok E _ _ _ S Ci Cj) as (cc & -> & CO).
    destruct (cmp_signs k E _ _ _ CO) as (S0 & SL & SG). cbv zeta in *.
    destruct (Z.eqb_spec (if k_rev k then (cc * -1)%Z else cc) 0) as [Z0|Z0].
    + destruct (IH ri rj Ki' Kj' Ti' Tj') as (b & -> & Hb). exists b. split; auto. rewrite Hb.
      unfold kv. rewrite <- SL. tauto + (split; [intros; right; tauto|intros [?|[_ ?]]; [lia|auto]]).
    + exists ((if k_rev k then (cc * -1)%Z else cc) <? 0)%Z. split; auto. rewrite Z.ltb_lt, SL. tauto.
Qed.

Lemma less_ok_rows E m ks l : Forall (fun row => kin m ks row /\ tok ks (kv m ks row)) l ->
  less_ok (less_rows E m ks) l.
Proof.
  intros F. rewrite Forall_forall in F.
  assert (SP : forall x y, In x l -> In y l -> exists b, less_rows E m ks x y = Some b /\ (b = true <-> tlt E ks (kv m ks x) (kv m ks y))).
  { intros x y Hx Hy. apply less_rows_spec; now apply F. }
  assert (SF : forall x y, In x l -> In y l -> less_rows E m ks x y = Some false <-> ~ tlt E ks (kv m ks x) (kv m ks y)).
  { intros x y Hx Hy. destruct (SP x y Hx Hy) as (b & -> & Hb). rewrite <- Hb. destruct b; split; intros; try congruence; exfalso; auto. }
  assert (ST : forall x y, In x l -> In y l -> less_rows E m ks x y = Some true <-> tlt E ks (kv m ks x) (kv m ks y)).
  { intros x y Hx Hy. destruct (SP x y Hx Hy) as (b & -> & Hb). rewrite <- Hb. split; congruence. }
  constructor.
  - intros x y Hx Hy. destruct (SP x y Hx Hy) as (b & Eb & _). eauto.
  - intros x Hx. apply SF; auto. destruct (F x Hx) as [_ T]. pose proof (tlt_tri E ks _ _ T T). pose proof (teq_refl (kv m ks x)). tauto.
  - intros x y z Hx Hy Hz. rewrite !ST by auto. apply tlt_trans; now apply F.
  - intros x y z Hx Hy Hz. rewrite !SF by auto. intros H1 H2 H3.
    destruct (F x Hx) as [_ Tx]. destruct (F y Hy) as [_ Ty]. destruct (F z Hz) as [_ Tz].
    pose proof (tlt_tri E ks _ _ Tx Ty) as T1. pose proof (tlt_tri E ks _ _ Ty Tz) as T2.
    pose proof (tlt_tri E ks _ _ Tx Tz) as T3.
    assert (NE1 : ~ teq (kv m ks x) (kv m ks y)).
    { intros X. apply H2. eapply tlt_eq_l; [| | |apply teq_sym, X|]; eauto. }
    apply H2. eapply tlt_trans; [| | | |exact H3]; eauto. tauto.
Qed.

(** ---------- tables with good keys ---------- *)

Lemma sortable_types_all ct : In ct sortable_types -> In ct all_types.
Proof. intros H. apply str_in_In. types H; reflexivity. Qed.

Lemma keys_cell t k r row : wf_table t -> nth_error (rows t) (Z.to_nat r) = Some row -> (0 <= r)%Z ->
  (exists i, nth_error (cnames t) i = Some (k_col k) /\ nth_error (ctypes t) i = Some (k_type k) /\ In (k_type k) sortable_types) ->
  exists c v, mget (cmap t) (k_col k) = Some c /\ nth_error row c = Some v /\ GetVal t (k_col k) r = Ok v
    /\ cell_ok (k_type k) v /\ In (k_type k) sortable_types.
Proof.
  intros W HR R0 (i & N & T & S). exists i.
  pose proof (Forall_nth_error _ _ _ _ (wf_cells _ W) HR) as F. destruct (Forall2_nth _ _ _ _ _ F T) as (v & V & C).
  exists v. split; [now apply (wf_map _ W)|]. split; auto. split; auto.
  rewrite (GetVal_col_at t (Z.of_nat i)) by (auto; now apply col_at_nat).
  rewrite get_at by auto. destruct (Z.leb_spec 0 (Z.of_nat i)); [|lia]. destruct (Z.leb_spec 0 r); [|lia]. cbn [andb].
  rewrite Nat2Z.id. unfold at_cell. now rewrite HR, V.
Qed.

Section Keys.
  Variable t : table.
  Hypothesis W : wf_table t.

  Definition kgood (ks : list skey) : Prop :=
    Forall (fun k => exists i, nth_error (cnames t) i = Some (k_col k) /\ nth_error (ctypes t) i = Some (k_type k)
                             /\ In (k_type k) sortable_types) ks.

  Lemma kvt_kv ks r row : kgood ks -> nth_error (rows t) (Z.to_nat r) = Some row -> (0 <= r)%Z ->
    kvt t ks r = kv (cmap t) ks row /\ kin (cmap t) ks row
    /\ Forall2 (fun k v => GetVal t (k_col k) r = Ok v /\ cell_ok (k_type k) v /\ In (k_type k) sortable_types) ks (kvt t ks r).
  Proof.
    intros G HR R0. induction G as [|k ks H G IH]; simpl.
    - split; auto. split; constructor.
    - destruct IH as (I1 & I2 & I3). destruct (keys_cell t k r row W HR R0 H) as (c & v & H1 & H2 & H3 & H4).
      rewrite H1, H3. split; [f_equal; auto; symmetry; now apply nth_error_nth|].
      split; [constructor; eauto|]. constructor; auto.
  Qed.

  Definition nonan (ks : list skey) : Prop := forall k r v, In k ks -> GetVal t (k_col k) r = Ok v -> ~ is_nan v.

  Lemma kvt_tok ks r row : kgood ks -> nonan ks -> nth_error (rows t) (Z.to_nat r) = Some row -> (0 <= r)%Z -> tok ks (kvt t ks r).
  Proof.
    intros G N HR R0. destruct (kvt_kv ks r row G HR R0) as (_ & _ & F). clear G.
    revert N. induction F as [|k v ks vs (H1 & H2 & H3) F IH]; intros N; constructor.
    - split; auto. split; auto. eapply N; eauto. now left.
    - apply IH. intros k' r' v' I. apply N. now right.
  Qed.

  Lemma keys_lt_tlt E ks i j ri rj : kgood ks -> nth_error (rows t) (Z.to_nat i) = Some ri -> nth_error (rows t) (Z.to_nat j) = Some rj ->
    (0 <= i)%Z -> (0 <= j)%Z -> keys_lt E t ks i j <-> tlt E ks (kvt t ks i) (kvt t ks j).
  Proof.
    intros G Hi Hj I0 J0. induction G as [|k ks H G IH]; simpl; [tauto|].
    destruct (keys_cell t k i ri W Hi I0 H) as (c & v & _ & _ & H3 & _).
    destruct (keys_cell t k j rj W Hj J0 H) as (c' & v' & _ & _ & H3' & _).
    rewrite H3, H3'. rewrite <- IH. unfold klt. split.
    - intros (a & b & X & Y & Z0). assert (a = v) by congruence. assert (b = v') by congruence. now subst.
    - intros Z0. exists v, v'. auto.
  Qed.

  Lemma row_matches_teq ks r row vs : kgood ks -> nth_error (rows t) (Z.to_nat r) = Some row -> (0 <= r)%Z ->
    Forall2 (fun k v => exists c, GetVal t (k_col k) r = Ok c /\ val_eq c v) ks vs <-> teq (kvt t ks r) vs.
  Proof.
    intros G Hr R0. revert vs. induction G as [|k ks H G IH]; intros vs; simpl.
    - unfold teq. split; inversion 1; constructor.
    - destruct (keys_cell t k r row W Hr R0 H) as (c & v & _ & _ & H3 & _). rewrite H3. split.
      + intros F. inversion F as [|? v' ? vs' (x & X & Y) F']; subst. assert (x = v) by congruence; subst x. constructor; auto. now apply IH.
      + intros F. inversion F as [|? v' ? vs' X F']; subst. constructor; [eauto|]. now apply IH.
  Qed.

  Lemma vals_before_tlt E ks r row : kgood ks -> nth_error (rows t) (Z.to_nat r) = Some row -> (0 <= r)%Z -> forall vs,
    vals_before E t ks vs r <-> tlt E ks vs (kvt t ks r).
  Proof.
    intros G Hr R0. induction G as [|k ks H G IH]; intros [|v vs]; simpl; try tauto.
    destruct (keys_cell t k r row W Hr R0 H) as (c & w & _ & _ & H3 & _). rewrite H3, <- IH. unfold klt. split.
    - intros (x & X & Y). injection X as <-. destruct Y as [Y|[Y1 Y2]]; auto. right. split; auto. now apply val_eq_sym.
    - intros Y. exists w. split; auto. destruct Y as [Y|[Y1 Y2]]; auto. right. split; auto. now apply val_eq_sym.
  Qed.

  Lemma search_pred_spec E first ks r row : kgood ks -> nonan ks -> nth_error (rows t) (Z.to_nat r) = Some row -> (0 <= r)%Z ->
    forall vs, ks <> [] -> tok ks vs ->
    exists b, search_pred E first t ks vs r = Ok b
      /\ (b = true <-> if first then ~ tlt E ks (kvt t ks r) vs else ~ tlt E ks vs (kvt t ks r)).
  Proof.
    intros G N Hr R0. induction G as [|k ks H G IH]; intros vs NE T; [congruence|]. clear NE.
    inversion T as [|? v ? vs' [S C] T']; subst.
    destruct (keys_cell t k r row W Hr R0 H) as (c & w & _ & _ & H3 & CW & _).
    assert (KC : kvt t (k :: ks) r = w :: kvt t ks r) by (unfold kvt; cbn [map]; now rewrite H3). rewrite KC.
    assert (TC : forall us ws, tlt E (k :: ks) (w :: us) (v :: ws) <-> klt E k w v \/ (val_eq w v /\ tlt E ks us ws)) by reflexivity.
    assert (TC' : forall us ws, tlt E (k :: ks) (v :: us) (w :: ws) <-> klt E k v w \/ (val_eq v w /\ tlt E ks us ws)) by reflexivity.
    cbn [search_pred]. rewrite H3.
    assert (CC : comparable (k_type k) w) by (split; auto; eapply N; eauto; now left).
    destruct (compare_val_ok E _ _ _ S CC C) as (cc & -> & CO).
    destruct (cmp_signs k E _ _ _ CO) as (S0 & SL & SG). cbv zeta in *.
    set (x := if k_rev k then (cc * -1)%Z else cc) in *.
    assert (N' : nonan ks) by (intros k' r' v' I; apply N; now right).
    specialize (TC (kvt t ks r) vs'). specialize (TC' vs' (kvt t ks r)).
    assert (TRI := klt_tri E k w v S CC C). assert (EQS : val_eq v w <-> val_eq w v) by (split; apply val_eq_sym).
    assert (D : ks = [] \/ ks <> []) by (destruct ks; [left; auto|right; discriminate]).
    destruct D as [->|NE].
    - eexists. split; [reflexivity|]. inversion T'; subst. simpl in TC, TC'.
      destruct first; [rewrite TC, Z.geb_leb, Z.leb_le, <- SL|rewrite TC', Z.leb_le, <- SG]; lia.
    - destruct (IH N' vs' NE T') as (b & Eb & Hb).
      assert (RW : forall (A : Type) (u v : A), match ks with [] => u | _ :: _ => v end = v) by (destruct ks; [congruence|auto]).
      rewrite RW. destruct first; rewrite !Z.gtb_ltb; cbv iota.
      + destruct (Z.ltb_spec 0 x) as [X|X].
        { exists true. split; auto. split; auto. intros _. apply Z.lt_gt in X. apply SG in X. tauto. }
        destruct (Z.ltb_spec x 0) as [X2|X2].
        { exists false. split; auto. apply SL in X2. split; [discriminate|tauto]. }
        exists b. split; auto. rewrite Hb. assert (X0 : (x = 0)%Z) by lia. apply S0 in X0. tauto.
      + destruct (Z.ltb_spec x 0) as [X|X].
        { exists true. split; auto. split; auto. intros _. apply SL in X. tauto. }
        destruct (Z.ltb_spec 0 x) as [X2|X2].
        { exists false. split; auto. apply Z.lt_gt in X2. apply SG in X2. split; [discriminate|tauto]. }
        exists b. split; auto. rewrite Hb. assert (X0 : (x = 0)%Z) by lia. apply S0 in X0. tauto.
  Qed.

  Lemma match_row_spec E ks r row : kgood ks -> nonan ks -> nth_error (rows t) (Z.to_nat r) = Some row -> (0 <= r)%Z ->
    forall vs, tok ks vs -> exists b, match_row E t ks vs r = Ok b /\ (b = true <-> teq (kvt t ks r) vs).
  Proof.
    intros G N Hr R0. induction G as [|k ks H G IH]; intros vs T; inversion T as [|? v ? vs' [S C] T']; subst; simpl.
    - exists true. split; auto. split; auto. constructor.
    - destruct (keys_cell t k r row W Hr R0 H) as (c & w & _ & _ & H3 & CW & _). rewrite H3. simpl.
      assert (CC : comparable (k_type k) w) by (split; auto; eapply N; eauto; now left).
      destruct (compare_val_ok E _ _ _ S CC C) as (cc & -> & CO). destruct CO as (_ & _ & C0 & _).
      assert (N' : nonan ks) by (intros k' r' v' I; apply N; now right).
      assert (TE : teq (w :: kvt t ks r) (v :: vs') <-> val_eq w v /\ teq (kvt t ks r) vs').
      { split; [intros X; inversion X; auto|intros [? ?]; constructor; auto]. }
      destruct (Z.eqb_spec cc 0) as [Z0|Z0]; simpl.
      + destruct (IH N' vs' T') as (b & -> & Hb). exists b. split; auto. unfold kvt in *. rewrite TE, Hb. tauto.
      + exists false. split; auto. unfold kvt in *. rewrite TE. split; [discriminate|tauto].
  Qed.
End Keys.
