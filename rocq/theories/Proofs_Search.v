(** Proofs_Search.v -- the two binary searches and the searches by key. *)
From Coq Require Import ZArith NArith List String Ascii Bool SpecFloat Permutation Lia.
From Verif Require Import Base Model_Names Model_Table Model_Sort Spec Spec_Sort.
From Verif Require Import Proofs_Lib Proofs_Table Proofs_Cells Proofs_Struct Proofs_Api Proofs_Api2 Proofs_Order Proofs_Sort.
Import ListNotations.
Local Open Scope Z_scope.

Lemma half_bounds d : 0 < d -> 0 <= d / 2 < d /\ 2 * (d / 2) <= d < 2 * (d / 2) + 2.
Proof.
  intros H. pose proof (Z.div_mod d 2 ltac:(lia)). pose proof (Z.mod_pos_bound d 2 ltac:(lia)). lia.
Qed.

Section Search.
  Variables (n : Z) (f : Z -> res bool) (g : Z -> bool).
  Hypothesis F : forall i, 0 <= i < n -> f i = Ok (g i).

  Lemma search_loop_inv fuel : forall i j, 0 <= i <= j -> j <= n -> j - i < Z.of_nat fuel ->
    (i = 0 \/ g (i - 1) = false) -> (j = n \/ g j = true) ->
    exists r, search_loop fuel f i j = Ok r /\ i <= r <= j /\ (r = 0 \/ g (r - 1) = false) /\ (r = n \/ g r = true).
  Proof.
    induction fuel as [|k IH]; intros i j HI HJ HF LI LJ; [lia|]. cbn [search_loop].
    destruct (Z.ltb_spec i j) as [L|L].
    - pose proof (half_bounds (j - i) ltac:(lia)) as B. set (h := i + (j - i) / 2) in *. rewrite F by lia. cbn [rbind].
      destruct (g h) eqn:G; cbn [negb].
      + destruct (IH i h) as (r & H1 & H2 & H3); try lia; auto. exists r. split; [auto|]. split; [lia|auto].
      + destruct (IH (h + 1) j) as (r & H1 & H2 & H3); try lia; auto.
        { right. now replace (h + 1 - 1) with h by lia. }
        exists r. split; [auto|]. split; [lia|auto].
    - exists i. assert (i = j) by lia. subst. split; [auto|]. split; [lia|auto].
  Qed.

  Lemma search_last_loop_inv fuel : forall i j, -1 <= i < j -> j <= n -> j - i < Z.of_nat fuel ->
    (i = -1 \/ g i = true) -> (j = n \/ g j = false) ->
    exists r, search_last_loop fuel f i j = Ok r /\ i <= r < j /\ (r = -1 \/ g r = true) /\ (r + 1 = n \/ g (r + 1) = false).
  Proof.
    induction fuel as [|k IH]; intros i j HI HJ HF LI LJ; [lia|]. cbn [search_last_loop].
    destruct (Z.ltb_spec i (j - 1)) as [L|L].
    - assert (B : 1 <= (j - i) / 2 < j - i).
      { pose proof (half_bounds (j - i) ltac:(lia)) as B. pose proof (Z.div_le_mono 2 (j - i) 2 ltac:(lia) ltac:(lia)) as B2.
        change (2 / 2) with 1 in B2. lia. }
      set (h := i + (j - i) / 2) in *. rewrite F by lia. cbn [rbind].
      destruct (g h) eqn:G; cbn [negb].
      + destruct (IH h j) as (r & H1 & H2 & H3); try lia; auto. exists r. split; [auto|]. split; [lia|auto].
      + destruct (IH i h) as (r & H1 & H2 & H3); try lia; auto. exists r. split; [auto|]. split; [lia|auto].
    - exists i. assert (j = i + 1) by lia. subst. split; [auto|]. split; [lia|auto].
  Qed.

  Hypothesis N : 0 <= n.

  Lemma SearchFirst_f_spec : exists r, SearchFirst_f n f = Ok r /\ 0 <= r <= n /\ (r = 0 \/ g (r - 1) = false) /\ (r = n \/ g r = true).
  Proof. unfold SearchFirst_f. apply search_loop_inv; auto; lia. Qed.

  Lemma SearchLast_f_spec : exists r, SearchLast_f n f = Ok r /\ -1 <= r < n /\ (r = -1 \/ g r = true) /\ (r + 1 = n \/ g (r + 1) = false).
  Proof. unfold SearchLast_f. apply search_last_loop_inv; auto; lia. Qed.
End Search.

(** ---------- which indices are asked ---------- *)

Lemma log2_half d : 1 < d -> Z.log2 (d / 2) = Z.log2 d - 1.
Proof.
  intros H. replace (d / 2) with (Z.shiftr d 1) by (rewrite Z.shiftr_div_pow2 by lia; reflexivity).
  rewrite Z.log2_shiftr by lia. pose proof (Z.log2_pos d ltac:(lia)). lia.
Qed.

Definition probes (d : Z) : Z := if d =? 0 then 0 else Z.log2 d + 1.

Lemma probes_mono a b : 0 <= a <= b -> probes a <= probes b.
Proof.
  intros H. unfold probes. pose proof (Z.log2_nonneg b). pose proof (Z.log2_le_mono a b ltac:(lia)).
  destruct (Z.eqb_spec a 0), (Z.eqb_spec b 0); lia.
Qed.
Lemma probes_half d : 0 < d -> probes (d / 2) + 1 = probes d.
Proof.
  intros H. unfold probes. destruct (Z.eqb_spec d 0); [lia|].
  destruct (Z.eq_dec d 1) as [->|]; [reflexivity|].
  pose proof (half_bounds d H). destruct (Z.eqb_spec (d / 2) 0); [lia|]. rewrite log2_half by lia. lia.
Qed.

Lemma search_loop_asks f fuel : forall i j, i <= j -> 
  exists qs, Z.of_nat (List.length qs) <= probes (j - i) /\ Forall (fun q => i <= q < j) qs /\
    forall f', (forall q, In q qs -> f' q = f q) -> search_loop fuel f' i j = search_loop fuel f i j.
Proof.
  induction fuel as [|k IH]; intros i j HI.
  { exists []. split; [|split; [constructor|reflexivity]]. simpl. unfold probes. pose proof (Z.log2_nonneg (j - i)). destruct (_ =? _); lia. }
  cbn [search_loop]. destruct (Z.ltb_spec i j) as [L|L].
  - pose proof (half_bounds (j - i) ltac:(lia)) as B. pose proof (probes_half (j - i) ltac:(lia)) as PH. set (h := i + (j - i) / 2) in *.
    assert (ASK : forall i' j', i <= i' -> i' <= j' -> j' <= j -> j' - i' <= (j - i) / 2 -> exists qs,
       Z.of_nat (List.length qs) + 1 <= probes (j - i) /\ Forall (fun q => i <= q < j) qs /\
       forall f', (forall q, In q qs -> f' q = f q) -> search_loop k f' i' j' = search_loop k f i' j').
    { intros i' j' H1 H2 H3 H4. destruct (IH i' j' H2) as (qs & Q1 & Q2 & Q3). exists qs.
      pose proof (probes_mono (j' - i') ((j - i) / 2) ltac:(lia)). split; [lia|]. split; auto.
      rewrite Forall_forall in *. intros q I. specialize (Q2 q I). lia. }
    assert (END : exists qs, Z.of_nat (List.length qs) <= probes (j - i) /\ Forall (fun q => i <= q < j) qs /\
       forall f', (forall q, In q qs -> f' q = f q) ->
         (let! b := f' h in if negb b then search_loop k f' (h + 1) j else search_loop k f' i h) =
         (let! b := f h in if negb b then search_loop k f (h + 1) j else search_loop k f i h)).
    { destruct (f h) as [[|]| |] eqn:FH.
      - destruct (ASK i h) as (qs & Q1 & Q2 & Q3); try lia. exists (h :: qs).
        split; [cbn [List.length]; lia|]. split; [constructor; auto; lia|].
        intros f' E. rewrite (E h) by (now left). rewrite FH. cbn. apply Q3. intros q I. apply E. now right.
      - destruct (ASK (h + 1) j) as (qs & Q1 & Q2 & Q3); try lia. exists (h :: qs).
        split; [cbn [List.length]; lia|]. split; [constructor; auto; lia|].
        intros f' E. rewrite (E h) by (now left). rewrite FH. cbn. apply Q3. intros q I. apply E. now right.
      - exists [h]. assert (0 <= probes ((j - i) / 2)) by (unfold probes; pose proof (Z.log2_nonneg ((j - i) / 2)); destruct (_ =? _); lia). split; [cbn [List.length]; lia|]. split; [constructor; auto; lia|].
        intros f' E. rewrite (E h) by (now left). rewrite FH. reflexivity.
      - exists [h]. assert (0 <= probes ((j - i) / 2)) by (unfold probes; pose proof (Z.log2_nonneg ((j - i) / 2)); destruct (_ =? _); lia). split; [cbn [List.length]; lia|]. split; [constructor; auto; lia|].
        intros f' E. rewrite (E h) by (now left). rewrite FH. reflexivity. }
    exact END.
  - exists []. split; [|split; [constructor|reflexivity]]. simpl. unfold probes. pose proof (Z.log2_nonneg (j - i)). destruct (_ =? _); lia.
Qed.

Lemma log2_up_half d : 1 < d -> Z.log2_up (d - d / 2) + 1 <= Z.log2_up d.
Proof.
  intros H. pose proof (half_bounds d ltac:(lia)) as B. pose proof (Z.log2_up_spec d H) as [_ U]. pose proof (Z.log2_up_pos d H) as P.
  assert (d - d / 2 <= 2 ^ (Z.log2_up d - 1)).
  { replace (Z.log2_up d) with (Z.succ (Z.log2_up d - 1)) in U by lia. rewrite Z.pow_succ_r in U by lia.
    pose proof (Z.div_mod d 2 ltac:(lia)). pose proof (Z.mod_pos_bound d 2 ltac:(lia)). lia. }
  pose proof (proj1 (Z.log2_up_le_pow2 (d - d / 2) (Z.log2_up d - 1) ltac:(lia))). lia.
Qed.
Lemma log2_up_half' d : 1 < d -> Z.log2_up (d / 2) + 1 <= Z.log2_up d.
Proof.
  intros H. pose proof (log2_up_half d H). pose proof (half_bounds d ltac:(lia)).
  pose proof (Z.log2_up_le_mono (d / 2) (d - d / 2) ltac:(lia)). lia.
Qed.

Lemma search_last_loop_asks f fuel : forall i j, i < j -> 
  exists qs, Z.of_nat (List.length qs) <= Z.log2_up (j - i) /\ Forall (fun q => i < q < j) qs /\
    forall f', (forall q, In q qs -> f' q = f q) -> search_last_loop fuel f' i j = search_last_loop fuel f i j.
Proof.
  induction fuel as [|k IH]; intros i j HI.
  { exists []. split; [|split; [constructor|reflexivity]]. simpl. apply Z.log2_up_nonneg. }
  cbn [search_last_loop]. destruct (Z.ltb_spec i (j - 1)) as [L|L].
  - pose proof (half_bounds (j - i) ltac:(lia)) as B. pose proof (log2_up_half (j - i) ltac:(lia)) as PH.
    pose proof (log2_up_half' (j - i) ltac:(lia)) as PH'. set (h := i + (j - i) / 2) in *.
    assert (B1 : 1 <= (j - i) / 2) by (apply Z.div_le_lower_bound; lia).
    pose proof (Z.log2_up_nonneg ((j - i) / 2)) as NN.
    destruct (f h) as [[|]| |] eqn:FH.
    + destruct (IH h j) as (qs & Q1 & Q2 & Q3); try lia. exists (h :: qs).
      replace (j - h) with (j - i - (j - i) / 2) in Q1 by lia.
      split; [cbn [List.length]; lia|]. split; [constructor; [lia|]; rewrite Forall_forall in *; intros q I; specialize (Q2 q I); lia|].
      intros f' E. rewrite (E h) by (now left). rewrite FH. cbn. apply Q3. intros q I. apply E. now right.
    + destruct (IH i h) as (qs & Q1 & Q2 & Q3); try lia. exists (h :: qs).
      replace (h - i) with ((j - i) / 2) in Q1 by lia.
      split; [cbn [List.length]; lia|]. split; [constructor; [lia|]; rewrite Forall_forall in *; intros q I; specialize (Q2 q I); lia|].
      intros f' E. rewrite (E h) by (now left). rewrite FH. cbn. apply Q3. intros q I. apply E. now right.
    + exists [h]. split; [cbn [List.length]; lia|]. split; [constructor; auto; lia|].
      intros f' E. rewrite (E h) by (now left). rewrite FH. reflexivity.
    + exists [h]. split; [cbn [List.length]; lia|]. split; [constructor; auto; lia|].
      intros f' E. rewrite (E h) by (now left). rewrite FH. reflexivity.
  - exists []. split; [|split; [constructor|reflexivity]]. simpl. apply Z.log2_up_nonneg.
Qed.

(** ---------- searching a table ---------- *)

Local Open Scope string_scope.

Lemma sortable_reflect ct v : In ct sortable_types -> cell_ok ct v -> reflect_name v = ct /\ v <> VNil.
Proof.
  intros S [H _]. destruct v as [| | |k z| | |o|o| |]; simpl in *; try contradiction; subst; auto; try (split; [reflexivity|discriminate]).
  - destruct k; subst; try (split; [reflexivity|discriminate]); destruct H as [->| ->]; try (split; [reflexivity|discriminate]); exfalso;
    repeat (destruct S as [S|S]; [discriminate|]); exact S.
  - exfalso. destruct H as [->| ->]; repeat (destruct S as [S|S]; [discriminate|]); exact S.
  - destruct o; [|contradiction]. subst. exfalso. repeat (destruct S as [S|S]; [discriminate|]); exact S.
  - exfalso. repeat (destruct S as [S|S]; [discriminate|]); exact S.
Qed.

Lemma vs_tok' t ks vs : Forall2 (fun k v => cell_ok (k_type k) v /\ ~ is_nan v) ks vs -> kgood t ks -> tok ks vs.
Proof.
  intros V. induction V as [|k v ks vs' [H1 H2] V IH]; intros K'; constructor.
  - inversion K' as [|? ? (i & _ & _ & S) K'']; subst. split; auto. split; auto.
  - apply IH. now inversion K'.
Qed.
Lemma check_values_ok t ks vs : wf_table t -> Forall2 (fun k v => cell_ok (k_type k) v /\ ~ is_nan v) ks vs -> kgood t ks ->
  check_values t ks vs = Ok tt.
Proof.
  intros W V. induction V as [|k v ks vs' [H1 H2] V IH]; intros K'; [reflexivity|].
  inversion K' as [|? ? (i & N & T & S) K'']; subst. cbn [check_values]. unfold IsValidColValue.
  assert (CT : ColType t (k_col k) = Ok (k_type k)) by (apply wf_ColType_iff; eauto). rewrite CT. cbn [rbind].
  destruct (sortable_reflect _ _ S H1) as [R NV]. rewrite R, String.eqb_refl. destruct v; try congruence; cbn [rbind]; now apply IH.
Qed.

Section Table.
  Variables (E : env) (t : table) (vs : list value).
  Hypothesis W : wf_table t.
  Hypothesis K : keys_ok t.
  Hypothesis NN : no_nan_keys t.
  Hypothesis KS : skeys t <> [].
  Hypothesis VS : search_values t vs.
  Hypothesis ST : sorted_table E t.

  Lemma vs_tok : tok (skeys t) vs.
  Proof using K VS.
    exact (vs_tok' t _ _ VS K).
  Qed.

  Lemma check_args_ok : checkSearchArguments t vs = Ok tt.
  Proof using W K KS VS.
    unfold checkSearchArguments. rewrite <- (Forall2_len _ _ _ VS). rewrite Nat.eqb_refl.
    destruct (Nat.eqb_spec (List.length (skeys t)) 0) as [Z0|Z0]; [apply length_zero_iff_nil in Z0; congruence|]. cbn [negb].
    now apply check_values_ok.
  Qed.

  Definition rt (r : Z) := kvt t (skeys t) r.
  Lemma row_at r : (0 <= r < RowCount t)%Z -> exists row, nth_error (rows t) (Z.to_nat r) = Some row.
  Proof using. intros H. apply nth_error_lt. unfold RowCount in H. lia. Qed.
  Lemma rt_tok r : (0 <= r < RowCount t)%Z -> tok (skeys t) (rt r).
  Proof using W K NN. intros H. destruct (row_at r H). eapply kvt_tok; eauto. lia. Qed.
  Lemma rt_sorted i j : (0 <= i)%Z -> (i < j)%Z -> (j < RowCount t)%Z -> ~ tlt E (skeys t) (rt j) (rt i).
  Proof using W K ST.
    intros I0 IJ JN. destruct (row_at i) as [ri Hi]; [lia|]. destruct (row_at j) as [rj Hj]; [lia|].
    unfold rt. rewrite <- (keys_lt_tlt t W E _ _ _ _ _ K Hj Hi) by lia. apply ST; lia.
  Qed.
  Lemma rt_match r : (0 <= r < RowCount t)%Z -> row_matches t vs r <-> teq (rt r) vs.
  Proof using W K. intros H. destruct (row_at r H) as [row Hr]. unfold row_matches. eapply row_matches_teq; eauto. lia. Qed.
  Lemma rt_before r : (0 <= r < RowCount t)%Z -> vals_before E t (skeys t) vs r <-> tlt E (skeys t) vs (rt r).
  Proof using W K. intros H. destruct (row_at r H) as [row Hr]. eapply vals_before_tlt; eauto. lia. Qed.

  (** The rows fall into three blocks: less than vs, equal, greater. *)
  Lemma less_block i j : (0 <= i)%Z -> (i <= j)%Z -> (j < RowCount t)%Z -> tlt E (skeys t) (rt j) vs -> tlt E (skeys t) (rt i) vs.
  Proof using W K NN ST VS.
    intros I0 IJ JN H. destruct (Z.eq_dec i j) as [->|]; auto.
    pose proof (rt_sorted i j I0 ltac:(lia) JN) as S. pose proof (rt_tok i ltac:(lia)) as Ti. pose proof (rt_tok j ltac:(lia)) as Tj.
    destruct (tlt_tri E _ _ _ Ti Tj) as [(L & _)|[(_ & Q & _)|(_ & _ & L)]]; [| |contradiction].
    - eapply (tlt_trans E _ (rt i) (rt j) vs); auto using vs_tok.
    - eapply (tlt_eq_l E _ (rt i) (rt j) vs); auto using vs_tok.
  Qed.
  Lemma greater_block i j : (0 <= i)%Z -> (i <= j)%Z -> (j < RowCount t)%Z -> tlt E (skeys t) vs (rt i) -> tlt E (skeys t) vs (rt j).
  Proof using W K NN ST VS.
    intros I0 IJ JN H. destruct (Z.eq_dec i j) as [->|]; auto.
    pose proof (rt_sorted i j I0 ltac:(lia) JN) as S. pose proof (rt_tok i ltac:(lia)) as Ti. pose proof (rt_tok j ltac:(lia)) as Tj.
    destruct (tlt_tri E _ _ _ Ti Tj) as [(L & _)|[(_ & Q & _)|(_ & _ & L)]]; [| |contradiction].
    - eapply (tlt_trans E _ vs (rt i) (rt j)); auto using vs_tok.
    - eapply (tlt_eq_r E _ vs (rt i) (rt j)); auto using vs_tok.
  Qed.

  Definition gp (first : bool) (r : Z) : bool := match search_pred E first t (skeys t) vs r with Ok b => b | _ => false end.
  Lemma gp_spec first r : (0 <= r < RowCount t)%Z -> search_pred E first t (skeys t) vs r = Ok (gp first r)
      /\ (gp first r = true <-> if first then ~ tlt E (skeys t) (rt r) vs else ~ tlt E (skeys t) vs (rt r)).
  Proof using W K NN KS VS.
    intros H. destruct (row_at r H) as [row Hr]. unfold gp.
    destruct (search_pred_spec t W E first (skeys t) r row K NN Hr ltac:(lia) vs KS vs_tok) as (b & -> & Hb). auto.
  Qed.

  Lemma RowCount_nonneg : (0 <= RowCount t)%Z.
  Proof using. unfold RowCount. lia. Qed.

  Lemma SearchFirst_spec : match SearchFirst E t vs with
    | Ok i => (0 <= i < RowCount t)%Z /\ row_matches t vs i /\ forall j, (0 <= j < i)%Z -> ~ row_matches t vs j
    | Err => forall r, (0 <= r < RowCount t)%Z -> ~ row_matches t vs r
    | Panic => False
    end.
  Proof using All.
    unfold SearchFirst. rewrite check_args_ok. cbn [rbind].
    destruct (SearchFirst_f_spec (RowCount t) _ (gp true) (fun i H => proj1 (gp_spec true i H)) RowCount_nonneg) as (r & -> & R & LO & HI).
    cbn [rbind].
    assert (LESS : forall j, (0 <= j < r)%Z -> tlt E (skeys t) (rt j) vs).
    { intros j J. apply (less_block j (r - 1)); try lia. destruct LO as [|LO]; [lia|].
      pose proof (proj2 (gp_spec true (r - 1) ltac:(lia))) as GS. cbv iota in GS. rewrite LO in GS.
      destruct (tlt_tri E _ _ _ (rt_tok (r - 1) ltac:(lia)) vs_tok) as [(L & _)|[(L & _)|(L & _)]]; auto; exfalso;
        assert (false = true) by tauto; discriminate. }
    assert (NM : forall j, (0 <= j < r)%Z -> ~ row_matches t vs j).
    { intros j J. rewrite rt_match by lia. specialize (LESS j J).
      destruct (tlt_tri E _ _ _ (rt_tok j ltac:(lia)) vs_tok) as [(L & Q & _)|[(L & _)|(L & _)]]; auto; contradiction. }
    destruct (Z.ltb_spec r (RowCount t)) as [L|L].
    - destruct (row_at r ltac:(lia)) as [row Hr].
      destruct (match_row_spec t W E (skeys t) r row K NN Hr ltac:(lia) vs vs_tok) as (b & -> & Hb). cbn [rbind].
      destruct b.
      + split; [lia|]. split; auto. apply rt_match; [lia|]. now apply Hb.
      + assert (NQ : ~ teq (rt r) vs) by (intros Q; apply Hb in Q; discriminate).
        assert (GR : tlt E (skeys t) vs (rt r)).
        { destruct HI as [|HI]; [lia|]. pose proof (proj1 (proj2 (gp_spec true r ltac:(lia))) HI) as GS. cbv iota in GS.
          destruct (tlt_tri E _ _ _ (rt_tok r ltac:(lia)) vs_tok) as [(A & _)|[(A & B & _)|(A & B & C)]]; auto; contradiction. }
        intros j J. destruct (Z.lt_ge_cases j r) as [|JR]; [apply NM; lia|].
        rewrite rt_match by lia. pose proof (greater_block r j ltac:(lia) JR ltac:(lia) GR) as GJ.
        destruct (tlt_tri E _ _ _ (rt_tok j ltac:(lia)) vs_tok) as [(A & B & C)|[(A & B & C)|(A & B & C)]]; try contradiction; auto.
    - intros j J. apply NM. lia.
  Qed.

  Lemma match_row_neg : match_row E t (skeys t) vs (-1) = Panic.
  Proof using W K KS VS.
    pose proof vs_tok as T. pose proof K as K'. destruct (skeys t) as [|k ks] eqn:SK; [congruence|].
    inversion T as [|? v ? vs' [S C] T']; subst. cbn [match_row].
    unfold keys_ok in K'. rewrite SK in K'. inversion K' as [|? ? (i & N & CT & _) _]; subst.
    rewrite (GetVal_col_at t (Z.of_nat i)) by (auto; now apply col_at_nat).
    rewrite get_neg by (auto; lia). cbn [rbind]. types S; reflexivity.
  Qed.

  Lemma SearchLast_spec : match SearchLast E t vs with
    | Ok i => (0 <= i < RowCount t)%Z /\ row_matches t vs i /\ forall j, (i < j < RowCount t)%Z -> ~ row_matches t vs j
    | Err => forall r, (0 <= r < RowCount t)%Z -> ~ row_matches t vs r
    | Panic => forall r, (0 <= r < RowCount t)%Z -> vals_before E t (skeys t) vs r
    end
    /\ ((forall r, (0 <= r < RowCount t)%Z -> vals_before E t (skeys t) vs r) -> SearchLast E t vs = Panic).
  Proof using All.
    unfold SearchLast. rewrite check_args_ok. cbn [rbind].
    destruct (SearchLast_f_spec (RowCount t) _ (gp false) (fun i H => proj1 (gp_spec false i H)) RowCount_nonneg) as (r & -> & R & LO & HI).
    cbn [rbind]. destruct (Z.ltb_spec r (RowCount t)) as [_|L]; [|lia].
    assert (GREATER : forall j, (r < j < RowCount t)%Z -> tlt E (skeys t) vs (rt j)).
    { intros j J. apply (greater_block (r + 1) j); try lia. destruct HI as [|HI]; [lia|].
      pose proof (proj2 (gp_spec false (r + 1) ltac:(lia))) as GS. cbv iota in GS. rewrite HI in GS.
      destruct (tlt_tri E _ _ _ (rt_tok (r + 1) ltac:(lia)) vs_tok) as [(A & B & C)|[(A & B & C)|(A & B & C)]]; auto; exfalso;
        assert (false = true) by tauto; discriminate. }
    assert (NM : forall j, (r < j < RowCount t)%Z -> ~ row_matches t vs j).
    { intros j J. rewrite rt_match by lia. specialize (GREATER j J).
      destruct (tlt_tri E _ _ _ (rt_tok j ltac:(lia)) vs_tok) as [(A & B & C)|[(A & B & C)|(A & B & C)]]; auto; contradiction. }
    destruct (Z.eq_dec r (-1)) as [->|R1].
    - rewrite match_row_neg. cbn [rbind]. split; auto. intros j J. apply rt_before; auto. apply GREATER. lia.
    - destruct (row_at r ltac:(lia)) as [row Hr]. destruct LO as [|LO]; [lia|].
      pose proof (proj1 (proj2 (gp_spec false r ltac:(lia))) LO) as GS. cbv iota in GS.
      destruct (match_row_spec t W E (skeys t) r row K NN Hr ltac:(lia) vs vs_tok) as (b & -> & Hb). cbn [rbind]. split.
      + destruct b.
        * split; [lia|]. split; auto. apply rt_match; [lia|]. now apply Hb.
        * assert (NQ : ~ teq (rt r) vs) by (intros Q; apply Hb in Q; discriminate).
          assert (GR : tlt E (skeys t) (rt r) vs).
          { destruct (tlt_tri E _ _ _ (rt_tok r ltac:(lia)) vs_tok) as [(A & _)|[(A & B & _)|(A & B & C)]]; auto; contradiction. }
          intros j J. destruct (Z.lt_ge_cases r j) as [|JR]; [apply NM; lia|].
          rewrite rt_match by lia. pose proof (less_block j r ltac:(lia) ltac:(lia) ltac:(lia) GR) as GJ.
          destruct (tlt_tri E _ _ _ (rt_tok j ltac:(lia)) vs_tok) as [(A & B & C)|[(A & B & C)|(A & B & C)]]; try contradiction; auto.
      + intros ALL. exfalso. apply GS. apply rt_before; [lia|]. apply ALL. lia.
  Qed.

  Lemma SearchRange_spec : match SearchRange E t vs with
    | Ok (f, l) => (0 <= f <= l)%Z /\ (l < RowCount t)%Z /\ forall r, (0 <= r < RowCount t)%Z -> row_matches t vs r <-> (f <= r <= l)%Z
    | Err => forall r, (0 <= r < RowCount t)%Z -> ~ row_matches t vs r
    | Panic => False
    end.
  Proof using All.
    unfold SearchRange. rewrite check_args_ok. cbn [rbind]. pose proof SearchFirst_spec as SF. destruct SearchLast_spec as [SL _].
    destruct (SearchFirst E t vs) as [f| |]; cbn [rbind]; auto. destruct SF as (F1 & F2 & F3).
    assert (EQS : forall r, (0 <= r < RowCount t)%Z -> row_matches t vs r -> teq (rt r) vs) by (intros r R; now apply rt_match).
    destruct (SearchLast E t vs) as [l| |]; cbn [rbind].
    - destruct SL as (L1 & L2 & L3).
      assert (FL : (f <= l)%Z). { destruct (Z.lt_ge_cases l f); [|lia]. exfalso. now apply (F3 l). }
      split; [lia|]. split; [lia|]. intros r R. split.
      + intros M. split; [destruct (Z.lt_ge_cases r f); [exfalso; apply (F3 r); auto; lia|lia]|].
        destruct (Z.lt_ge_cases l r); [exfalso; apply (L3 r); auto; lia|lia].
      + intros [A B]. apply rt_match; [lia|].
        pose proof (EQS f F1 F2) as QF. pose proof (EQS l L1 L2) as QL.
        destruct (tlt_tri E _ _ _ (rt_tok r ltac:(lia)) vs_tok) as [(X & Y & Z)|[(X & Y & Z)|(X & Y & Z)]]; auto; exfalso.
        * pose proof (less_block f r ltac:(lia) A ltac:(lia) X) as L.
          destruct (tlt_tri E _ _ _ (rt_tok f ltac:(lia)) vs_tok) as [(X' & Y' & Z')|[(X' & Y' & Z')|(X' & Y' & Z')]]; auto.
        * pose proof (greater_block r l ltac:(lia) B ltac:(lia) Z) as L.
          destruct (tlt_tri E _ _ _ (rt_tok l ltac:(lia)) vs_tok) as [(X' & Y' & Z')|[(X' & Y' & Z')|(X' & Y' & Z')]]; auto.
    - exfalso. now apply (SL f).
    - assert (QF := EQS f F1 F2). assert (B := SL f F1). rewrite rt_before in B by auto.
      destruct (tlt_tri E _ _ _ (rt_tok f ltac:(lia)) vs_tok) as [(X' & Y' & Z')|[(X' & Y' & Z')|(X' & Y' & Z')]]; auto.
  Qed.
End Table.
