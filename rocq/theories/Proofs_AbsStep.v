(** Proofs_AbsStep.v -- every call on one table does to the abstract table what the
    specification allows. *)
From Coq Require Import ZArith NArith List String Ascii Bool SpecFloat Permutation Lia.
From Verif Require Import Base Model_Names Model_Table Model_Sort Model_Copy Model_Ops Spec Spec_Sort Spec_Abstract
  Proofs_Lib Proofs_Table Proofs_Cells Proofs_Struct Proofs_Api Proofs_Pres Proofs_Zero Proofs_Api2 Props_Cells Props_Struct
  Proofs_Copy Proofs_Sort Proofs_Keys Props_Sort Proofs_Abstract.
Import ListNotations.
Local Open Scope string_scope.
Local Open Scope list_scope.

Definition sim (E : env) (b : nat) (o : op) (t : table) : Prop :=
  astep E (fun p => b <= p) o (abs t) (snd (run (exec E o) b t)) (abs (fst (run (exec E o) b t))).

Lemma sim_by E b o t s' r : exec E o (mkS t b []) = (s', r) ->
  astep E (fun p => b <= p) o (abs t) r (abs (s_tab s')) -> sim E b o t.
Proof. intros H A. unfold sim. rewrite (run_eq _ _ _ _ _ H). exact A. Qed.

Lemma next_0 t b : next (mkS t b []) = b.
Proof. unfold next. cbn. lia. Qed.

Lemma if_ok_yes (P Q : Prop) a (r : res unit) a' : P -> r = Ok tt -> Q -> if_ok P Q a r a'.
Proof. intros p D q. split; [split; assumption|contradiction]. Qed.
Lemma if_ok_no (P Q : Prop) a (r : res unit) a' : ~ P -> r = Err -> a' = a -> if_ok P Q a r a'.
Proof. intros p D q. split; [contradiction|]. split; assumption. Qed.

(** ---------- equality of abstract tables ---------- *)

Lemma a_cols_ext t cs : (forall i, nth_error (a_cols (abs t)) i = nth_error cs i) -> a_cols (abs t) = cs.
Proof. apply nth_error_ext. Qed.

Lemma abs_with_rows t rs f : (forall i, i < List.length (cnames t) -> colv i rs = f (colv i (rows t))) ->
  abs (with_rows rs t) = a_with_cols (List.length rs) (map (revalue f) (a_cols (abs t))) (abs t).
Proof.
  intros H. unfold a_with_cols.
  assert (C : a_cols (abs (with_rows rs t)) = map (revalue f) (a_cols (abs t))).
  { apply a_cols_ext. intros i. rewrite nth_error_map, !abs_col. cbn [cnames ctypes rows with_rows].
    destruct (nth_error (cnames t) i) eqn:N; [|reflexivity]. destruct (nth_error (ctypes t) i); [|reflexivity].
    cbn. unfold revalue. cbn. rewrite H; [reflexivity|]. apply nth_error_Some. congruence. }
  rewrite <- C. reflexivity.
Qed.

(** ---------- changes of cells ---------- *)

Lemma changed_abs (region : Z -> Z -> Prop) (Q : string -> value -> Prop) t t' : wf_table t -> wf_table t' ->
  same_header t t' -> RowCount t' = RowCount t ->
  (forall c r v v' ct, (0 <= c < ColCount t)%Z -> (0 <= r < RowCount t)%Z ->
     GetValByColIndex t c r = Ok v -> GetValByColIndex t' c r = Ok v' -> nth_error (ctypes t) (Z.to_nat c) = Some ct ->
     (region c r -> Q ct v') /\ (~ region c r -> v' = v)) ->
  changed region Q (abs t) (abs t').
Proof.
  intros W W' [SN SC ST SK SS SI SP] RC H.
  assert (RL : List.length (rows t') = List.length (rows t)) by (unfold RowCount in RC; lia).
  split.
  - unfold abs. cbn [a_name]. rewrite SI, SN. reflexivity.
  - exact SS.
  - exact SK.
  - exact RL.
  - apply Forall2_nth_iff; [rewrite !abs_width, SC; auto|].
    intros i x y X Y. apply abs_col_inv in X as (X1 & X2 & X3). apply abs_col_inv in Y as (Y1 & Y2 & Y3).
    rewrite SC in Y1. rewrite ST in Y2. repeat split; try congruence. rewrite X3, Y3. unfold colv. rewrite !map_length. exact RL.
  - intros c r col col' v v' C C' V V'.
    assert (G : GetValByColIndex t c r = Ok v) by (rewrite (get_abs _ _ _ W), C, V; reflexivity).
    assert (G' : GetValByColIndex t' c r = Ok v') by (rewrite (get_abs _ _ _ W'), C', V'; reflexivity).
    apply col_no_inv in C as [L C]. apply abs_col_inv in C as (CN & T & CV).
    apply (H c r v v'); auto.
    + apply (col_at_range t c (c_name col)). split; assumption.
    + unfold at_row in V. destruct (Z.ltb_spec r 0); [discriminate|].
      assert (Z.to_nat r < List.length (c_vals col)) by (apply nth_error_Some; congruence).
      rewrite CV in *. unfold colv in *. rewrite map_length in *. unfold RowCount. lia.
Qed.

Lemma changed_cell t t' c r v : wf_table t -> wf_table t' -> only_cell_changed t t' c r v ->
  changed (fun c' r' => c' = c /\ r' = r) (fun _ w => w = v) (abs t) (abs t').
Proof.
  intros W W' [A B C D]. apply changed_abs; auto. intros c' r' w w' ct LC LR G G' T. split.
  - intros [-> ->]. congruence.
  - intros N. rewrite D in G'; [congruence|]. intros X. injection X as -> ->. apply N. auto.
Qed.

Lemma changed_zero t t' F at_ : wf_table t -> wf_table t' -> zero_region t t' F at_ -> changed at_ (zero_of F) (abs t) (abs t').
Proof.
  intros W W' [A B C D]. apply changed_abs; auto. intros c r w w' ct LC LR G G' T. split.
  - intros R. destruct (C c r ct LC LR R T) as (v & V & Z). congruence.
  - intros N. rewrite D in G' by exact N. congruence.
Qed.

Lemma changed_nan t t' (at_ R : Z -> Z -> Prop) : wf_table t -> wf_table t' -> nan_region t t' at_ ->
  (forall c r ct, (0 <= c < ColCount t)%Z -> (0 <= r < RowCount t)%Z -> nth_error (ctypes t) (Z.to_nat c) = Some ct ->
     R c r <-> at_ c r /\ nan_of ct <> None) ->
  (forall c r, {at_ c r} + {~ at_ c r}) ->
  changed R (fun ct v => nan_of ct = Some v) (abs t) (abs t').
Proof.
  intros W W' [A B C D] H DEC. apply changed_abs; auto. intros c r w w' ct LC LR G G' T. specialize (H c r ct LC LR T). split.
  - intros X. apply H in X as [X Y]. destruct (nan_of ct) as [v|] eqn:N; [|contradiction].
    rewrite (C c r ct v LC LR X T N) in G'. congruence.
  - intros X. destruct (DEC c r) as [I|I].
    + destruct (nan_of ct) as [v|] eqn:N.
      * exfalso. apply X, H. split; [exact I|discriminate].
      * rewrite (D c r ct T) in G' by auto. congruence.
    + rewrite (D c r ct T) in G' by auto. congruence.
Qed.

Lemma changed_refl (R : Z -> Z -> Prop) Q t : wf_table t ->
  (forall c r, (0 <= c < ColCount t)%Z -> (0 <= r < RowCount t)%Z -> ~ R c r) -> changed R Q (abs t) (abs t).
Proof.
  intros W H. apply changed_abs; auto. { apply same_header_refl. } intros c r w w' ct LC LR G G' T. split.
  - intros X. exfalso. eapply H; eauto.
  - congruence.
Qed.

Lemma writable_abs t c r v : wf_table t ->
  (row_in (abs t) r /\ exists col, col_no (abs t) c = Some col /\ has_type (c_type col) v) <-> writable t c r v.
Proof.
  intros W. unfold writable. split.
  - intros (R & col & C & T). apply col_no_inv in C as [L C]. apply abs_col_inv in C as (_ & CT & _).
    split; [exact L|]. split; [exact R|]. eauto.
  - intros (L & R & ct & CT & T). split; [exact R|].
    assert (X : Z.to_nat c < List.length (cnames t)) by (rewrite <- (wf_types_len _ W); apply nth_error_Some; congruence).
    destruct (nth_error (cnames t) (Z.to_nat c)) as [n|] eqn:N; [|apply nth_error_None in N; lia].
    exists (mkCol n ct (colv (Z.to_nat c) (rows t))). split; [|exact T]. apply col_no_inv. split; [exact L|].
    apply abs_col_some; assumption.
Qed.
Lemma writable_abs_name t cn r v : wf_table t ->
  (row_in (abs t) r /\ exists col, col_of (abs t) cn = Some col /\ has_type (c_type col) v) <-> exists c, col_at t c cn /\ writable t c r v.
Proof.
  intros W. split.
  - intros (R & col & C & T). pose proof C as C0. apply (col_of_inv _ _ _ W) in C as (i & C & N).
    exists (Z.of_nat i). pose proof (abs_col_inv _ _ _ C) as (CN & CT & _).
    split; [apply col_at_nat; congruence|]. apply (writable_abs _ _ _ _ W). split; [exact R|]. exists col. split; [|exact T].
    apply col_no_inv. split; [lia|]. rewrite Nat2Z.id. exact C.
  - intros (c & C & X). apply (writable_abs _ _ _ _ W) in X as (R & col & N & T). split; [exact R|].
    destruct (col_of_no _ _ _ W C) as (col' & F & N' & _). exists col'. split; [exact F|]. congruence.
Qed.

Lemma written_sim t b i ri ct v : wf_table t -> nth_error (ctypes t) i = Some ct -> has_type ct v -> go_value v = true ->
  (0 <= ri < RowCount t)%Z ->
  changed (fun c r => c = Z.of_nat i /\ r = ri) (fun _ w => w = v) (abs t) (abs (s_tab (written i (Z.to_nat ri) v (mkS t b [])))).
Proof.
  intros W T H G R. cbn.
  assert (L : Z.to_nat ri < List.length (rows t)) by (unfold RowCount in R; lia).
  destruct (written_only i (Z.to_nat ri) v t ct W T H G L) as [W' O].
  rewrite Z2Nat.id in O by lia. apply changed_cell; assumption.
Qed.

Lemma filter_all_true {A} (f : A -> bool) l : (forall x, In x l -> f x = true) -> filter f l = l.
Proof. induction l as [|x l IH]; intros H; [reflexivity|]. cbn. rewrite H by (left; reflexivity). f_equal. apply IH. intros. apply H. right. assumption. Qed.

Lemma in_split_dec (x : string) l : In x l -> {l1 & {l2 | l = l1 ++ x :: l2}}.
Proof.
  induction l as [|y l IH]; intros I; [destruct I|]. destruct (string_dec y x) as [->|N].
  - exists [], l. reflexivity.
  - destruct IH as (l1 & l2 & ->); [destruct I; [contradiction|assumption]|]. exists (y :: l1), l2. reflexivity.
Qed.

Lemma Permutation_dec_string (l l' : list string) : {Permutation l l'} + {~ Permutation l l'}.
Proof.
  revert l'. induction l as [|x l IH]; intros l'.
  - destruct l'; [left; constructor|right]. intros P. apply Permutation_nil in P. discriminate.
  - destruct (in_dec string_dec x l') as [I|I].
    + destruct (in_split_dec x l' I) as (l1 & l2 & ->). destruct (IH (l1 ++ l2)) as [P|P].
      * left. apply Permutation_cons_app. exact P.
      * right. intros Q. apply P. eapply Permutation_cons_app_inv. exact Q.
    + right. intros P. apply I. apply (Permutation_in _ P). left. reflexivity.
Qed.

Section Step.
Variables (E : env) (t : table) (b : nat).
Hypothesis (EOK : env_ok E) (W : wf_table t).
Let s0 := mkS t b [].

Lemma sim_SetVal cn ri v : go_value v = true -> sim E b (OSetVal cn ri v) t.
Proof.
  intros G. destruct (SetVal_eq cn ri v s0 W) as [(i & ct & NN & R & N & T & H & X)|[NO X]].
  - eapply sim_by; [exact X|]. apply if_ok_yes; [|reflexivity|].
    + apply (writable_abs_name _ _ _ _ W). exists (Z.of_nat i). split; [apply col_at_nat; exact N|].
      split; [lia|]. split; [exact R|]. exists ct. rewrite Nat2Z.id. auto.
    + intros ci C. apply (col_no_at _ _ _ W) in C. apply col_at_nat in N. rewrite (col_at_inj _ _ _ _ W C N).
      eapply written_sim; eauto.
  - eapply sim_by; [exact X|]. apply if_ok_no; try reflexivity. intros P. apply (writable_abs_name _ _ _ _ W) in P as (c & [L C] & _ & R & ct & T & H).
    apply NO. exists (Z.to_nat c), ct. repeat split; auto; try apply R. eapply has_type_not_nil; eauto.
Qed.

Lemma sim_SetValByColIndex ci ri v : go_value v = true -> sim E b (OSetValByColIndex ci ri v) t.
Proof.
  intros G. destruct (SetValByColIndex_eq ci ri v s0 W) as [[(NN & R & ct & L & T & H) X]|[NO X]].
  - eapply sim_by; [exact X|]. apply if_ok_yes; [|reflexivity|].
    + apply (writable_abs _ _ _ _ W). split; [lia|]. split; [exact R|]. eauto.
    + pose proof (written_sim t b (Z.to_nat ci) ri ct v W T H G R) as Y. rewrite Z2Nat.id in Y by lia. exact Y.
  - eapply sim_by; [exact X|]. apply if_ok_no; try reflexivity. intros P. apply (writable_abs _ _ _ _ W) in P as (L & R & ct & T & H).
    apply NO. split; [eapply has_type_not_nil; eauto|]. split; [exact R|]. eauto.
Qed.

Lemma arg_nil v : not_nil_arg v = false <-> v = VBytes None \/ v = VTable None.
Proof.
  split.
  - destruct v as [| | | | | |[]|[]| |]; cbn; try discriminate; auto.
  - intros [-> | ->]; reflexivity.
Qed.

Lemma sim_Set vt cn ri v : In vt all_types -> arg_of_type vt v = true -> go_value v = true -> sim E b (OSet vt cn ri v) t.
Proof.
  intros V A G. destruct (SetT_eq vt cn ri v s0 W V A) as [(i & ct & NN & R & N & T & H & X)|[NO X]].
  - eapply sim_by; [exact X|]. apply if_ok_yes; [|reflexivity|].
    + split; [intros ->; discriminate|]. apply (writable_abs_name _ _ _ _ W). exists (Z.of_nat i). split; [apply col_at_nat; exact N|].
      split; [lia|]. split; [exact R|]. exists ct. rewrite Nat2Z.id. auto.
    + intros ci C. apply (col_no_at _ _ _ W) in C. apply col_at_nat in N. rewrite (col_at_inj _ _ _ _ W C N).
      eapply written_sim; eauto.
  - eapply sim_by; [exact X|]. apply if_ok_no; try reflexivity. intros (NB & P). apply (writable_abs_name _ _ _ _ W) in P as (c & [L C] & _ & R & ct & T & H).
    apply NO. exists (Z.to_nat c), ct. repeat split; auto; try apply R.
    destruct (not_nil_arg v) eqn:Q; [reflexivity|]. apply arg_nil in Q as [-> | ->]; [contradiction|destruct H].
Qed.

Lemma sim_SetByColIndex vt ci ri v : In vt all_types -> arg_of_type vt v = true -> go_value v = true -> sim E b (OSetByColIndex vt ci ri v) t.
Proof.
  intros V A G. destruct (not_nil_arg v) eqn:Q.
  - assert (NQ : ~ (v = VBytes None \/ v = VTable None)) by (intros P; apply arg_nil in P; congruence).
    destruct (HasColByColIndex t ci) eqn:HC.
    + apply HasCol_iff in HC. destruct (SetTByColIndex_eq vt ci ri v s0 W V A HC) as [(ct & NN & R & T & H & X)|[NO X]].
      * eapply sim_by; [exact X|]. split; [contradiction|]. intros _. split; [intros Z; exfalso; apply Z, (col_in_abs _ _ W), HC|].
        intros _. apply if_ok_yes; [|reflexivity|].
        -- apply (writable_abs _ _ _ _ W). split; [lia|]. split; [exact R|]. eauto.
        -- pose proof (written_sim t b (Z.to_nat ci) ri ct v W T H G R) as Y. rewrite Z2Nat.id in Y by lia. exact Y.
      * eapply sim_by; [exact X|]. split; [contradiction|]. intros _. split; [intros Z; exfalso; apply Z, (col_in_abs _ _ W), HC|].
        intros _. apply if_ok_no; try reflexivity. intros P. apply (writable_abs _ _ _ _ W) in P as (L & R & ct & T & H).
        apply NO. exists ct. auto.
    + assert (HN : ~ (0 <= ci < ColCount t)%Z) by (intros P; apply HasCol_iff in P; congruence).
      eapply sim_by; [apply (SetTByColIndex_panic vt ci ri v s0 W Q HN)|]. split; [contradiction|]. intros _.
      split; [split; reflexivity|]. intros C. apply (col_in_abs _ _ W) in C. contradiction.
  - eapply sim_by. { cbn [exec]. unfold SetTByColIndex, check, bind. rewrite Q. reflexivity. }
    split; [split; reflexivity|]. intros N. apply arg_nil in Q. contradiction.
Qed.

(** ---------- names and shape ---------- *)

Lemma sim_SetName n : sim E b (OSetName n) t.
Proof.
  destruct (IsValidTableName n) eqn:V.
  - eapply sim_by. { cbn [exec]. unfold SetName, check, bind. rewrite V. reflexivity. }
    apply if_ok_yes; [apply IsValidTableName_spec; exact V|reflexivity|reflexivity].
  - eapply sim_by. { cbn [exec]. unfold SetName, check, bind. rewrite V. reflexivity. }
    apply if_ok_no; try reflexivity. intros P. apply IsValidTableName_spec in P. congruence.
Qed.
Lemma sim_SetStructShape x : sim E b (OSetStructShape x) t.
Proof. split; reflexivity. Qed.

(** ---------- rows ---------- *)

Lemma a_name_none : a_name (abs t) = None <-> is_nil t = true.
Proof. cbn. destruct (is_nil t); split; congruence. Qed.

Lemma colv_app i r1 r2 : colv i (r1 ++ r2) = colv i r1 ++ colv i r2.
Proof. apply map_app. Qed.

Lemma rows_appended n new s' : List.length new = n -> Forall (Forall2 (zero_of (fun p => b <= p)) (ctypes t)) new ->
  s_tab s' = with_rows (rows t ++ new) t ->
  exists zss, Forall2 (fun c zs => List.length zs = n /\ Forall (zero_of (fun p => b <= p) (c_type c)) zs) (a_cols (abs t)) zss
    /\ abs (s_tab s') = a_with_cols (List.length (rows t) + n)
         (map (fun p => revalue (fun l => l ++ snd p) (fst p)) (combine (a_cols (abs t)) zss)) (abs t).
Proof.
  intros L F ->. exists (map (fun i => colv i new) (seq 0 (List.length (cnames t)))). split.
  - apply Forall2_nth_iff; [rewrite map_length, seq_length, (abs_width _ W); reflexivity|].
    intros i c zs C Z. rewrite nth_error_map, nth_error_seq0 in Z.
    destruct (Nat.ltb i (List.length (cnames t))); [|discriminate]. injection Z as <-.
    apply abs_col_inv in C as (_ & T & _). split; [unfold colv; rewrite map_length; exact L|].
    unfold colv. apply Forall_map. eapply Forall_impl; [|exact F]. intros row FR.
    destruct (Forall2_nth _ _ _ _ _ FR T) as (v & V & Z). rewrite (nth_error_nth _ _ VNil V). exact Z.
  - unfold a_with_cols.
    assert (C : a_cols (abs (with_rows (rows t ++ new) t)) =
      map (fun p => revalue (fun l => l ++ snd p) (fst p)) (combine (a_cols (abs t)) (map (fun i => colv i new) (seq 0 (List.length (cnames t)))))).
    { apply a_cols_ext. intros i. rewrite nth_error_map, nth_error_combine, nth_error_map, nth_error_seq0, !abs_col.
      cbn [cnames ctypes rows with_rows].
      destruct (nth_error (cnames t) i) eqn:N; [|reflexivity]. destruct (nth_error (ctypes t) i); [|reflexivity].
      assert (I : i < List.length (cnames t)) by (apply nth_error_Some; congruence). apply Nat.ltb_lt in I. rewrite I.
      cbn. unfold revalue. cbn. rewrite colv_app. reflexivity. }
    rewrite <- C. unfold abs at 1. cbn [rows with_rows is_nil struct_shape tname skeys]. rewrite app_length, L. reflexivity.
Qed.

Lemma sim_AppendRows n : sim E b (OAppendRows n) t.
Proof.
  pose proof (AppendRows_eq n s0 W) as X. cbn [s_tab s0] in X. destruct (is_nil t) eqn:N.
  - eapply sim_by; [exact X|]. apply if_ok_no; try reflexivity. intros [P _]. apply P, a_name_none, N.
  - destruct (Z.ltb_spec n 0).
    + eapply sim_by; [exact X|]. apply if_ok_no; try reflexivity. intros [_ P]. lia.
    + eapply sim_by; [exact X|]. apply if_ok_yes; [|reflexivity|].
      * split; [|assumption]. rewrite a_name_none. congruence.
      * eapply rows_appended with (new := zero_rows (next s0) (ctypes t) (Z.to_nat n)).
        -- apply zero_rows_length.
        -- eapply Forall_impl; [|apply zero_rows_spec, (wf_types _ W)]. cbv beta. unfold s0. rewrite next_0. auto.
        -- reflexivity.
Qed.

Lemma sim_AppendRow : sim E b OAppendRow t.
Proof.
  pose proof (AppendRow_eq s0 W) as X. cbn [s_tab s0] in X. destruct (is_nil t) eqn:N.
  - eapply sim_by; [exact X|]. apply if_ok_no; try reflexivity. intros P. apply P, a_name_none, N.
  - eapply sim_by; [exact X|]. apply if_ok_yes; [|reflexivity|].
    + rewrite a_name_none. congruence.
    + destruct (rows_appended 1 [zeros b (ctypes t)] (row_added s0)) as (zss & F & A).
      * reflexivity.
      * constructor; [|constructor]. pose proof (zeros_spec b (ctypes t) (wf_types _ W)) as Z.
        eapply Forall2_impl; [|exact Z]. intros ? ?. apply zero_of_mono. lia.
      * unfold row_added, s0. rewrite next_0. reflexivity.
      * exists (map (fun zs => nth 0 zs VNil) zss). split.
        -- clear A. induction F as [|c zs cs zss' [L Z] F' IH]; [constructor|]. constructor; [|exact IH].
           destruct zs as [|z [|]]; try discriminate. inversion_clear Z. assumption.
        -- rewrite A. rewrite Nat.add_1_r. f_equal.
           clear A. induction F as [|c zs cs zss' [L _] F' IH]; [reflexivity|]. cbn [map combine].
           destruct zs as [|z [|]]; try discriminate. f_equal. exact IH.
Qed.

Lemma colv_firstn i n rs : colv i (firstn n rs) = firstn n (colv i rs).
Proof. unfold colv. symmetry. apply firstn_map. Qed.
Lemma colv_skipn i n rs : colv i (skipn n rs) = skipn n (colv i rs).
Proof. unfold colv. symmetry. apply skipn_map. Qed.

Lemma rows_deleted_abs f l : (f <= l)%nat -> (l < List.length (rows t))%nat ->
  abs (s_tab (rows_deleted f l s0)) =
  a_with_cols (List.length (rows t) - (l - f + 1)) (map (revalue (fun vs => firstn f vs ++ skipn (S l) vs)) (a_cols (abs t))) (abs t).
Proof.
  intros A B. unfold rows_deleted, on_tab, s0. cbn [s_tab].
  rewrite (abs_with_rows t _ (fun vs => firstn f vs ++ skipn (S l) vs)).
  - f_equal. rewrite app_length, firstn_length, skipn_length. lia.
  - intros i _. rewrite colv_app, colv_firstn, colv_skipn. reflexivity.
Qed.

Lemma sim_DeleteRows f l : sim E b (ODeleteRows f l) t.
Proof.
  pose proof (DeleteRows_eq f l s0) as X. cbn [s_tab s0] in X.
  destruct ((0 <=? f) && (f <=? l) && (l <? RowCount t))%Z eqn:C.
  - rewrite !andb_true_iff, !Z.leb_le, Z.ltb_lt in C. eapply sim_by; [exact X|]. apply if_ok_yes; [|reflexivity|].
    + rewrite !row_in_abs. lia.
    + unfold RowCount in C. rewrite rows_deleted_abs by lia.
      replace (Z.to_nat l - Z.to_nat f + 1) with (Z.to_nat (l - f + 1)) by lia. reflexivity.
  - eapply sim_by; [exact X|]. apply if_ok_no; try reflexivity. rewrite !row_in_abs. intros P.
    apply not_true_iff_false in C. apply C. rewrite !andb_true_iff, !Z.leb_le, Z.ltb_lt. lia.
Qed.

Lemma sim_DeleteRow i : sim E b (ODeleteRow i) t.
Proof.
  pose proof (DeleteRow_eq i s0) as X. cbn [s_tab s0] in X.
  destruct ((0 <=? i) && (i <? RowCount t))%Z eqn:C.
  - rewrite !andb_true_iff, !Z.leb_le, Z.ltb_lt in C. eapply sim_by; [exact X|]. apply if_ok_yes; [|reflexivity|].
    + rewrite !row_in_abs. lia.
    + unfold RowCount in C. rewrite rows_deleted_abs by lia.
      replace (Z.to_nat i - Z.to_nat i + 1) with 1 by lia. reflexivity.
  - eapply sim_by; [exact X|]. apply if_ok_no; try reflexivity. rewrite !row_in_abs. intros P.
    apply not_true_iff_false in C. apply C. rewrite !andb_true_iff, !Z.leb_le, Z.ltb_lt. lia.
Qed.

Lemma sim_DeleteRowsAll : sim E b ODeleteRowsAll t.
Proof.
  eapply sim_by; [apply (DeleteRowsAll_eq s0)|]. split; [reflexivity|].
  unfold on_tab. cbn [s_tab s0]. rewrite (abs_with_rows t [] (fun _ => [])); reflexivity.
Qed.

Lemma colv_nth_rows i p : i < List.length (cnames t) -> Forall (fun k => k < List.length (rows t)) p ->
  colv i (map (fun k => nth k (rows t) []) p) = pick_rows p (colv i (rows t)).
Proof.
  intros _ F. unfold colv, pick_rows. rewrite map_map. apply map_ext_Forall. eapply Forall_impl; [|exact F].
  cbv beta. intros k L. rewrite (nth_indep (map (fun row => nth i row VNil) (rows t)) VNil (nth i [] VNil)) by (rewrite map_length; exact L).
  rewrite (map_nth (fun row => nth i row VNil)). reflexivity.
Qed.

Lemma perm_positions {A} (d : A) l l' : Permutation l' l ->
  exists p, Permutation p (seq 0 (List.length l)) /\ l' = map (fun k => nth k l d) p.
Proof.
  intros P. assert (X : l = map (fun k => nth k l d) (seq 0 (List.length l))).
  { apply nth_error_ext. intros i. rewrite nth_error_map, nth_error_seq0. destruct (Nat.ltb_spec i (List.length l)).
    - cbn. apply nth_error_nth'. assumption.
    - apply nth_error_None. assumption. }
  rewrite X in P at 1. apply Permutation_map_inv in P as (p & -> & P). exists p. split; [symmetry; exact P|reflexivity].
Qed.

Lemma rearranged_abs rs : Permutation rs (rows t) -> rearranged (abs t) (abs (with_rows rs t)).
Proof.
  intros P. destruct (perm_positions [] _ _ P) as (p & PP & ->). exists p. split; [exact PP|].
  assert (F : Forall (fun k => k < List.length (rows t)) p).
  { apply Forall_forall. intros k I. apply (Permutation_in _ PP) in I. apply in_seq in I. lia. }
  rewrite (abs_with_rows t _ (pick_rows p)).
  - rewrite map_length, (Permutation_length PP), seq_length. reflexivity.
  - intros i L. apply colv_nth_rows; assumption.
Qed.

Lemma sim_Reverse : sim E b OReverse t.
Proof.
  eapply sim_by; [apply (Reverse_eq s0)|]. split; [reflexivity|].
  unfold on_tab. cbn [s_tab s0]. rewrite (abs_with_rows t _ (@rev value)).
  - rewrite rev_length. reflexivity.
  - intros i _. unfold colv. apply map_rev.
Qed.

Lemma sim_Shuffle sw : sim E b (OShuffle sw) t.
Proof. split; [reflexivity|]. apply rearranged_abs, Shuffle_rows_perm. Qed.

(** ---------- columns ---------- *)

Lemma abs_same_rest t' cs : is_nil t' = is_nil t -> tname t' = tname t -> struct_shape t' = struct_shape t -> skeys t' = skeys t ->
  List.length (rows t') = List.length (rows t) -> a_cols (abs t') = cs ->
  abs t' = a_with_cols (a_len (abs t)) cs (abs t).
Proof.
  intros A B C D L H. rewrite <- H. unfold a_with_cols, abs. cbn [a_name a_shape a_len a_cols a_keys].
  rewrite A, B, C, D, L. reflexivity.
Qed.

Lemma nth_mapi_rows i (f : nat -> list value -> list value) g : (forall r row, nth_error (rows t) r = Some row -> nth i (f r row) VNil = g r row) ->
  colv i (mapi f 0 (rows t)) = mapi g 0 (rows t).
Proof.
  intros H. apply nth_error_ext. intros r. rewrite nth_colv, !nth_error_mapi. cbn [plus].
  destruct (nth_error (rows t) r) as [row|] eqn:R; [|reflexivity]. cbn. rewrite (H r row R). reflexivity.
Qed.
Lemma mapi_id {A B} (f : A -> B) l : forall i, mapi (fun _ x => f x) i l = map f l.
Proof. induction l; intros i; cbn; f_equal; auto. Qed.

Lemma sim_AppendCol cn ct : sim E b (OAppendCol cn ct) t.
Proof.
  pose proof (AppendCol_eq cn ct s0 W) as X. cbn [s_tab s0] in X.
  assert (CA : can_append_col t cn ct = true <-> a_name (abs t) <> None /\ valid_name cn /\ ~ In cn (names (abs t)) /\ In ct all_types).
  { unfold can_append_col. rewrite !andb_true_iff, negb_true_iff, IsValidColName_spec, IsValidColType_spec, (abs_names _ W), <- (wf_mget_none _ W).
    pose proof a_name_none as AN. destruct (is_nil t), (mget (cmap t) cn); intuition (congruence || auto). }
  destruct (can_append_col t cn ct) eqn:C.
  - pose proof (proj1 CA eq_refl) as (A1 & A2 & A3 & A4). eapply sim_by; [exact X|]. apply if_ok_yes; [auto|reflexivity|].
    set (zs := mapi (fun r (_ : list value) => zcol ct b r) 0 (rows t)). exists zs.
    split; [unfold zs; apply mapi_length|]. split.
    { unfold zs. apply Forall_mapi. intros j x _. apply zcol_zero, A4. }
    apply abs_same_rest; try reflexivity.
    { cbn. apply mapi_length. }
    apply a_cols_ext. intros i. rewrite abs_col. unfold col_added, s0. rewrite next_0. cbn [s_tab cnames ctypes rows].
    pose proof (wf_types_len _ W) as TL. pose proof (abs_width _ W) as AW.
    destruct (Nat.lt_trichotomy i (List.length (cnames t))) as [L|[L|L]].
    + rewrite !nth_error_app1 by lia. rewrite abs_col.
      destruct (nth_error (cnames t) i); [|reflexivity]. destruct (nth_error (ctypes t) i); [|reflexivity]. do 2 f_equal.
      rewrite (nth_mapi_rows i _ (fun _ row => nth i row VNil)).
      * apply mapi_id.
      * intros r row R. rewrite app_nth1; [reflexivity|]. rewrite (wf_row_len _ W _ _ R). exact L.
    + subst i. rewrite nth_error_app2, Nat.sub_diag by lia. rewrite nth_error_app2, TL, Nat.sub_diag by lia.
      rewrite nth_error_app2, AW, Nat.sub_diag by lia. cbn [nth_error]. do 2 f_equal. unfold zs.
      apply nth_mapi_rows. intros r row R. rewrite app_nth2; rewrite (wf_row_len _ W _ _ R); [|lia]. rewrite Nat.sub_diag. reflexivity.
    + rewrite (proj2 (nth_error_None (cnames t ++ [cn]) i)) by (rewrite app_length; cbn; lia).
      symmetry. apply nth_error_None. rewrite app_length, AW. cbn. lia.
  - eapply sim_by; [exact X|]. apply if_ok_no; try reflexivity. rewrite <- CA. discriminate.
Qed.

Lemma col_deleted_abs c : c < List.length (cnames t) ->
  abs (s_tab (col_deleted c s0)) = a_with_cols (a_len (abs t)) (remove_at c (a_cols (abs t))) (abs t).
Proof.
  intros L. apply abs_same_rest; try reflexivity.
  { cbn. apply map_length. }
  apply a_cols_ext. intros i. rewrite nth_error_remove_at, !abs_col. unfold col_deleted, s0. cbn [s_tab cnames ctypes rows].
  rewrite !nth_error_remove_at. set (j := if Nat.ltb i c then i else S i).
  replace (if Nat.ltb i c then nth_error (cnames t) i else nth_error (cnames t) (S i)) with (nth_error (cnames t) j) by (unfold j; destruct (Nat.ltb i c); reflexivity).
  replace (if Nat.ltb i c then nth_error (ctypes t) i else nth_error (ctypes t) (S i)) with (nth_error (ctypes t) j) by (unfold j; destruct (Nat.ltb i c); reflexivity).
  match goal with |- _ = ?R => replace R with (match nth_error (cnames t) j with Some n => match nth_error (ctypes t) j with Some ct => Some (mkCol n ct (colv j (rows t))) | None => None end | None => None end) by (unfold j; destruct (Nat.ltb i c); reflexivity) end.
  destruct (nth_error (cnames t) j) as [n|]; [|reflexivity]. destruct (nth_error (ctypes t) j) as [ct|]; [|reflexivity]. do 2 f_equal.
  apply nth_error_ext. intros r. rewrite !nth_colv, nth_error_map. destruct (nth_error (rows t) r) as [row|]; [|reflexivity].
  cbn [option_map]. f_equal.
  assert (Q : nth_error (remove_at c row) i = nth_error row j) by (rewrite nth_error_remove_at; unfold j; destruct (Nat.ltb i c); reflexivity).
  destruct (nth_error row j) as [v|] eqn:V.
  - rewrite (nth_error_nth _ _ VNil Q). symmetry. apply nth_error_nth, V.
  - apply nth_error_None in V. apply nth_error_None in Q. rewrite !nth_overflow by assumption. reflexivity.
Qed.

Lemma sim_DeleteColByColIndex ci : sim E b (ODeleteColByColIndex ci) t.
Proof.
  pose proof (DeleteColByColIndex_eq ci s0) as X. cbn [s_tab s0] in X. destruct (HasColByColIndex t ci) eqn:C.
  - apply HasCol_iff in C. eapply sim_by; [exact X|]. apply if_ok_yes; [apply (col_in_abs _ _ W), C|reflexivity|].
    apply col_deleted_abs. unfold ColCount in C. lia.
  - eapply sim_by; [exact X|]. apply if_ok_no; try reflexivity. rewrite (col_in_abs _ _ W). intros P. apply HasCol_iff in P. congruence.
Qed.

Lemma filter_remove_at (cs : list acol) : NoDup (map c_name cs) -> forall i col, nth_error cs i = Some col ->
  filter (fun c => negb (c_name c =? c_name col)) cs = remove_at i cs.
Proof.
  induction cs as [|c cs IH]; intros ND i col H; [destruct i; discriminate|].
  inversion_clear ND as [|? ? NI ND']. destruct i; cbn in H.
  - injection H as ->. rewrite remove_at_0. cbn. rewrite String.eqb_refl. cbn [negb].
    rewrite <- (filter_all_true (fun c => negb (c_name c =? c_name col)) cs) at 2; [reflexivity|].
    intros x I. apply negb_true_iff, String.eqb_neq. intros Q. apply NI. rewrite <- Q. apply in_map, I.
  - rewrite remove_at_S. cbn. destruct (c_name c =? c_name col) eqn:Q.
    + apply String.eqb_eq in Q. exfalso. apply NI. rewrite Q. apply in_map, (nth_error_In _ _ H).
    + cbn [negb]. f_equal. apply IH; assumption.
Qed.

Lemma nodup_abs : NoDup (map c_name (a_cols (abs t))).
Proof. change (NoDup (names (abs t))). rewrite (abs_names _ W). apply (wf_nodup _ W). Qed.

Lemma sim_DeleteCol cn : sim E b (ODeleteCol cn) t.
Proof.
  destruct (in_dec string_dec cn (cnames t)) as [I|I].
  - apply col_at_In in I as [c I]. pose proof (sim_DeleteColByColIndex c) as [S _]. unfold sim. cbn [exec].
    rewrite (C09_DeleteCol t b c cn W I). cbn [exec astep] in S. destruct S as [D S].
    { apply (col_in_abs _ _ W), (col_at_range _ _ _ I). }
    apply if_ok_yes; [rewrite (abs_names _ W); apply col_at_In; eauto|exact D|]. rewrite S. f_equal.
    destruct (col_of_no _ _ _ W I) as (col & _ & N & NM). apply col_no_inv in N as [_ N].
    rewrite <- NM. symmetry. rewrite (filter_remove_at _ nodup_abs _ _ N). reflexivity.
  - unfold sim. cbn [exec]. rewrite (proj2 (C09_rejected t b 0 cn W) I). apply if_ok_no; try reflexivity. rewrite (abs_names _ W). exact I.
Qed.

Lemma col_renamed_abs i old new n : nth_error (a_cols (abs t)) i = Some n ->
  abs (s_tab (col_renamed i old new s0)) = a_with_cols (a_len (abs t)) (upd (a_cols (abs t)) i (mkCol new (c_type n) (c_vals n))) (abs t).
Proof.
  intros N. apply abs_same_rest; try reflexivity.
  apply a_cols_ext. intros j. unfold col_renamed, on_tab, s0. rewrite abs_col. cbn [s_tab cnames ctypes rows with_cols].
  pose proof (abs_col_inv _ _ _ N) as (N1 & N2 & N3).
  destruct (Nat.eq_dec i j) as [<-|NE].
  - rewrite !nth_error_upd_eq by (apply nth_error_Some; congruence). rewrite N2, N3. reflexivity.
  - rewrite !nth_error_upd_ne by exact NE. rewrite abs_col. reflexivity.
Qed.

Lemma map_rename (cs : list acol) f : NoDup (map c_name cs) -> forall i col, nth_error cs i = Some col ->
  map (fun c => if c_name c =? c_name col then f c else c) cs = upd cs i (f col).
Proof.
  intros ND i col H. apply nth_error_ext. intros j. rewrite nth_error_map. destruct (Nat.eq_dec i j) as [<-|NE].
  - rewrite H, nth_error_upd_eq by (apply nth_error_Some; congruence). cbn. rewrite String.eqb_refl. reflexivity.
  - rewrite nth_error_upd_ne by exact NE. destruct (nth_error cs j) as [c|] eqn:J; [|reflexivity]. cbn. f_equal.
    destruct (c_name c =? c_name col) eqn:Q; [|reflexivity]. apply String.eqb_eq in Q. exfalso. apply NE.
    apply (proj1 (NoDup_nth_error _) ND).
    + rewrite map_length. apply nth_error_Some. congruence.
    + rewrite !nth_error_map, H, J. cbn. congruence.
Qed.

Lemma sim_RenameCol old new : sim E b (ORenameCol old new) t.
Proof.
  destruct (RenameCol_eq old new s0 W) as [(i & N & NI & V & X)|[NO X]]; cbn [s_tab s0] in *.
  - eapply sim_by; [exact X|]. apply if_ok_yes; [rewrite (abs_names _ W); split; [eapply nth_error_In; eauto|auto]|reflexivity|].
    assert (I : exists col, nth_error (a_cols (abs t)) i = Some col).
    { destruct (nth_error (a_cols (abs t)) i) eqn:Q; [eauto|]. apply nth_error_None in Q. rewrite (abs_width _ W) in Q.
      assert (i < List.length (cnames t)) by (apply nth_error_Some; congruence). lia. }
    destruct I as [col I]. rewrite (col_renamed_abs i old new col I). f_equal.
    destruct (abs_col_inv _ _ _ I) as (N1 & _). rewrite N in N1. injection N1 as ->.
    symmetry. apply (map_rename _ (fun c => mkCol new (c_type c) (c_vals c)) nodup_abs _ _ I).
  - eapply sim_by; [exact X|]. apply if_ok_no; try reflexivity. rewrite (abs_names _ W). exact NO.
Qed.

Lemma upd_split {A} (l : list A) i x : i < List.length l -> upd l i x = firstn i l ++ x :: skipn (S i) l.
Proof.
  intros L. destruct (nth_error l i) as [y|] eqn:N; [|apply nth_error_None in N; lia].
  pose proof (firstn_skipn i l) as S. rewrite (skipn_nth _ _ _ N) in S. rewrite <- S at 1.
  assert (LF : List.length (firstn i l) = i) by (rewrite firstn_length; lia).
  pose proof (upd_app_mid (firstn i l) (skipn (Datatypes.S i) l) y x) as U. rewrite LF in U. exact U.
Qed.

Lemma sim_RenameColByColIndex ci new : sim E b (ORenameColByColIndex ci new) t.
Proof.
  destruct (HasColByColIndex t ci) eqn:C.
  - pose proof C as C0. apply HasCol_iff in C. destruct (col_at_ex _ _ C) as [old O].
    assert (R : run (exec E (ORenameColByColIndex ci new)) b t = run (exec E (ORenameCol old new)) b t).
    { unfold run. cbn [exec]. unfold RenameColByColIndex. rewrite bind_reads. cbn [s_tab]. rewrite ColName_eq, C0.
      destruct O as [_ O]. rewrite (nth_error_nth _ _ "" O). reflexivity. }
    pose proof (sim_RenameCol old new) as S. unfold sim in *. rewrite R. destruct S as [S1 S2].
    assert (IN : In old (names (abs t))) by (rewrite (abs_names _ W); apply col_at_In; eauto).
    destruct (col_of_no _ _ _ W O) as (col & F & N & NM).
    split.
    + intros (_ & P). destruct S1 as [D S1]; [tauto|]. split; [exact D|]. intros col' N'. rewrite N in N'. injection N' as <-.
      rewrite S1. f_equal. apply col_no_inv in N as [L N]. rewrite <- NM.
      rewrite (map_rename _ (fun c => mkCol new (c_type c) (c_vals c)) nodup_abs _ _ N). apply upd_split.
      apply nth_error_Some. congruence.
    + intros P. apply S2. intros (_ & P'). apply P. split; [apply (col_in_abs _ _ W), C|exact P'].
  - eapply sim_by. { cbn [exec]. unfold RenameColByColIndex. rewrite bind_reads. cbn [s_tab]. rewrite ColName_eq, C. reflexivity. }
    apply if_ok_no; try reflexivity. rewrite (col_in_abs _ _ W). intros (P & _). apply HasCol_iff in P. congruence.
Qed.

Lemma permute_at {A} (d : A) order l i z : nth_error order i = Some z -> nth_error (permute order d l) i = Some (nth (Z.to_nat z) l d).
Proof. intros H. unfold permute. rewrite nth_error_map, H. reflexivity. Qed.

Lemma reordered_abs order : Permutation order (zseq (List.length (cnames t))) ->
  exists cs, abs (reordered order t) = a_with_cols (a_len (abs t)) cs (abs t) /\ map Some cs = map (col_no (abs t)) order.
Proof.
  intros P. pose proof (order_range _ _ P) as R. rewrite Forall_forall in R.
  exists (map (fun z => nth (Z.to_nat z) (a_cols (abs t)) (mkCol "" "" [])) order). split.
  - apply abs_same_rest; try reflexivity.
    { cbn. apply map_length. }
    apply a_cols_ext. intros i. rewrite abs_col. unfold reordered. cbn [cnames ctypes rows].
    destruct (nth_error order i) as [z|] eqn:Z.
    + rewrite !(permute_at _ _ _ _ _ Z), nth_error_map, Z. cbn [option_map]. specialize (R z (nth_error_In _ _ Z)).
      assert (I : Z.to_nat z < List.length (cnames t)) by lia.
      destruct (nth_error (cnames t) (Z.to_nat z)) as [n|] eqn:N; [|apply nth_error_None in N; lia].
      destruct (nth_error (ctypes t) (Z.to_nat z)) as [ct|] eqn:T; [|apply nth_error_None in T; rewrite (wf_types_len _ W) in T; lia].
      rewrite (nth_error_nth _ _ _ (abs_col_some _ _ _ _ N T)), (nth_error_nth _ _ _ N), (nth_error_nth _ _ _ T). do 2 f_equal.
      apply nth_error_ext. intros r. rewrite !nth_colv, nth_error_map. destruct (nth_error (rows t) r) as [row|] eqn:RR; [|reflexivity].
      cbn. f_equal. apply nth_error_nth. apply permute_at, Z.
    + rewrite nth_error_map, Z. cbn. apply nth_error_None in Z.
      rewrite (proj2 (nth_error_None (permute order "" (cnames t)) i)) by (rewrite permute_length; exact Z). reflexivity.
  - rewrite map_map. apply map_ext_in. intros z I. specialize (R z I). unfold col_no.
    destruct (Z.ltb_spec z 0); [lia|]. symmetry. apply nth_error_nth'. rewrite (abs_width _ W). lia.
Qed.

Lemma sim_ReorderColsByColIndex order : sim E b (OReorderColsByColIndex order) t.
Proof.
  destruct (ReorderColsByColIndex_eq order s0) as [[P X]|[P X]]; cbn [s_tab s0] in P.
  - eapply sim_by; [exact X|]. apply if_ok_yes; [rewrite (abs_width _ W); exact P|reflexivity|].
    destruct (reordered_abs order P) as (cs & A & M). exists cs. auto.
  - eapply sim_by; [exact X|]. apply if_ok_no; try reflexivity. rewrite (abs_width _ W). exact P.
Qed.

Lemma reorder_names ns : sim E b (OReorderCols ns) t.
Proof.
  destruct (C12_ReorderCols t b ns W) as [Y N].
  assert (D : Permutation ns (cnames t) \/ ~ Permutation ns (cnames t)).
  { destruct (Permutation_dec_string ns (cnames t)); auto. }
  destruct D as [P|P].
  - destruct (Y P) as (order & F & PO & R). pose proof (sim_ReorderColsByColIndex order) as [S _]. cbn [exec] in S.
    unfold sim. cbn [exec]. rewrite R. destruct S as [DN (cs & A & M)]; [rewrite (abs_width _ W); exact PO|].
    apply if_ok_yes; [rewrite (abs_names _ W); exact P|exact DN|]. exists cs. split; [exact A|].
    assert (MN : map c_name cs = ns).
    { apply nth_error_ext. intros i. rewrite nth_error_map.
      assert (Q : nth_error (map Some cs) i = nth_error (map (col_no (abs t)) order) i) by (rewrite M; reflexivity).
      rewrite !nth_error_map in Q. destruct (nth_error ns i) as [n|] eqn:I.
      - destruct (Forall2_nth _ _ _ _ _ F I) as (o & O & CA). rewrite O in Q. cbn in Q.
        destruct (col_of_no _ _ _ W CA) as (col & _ & NO & NM). rewrite NO in Q.
        destruct (nth_error cs i); [|discriminate]. cbn in Q |- *. congruence.
      - apply nth_error_None in I. rewrite (Forall2_len _ _ _ F) in I. apply nth_error_None in I. rewrite I in Q.
        destruct (nth_error cs i); [discriminate|reflexivity]. }
    split; [|exact MN].
    apply NoDup_Permutation_bis.
    + apply (NoDup_map_inv c_name). rewrite MN. eapply Permutation_NoDup; [symmetry; exact P|apply (wf_nodup _ W)].
    + rewrite (abs_width _ W), <- (map_length c_name cs), MN, (Permutation_length P). lia.
    + intros c I. apply (in_map Some) in I. rewrite M in I. apply in_map_iff in I as (z & Q & _).
      apply col_no_inv in Q as [_ Q]. eapply nth_error_In; eauto.
  - unfold sim. cbn [exec]. rewrite (N P). apply if_ok_no; try reflexivity. rewrite (abs_names _ W). exact P.
Qed.

End Step.
