(** Proofs_Table.v -- closed forms of the table methods and well-formedness. *)
From Coq Require Import ZArith NArith List String Ascii Bool Lia Permutation SpecFloat.
From Coq Require Import ZifyBool ZifyNat ZifyN.
From Verif Require Import Base Model_Names Model_Table Spec Proofs_Lib.
Import ListNotations.
Local Open Scope string_scope.
Local Open Scope list_scope.

Ltac mred := mstep; cbn [negb].

(** ---------- names and types ---------- *)

Lemma str_in_In s l : str_in s l = true <-> In s l.
Proof.
  unfold str_in. rewrite existsb_exists. split.
  - intros [x [H E]]. apply String.eqb_eq in E; subst; auto.
  - intros H. exists s. split; auto. apply String.eqb_refl.
Qed.
Lemma str_in_false s l : str_in s l = false <-> ~ In s l.
Proof. rewrite <- str_in_In. destruct (str_in s l); split; congruence. Qed.

Lemma byte_in_between lo hi c : byte_in lo hi c = true <-> between lo hi c.
Proof. unfold byte_in, between. lia. Qed.

Lemma byte_in_eq n c : (n < 256)%N -> byte_in n n c = true <-> c = ascii_of_N n.
Proof.
  intros Hn. rewrite byte_in_between. unfold between. split.
  - intros H. rewrite <- (ascii_N_embedding c). f_equal. lia.
  - intros ->. rewrite N_ascii_embedding by lia. lia.
Qed.

Lemma N_of_ascii_lt c : (N_of_ascii c < 256)%N.
Proof. apply N_ascii_bounded. Qed.

Lemma ascii_eq_N c n : (n < 256)%N -> c = ascii_of_N n <-> N_of_ascii c = n.
Proof.
  intros H. split; [intros ->; now apply N_ascii_embedding|].
  intros E. rewrite <- (ascii_N_embedding c). now rewrite E.
Qed.

Lemma isLetter_spec c : isLetter c = true <-> latin1_letter c.
Proof.
  unfold isLetter, latin1_letter. rewrite !orb_true_iff.
  rewrite !(ascii_eq_N c) by lia. unfold byte_in, between.
  pose proof (N_of_ascii_lt c). lia.
Qed.

Lemma isNumber_spec c : isNumber c = true <-> latin1_number c.
Proof.
  unfold isNumber, latin1_number. rewrite !orb_true_iff.
  rewrite !(ascii_eq_N c) by lia. unfold byte_in, between. lia.
Qed.

Lemma ascii_eqb_spec a b : Ascii.eqb a b = true <-> a = b.
Proof. destruct (Ascii.eqb_spec a b); split; congruence. Qed.

Lemma name_rest_spec s : name_rest s = true <-> Forall name_char (list_ascii_of_string s).
Proof.
  induction s as [|c s IH]; simpl.
  - split; auto.
  - unfold name_char at 1, name_start.
    destruct (isLetter c) eqn:E1, (Ascii.eqb c underscore) eqn:E2, (isNumber c) eqn:E3; simpl;
      rewrite ?IH; (split; intros H; [try discriminate | inversion H; subst; auto]);
      try (constructor; auto; unfold name_char, name_start;
           rewrite <- isLetter_spec, <- isNumber_spec, E1, E3; rewrite <- ascii_eqb_spec; unfold underscore in E2; rewrite E2; auto).
    match goal with H : _ \/ _ |- _ => rewrite <- isLetter_spec, <- isNumber_spec, E1, E3 in H; rewrite <- ascii_eqb_spec in H;
      unfold underscore in E2; rewrite E2 in H; intuition discriminate end.
Qed.

Lemma isValidName_spec s : isValidName s = true <->
  exists c r, list_ascii_of_string s = c :: r /\ name_start c /\ Forall name_char r.
Proof.
  destruct s as [|c s]; simpl.
  - split; [discriminate|]. intros [c [r [H _]]]; discriminate.
  - split.
    + destruct (isLetter c) eqn:E1, (Ascii.eqb c underscore) eqn:E2; simpl; try discriminate;
        intros H; apply name_rest_spec in H; exists c, (list_ascii_of_string s); split; auto; split; auto;
        unfold name_start; rewrite <- isLetter_spec, <- ascii_eqb_spec; unfold underscore in *; auto.
    + intros [c' [r [[= <- <-] [H1 H2]]]]. apply name_rest_spec in H2. unfold name_start in H1.
      rewrite <- isLetter_spec, <- ascii_eqb_spec in H1. unfold underscore. rewrite H2.
      destruct H1 as [-> | ->]; simpl; auto. rewrite andb_false_r; auto.
Qed.

Lemma IsValidColName_spec s : IsValidColName s = true <-> valid_name s.
Proof.
  unfold IsValidColName, valid_name. rewrite <- isValidName_spec, <- str_in_In.
  destruct (isValidName s), (str_in s all_types); simpl; intuition congruence.
Qed.

Lemma IsValidTableName_spec s : IsValidTableName s = true <-> valid_name s.
Proof.
  rewrite <- IsValidColName_spec. unfold IsValidTableName, IsValidColName.
  destruct s as [|c s]; simpl; [split; discriminate|]. reflexivity.
Qed.

Lemma IsValidColType_spec ct : IsValidColType ct = true <-> In ct all_types.
Proof. apply str_in_In. Qed.

(** Case analysis on a supported type. *)
Ltac types H := simpl in H; repeat (destruct H as [<- | H]); [..|destruct H].

(** ---------- typing of values ---------- *)

Lemma type_string_has_type v ct :
  In ct all_types -> not_nil_value v = true ->
  (type_string v = ct \/ isAlias ct (type_string v) = true) <-> has_type ct v.
Proof.
  intros Hct Hnn.
  destruct v as [|b|s|k z|f|f|o|o|tm|s]; try discriminate; simpl.
  - types Hct; cbn; intuition congruence.
  - types Hct; cbn; intuition congruence.
  - destruct k; types Hct; cbn; intuition congruence.
  - types Hct; cbn; intuition congruence.
  - types Hct; cbn; intuition congruence.
  - types Hct; cbn; intuition congruence.
  - destruct o; [|discriminate]. types Hct; cbn; intuition congruence.
  - types Hct; cbn; intuition congruence.
  - unfold isAlias. cbn. split; [intros [H|H]; [|discriminate]|intros []].
    types Hct; discriminate.
Qed.

Definition same_go_typeb (a b : string) : bool :=
  (a =? b) || (a =? "byte") && (b =? "uint8") || (a =? "uint8") && (b =? "byte")
  || (a =? "[]byte") && (b =? "[]uint8") || (a =? "[]uint8") && (b =? "[]byte")
  || (a =? "rune") && (b =? "int32") || (a =? "int32") && (b =? "rune").
Lemma same_go_typeb_spec a b : same_go_type a b <-> same_go_typeb a b = true.
Proof.
  unfold same_go_type, same_go_typeb. rewrite !orb_true_iff, !andb_true_iff, !String.eqb_eq. tauto.
Qed.

Lemma type_ok_same vt ct : In vt all_types -> In ct all_types ->
  type_ok vt ct = true <-> same_go_type vt ct.
Proof.
  intros Hv Hc. rewrite same_go_typeb_spec.
  assert (A : forallb (fun vt => forallb (fun ct => Bool.eqb (type_ok vt ct) (same_go_typeb vt ct)) all_types) all_types = true)
    by (vm_compute; reflexivity).
  rewrite forallb_forall in A. specialize (A vt Hv). rewrite forallb_forall in A. specialize (A ct Hc). apply eqb_prop in A. now rewrite A.
Qed.

Lemma arg_has_type vt v : In vt all_types -> not_nil_value v = true ->
  arg_of_type vt v = true <-> has_type vt v.
Proof.
  intros Hv Hnn. unfold arg_of_type. rewrite String.eqb_eq.
  destruct v as [|b|s|k z|f|f|o|o|tm|s]; try discriminate; simpl.
  1-2: types Hv; cbn; intuition congruence.
  1: destruct k; types Hv; cbn; intuition congruence.
  1-3: types Hv; cbn; intuition congruence.
  1: destruct o; [|discriminate]; types Hv; cbn; intuition congruence.
  1: types Hv; cbn; intuition congruence.
  types Hv; cbn; intuition congruence.
Qed.

Lemma has_type_same vt ct v : same_go_type vt ct -> has_type vt v -> has_type ct v.
Proof.
  intros H Hv. destruct v as [|b|s|k z|f|f|o|o|tm|s]; simpl in *; auto;
    try (destruct k); try (destruct o); unfold same_go_type in H; intuition congruence.
Qed.

Lemma has_type_fun ct ct' v : has_type ct v -> has_type ct' v -> same_go_type ct ct'.
Proof.
  intros H1 H2. unfold same_go_type. destruct v as [|b|s|k z|f|f|o|o|tm|s]; simpl in *; try tauto;
    try (destruct k); try (destruct o); try tauto; intuition congruence.
Qed.

Lemma same_go_type_sym a b : same_go_type a b -> same_go_type b a.
Proof. unfold same_go_type. intuition congruence. Qed.

Lemma type_assert_ok vt ct v : In vt all_types -> In ct all_types -> type_ok vt ct = true ->
  has_type ct v -> type_assert vt v = Ok v.
Proof.
  intros Hv Hc Hok Hty. unfold type_assert.
  apply type_ok_same in Hok; auto. apply same_go_type_sym in Hok.
  pose proof (has_type_same _ _ _ Hok Hty) as H.
  assert (Hnn : not_nil_value v = true) by (destruct v as [| | | | | | |[]| |]; simpl in Hty |- *; auto; contradiction).
  apply arg_has_type in H; auto. unfold arg_of_type in H. now rewrite H.
Qed.

Lemma has_type_not_nil ct v : has_type ct v -> not_nil_value v = true.
Proof. destruct v as [| | | | | | |[]| |]; simpl; tauto. Qed.

(** ---------- well-formedness consequences ---------- *)

Section Wf.
Variable t : table.
Hypothesis W : wf_table t.

Lemma wf_row_len r row : nth_error (rows t) r = Some row -> List.length row = List.length (cnames t).
Proof.
  intros H. pose proof (wf_cells t W) as Hc. eapply Forall_nth_error in Hc; eauto.
  apply Forall2_len in Hc. pose proof (wf_types_len t W). lia.
Qed.

Lemma wf_mget_lt n i : mget (cmap t) n = Some i -> i < List.length (cnames t).
Proof. intros H. apply (wf_map t W) in H. eapply nth_error_some_lt; eauto. Qed.

Lemma wf_type_at i : i < List.length (cnames t) -> exists ct, nth_error (ctypes t) i = Some ct /\ In ct all_types.
Proof.
  intros H. rewrite <- (wf_types_len t W) in H. destruct (nth_error_lt _ _ H) as [ct E].
  exists ct; split; auto. pose proof (wf_types t W) as F. eapply Forall_nth_error in F; eauto.
Qed.

Lemma wf_ColType n : ColType t n = match mget (cmap t) n with
    None => Err | Some i => match nth_error (ctypes t) i with Some ct => Ok ct | None => Panic end end.
Proof. reflexivity. Qed.

Lemma wf_ColType_no_panic n : ColType t n <> Panic.
Proof.
  unfold ColType. destruct (mget (cmap t) n) eqn:E; [|discriminate].
  apply wf_mget_lt in E. destruct (wf_type_at _ E) as [ct [-> _]]. discriminate.
Qed.

Lemma wf_ColType_iff n ct : ColType t n = Ok ct <->
  exists i, nth_error (cnames t) i = Some n /\ nth_error (ctypes t) i = Some ct.
Proof.
  unfold ColType. split.
  - destruct (mget (cmap t) n) as [i|] eqn:E; [|discriminate].
    destruct (nth_error (ctypes t) i) eqn:E2; [|discriminate]. intros [= ->].
    exists i. split; auto. now apply (wf_map t W).
  - intros [i [H1 H2]]. apply (wf_map t W) in H1. now rewrite H1, H2.
Qed.

Lemma wf_ColType_err n : ColType t n = Err <-> ~ In n (cnames t).
Proof.
  unfold ColType. split.
  - destruct (mget (cmap t) n) as [i|] eqn:E.
    + destruct (nth_error (ctypes t) i); discriminate.
    + intros _ Hin. apply In_nth_error in Hin. destruct Hin as [i Hi]. apply (wf_map t W) in Hi. congruence.
  - intros H. destruct (mget (cmap t) n) as [i|] eqn:E; auto.
    apply (wf_map t W) in E. apply nth_error_In in E. contradiction.
Qed.

Lemma wf_mget_none n : mget (cmap t) n = None <-> ~ In n (cnames t).
Proof.
  split.
  - intros E Hin. apply In_nth_error in Hin. destruct Hin as [i Hi]. apply (wf_map t W) in Hi. congruence.
  - intros H. destruct (mget (cmap t) n) as [i|] eqn:E; auto.
    apply (wf_map t W) in E. apply nth_error_In in E. contradiction.
Qed.

Lemma wf_HasCol n : HasCol t n = Ok (if in_dec string_dec n (cnames t) then true else false).
Proof.
  unfold HasCol. destruct (in_dec string_dec n (cnames t)) as [H|H].
  - destruct (ColType t n) eqn:E; auto.
    + apply wf_ColType_err in E; contradiction.
    + apply wf_ColType_no_panic in E; contradiction.
  - apply wf_ColType_err in H. now rewrite H.
Qed.

Lemma HasRow_iff ri : HasRow t ri = true <-> (0 <= ri < RowCount t)%Z.
Proof. unfold HasRow. lia. Qed.
Lemma HasCol_iff ci : HasColByColIndex t ci = true <-> (0 <= ci < ColCount t)%Z.
Proof. unfold HasColByColIndex. lia. Qed.

Lemma wf_row_at ri : HasRow t ri = true -> exists row, nth_error (rows t) (Z.to_nat ri) = Some row.
Proof. intros H. apply HasRow_iff in H. unfold RowCount in H. apply nth_error_lt. lia. Qed.

Lemma wf_cell ci ri : (0 <= ci < ColCount t)%Z -> (0 <= ri < RowCount t)%Z ->
  exists ct v, nth_error (ctypes t) (Z.to_nat ci) = Some ct /\ In ct all_types /\ cell t ci ri = Ok v /\ cell_ok ct v.
Proof.
  intros Hc Hr. unfold ColCount, RowCount in *.
  destruct (wf_type_at (Z.to_nat ci)) as [ct [Hct Hin]]; [lia|].
  destruct (nth_error_lt (rows t) (Z.to_nat ri)) as [row Hrow]; [lia|].
  pose proof (wf_cells t W) as F. eapply Forall_nth_error in F; eauto.
  destruct (Forall2_nth _ _ _ _ _ F Hct) as [v [Hv Hok]].
  exists ct, v. split; auto. split; auto. split; auto.
  unfold cell. replace (znth (rows t) ri) with (Some row) by (symmetry; apply znth_some; split; auto; lia).
  replace (znth row ci) with (Some v); auto. symmetry; apply znth_some; split; auto; lia.
Qed.

End Wf.

(** ---------- set_cell ---------- *)

Definition put (ci ri : nat) (v : value) (rs : list (list value)) : list (list value) :=
  match nth_error rs ri with Some row => upd rs ri (upd row ci v) | None => rs end.

Lemma set_cell_ok ci ri v s : wf_table (s_tab s) ->
  (0 <= ci < ColCount (s_tab s))%Z -> (0 <= ri < RowCount (s_tab s))%Z ->
  set_cell ci ri v s =
    (on_tab (with_rows (put (Z.to_nat ci) (Z.to_nat ri) v (rows (s_tab s)))) s, Ok tt).
Proof.
  intros W Hc Hr. unfold set_cell, put, ColCount, RowCount in *.
  replace (zidx ri (List.length (rows (s_tab s)))) with (Some (Z.to_nat ri)) by (symmetry; apply zidx_some; split; auto; lia).
  destruct (nth_error_lt (rows (s_tab s)) (Z.to_nat ri)) as [row Hrow]; [lia|]. rewrite Hrow.
  replace (zidx ci (List.length row)) with (Some (Z.to_nat ci)); auto.
  symmetry; apply zidx_some. rewrite (wf_row_len _ W _ _ Hrow). split; auto; lia.
Qed.

Lemma wf_put t ci ri v ct : wf_table t -> nth_error (ctypes t) ci = Some ct -> cell_ok ct v ->
  wf_table (with_rows (put ci ri v (rows t)) t).
Proof.
  intros W Hct Hv. destruct W as [Wn Wd Wc Wl Wt Wm Wr]. constructor; simpl; auto.
  - destruct Wn as [?|[? [? [? E]]]]; [left; auto|right]. repeat split; auto. rewrite E. unfold put. destruct ri; reflexivity.
  - unfold put. destruct (nth_error (rows t) ri) as [row|] eqn:E; auto.
    apply Forall_upd; auto. eapply Forall2_upd; eauto. eapply Forall_nth_error in Wr; eauto.
Qed.

(** ---------- zero values ---------- *)

Definition zplain (ct : string) : value := match zero_plain ct with Some v => v | None => VNil end.
Definition is_tab (ct : string) : bool := ct =? "*Table".
Definition ntab (cts : list string) : nat := List.length (filter is_tab cts).

Fixpoint zeros (p : nat) (cts : list string) : list value :=
  match cts with
  | [] => []
  | ct :: r => if is_tab ct then VTable (Some p) :: zeros (S p) r else zplain ct :: zeros p r
  end.

Lemma zeros_length p cts : List.length (zeros p cts) = List.length cts.
Proof. revert p; induction cts as [|ct cts IH]; intros p; simpl; auto. destruct (is_tab ct); simpl; auto. Qed.

Lemma zeros_app p c1 c2 : zeros p (c1 ++ c2) = zeros p c1 ++ zeros (p + ntab c1) c2.
Proof.
  revert p; induction c1 as [|ct c1 IH]; intros p; simpl.
  - f_equal; unfold ntab; simpl; lia.
  - unfold ntab; simpl. destruct (is_tab ct); simpl; rewrite IH; f_equal; f_equal; f_equal; unfold ntab; lia.
Qed.

Lemma ntab_app c1 c2 : ntab (c1 ++ c2) = ntab c1 + ntab c2.
Proof. unfold ntab. now rewrite filter_app, app_length. Qed.

Lemma zplain_ok ct : In ct all_types -> is_tab ct = false -> forall F, zero_of F ct (zplain ct).
Proof. intros H Ht F. types H; cbn; auto; discriminate. Qed.

Lemma zplain_cell_ok ct : In ct all_types -> is_tab ct = false -> cell_ok ct (zplain ct).
Proof. intros H Ht. types H; cbn; try discriminate; split; cbn; auto. Qed.

Lemma zero_plain_some ct : In ct all_types -> is_tab ct = false -> zero_plain ct = Some (zplain ct).
Proof. intros H Ht. types H; cbn; auto; discriminate. Qed.

Lemma is_tab_eq ct : is_tab ct = true <-> ct = "*Table".
Proof. unfold is_tab. apply String.eqb_eq. Qed.

Lemma zeros_spec p cts : Forall (fun ct => In ct all_types) cts ->
  Forall2 (zero_of (fun q => p <= q < p + ntab cts)) cts (zeros p cts).
Proof.
  revert p; induction cts as [|ct cts IH]; intros p H; simpl; [constructor|].
  inversion H as [|? ? H1 H2]; subst.
  assert (M : forall q n, (p <= q)%nat -> (q + ntab cts <= p + n)%nat -> forall l,
     Forall2 (zero_of (fun r => q <= r < q + ntab cts)) cts l ->
     Forall2 (zero_of (fun r => p <= r < p + n)) cts l).
  { intros q n Hq Hn l F. eapply Forall2_impl; [|exact F]. intros a b. unfold zero_of.
    destruct b as [| | | | | | |[r|]| |]; auto. intros [-> Hr]. split; auto. lia. }
  unfold ntab at 1; simpl. destruct (is_tab ct) eqn:E; simpl; constructor.
  - simpl. split; [now apply is_tab_eq|]. lia.
  - apply (M (S p)); [lia|unfold ntab; lia|]. apply IH; auto.
  - apply zplain_ok; auto.
  - apply (M p); [lia|unfold ntab; lia|]. apply IH; auto.
Qed.

Lemma zero_of_cell_ok F ct v : In ct all_types -> zero_of F ct v -> cell_ok ct v.
Proof.
  intros Hin. unfold cell_ok, zero_of. destruct v as [|b|s|k z|f|f|o|[q|]|tm|s]; simpl; try tauto.
  - intros [H ->]. destruct k; simpl in *; auto.
  - intros [H ->]; auto.
  - intros [H ->]; auto.
  - intros [H ->]; auto.
Qed.

Lemma zeros_cells p cts : Forall (fun ct => In ct all_types) cts -> Forall2 cell_ok cts (zeros p cts).
Proof.
  intros H. pose proof (zeros_spec p cts H) as Z. revert H. induction Z; intros Hf; constructor.
  - inversion Hf; subst. eapply zero_of_cell_ok; eauto.
  - inversion Hf; subst; auto.
Qed.

Definition next (s : st) : nat := s_base s + List.length (s_news s).

Lemma zero_val_plain sp ct s : In ct all_types -> is_tab ct = false -> zero_val sp ct s = (s, Ok (zplain ct)).
Proof. intros H Ht. unfold zero_val. unfold is_tab in Ht. rewrite Ht. rewrite zero_plain_some; auto. Qed.
Lemma zero_val_tab sp s : zero_val sp "*Table" s =
  (mkS (s_tab s) (s_base s) (s_news s ++ [sp]), Ok (VTable (Some (next s)))).
Proof. reflexivity. Qed.

Lemma skipn_nth {A} (l : list A) k x : nth_error l k = Some x -> skipn k l = x :: skipn (S k) l.
Proof. revert k; induction l as [|y l IH]; intros [|k] H; simpl in *; try discriminate; [congruence|]. apply IH; auto. Qed.
Lemma firstn_nth {A} (l : list A) k x : nth_error l k = Some x -> firstn (S k) l = firstn k l ++ [x].
Proof. revert k; induction l as [|y l IH]; intros [|k] H; simpl in *; try discriminate; [congruence|]. f_equal. apply IH; auto. Qed.

Lemma repeat_snoc {A} (x : A) n : repeat x (S n) = repeat x n ++ [x].
Proof. induction n; simpl in *; auto. now f_equal. Qed.

(** The loop of SetRowCellsToZeroValue. *)
Lemma zero_row_loop s ri row :
  let t := s_tab s in
  List.length (ctypes t) = List.length (cnames t) ->
  Forall (fun ct => In ct all_types) (ctypes t) ->
  nth_error (rows t) ri = Some row -> List.length row = List.length (cnames t) ->
  forall k, k <= List.length (cnames t) ->
  mfor (zseq k) (fun ci =>
    let* ct := reads (fun t => match znth (ctypes t) ci with Some ct => Ok ct | None => Panic end) in
    let* v := zero_val true ct in
    set_cell ci (Z.of_nat ri) v) s =
  (mkS (with_rows (upd (rows t) ri (zeros (next s) (firstn k (ctypes t)) ++ skipn k row)) t)
       (s_base s) (s_news s ++ repeat true (ntab (firstn k (ctypes t)))), Ok tt).
Proof.
  intros t Hl Hty Hrow Hrl k. induction k as [|k IH]; intros Hk.
  - simpl. unfold ret. f_equal. rewrite app_nil_r. rewrite upd_same by auto.
    unfold with_rows. fold t. rewrite table_eta. symmetry; apply st_eta.
  - rewrite zseq_S, mfor_app. unfold bind at 1. rewrite IH by lia. clear IH.
    cbn [mfor]. destruct (nth_error_lt (ctypes t) k) as [ct Hct]; [lia|].
    assert (Hin : In ct all_types) by (eapply Forall_nth_error in Hty; eauto).
    destruct (nth_error_lt row k) as [old Hold]; [lia|].
    unfold bind at 1 2 3. unfold reads. cbn [s_tab with_rows ctypes].
    fold t. rewrite znth_of_nat, Hct.
    assert (Hset : forall v s', s_tab s' = with_rows (upd (rows t) ri (zeros (next s) (firstn k (ctypes t)) ++ skipn k row)) t ->
       set_cell (Z.of_nat k) (Z.of_nat ri) v s' =
       (on_tab (with_rows (upd (rows t) ri (zeros (next s) (firstn k (ctypes t)) ++ v :: skipn (S k) row))) s', Ok tt)).
    { intros v s' Es. unfold set_cell. rewrite Es. cbn [rows with_rows].
      assert (Hri : ri < List.length (rows t)) by (eapply nth_error_some_lt; eauto).
      rewrite upd_length, zidx_of_nat by auto. rewrite nth_error_upd_eq by auto.
      rewrite app_length, zeros_length, firstn_length, skipn_length.
      rewrite zidx_of_nat by lia. rewrite upd_upd. do 2 f_equal. f_equal. f_equal.
      rewrite (skipn_nth row k old) by auto.
      replace k with (List.length (zeros (next s) (firstn k (ctypes t)))) at 3
        by (rewrite zeros_length, firstn_length; lia).
      apply upd_app_mid. }
    rewrite (firstn_nth (ctypes t) k ct Hct).
    rewrite zeros_app, ntab_app.
    destruct (is_tab ct) eqn:Et.
    + apply is_tab_eq in Et; subst ct. rewrite zero_val_tab.
      rewrite Hset by reflexivity.
      unfold ret, on_tab, next. cbn [s_tab s_base s_news with_rows].
      f_equal. f_equal.
      * unfold with_rows; simpl. f_equal. rewrite <- app_assoc. f_equal. f_equal. simpl.
        f_equal. f_equal. f_equal. rewrite app_length, repeat_length. lia.
      * rewrite <- app_assoc. f_equal. rewrite <- repeat_snoc. f_equal. change (ntab ["*Table"]) with 1. lia.
    + rewrite zero_val_plain by auto. rewrite Hset by reflexivity.
      unfold ret, on_tab. cbn [s_tab s_base s_news with_rows].
      f_equal. f_equal.
      * unfold with_rows; simpl. f_equal. rewrite Et. rewrite <- app_assoc. reflexivity.
      * f_equal. f_equal. replace (ntab [ct]) with 0 by (unfold ntab; simpl; now rewrite Et). lia.
Qed.

Lemma SetRowCellsToZeroValue_eq s ri row :
  let t := s_tab s in
  is_nil t = false ->
  List.length (ctypes t) = List.length (cnames t) ->
  Forall (fun ct => In ct all_types) (ctypes t) ->
  nth_error (rows t) ri = Some row -> List.length row = List.length (cnames t) ->
  SetRowCellsToZeroValue (Z.of_nat ri) s =
  (mkS (with_rows (upd (rows t) ri (zeros (next s) (ctypes t))) t)
       (s_base s) (s_news s ++ repeat true (ntab (ctypes t))), Ok tt).
Proof.
  intros t Hn Hl Hty Hrow Hrl. unfold SetRowCellsToZeroValue.
  unfold bind, get, check. fold t. rewrite Hn. cbn [negb]. unfold ret.
  pose proof (zero_row_loop s ri row Hl Hty Hrow Hrl (List.length (cnames t)) (le_n _)) as L.
  unfold bind in L. fold t in L. rewrite L. rewrite <- Hl at 1 2 3. rewrite firstn_all, skipn_all2, app_nil_r by lia. reflexivity.
Qed.

(** AppendRow in closed form. *)
Definition row_added (s : st) : st :=
  mkS (with_rows (rows (s_tab s) ++ [zeros (next s) (ctypes (s_tab s))]) (s_tab s))
      (s_base s) (s_news s ++ repeat true (ntab (ctypes (s_tab s)))).

Lemma AppendRow_eq s : wf_table (s_tab s) ->
  AppendRow s = if is_nil (s_tab s) then (s, Err) else (row_added s, Ok tt).
Proof.
  intros W. unfold AppendRow. unfold bind, get, check, modify. destruct (is_nil (s_tab s)) eqn:En; [reflexivity|].
  cbn [negb]. unfold ret. set (t := s_tab s) in *.
  set (s' := on_tab _ s).
  assert (Hr : (RowCount (s_tab s') - 1)%Z = Z.of_nat (List.length (rows t))).
  { unfold RowCount, s'. cbn [on_tab s_tab with_rows rows]. rewrite app_length. fold t. cbn [List.length]. lia. }
  rewrite Hr.
  pose proof (SetRowCellsToZeroValue_eq s' (List.length (rows t)) (repeat VNil (List.length (cnames t)))) as L.
  simpl in L. rewrite L; clear L.
  - unfold row_added. f_equal. f_equal. unfold with_rows; simpl. f_equal.
    rewrite upd_app_mid. reflexivity.
  - auto.
  - apply (wf_types_len _ W).
  - apply (wf_types _ W).
  - fold t. rewrite nth_error_app2 by lia. now rewrite Nat.sub_diag.
  - apply repeat_length.
Qed.

Lemma row_added_wf s : wf_table (s_tab s) -> is_nil (s_tab s) = false -> wf_table (s_tab (row_added s)).
Proof.
  intros [Wn Wd Wc Wl Wt Wm Wr] Hn. constructor; simpl; auto.
  - destruct Wn as [?|[? ?]]; [left; auto|congruence].
  - apply Forall_app; split; auto. constructor; auto. apply zeros_cells; auto.
Qed.

(** AppendRows in closed form: rows are added one by one, each with fresh NilTables. *)
Fixpoint zero_rows (p : nat) (cts : list string) (n : nat) : list (list value) :=
  match n with O => [] | S k => zeros p cts :: zero_rows (p + ntab cts) cts k end.

Definition rows_added (n : nat) (s : st) : st :=
  mkS (with_rows (rows (s_tab s) ++ zero_rows (next s) (ctypes (s_tab s)) n) (s_tab s))
      (s_base s) (s_news s ++ repeat true (n * ntab (ctypes (s_tab s)))).

Lemma AppendRow_loop l : forall s, wf_table (s_tab s) -> is_nil (s_tab s) = false ->
  mfor l (fun _ : nat => AppendRow) s = (rows_added (List.length l) s, Ok tt).
Proof.
  induction l as [|x l IH]; intros s W Hn; simpl.
  - unfold ret, rows_added. simpl. rewrite !app_nil_r. unfold with_rows. rewrite table_eta, st_eta. reflexivity.
  - unfold bind. rewrite AppendRow_eq, Hn by auto.
    rewrite IH; [|apply row_added_wf; auto|auto].
    f_equal. unfold rows_added, row_added. simpl. f_equal.
    + unfold with_rows; simpl. f_equal. rewrite <- app_assoc. simpl. do 3 f_equal.
      unfold next. simpl. rewrite app_length, repeat_length. lia.
    + rewrite <- app_assoc. f_equal. rewrite <- repeat_app. reflexivity.
Qed.

Lemma rows_added_wf n s : wf_table (s_tab s) -> is_nil (s_tab s) = false -> wf_table (s_tab (rows_added n s)).
Proof.
  intros [Wn Wd Wc Wl Wt Wm Wr] Hn. constructor; simpl; auto.
  - destruct Wn as [?|[? ?]]; [left; auto|congruence].
  - apply Forall_app; split; auto. generalize (next s). induction n as [|n IH]; intros p; simpl; constructor; auto.
    apply zeros_cells; auto.
Qed.

Lemma AppendRows_eq n s : wf_table (s_tab s) ->
  AppendRows n s = if is_nil (s_tab s) then (s, Err) else if (n <? 0)%Z then (s, Err)
                   else (rows_added (Z.to_nat n) s, Ok tt).
Proof.
  intros W. unfold AppendRows, bind, get, check. destruct (is_nil (s_tab s)) eqn:En; [reflexivity|].
  cbn [negb]. unfold ret, fail. destruct (n <? 0)%Z; [reflexivity|]. cbn [negb].
  rewrite AppendRow_loop by auto. now rewrite seq_length.
Qed.

(** ---------- zero a column ---------- *)

Definition zcol (ct : string) (p r : nat) : value := if is_tab ct then VTable (Some (p + r)) else zplain ct.

Fixpoint mapi {A B} (f : nat -> A -> B) (i : nat) (l : list A) : list B :=
  match l with [] => [] | x :: r => f i x :: mapi f (S i) r end.

Lemma mapi_length {A B} (f : nat -> A -> B) i l : List.length (mapi f i l) = List.length l.
Proof. revert i; induction l; intros i; simpl; auto. Qed.
Lemma nth_error_mapi {A B} (f : nat -> A -> B) i l j :
  nth_error (mapi f i l) j = option_map (f (i + j)) (nth_error l j).
Proof.
  revert i j; induction l as [|x l IH]; intros i [|j]; simpl; auto.
  - now rewrite Nat.add_0_r.
  - rewrite IH. now rewrite Nat.add_succ_comm.
Qed.
Lemma mapi_app {A B} (f : nat -> A -> B) i l1 l2 : mapi f i (l1 ++ l2) = mapi f i l1 ++ mapi f (i + List.length l1) l2.
Proof. revert i; induction l1 as [|x l IH]; intros i; simpl; [now rewrite Nat.add_0_r|]. rewrite IH. f_equal. f_equal. f_equal. lia. Qed.

Lemma zero_col_loop s ci ct :
  let t := s_tab s in
  nth_error (ctypes t) ci = Some ct -> In ct all_types ->
  Forall (fun row => ci < List.length row) (rows t) ->
  forall k, k <= List.length (rows t) ->
  mfor (zseq k) (fun ri => SetCellToZeroValueByColIndex (Z.of_nat ci) ri) s =
  (mkS (with_rows (mapi (fun r row => upd row ci (zcol ct (next s) r)) 0 (firstn k (rows t)) ++ skipn k (rows t)) t)
       (s_base s) (s_news s ++ repeat false (if is_tab ct then k else 0)), Ok tt).
Proof.
  intros t Hct Hin Hrl k. induction k as [|k IH]; intros Hk.
  - simpl. unfold ret. f_equal. replace (if is_tab ct then 0 else 0) with 0 by (destruct (is_tab ct); auto).
    simpl. rewrite app_nil_r. unfold with_rows. fold t. rewrite table_eta. symmetry; apply st_eta.
  - rewrite zseq_S, mfor_app. unfold bind at 1. rewrite IH by lia. clear IH.
    cbn [mfor]. destruct (nth_error_lt (rows t) k) as [row Hrow]; [lia|].
    assert (Hci : ci < List.length row) by (eapply Forall_nth_error in Hrl; eauto; auto).
    unfold SetCellToZeroValueByColIndex.
    unfold bind at 1 2 3. unfold reads. cbn [s_tab with_rows ctypes].
    fold t. rewrite znth_of_nat, Hct.
    set (done := mapi (fun r row => upd row ci (zcol ct (next s) r)) 0 (firstn k (rows t))).
    assert (Hdl : List.length done = k) by (unfold done; rewrite mapi_length, firstn_length; lia).
    assert (Hset : forall v s', s_tab s' = with_rows (done ++ skipn k (rows t)) t ->
       set_cell (Z.of_nat ci) (Z.of_nat k) v s' =
       (on_tab (with_rows (done ++ upd row ci v :: skipn (S k) (rows t))) s', Ok tt)).
    { intros v s' Es. unfold set_cell. rewrite Es. cbn [rows with_rows].
      rewrite app_length, skipn_length, Hdl. rewrite zidx_of_nat by lia.
      rewrite nth_error_app2 by lia. rewrite Hdl, Nat.sub_diag. rewrite (skipn_nth (rows t) k row) by auto. simpl nth_error.
      cbv iota. rewrite zidx_of_nat by auto. do 4 f_equal.
      replace (upd (done ++ row :: skipn (S k) (rows t)) k) with (upd (done ++ row :: skipn (S k) (rows t)) (List.length done)) by now rewrite Hdl.
      apply upd_app_mid. }
    rewrite (firstn_nth (rows t) k row Hrow). rewrite mapi_app. fold done.
    rewrite firstn_length. replace (0 + Nat.min k (List.length (rows t))) with k by lia. simpl mapi.
    destruct (is_tab ct) eqn:Et.
    + pose proof Et as Et'. apply is_tab_eq in Et'; subst ct. rewrite zero_val_tab.
      rewrite Hset by reflexivity.
      unfold ret, on_tab, next. cbn [s_tab s_base s_news with_rows].
      f_equal. f_equal.
      * unfold with_rows; simpl. f_equal. rewrite <- app_assoc. f_equal. simpl. f_equal. unfold zcol. rewrite Et. f_equal.
        f_equal. f_equal. unfold next. rewrite app_length, repeat_length. lia.
      * rewrite <- app_assoc. f_equal. rewrite <- repeat_snoc. reflexivity.
    + rewrite zero_val_plain by auto. rewrite Hset by reflexivity.
      unfold ret, on_tab. cbn [s_tab s_base s_news with_rows].
      f_equal. f_equal.
      * unfold with_rows; simpl. f_equal. rewrite <- app_assoc. f_equal. simpl. unfold zcol. rewrite Et. reflexivity.
Qed.

Definition zero_col (s : st) (ci : nat) (ct : string) : list (list value) :=
  mapi (fun r row => upd row ci (zcol ct (next s) r)) 0 (rows (s_tab s)).

Lemma SetColCellsToZeroValueByColIndex_eq s ci ct :
  let t := s_tab s in
  nth_error (ctypes t) ci = Some ct -> In ct all_types ->
  Forall (fun row => ci < List.length row) (rows t) ->
  SetColCellsToZeroValueByColIndex (Z.of_nat ci) s =
  (mkS (with_rows (zero_col s ci ct) t)
       (s_base s) (s_news s ++ repeat false (if is_tab ct then List.length (rows t) else 0)), Ok tt).
Proof.
  intros t Hct Hin Hrl. unfold SetColCellsToZeroValueByColIndex, bind, get. subst t.
  rewrite (zero_col_loop s ci ct Hct Hin Hrl _ (le_n _)). rewrite firstn_all, skipn_all, app_nil_r. reflexivity.
Qed.

(** ---------- AppendCol ---------- *)

Definition col_added (cn ct : string) (s : st) : st :=
  let t := s_tab s in
  mkS (mkT (tname t) (cnames t ++ [cn]) (ctypes t ++ [ct]) (mset (cmap t) cn (List.length (cnames t)))
           (mapi (fun r row => row ++ [zcol ct (next s) r]) 0 (rows t))
           (skeys t) (struct_shape t) (is_nil t) (parent t))
      (s_base s) (s_news s ++ repeat false (if is_tab ct then List.length (rows t) else 0)).

Definition can_append_col (t : table) (cn ct : string) : bool :=
  negb (is_nil t) && IsValidColName cn && IsValidColType ct &&
  match mget (cmap t) cn with Some _ => false | None => true end.

Lemma mapi_map {A B C} (f : nat -> B -> C) (g : A -> B) i l : mapi f i (map g l) = mapi (fun i x => f i (g x)) i l.
Proof. revert i; induction l as [|x l IH]; intros i; simpl; auto. now rewrite IH. Qed.
Lemma mapi_ext_in {A B} (f g : nat -> A -> B) i l : (forall j x, In x l -> f j x = g j x) -> mapi f i l = mapi g i l.
Proof. revert i; induction l as [|x l IH]; intros i H; simpl; auto. f_equal; [apply H; simpl; auto|apply IH; intros; apply H; simpl; auto]. Qed.

Lemma AppendCol_eq cn ct s : wf_table (s_tab s) ->
  AppendCol cn ct s = if can_append_col (s_tab s) cn ct then (col_added cn ct s, Ok tt) else (s, Err).
Proof.
  intros W. unfold AppendCol, can_append_col. unfold bind, get, check, modify. set (t := s_tab s) in *.
  destruct (is_nil t) eqn:En; [reflexivity|]. cbn [negb andb]. unfold ret, fail.
  destruct (IsValidColName cn); [|reflexivity]. cbn [negb andb].
  destruct (IsValidColType ct) eqn:Ect; [|reflexivity]. cbn [negb andb].
  destruct (mget (cmap t) cn) eqn:Em; [reflexivity|].
  unfold SetColCellsToZeroValue, bind, reads, ColIndex.
  match goal with |- context[SetColCellsToZeroValueByColIndex _ ?x] => set (s' := x) end.
  assert (Es : s' = mkS (mkT (tname t) (cnames t ++ [cn]) (ctypes t ++ [ct]) (mset (cmap t) cn (List.length (cnames t)))
     (map (fun row => row ++ [VNil]) (rows t)) (skeys t) (struct_shape t) (is_nil t) (parent t)) (s_base s) (s_news s)).
  { unfold s', on_tab, with_rows, with_cols. cbn [s_tab s_base s_news tname cnames ctypes cmap rows skeys struct_shape is_nil parent].
    rewrite app_length. cbn [List.length]. fold t.
    replace (List.length (cnames t) + 1 - 1) with (List.length (cnames t)) by lia. reflexivity. }
  clearbody s'. subst s'. cbn [s_tab cmap].
  rewrite mget_mset, String.eqb_refl.
  rewrite (SetColCellsToZeroValueByColIndex_eq _ (List.length (cnames t)) ct);
    cbn [s_tab s_base s_news rows ctypes].
  - unfold col_added. fold t. f_equal. f_equal.
    + unfold with_rows, with_cols. simpl. f_equal.
      * unfold zero_col. simpl. fold t. rewrite mapi_map. apply mapi_ext_in. intros j row Hrow.
        apply In_nth_error in Hrow. destruct Hrow as [r Hr]. apply (wf_row_len _ W) in Hr.
        rewrite <- Hr. rewrite upd_app_mid. reflexivity.
    + rewrite map_length. reflexivity.
  - pose proof (wf_types_len _ W) as E. rewrite nth_error_app2 by lia. rewrite E, Nat.sub_diag. reflexivity.
  - now apply IsValidColType_spec.
  - rewrite Forall_map. apply Forall_forall. intros row Hrow.
    apply In_nth_error in Hrow. destruct Hrow as [r Hr]. apply (wf_row_len _ W) in Hr.
    rewrite app_length. simpl. lia.
Qed.

Lemma zcol_ok ct p r : In ct all_types -> cell_ok ct (zcol ct p r).
Proof.
  intros H. unfold zcol. destruct (is_tab ct) eqn:E; [|apply zplain_cell_ok; auto].
  apply is_tab_eq in E; subst. split; simpl; auto.
Qed.

Lemma Forall_mapi {A B} (P : B -> Prop) (f : nat -> A -> B) i l :
  (forall j x, In x l -> P (f j x)) -> Forall P (mapi f i l).
Proof. revert i; induction l as [|x l IH]; intros i H; simpl; constructor; [apply H; simpl; auto|apply IH; intros; apply H; simpl; auto]. Qed.

Lemma NoDup_snoc {A} (l : list A) x : NoDup l -> ~ In x l -> NoDup (l ++ [x]).
Proof.
  intros H Hx. induction H as [|y l Hy H IH]; simpl.
  - constructor; auto. constructor.
  - constructor.
    + rewrite in_app_iff. simpl. intuition subst. apply Hx; left; auto.
    + apply IH. intros C; apply Hx; right; auto.
Qed.

Lemma col_added_wf cn ct s : wf_table (s_tab s) -> can_append_col (s_tab s) cn ct = true ->
  wf_table (s_tab (col_added cn ct s)).
Proof.
  intros W H. unfold can_append_col in H. repeat rewrite andb_true_iff in H. destruct H as [[[H1 H2] H3] H4].
  apply IsValidColName_spec in H2. apply IsValidColType_spec in H3.
  assert (Hnew : ~ In cn (cnames (s_tab s))).
  { apply (wf_mget_none _ W). destruct (mget _ _); congruence. }
  destruct W as [Wn Wd Wc Wl Wt Wm Wr]. constructor; simpl.
  - destruct Wn as [?|[E ?]]; [left; auto|]. rewrite E in H1; discriminate.
  - apply NoDup_snoc; auto.
  - apply Forall_app; split; auto.
  - rewrite !app_length; simpl; lia.
  - apply Forall_app; split; auto.
  - intros n i. rewrite mget_mset. destruct (String.eqb_spec n cn) as [->|Hne].
    + split.
      * intros [= <-]. rewrite nth_error_app2 by lia. now rewrite Nat.sub_diag.
      * intros E. destruct (Nat.lt_ge_cases i (List.length (cnames (s_tab s)))) as [Hlt|Hge].
        -- rewrite nth_error_app1 in E by lia. exfalso; apply Hnew; eapply nth_error_In; eauto.
        -- apply nth_error_some_lt in E. rewrite app_length in E; simpl in E. f_equal; lia.
    + rewrite Wm. split; intros E.
      * rewrite nth_error_app1; auto. eapply nth_error_some_lt; eauto.
      * destruct (Nat.lt_ge_cases i (List.length (cnames (s_tab s)))) as [Hlt|Hge].
        -- rewrite nth_error_app1 in E by lia. auto.
        -- rewrite nth_error_app2 in E by lia. destruct (i - _) as [|d]; simpl in E; [congruence|destruct d; discriminate].
  - apply Forall_mapi. intros j row Hrow. apply Forall2_app.
    + rewrite Forall_forall in Wr. auto.
    + constructor; auto. apply zcol_ok; auto.
Qed.
